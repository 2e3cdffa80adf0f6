(** * Model of bag_generator.py. *)

From Coq Require Import Reals List ZArith Bool.
From Verif Require Import Num.
Import ListNotations.
Open Scope R_scope.

(** ** Random numbers.  A generator (numpy RandomState) is any object with these operations; [G] are its
    internal states.  What is assumed of it is [rng_ok] in Spec_Bags. *)
Record rng (G : Type) := {
  r_seed : Z -> G;                                   (* np.random.RandomState(seed) *)
  r_randint : Z -> Z -> nat -> G -> list Z * G;      (* randint(low, high, size) for low < high *)
  r_choice : list nat -> nat -> G -> list nat * G;   (* choice(a, size, replace=True) for non-empty a *)
  r_choice_p : list R -> nat -> G -> list nat * G;   (* choice(range(len(p)), size, p=p) *)
  r_dirichlet : list R -> nat -> G -> list (list R) * G (* dirichlet(alphas, size), one row per bag *)
}.
Arguments r_seed {G}. Arguments r_randint {G}. Arguments r_choice {G}.
Arguments r_choice_p {G}. Arguments r_dirichlet {G}.

(** [round] and [np.round]: to the nearest integer, ties to even. *)
Definition round_even (x : R) : Z :=
  let z := Int_part (x + 1 / 2) in
  if Req_EM_T (IZR z) (x + 1 / 2) then (if Z.even z then z else z - 1)%Z else z.
(** [int(x)] for x >= 0. *)
Definition trunc (x : R) : Z := Int_part x.

(** [np.sort] of integers. *)
Fixpoint zinsert_sorted (x : Z) (l : list Z) : list Z :=
  match l with
  | [] => [x]
  | h :: t => if (x <=? h)%Z then x :: h :: t else h :: zinsert_sorted x t
  end.
Definition zsort (l : list Z) : list Z := fold_right zinsert_sorted [] l.

(** [np.diff]. *)
Fixpoint zdiff (l : list Z) : list Z :=
  match l with
  | a :: t => match t with b :: _ => (b - a)%Z :: zdiff t | [] => [] end
  | [] => []
  end.

(** [l[1:-1]]. *)
Definition middle {A : Type} (l : list A) : list A := removelast (tl l).

(** [np.where(y == c)[0]]. *)
Definition positions (c : Z) (y : list Z) : list nat :=
  map fst (filter (fun p => Z.eqb (snd p) c) (combine (seq 0 (length y)) y)).

(** [column[p : p + len(chunk)] = chunk]. *)
Definition write (p : nat) (chunk column : list nat) : list nat :=
  firstn p column ++ chunk ++ skipn (p + length chunk) column.

(** A bag: a column of prevalences_ and a column of indexes_. *)
Definition bag := (list R * list nat)%type.

(** ** PriorShift_BagGenerator *)

Inductive min_prevalence := MPNone | MPScalar (v : R) | MPVector (v : list R).

(** bag_generator.py:184-194. *)
Definition check_min_prevalence (mp : min_prevalence) : out unit :=
  match mp with
  | MPNone => Val tt
  | MPScalar v => if Rlt_dec 1 v then Err ValueError else if Rlt_dec v 0 then Err ValueError else Val tt
  | MPVector v => if Rlt_dec 1 (rsum v) then Err ValueError
                  else if existsb (fun x => if Rlt_dec x 0 then true else false) v then Err ValueError
                  else Val tt
  end.

(** bag_generator.py:207-232: (min_nexamples, low, high).  A vector is assumed to have one entry
    per class; numpy's broadcasting of other lengths is not modelled. *)
Definition limits (mp : min_prevalence) (bag_size n_classes : nat) : option (list Z) * Z * Z :=
  let bs := INR bag_size in
  match mp with
  | MPNone => (None, 0%Z, Z.of_nat bag_size)
  | MPScalar v =>
      if Nat.eqb n_classes 2 then (None, round_even (bs * v), trunc (bs * (1 - v)))
      else let mins := repeat (round_even (1 * v * bs)) n_classes in
           (Some mins, hd 0%Z mins, (Z.of_nat bag_size - last mins 0)%Z)
  | MPVector v =>
      if Nat.eqb n_classes 2 then (None, round_even (bs * nth 0 v 0), trunc (bs * (1 - nth 1 v 0)))
      else let mins := map (fun x => round_even (x * bs)) v in
           (Some mins, hd 0%Z mins, (Z.of_nat bag_size - last mins 0)%Z)
  end.

(** bag_generator.py:245. *)
Definition accepted (mins : option (list Z)) (ps : list Z) : bool :=
  match mins with
  | None => true
  | Some m => forallb (fun p => Z.leb (snd p) (fst p)) (combine (middle ps) (middle m))
  end.

(** bag_generator.py:247-252 (and 307-310): draw the examples of the classes one after the other. *)
Fixpoint fill {G : Type} (RG : rng G) (y : list Z) (counts : list (Z * Z)) (position : nat)
    (column : list nat) (g : G) : list nat * G :=
  match counts with
  | [] => (column, g)
  | (cls, n) :: t =>
      if Z.eqb n 0 then fill RG y t position column g
      else let '(idx, g') := r_choice RG (positions cls y) (Z.to_nat n) g in
           fill RG y t (position + length idx) (write position idx column) g'
  end.

(** bag_generator.py:237-254: the loop.  [left] bags remain; [fuel] bounds the number of draws, [None] means that
    the loop is still running after that many draws.  randint raises ValueError unless low < high. *)
Fixpoint uniform_loop {G : Type} (RG : rng G) (y classes : list Z) (bag_size : nat)
    (mins : option (list Z)) (low high : Z) (fuel left : nat) (g : G) : option (out (list bag) * G) :=
  match left with
  | O => Some (Val [], g)
  | S left' =>
      match fuel with
      | O => None
      | S fuel' =>
          if (low <? high)%Z then
            let '(draw, g1) := r_randint RG low high (length classes - 1) g in
            let ps := zdiff (zsort (draw ++ [0%Z; Z.of_nat bag_size])) in
            if accepted mins ps then
              let prevalences := map (fun n => IZR n / INR bag_size) ps in
              let '(idx, g2) := fill RG y (combine classes ps) 0 (repeat O bag_size) g1 in
              match uniform_loop RG y classes bag_size mins low high fuel' left' g2 with
              | Some (Val rest, g3) => Some (Val ((prevalences, idx) :: rest), g3)
              | o => o
              end
            else uniform_loop RG y classes bag_size mins low high fuel' left g1
          else Some (Err ValueError, g)
      end
  end.

(** bag_generator.py:183-255 _generate_uniform.  X (and check_X_y, which only validates) is not modelled. *)
Definition generate_uniform {G : Type} (RG : rng G) (y : list Z) (n_bags bag_size : nat)
    (mp : min_prevalence) (fuel : nat) (g : G) : option (out (list bag) * G) :=
  match check_min_prevalence mp with
  | Err e => Some (Err e, g)
  | NotANumber => Some (NotANumber, g)
  | Val _ =>
      let classes := np_unique y in
      let '(mins, low, high) := limits mp bag_size (length classes) in
      uniform_loop RG y classes bag_size mins low high fuel n_bags g
  end.

(** bag_generator.py:296-310: one bag of _generate_dirichlet; [k] classes remain after this one. *)
Fixpoint dirichlet_counts (prevalences : list R) (bag_size position : nat) : list Z :=
  match prevalences with
  | [] => []
  | [_] => [(Z.of_nat bag_size - Z.of_nat position)%Z]
  | p :: t =>
      let n := Z.min (Z.of_nat bag_size - Z.of_nat position) (round_even (p * INR bag_size)) in
      n :: dirichlet_counts t bag_size (position + Z.to_nat n)
  end.

Inductive alphas := ANone | AScalar (a : R) | AVector (a : list R).

(** bag_generator.py:283-292; dirichlet(None) raises TypeError, a non-positive alpha ValueError. *)
Definition effective_alphas (a : alphas) (n_classes : nat) : out (list R) :=
  let positive := fun l => if existsb (fun x => if Rle_dec x 0 then true else false) l
                           then Err ValueError else Val l in
  match a with
  | ANone => Err TypeError
  | AScalar v => positive (repeat (1 * v) n_classes)
  | AVector v => if Nat.eqb (length v) n_classes then positive v else Err ValueError
  end.

Fixpoint dirichlet_bags {G : Type} (RG : rng G) (y classes : list Z) (bag_size : nat) (rows : list (list R)) (g : G)
    : list bag * G :=
  match rows with
  | [] => ([], g)
  | p :: t =>
      let ns := dirichlet_counts p bag_size 0 in
      let '(idx, g1) := fill RG y (combine classes ns) 0 (repeat O bag_size) g in
      let '(rest, g2) := dirichlet_bags RG y classes bag_size t g1 in
      ((map (fun n => IZR n / INR bag_size) ns, idx) :: rest, g2)
  end.

(** bag_generator.py:276-312 _generate_dirichlet.  [global] is numpy's global generator, which line 292 uses
    instead of random_state. *)
Definition generate_dirichlet {G : Type} (RG : rng G) (y : list Z) (n_bags bag_size : nat) (a : alphas)
    (global g : G) : out (list bag) * G * G :=
  let classes := np_unique y in
  match effective_alphas a (length classes) with
  | Err e => (Err e, global, g)
  | NotANumber => (NotANumber, global, g)
  | Val al =>
      let '(rows, global') := r_dirichlet RG al n_bags global in
      let '(bags, g') := dirichlet_bags RG y classes bag_size rows g in
      (Val bags, global', g')
  end.

Inductive bag_method := Uniform | Dirichlet | OtherMethod.
Inductive random_state (G : Type) := Seed (s : Z) | State (g : G) | NotAGenerator.
Arguments Seed {G}. Arguments State {G}. Arguments NotAGenerator {G}.

(** bag_generator.py:93-105: the object.  [ps_bags] is (prevalences_, indexes_). *)
Record prior_shift (G : Type) := {
  ps_n_bags : nat; ps_bag_size : option nat; ps_method : bag_method; ps_alphas : alphas;
  ps_min : min_prevalence; ps_random : random_state G; ps_bags : option (list bag)
}.
Arguments ps_n_bags {G}. Arguments ps_bag_size {G}. Arguments ps_method {G}. Arguments ps_alphas {G}.
Arguments ps_min {G}. Arguments ps_random {G}. Arguments ps_bags {G}.

(** bag_generator.py:140-143 (and 400-403). *)
Definition get_random {G : Type} (RG : rng G) (rs : random_state G) : option G :=
  match rs with
  | Seed s => Some (r_seed RG s)
  | State g => Some g
  | NotAGenerator => None
  end.

(** Bags of zeros: what lines 234-235 store before the loop fills them. *)
Definition zero_bags (n_classes bag_size n_bags : nat) : list bag :=
  repeat (repeat 0 n_classes, repeat O bag_size) n_bags.

Definition ps_with {G : Type} (s : prior_shift G) (size : option nat) (rs : random_state G) (b : option (list bag))
  : prior_shift G :=
  {| ps_n_bags := ps_n_bags s; ps_bag_size := size; ps_method := ps_method s; ps_alphas := ps_alphas s;
     ps_min := ps_min s; ps_random := rs; ps_bags := b |}.

(** bag_generator.py:137-153 PriorShift_BagGenerator.generate_bags: result, new object, new global generator.
    If randint raises, prevalences_ and indexes_ have already been set to zeros (234-235).  [None]: still running.
    Not modelled: the conversion of min_prevalence and alphas to arrays stored in the object. *)
Definition PS_generate {G : Type} (RG : rng G) (fuel : nat) (s : prior_shift G) (y : list Z) (global : G)
  : option (out (list bag) * prior_shift G * G) :=
  match ps_bags s with
  | Some b => Some (Val b, s, global)
  | None =>
      match get_random RG (ps_random s) with
      | None => Some (Err ValueError, s, global)
      | Some g =>
          let size := match ps_bag_size s with Some n => n | None => length y end in
          match ps_method s with
          | Uniform =>
              match generate_uniform RG y (ps_n_bags s) size (ps_min s) fuel g with
              | None => None
              | Some (Val b, g') => Some (Val b, ps_with s (Some size) (State g') (Some b), global)
              | Some (o, g') =>
                  let stored := match check_min_prevalence (ps_min s) with
                                | Val _ => Some (zero_bags (length (np_unique y)) size (ps_n_bags s))
                                | _ => None
                                end in
                  Some (o, ps_with s (Some size) (State g') stored, global)
              end
          | Dirichlet =>
              let '(o, global', g') := generate_dirichlet RG y (ps_n_bags s) size (ps_alphas s) global g in
              Some (o, ps_with s (Some size) (State g') (match o with Val b => Some b | _ => None end), global')
          | OtherMethod => Some (Err ValueError, ps_with s (Some size) (State g) None, global)
          end
      end
  end.

(** ** CovariateShift_BagGenerator *)

(** sklearn rbf_kernel with its default gamma = 1/n_features: similarity of [c] and [x]. *)
Definition rbf (c x : list R) : R :=
  exp (- (1 / INR (length c)) * rsum (vmap2 (fun a b => (a - b) ^ 2) c x)).

(** bag_generator.py:419-421: sampling probabilities for the centre [c]. *)
Definition similarity_probs (X : list (list R)) (c : list R) : list R :=
  let sim := map (rbf c) X in vdiv sim (rsum sim).

(** bag_generator.py:424-425. *)
Definition bag_prevalences (classes y : list Z) (bag_size : nat) (idx : list nat) : list R :=
  map (fun c => INR (zcount c (map (fun i => nth i y 0%Z) idx)) / INR bag_size) classes.

Fixpoint covariate_bags {G : Type} (RG : rng G) (X : list (list R)) (y classes : list Z) (bag_size : nat)
    (centers : list Z) (g : G) : list bag * G :=
  match centers with
  | [] => ([], g)
  | c :: t =>
      let '(idx, g1) := r_choice_p RG (similarity_probs X (nth (Z.to_nat c) X [])) bag_size g in
      let '(rest, g2) := covariate_bags RG X y classes bag_size t g1 in
      ((bag_prevalences classes y bag_size idx, idx) :: rest, g2)
  end.

Record covariate_shift (G : Type) := {
  cs_n_bags : nat; cs_bag_size : option nat; cs_random : random_state G; cs_bags : option (list bag)
}.
Arguments cs_n_bags {G}. Arguments cs_bag_size {G}. Arguments cs_random {G}. Arguments cs_bags {G}.

(** bag_generator.py:397-427 CovariateShift_BagGenerator.generate_bags.  check_X_y raises ValueError when the
    lengths differ or there is no example; its other checks are not modelled.  bag_size 0 gives 0/0 (prevalences NaN). *)
Definition CS_generate {G : Type} (RG : rng G) (s : covariate_shift G) (X : list (list R)) (y : list Z)
  : out (list bag) * covariate_shift G :=
  match cs_bags s with
  | Some b => (Val b, s)
  | None =>
      match get_random RG (cs_random s) with
      | None => (Err ValueError, s)
      | Some g =>
          if Nat.eqb (length X) (length y) && negb (Nat.eqb (length X) 0) then
            let size := match cs_bag_size s with Some n => n | None => length X end in
            let '(centers, g1) := r_randint RG 0 (Z.of_nat (length X)) (cs_n_bags s) g in
            let '(bags, g2) := covariate_bags RG X y (np_unique y) size centers g1 in
            (Val bags, {| cs_n_bags := cs_n_bags s; cs_bag_size := Some size; cs_random := State g2;
                          cs_bags := Some bags |})
          else (Err ValueError, {| cs_n_bags := cs_n_bags s; cs_bag_size := cs_bag_size s; cs_random := State g;
                                   cs_bags := None |})
      end
  end.

(** ** PriorAndCovariateShift_BagGenerator *)

Record mixed_shift (G : Type) := {
  ms_n_bags : nat; ms_bag_size : option nat; ms_method : bag_method; ms_alphas : alphas;
  ms_min : min_prevalence; ms_random : random_state G; ms_bags : option (list bag)
}.
Arguments ms_n_bags {G}. Arguments ms_bag_size {G}. Arguments ms_method {G}. Arguments ms_alphas {G}.
Arguments ms_min {G}. Arguments ms_random {G}. Arguments ms_bags {G}.

Definition ms_with {G : Type} (s : mixed_shift G) (rs : random_state G) (b : option (list bag)) : mixed_shift G :=
  {| ms_n_bags := ms_n_bags s; ms_bag_size := ms_bag_size s; ms_method := ms_method s; ms_alphas := ms_alphas s;
     ms_min := ms_min s; ms_random := rs; ms_bags := b |}.

(** bag_generator.py:531-552 PriorAndCovariateShift_BagGenerator.generate_bags.  np.zeros((None, n)) raises
    TypeError (547).  A RandomState object is shared by both generators, a seed is used twice.  When one of them
    raises, the arrays of zeros (546-547), partly overwritten, stay in the object. *)
Definition MS_generate {G : Type} (RG : rng G) (fuel : nat) (s : mixed_shift G) (X : list (list R)) (y : list Z) (global : G)
  : option (out (list bag) * mixed_shift G * G) :=
  match ms_bags s with
  | Some b => Some (Val b, s, global)
  | None =>
      match ms_bag_size s with
      | None => Some (Err TypeError, s, global)
      | Some size =>
          let n_prior := (ms_n_bags s / 2)%nat in
          let n_cov := (ms_n_bags s - n_prior)%nat in
          let zeros := zero_bags (length (np_unique y)) size in
          let prior := {| ps_n_bags := n_prior; ps_bag_size := ms_bag_size s; ps_method := ms_method s;
                          ps_alphas := ms_alphas s; ps_min := ms_min s; ps_random := ms_random s; ps_bags := None |} in
          match PS_generate RG fuel prior y global with
          | None => None
          | Some (Val b1, prior', global') =>
              let rs := match ms_random s with Seed z => Seed z | _ => ps_random prior' end in
              let covariate := {| cs_n_bags := n_cov; cs_bag_size := ms_bag_size s; cs_random := rs; cs_bags := None |} in
              match CS_generate RG covariate X y with
              | (Val b2, cov') =>
                  let rs' := match ms_random s with Seed z => Seed z | _ => cs_random cov' end in
                  Some (Val (b1 ++ b2), ms_with s rs' (Some (b1 ++ b2)), global')
              | (o, cov') =>
                  let rs' := match ms_random s with Seed z => Seed z | _ => cs_random cov' end in
                  Some (o, ms_with s rs' (Some (b1 ++ zeros n_cov)), global')
              end
          | Some (o, prior', global') =>
              let rs := match ms_random s with Seed z => Seed z | _ => ps_random prior' end in
              Some (o, ms_with s rs (Some (zeros (ms_n_bags s))), global')
          end
      end
  end.
