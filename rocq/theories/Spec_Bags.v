(** * Specification vocabulary for the bag generators. *)

From Coq Require Import Reals List ZArith.
From Verif Require Import Num Spec M_Bags.
Import ListNotations.
Open Scope R_scope.

(** What numpy's generator guarantees. *)
Record rng_ok {G : Type} (RG : rng G) : Prop := {
  ok_randint : forall low high k g, (low < high)%Z ->
    length (fst (r_randint RG low high k g)) = k /\
    Forall (fun v => (low <= v < high)%Z) (fst (r_randint RG low high k g));
  ok_choice : forall a k g, a <> [] ->
    length (fst (r_choice RG a k g)) = k /\ Forall (fun i => In i a) (fst (r_choice RG a k g));
  ok_choice_p : forall p k g, distribution p ->
    length (fst (r_choice_p RG p k g)) = k /\
    Forall (fun i => (i < length p)%nat /\ 0 < nth i p 0) (fst (r_choice_p RG p k g));
  ok_dirichlet : forall al k g, al <> [] -> Forall (fun x => 0 < x) al ->
    length (fst (r_dirichlet RG al k g)) = k /\ distributions (length al) (fst (r_dirichlet RG al k g))
}.

(** The labels of the examples of a bag. *)
Definition bag_labels (y : list Z) (idx : list nat) : list Z := map (fun i => nth i y 0%Z) idx.

(** A bag that is what it claims: [size] valid indexes, and the reported prevalence of
    every class is the fraction of the bag that has this label. *)
Definition honest_bag (y : list Z) (size : nat) (b : bag) : Prop :=
  length (snd b) = size /\ Forall (fun i => (i < length y)%nat) (snd b) /\
  length (fst b) = length (np_unique y) /\
  forall i, (i < length (np_unique y))%nat ->
    nth i (fst b) 0 = fraction (nth i (np_unique y) 0%Z) (bag_labels y (snd b)).

(** The minimum asked for class [i]. *)
Definition minimum_for (mp : min_prevalence) (i : nat) : R :=
  match mp with
  | MPNone => 0
  | MPScalar v => v
  | MPVector v => nth i v 0
  end.
Definition one_per_class (mp : min_prevalence) (n : nat) : Prop :=
  match mp with MPVector v => length v = n | _ => True end.

(** Examples of class [i] in a bag. *)
Definition class_size (y : list Z) (i : nat) (b : bag) : nat :=
  zcount (nth i (np_unique y) 0%Z) (bag_labels y (snd b)).

(** Histories of a generator object: calls of generate_bags with any labels, and assignments to its parameters. *)
Inductive ps_event (G : Type) :=
| PGenerate (fuel : nat) (y : list Z)
| PAssign (n_bags : nat) (bag_size : option nat) (method : bag_method) (al : alphas) (mp : min_prevalence)
          (rs : random_state G).
Arguments PGenerate {G}. Arguments PAssign {G}.

Fixpoint ps_history {G : Type} (RG : rng G) (evs : list (ps_event G)) (s : prior_shift G) (global : G)
  : option (prior_shift G * G) :=
  match evs with
  | [] => Some (s, global)
  | PGenerate fuel y :: t =>
      match PS_generate RG fuel s y global with
      | None => None
      | Some (_, s', global') => ps_history RG t s' global'
      end
  | PAssign n size m al mp rs :: t =>
      ps_history RG t {| ps_n_bags := n; ps_bag_size := size; ps_method := m; ps_alphas := al; ps_min := mp;
                         ps_random := rs; ps_bags := ps_bags s |} global
  end.

Inductive cs_event (G : Type) :=
| CGenerate (X : list (list R)) (y : list Z)
| CAssign (n_bags : nat) (bag_size : option nat) (rs : random_state G).
Arguments CGenerate {G}. Arguments CAssign {G}.

Fixpoint cs_history {G : Type} (RG : rng G) (evs : list (cs_event G)) (s : covariate_shift G) : covariate_shift G :=
  match evs with
  | [] => s
  | CGenerate X y :: t => cs_history RG t (snd (CS_generate RG s X y))
  | CAssign n size rs :: t =>
      cs_history RG t {| cs_n_bags := n; cs_bag_size := size; cs_random := rs; cs_bags := cs_bags s |}
  end.

Inductive ms_event (G : Type) :=
| MGenerate (fuel : nat) (X : list (list R)) (y : list Z)
| MAssign (n_bags : nat) (bag_size : option nat) (method : bag_method) (al : alphas) (mp : min_prevalence)
          (rs : random_state G).
Arguments MGenerate {G}. Arguments MAssign {G}.

Fixpoint ms_history {G : Type} (RG : rng G) (evs : list (ms_event G)) (s : mixed_shift G) (global : G)
  : option (mixed_shift G * G) :=
  match evs with
  | [] => Some (s, global)
  | MGenerate fuel X y :: t =>
      match MS_generate RG fuel s X y global with
      | None => None
      | Some (_, s', global') => ms_history RG t s' global'
      end
  | MAssign n size m al mp rs :: t =>
      ms_history RG t {| ms_n_bags := n; ms_bag_size := size; ms_method := m; ms_alphas := al; ms_min := mp;
                         ms_random := rs; ms_bags := ms_bags s |} global
  end.

(** Squared Euclidean distance. *)
Definition sq_distance (a b : list R) : R := rsum (map (fun i => (nth i a 0 - nth i b 0) ^ 2) (seq 0 (length a))).

(** The simplest generator: always the first admissible value.  It shows that [rng_ok] can be met. *)
Definition lowest_rng : rng unit := {|
  r_seed := fun _ => tt;
  r_randint := fun low _ k g => (repeat low k, g);
  r_choice := fun a k g => (repeat (hd O a) k, g);
  r_choice_p := fun p k g => (repeat (argmax p) k, g);
  r_dirichlet := fun al k g => (repeat (1 :: repeat 0 (length al - 1)) k, g)
|}.

(** A generator whose integer draws are multiples of [low], where admissible. *)
Definition multiples_rng : rng unit := {|
  r_seed := fun _ => tt;
  r_randint := fun low high k g =>
    (map (fun i => Z.max low (Z.min (high - 1) (low * Z.of_nat (S i)))%Z) (seq 0 k), g);
  r_choice := r_choice lowest_rng;
  r_choice_p := r_choice_p lowest_rng;
  r_dirichlet := r_dirichlet lowest_rng
|}.

(** A generator with two states, whose Dirichlet rows show the state. *)
Definition two_state_rng : rng bool := {|
  r_seed := fun _ => true;
  r_randint := fun low _ k g => (repeat low k, g);
  r_choice := fun a k g => (repeat (hd O a) k, g);
  r_choice_p := fun p k g => (repeat (argmax p) k, g);
  r_dirichlet := fun al k g =>
    (repeat (if g then 1 :: repeat 0 (length al - 1) else repeat 0 (length al - 1) ++ [1]) k, g)
|}.

(** The size of the bags: bag_size, or the number of examples if it is None. *)
Definition bag_size_of {G} (s : prior_shift G) (y : list Z) : nat :=
  match ps_bag_size s with Some n => n | None => length y end.
Definition cs_size_of {G} (s : covariate_shift G) (y : list Z) : nat :=
  match cs_bag_size s with Some n => n | None => length y end.
