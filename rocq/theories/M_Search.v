(** * Model of search.py, binary/emd.py and binary/quantiles.py. *)

From Coq Require Import Reals List ZArith Bool.
From Verif Require Import Num M_Baselines M_Estimators.
Import ListNotations.
Open Scope R_scope.

(** ** Golden section search *)

(** search.py:159-160 *)
Definition invphi : R := (sqrt 5 - 1) / 2.
Definition invphi2 : R := (3 - sqrt 5) / 2.

(** [math.ceil]. *)
Definition ceil (x : R) : Z := (- Int_part (- x))%Z.

Record golden_state := { g_a : R; g_b : R; g_c : R; g_d : R; g_h : R; g_fc : R; g_fd : R }.

(** search.py:162-173.  [f] is the loss as a function of the prevalence: distance_func(mixture_func(prevalence), test_distrib). *)
Definition golden_start (f : R -> R) (a b : R) : golden_state :=
  let h := b - a in
  let c := a + invphi2 * h in
  let d := a + invphi * h in
  {| g_a := a; g_b := b; g_c := c; g_d := d; g_h := h; g_fc := f c; g_fd := f d |}.

(** search.py:176-203, one iteration.  The except clauses, reached only if distance_func raises, are not modelled. *)
Definition golden_step (f : R -> R) (s : golden_state) : golden_state :=
  let h := invphi * g_h s in
  if Rlt_dec (g_fc s) (g_fd s) then
    let c := g_a s + invphi2 * h in
    {| g_a := g_a s; g_b := g_d s; g_c := c; g_d := g_c s; g_h := h; g_fc := f c; g_fd := g_fc s |}
  else
    let d := g_c s + invphi * h in
    {| g_a := g_c s; g_b := g_b s; g_c := g_d s; g_d := d; g_h := h; g_fc := g_fd s; g_fd := f d |}.

Fixpoint golden_loop (f : R -> R) (n : nat) (s : golden_state) : golden_state :=
  match n with O => s | S n' => golden_loop f n' (golden_step f s) end.

(** search.py:205-208 *)
Definition golden_end (s : golden_state) : R * R :=
  if Rlt_dec (g_fc s) (g_fd s) then (g_fc s, (g_a s + g_d s) / 2) else (g_fd s, (g_c s + g_b s) / 2).

(** search.py:165 *)
Definition golden_steps (tol h : R) : Z := ceil (ln (tol / h) / ln invphi).

(** search.py:158-208 golden_section_search: the loss and the prevalence p of the returned pair [1-p, p].  h = 0: division by zero;
    tol/h not positive: math domain error. *)
Definition golden_section_search (f : R -> R) (tol a b : R) : out (R * R) :=
  let h := b - a in
  if Req_EM_T h 0 then Err ZeroDivisionError
  else if Rle_dec (tol / h) 0 then Err ValueError
  else Val (golden_end (golden_loop f (Z.to_nat (golden_steps tol h - 1)) (golden_start f a b))).

(** ** Global search *)

Definition grid (i : nat) : R := INR i / 100.

(** search.py:91-98: the loop over the inner points of the grid, given the losses on it.  The best loss and prevalence so far
    ([None]: inf), and whether some minimum was found. *)
Fixpoint search_minima (f : R -> R) (tol : R) (losses : nat -> R) (is : list nat) (best : option (R * R)) : out (option (R * R)) :=
  match is with
  | [] => Val best
  | i :: is' =>
      if Rlt_dec (losses (i - 1)%nat) (losses i) then
        if Rlt_dec (losses i) (losses (i + 1)%nat) then
          obind (golden_section_search f tol (grid (Nat.max (i - 2) 0)) (grid (Nat.min (i + 2) 100))) (fun r =>
            match best with
            | None => search_minima f tol losses is' (Some r)
            | Some b => if Rlt_dec (fst r) (fst b) then search_minima f tol losses is' (Some r)
                        else search_minima f tol losses is' best
            end)
        else search_minima f tol losses is' best
      else search_minima f tol losses is' best
  end.

(** search.py:88-106, given the losses on the grid; the result is the prevalence p of the pair [1-p, p]. *)
Definition global_search_from (f : R -> R) (tol : R) (losses : nat -> R) : out R :=
  obind (search_minima f tol losses (seq 1 99) None) (fun best =>
    match best with
    | Some r => Val (snd r)
    | None =>
        if Req_EM_T (losses O) (losses 100%nat) then Err ValueError
        else if Rlt_dec (losses O) (losses 100%nat) then omap snd (golden_section_search f tol 0 (2/100))
        else omap snd (golden_section_search f tol (98/100) 1)
    end).

(** search.py:71-111 global_search with mixtures of type [M].  The mixtures returned, if asked for, are those given or, if there
    were none, the ones computed on the grid. *)
Definition global_search {M T : Type} (distance : M -> T -> R) (mixture : R -> M) (test : T) (tol : R)
    (mixtures : option (list M)) (return_mixtures : bool) : out (option (list M) * R) :=
  let f := fun p => distance (mixture p) test in
  match mixtures with
  | None =>
      if return_mixtures then
        let ms := map (fun i => mixture (grid i)) (seq 0 101) in
        omap (fun p => (Some ms, p)) (global_search_from f tol (fun i => distance (nth i ms (mixture 0)) test))
      else omap (fun p => (None, p)) (global_search_from f tol (fun i => f (grid i)))
  | Some ms =>
      omap (fun p => (if return_mixtures then Some ms else None, p))
           (global_search_from f tol (fun i => distance (nth i ms (mixture 0)) test))
  end.

(** search.py:233 mixture_of_pdfs *)
Definition mixture_of_pdfs (prevalence : R) (pos neg : list R) : list R :=
  vmap2 (fun p n => p * prevalence + n * (1 - prevalence)) pos neg.

(** ** Quantiles *)

(** search.py:271-278: the weights; [None]: a test set. *)
Definition quantile_weights (prevalence : option R) (n : nat) (y : list Z) (c0 c1 : Z) : list R :=
  match prevalence with
  | None => repeat 1 n
  | Some p => map (fun c => if Z.eqb c c1 then p * INR n / INR (zcount c1 y)
                            else if Z.eqb c c0 then (1 - p) * INR n / INR (zcount c0 y) else 1) y
  end.

(** search.py:280: cutpoints[j]. *)
Definition cutpoint (q n : nat) (j : nat) : R := INR (j + 1) / INR q * INR n.

(** [l[j] += v]. *)
Fixpoint add_nth (j : nat) (v : R) (l : list R) : list R :=
  match l with
  | [] => []
  | h :: t => match j with O => h + v :: t | S j' => h :: add_nth j' v t end
  end.

(** search.py:295-299: the while loop; it makes at most q iterations because j grows. *)
Fixpoint spread (fuel q n : nat) (p rest : R) (j : nat) (Q : list R) : list R * nat :=
  match fuel with
  | O => (Q, j)
  | S fuel' =>
      if Rlt_dec (1/10000) rest then
        if Nat.ltb j (q - 1) then
          let j := (j + 1)%nat in
          let assign := Rmin rest (cutpoint q n j - cutpoint q n (j - 1)) in
          spread fuel' q n p (rest - assign) j (add_nth j (p * assign) Q)
        else (Q, j)
      else (Q, j)
  end.

(** search.py:286-299: one example of score [p] and weight [w]; the state is (quantiles, cumweight, j). *)
Definition quantile_step (q n : nat) (s : list R * R * nat) (pw : R * R) : list R * R * nat :=
  let '(Q, cum, j) := s in
  let '(p, w) := pw in
  let cum := cum + w in
  if Rle_dec cum (cutpoint q n j) then (add_nth j (p * w) Q, cum, j)
  else
    let Q := add_nth j (p * (w - (cum - cutpoint q n j))) Q in
    let '(Q, j) := spread q q n p (cum - cutpoint q n j) j Q in
    (Q, cum, j).

(** search.py:282-302, given the weights (a test set, or 271-278). *)
Definition quantiles_of (q : nat) (scores weights : list R) : list R :=
  let n := length scores in
  let '(Q, _, _) := fold_left (quantile_step q n) (combine scores weights) (repeat 0 q, 0, O) in
  vdiv Q (cutpoint q n 0).

(** search.py:237-302 compute_quantiles, for n_quantiles >= 1 and a non-empty set of scores. *)
Definition compute_quantiles (prevalence : option R) (scores : list R) (q : nat) (y : list Z) (c0 c1 : Z) : list R :=
  quantiles_of q scores (quantile_weights prevalence (length scores) y c0 c1).

(** ** SORD *)

(** search.py:338-345 compute_sord_weights; the classes are [c0] and [c1], the label of the test examples is the largest one. *)
Definition zmax (l : list Z) : Z := fold_right Z.max (hd 0%Z l) l.
Definition sord_weights (prevalence : R) (labels : list Z) (c0 c1 : Z) : list R :=
  map (fun c => if Z.eqb c (zmax labels) then - 1 / INR (zcount (zmax labels) labels)
                else if Z.eqb c c1 then prevalence / INR (zcount c1 labels)
                else if Z.eqb c c0 then (1 - prevalence) / INR (zcount c0 labels)
                else 0) labels.

(** search.py:379-382: [previous] is union_distrib[i-1]. *)
Fixpoint sord_loop (previous cum : R) (weights distrib : list R) : R :=
  match weights, distrib with
  | w :: weights', u :: distrib' => Rabs ((u - previous) * cum) + sord_loop u (cum + w) weights' distrib'
  | _, _ => 0
  end.

(** search.py:377-383 sord.  Simplification: the terms are added from the other end. *)
Definition sord (weights distrib : list R) : R :=
  match weights, distrib with
  | w :: weights', u :: distrib' => sord_loop u w weights' distrib'
  | _, _ => 0
  end.

(** ** SORDy and QUANTy.  [argsort] is np.argsort, whose order of ties is not specified. *)

Record binary_fitted := { b_classes : list Z; b_scores : list R; b_labels : list Z }.

(** emd.py:142-158 and quantiles.py:165-183 fit: [y] are the extended labels, [scores] column 1 of the predictions. *)
Definition sorted_fit (argsort : list R -> list nat) (classes y : list Z) (scores : list R) : out binary_fitted :=
  if Nat.ltb 2 (length classes) then Err TypeError
  else Val {| b_classes := classes; b_scores := pick scores (argsort scores); b_labels := pick y (argsort scores) |}.

(** emd.py:202-208: the union of training and test scores, sorted, and its labels. *)
Definition sord_union (argsort : list R -> list nat) (s : binary_fitted) (test : list R) : list R * list Z :=
  let union := b_scores s ++ test in
  let test_label := (zmax (b_classes s) + 1)%Z in
  (pick union (argsort union), pick (b_labels s ++ repeat test_label (length test)) (argsort union)).

(** emd.py:210-221: the loss given to golden_section_search. *)
Definition SORDy_loss (argsort : list R -> list nat) (s : binary_fitted) (test : list R) (p : R) : R :=
  let '(distrib, labels) := sord_union argsort s test in
  sord (sord_weights p labels (nth 0 (b_classes s) 0%Z) (nth 1 (b_classes s) 0%Z)) distrib.

(** emd.py:196-221 predict: the prevalence p of the pair [1-p, p], for two classes. *)
Definition SORDy_predict (argsort : list R -> list nat) (tol : R) (s : binary_fitted) (test : list R) : out R :=
  omap snd (golden_section_search (SORDy_loss argsort s test) tol 0 1).

(** quantiles.py:218-240 predict: result and new mixtures_.  [distance] is a function of two vectors. *)
Definition QUANTy_predict (argsort : list R -> list nat) (q : nat) (distance : list R -> list R -> R) (tol : R) (s : binary_fitted)
    (mixtures : option (list (list R))) (test : list R) : out (option (list (list R)) * R) :=
  let c0 := nth 0 (b_classes s) 0%Z in let c1 := nth 1 (b_classes s) 0%Z in
  let test_distrib := compute_quantiles None (pick test (argsort test)) q [] 0 0 in
  global_search distance (fun p => compute_quantiles (Some p) (b_scores s) q (b_labels s) c0 c1) test_distrib tol mixtures true.
