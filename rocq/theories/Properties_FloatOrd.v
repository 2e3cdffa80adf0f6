(** * C128: the ordinal classifiers in double precision. *)

From Coq Require Import Reals List ZArith.
From Flocq Require Import Core BinarySingleNaN.
From Verif Require Import Num M_Baselines M_Ordinal Spec_Ordinal M_Float Spec_Float M_Float7 Spec_FloatOrd L_FloatOrd L_FloatOrd2.
Import ListNotations.
Open Scope R_scope.

(** FrankAndHallClassifier: every entry is in [0, 1] and within 2^-53 of the exact formula. *)
Theorem C128_FH : forall left, left <> [] -> Forall in_unit left ->
  Forall in_unit (FH_row_float left) /\ within (bpow radix2 (-53)) (FH_row_float left) (FH_row (map val left)).
Proof. exact FH_row_float_close. Qed.
Print Assumptions C128_FH.

(** FrankAndHallTreeClassifier: the entry of a class is in [0, 1] and differs from the exact product along its path by at
    most 2^-54 for every estimator on the path. *)
Theorem C128_tree : forall classes ests scores i, NoDup classes -> length classes = S (length scores) -> Forall unit_pair ests ->
  (i < length classes)%nat ->
  in_unit (nth i (FHT_float classes (make_tree scores) ests) f0) /\
  Rabs (val (nth i (FHT_float classes (make_tree scores) ests) f0) - path_probability (map vals ests) (make_tree scores) i)
    <= INR (path_length (make_tree scores) i) * bpow radix2 (-54).
Proof. exact FHT_float_row. Qed.
Print Assumptions C128_tree.

Theorem C128_tree_length : forall classes ests scores, NoDup classes -> length classes = S (length scores) -> Forall unit_pair ests ->
  length (FHT_float classes (make_tree scores) ests) = length classes.
Proof. exact FHT_float_length. Qed.
Print Assumptions C128_tree_length.

Theorem C128_path_length : forall scores c, (path_length (make_tree scores) c <= length scores)%nat.
Proof. exact path_length_bound. Qed.
Print Assumptions C128_path_length.

(** When the machine finds that the two columns of every estimator add up to 1, the row adds up to 1 within n^2 2^-52. *)
Theorem C128_tree_sum : forall classes ests scores, NoDup classes -> length classes = S (length scores) ->
  length ests = length scores -> Forall complementary_pair ests -> (Z.of_nat (length classes) <= 2 ^ 50)%Z ->
  Rabs (exact_sum (FHT_float classes (make_tree scores) ests) - 1) <= INR (length classes) * INR (length classes) * bpow radix2 (-52).
Proof. exact FHT_float_sum. Qed.
Print Assumptions C128_tree_sum.

(** OrdinalQuantificationTree: in [0, 1], close to the exact mean of the exact products, and adding up to almost 1, for
    every order in which np.sum adds. *)
Theorem C128_OQT : forall np_sum classes scores examples j, adds_in_some_order np_sum -> NoDup classes ->
  length classes = S (length scores) -> examples <> [] -> Forall (Forall unit_pair) examples ->
  (Z.of_nat (length examples) <= 2 ^ 50)%Z -> (j < length classes)%nat ->
  in_unit (nth j (OQT_float np_sum classes (make_tree scores) examples) f0) /\
  Rabs (val (nth j (OQT_float np_sum classes (make_tree scores) examples) f0)
        - rmean (map (fun e => path_probability (map vals e) (make_tree scores) j) examples))
    <= INR (length examples + length classes) * bpow radix2 (-52).
Proof. exact OQT_float_accuracy. Qed.
Print Assumptions C128_OQT.

Theorem C128_OQT_sum : forall np_sum classes scores examples, adds_in_some_order np_sum -> NoDup classes ->
  length classes = S (length scores) -> examples <> [] ->
  Forall (fun e => length e = length scores /\ Forall complementary_pair e) examples ->
  (Z.of_nat (length examples) <= 2 ^ 50)%Z -> (Z.of_nat (length classes) <= 2 ^ 50)%Z ->
  Rabs (exact_sum (OQT_float np_sum classes (make_tree scores) examples) - 1)
    <= INR (length classes) * INR (length examples + length classes + 1) * bpow radix2 (-52).
Proof. exact OQT_float_sum. Qed.
Print Assumptions C128_OQT_sum.

(** DDAGClassifier, 'full_probabilistic': never negative and within 4^n 2^-53 of the exact probability of the DAG. *)
Theorem C128_DDAG_full : forall n pair, (forall l r, (l < r < n)%nat -> unit_pair (pair l r)) -> (n <= 50)%nat ->
  forall c, (1 <= n)%nat -> (c < n)%nat ->
  finite (nth c (DDAG_float FullProbabilistic n (ovo_rows n pair)) f0) /\
  0 <= val (nth c (DDAG_float FullProbabilistic n (ovo_rows n pair)) f0) /\
  Rabs (val (nth c (DDAG_float FullProbabilistic n (ovo_rows n pair)) f0) -
        dag_probability (fun l r => vals (pair l r)) (n - 1) 0 c) <= 4 ^ n * bpow radix2 (-53).
Proof. exact DDAG_full_accuracy. Qed.
Print Assumptions C128_DDAG_full.

(** 'winner_node' makes no rounding error at all when every pairwise row has one winner, *)
Theorem C128_DDAG_winner : forall n pair, (forall l r, (l < r < n)%nat -> decided (pair l r)) ->
  forall c, (2 <= n)%nat -> (c < n)%nat ->
  in_unit (nth c (DDAG_float WinnerNode n (ovo_rows n pair)) f0) /\
  val (nth c (DDAG_float WinnerNode n (ovo_rows n pair)) f0) =
    dag_probability (ddag_decision WinnerNode (fun l r => vals (pair l r))) (n - 1) 0 c.
Proof. exact DDAG_winner_exact. Qed.
Print Assumptions C128_DDAG_winner.

(** which is the case when the first column is computed as one minus the second, *)
Theorem C128_first_from_second : forall q, in_unit q -> decided (fsub f1 q, q).
Proof. exact complement_decided. Qed.
Print Assumptions C128_first_from_second.

(** but not when the second is computed as one minus the first: an example can lose all its probability. *)
Theorem C128_winner_zero_refuted : exists p : float, in_unit p /\ complementary_pair (p, fsub f1 p) /\
  Forall (fun x => val x = 0) (DDAG_float WinnerNode 3 (ovo_rows 3 (fun _ _ => (p, fsub f1 p)))).
Proof. exact winner_zero_refuted. Qed.
Print Assumptions C128_winner_zero_refuted.

(** The hypotheses are met: three classes, two estimators, and pairwise rows with a winner. *)
Example C128_hypotheses :
  let q := fdiv f1 (of_Z 3) in
  let p := (fsub f1 q, q) in
  NoDup [1; 2; 5]%Z /\ length [1; 2; 5]%Z = S (length [1; 2]) /\ Forall unit_pair [p; p] /\ Forall complementary_pair [p; p] /\
  length [p; p] = length [1; 2] /\ Forall in_unit [q; q] /\ adds_in_some_order M_Float.left_to_right /\
  (forall l r, (l < r < 3)%nat -> decided ((fun _ _ => p) l r)).
Proof. exact C128_example. Qed.
