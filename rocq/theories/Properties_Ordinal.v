(** * Property theorems: ordinal methods and decompositions (C13-C22, C71, C72). *)

From Coq Require Import Reals List ZArith Lia Lra Permutation Bool.
From Verif Require Import Num Spec M_Baselines M_Ordinal Spec_Ordinal L_Num L_Baselines L_Ordinal L_Ordinal2 L_Ordinal3 L_Ordinal4.
Import ListNotations.
Open Scope R_scope.

(** C13 *)
Theorem C13_frank_hall_distribution : forall left, left <> [] -> unit_interval left ->
  exists p, FHQ_combine left = Val p /\ distribution_over (S (length left)) p /\
    forall i, (i < length left)%nat -> halfway left i (rsum (firstn (S i) p)).
Proof. exact FHQ_combine_spec. Qed.
Print Assumptions C13_frank_hall_distribution.

Theorem C13_frank_hall_ascending : forall left, left <> [] -> unit_interval left -> ascending left ->
  exists p, FHQ_combine left = Val p /\
    forall i, (i < length left)%nat -> rsum (firstn (S i) p) = nth i left 0.
Proof. exact FHQ_combine_ascending. Qed.
Print Assumptions C13_frank_hall_ascending.

Theorem C13_frank_hall_exact : forall q n, (2 <= n)%nat -> distribution_over n q ->
  FHQ_combine (map (fun i => rsum (firstn (S i) q)) (seq 0 (n - 1))) = Val q.
Proof. exact FHQ_combine_exact. Qed.
Print Assumptions C13_frank_hall_exact.

Example C13_hypotheses : unit_interval [6/10; 4/10; 9/10] /\ ~ ascending [6/10; 4/10; 9/10] /\
  distribution_over 3 [1/10; 3/10; 6/10].
Proof.
  split; [repeat (apply Forall_cons; [lra|]); apply Forall_nil|]. split.
  - intro H. specialize (H O ltac:(simpl; lia)). simpl in H. lra.
  - split; [reflexivity|]. split; [repeat (apply Forall_cons; [lra|]); apply Forall_nil|simpl; lra].
Qed.

(** C14 *)
Theorem C14_correction_ascending : forall l, ascending (correct_asc l).
Proof. exact correct_ascending. Qed.
Print Assumptions C14_correction_ascending.

Theorem C14_correction_untouched : forall l, ascending l -> correct_asc l = l.
Proof. exact correct_untouched. Qed.
Print Assumptions C14_correction_untouched.

Theorem C14_correction_idempotent : forall l, correct_asc (correct_asc l) = correct_asc l.
Proof. exact correct_idempotent. Qed.
Print Assumptions C14_correction_idempotent.

Theorem C14_correction_bounds : forall l lo hi, Forall (fun x => lo <= x <= hi) l ->
  Forall (fun x => lo <= x <= hi) (correct_asc l).
Proof. exact correct_bounds. Qed.
Print Assumptions C14_correction_bounds.

Theorem C14_correction_average : forall l, length (correct_asc l) = length l /\
  forall i, (i < length l)%nat -> halfway l i (nth i (correct_asc l) 0).
Proof. exact (fun l => conj (correct_length l) (correct_halfway l)). Qed.
Print Assumptions C14_correction_average.

(** C15: what the code computes for a middle class is the documented product only if the estimator is
    certain, so the documented formula fails. *)
Theorem C15_frank_hall_classifier_refuted : exists ests, Forall complementary ests /\
  exists p c, FH_predict_proba ests = Val p /\ (1 <= c)%nat /\ (c < length ests)%nat /\
    nth c p 0 <> (1 - snd (nth (c - 1) ests (0, 0))) * snd (nth c ests (0, 0)) /\ rsum p <> 1.
Proof. exact FH_documented_refuted. Qed.
Print Assumptions C15_frank_hall_classifier_refuted.

Theorem C15_frank_hall_classifier_middle : forall left c, (1 <= c)%nat -> (c < length left)%nat ->
  (nth c (FH_row left) 0 = (1 - nth (c - 1) left 0) * nth c left 0 <-> nth c left 0 = 1).
Proof. exact FH_middle_iff. Qed.
Print Assumptions C15_frank_hall_classifier_middle.

Theorem C15_frank_hall_classifier_values : forall ests, ests <> [] ->
  exists p, FH_predict_proba ests = Val p /\ length p = S (length ests) /\
    nth 0 p 0 = snd (nth 0 ests (0, 0)) /\
    nth (length ests) p 0 = 1 - snd (nth (length ests - 1) ests (0, 0)) /\
    forall c, (1 <= c)%nat -> (c < length ests)%nat ->
      nth c p 0 = 1 - snd (nth (c - 1) ests (0, 0)) * snd (nth c ests (0, 0)).
Proof. exact FH_values. Qed.
Print Assumptions C15_frank_hall_classifier_values.

(** C16 *)
Theorem C16_monotone_classifier_distribution : forall examples,
  Forall (fun e => e <> [] /\ unit_interval (map snd e)) examples ->
  exists rows, FHM_predict_proba examples = Val rows /\
    Forall2 (fun e p => distribution_over (S (length e)) p /\
       forall i, (i < length e)%nat -> is_maximum (rsum (firstn (S i) p)) (firstn (S i) (map snd e)))
      examples rows.
Proof. exact FHM_spec. Qed.
Print Assumptions C16_monotone_classifier_distribution.

Theorem C16_monotone_averaging_refuted : exists ests p, Forall complementary ests /\
  FHM_predict_proba [ests] = Val [p] /\ ~ halfway (map snd ests) 0 (rsum (firstn 1 p)).
Proof. exact FHM_documented_refuted. Qed.
Print Assumptions C16_monotone_averaging_refuted.

Example C16_hypotheses : Forall (fun e => e <> [] /\ unit_interval (map snd e)) [[(2/5, 3/5); (3/5, 2/5)]; [(0, 1); (1, 0)]].
Proof.
  repeat (apply Forall_cons; [split; [discriminate|repeat (apply Forall_cons; [simpl; lra|]); apply Forall_nil]|]).
  apply Forall_nil.
Qed.

(** C17 *)
Theorem C17_tree_shape : forall scores,
  in_order (make_tree scores) = seq 0 (length scores) /\ best_first scores (make_tree scores).
Proof. exact make_tree_spec. Qed.
Print Assumptions C17_tree_shape.

Theorem C17_tree_path_probabilities : forall classes ests scores i, NoDup classes ->
  length classes = S (length scores) -> (i < length classes)%nat ->
  length (FHT_predict_proba classes (make_tree scores) ests) = length classes /\
  nth i (FHT_predict_proba classes (make_tree scores) ests) 0 = path_probability ests (make_tree scores) i.
Proof. exact FHT_row. Qed.
Print Assumptions C17_tree_path_probabilities.

Theorem C17_tree_distribution : forall classes ests scores, NoDup classes ->
  length classes = S (length scores) -> length ests = length scores -> Forall complementary ests ->
  distribution_over (length classes) (FHT_predict_proba classes (make_tree scores) ests).
Proof. exact FHT_distribution. Qed.
Print Assumptions C17_tree_distribution.

Theorem C17_ordinal_tree_quantifier : forall classes scores examples, NoDup classes ->
  length classes = S (length scores) -> examples <> [] ->
  Forall (fun e => length e = length scores /\ Forall complementary e) examples ->
  exists p, OQT_predict classes (make_tree scores) examples = Val p /\ distribution_over (length classes) p.
Proof. exact OQT_distribution. Qed.
Print Assumptions C17_ordinal_tree_quantifier.

Example C17_hypotheses : NoDup [3; 5; 9]%Z /\ Forall complementary [(1/4, 3/4); (1, 0)].
Proof.
  split; [repeat constructor; simpl; lia|].
  repeat (apply Forall_cons; [repeat split; simpl; lra|]); apply Forall_nil.
Qed.

(** C18: the score compares the predicted share of the left group with the true share of the right
    group; perfect estimators get a non-zero score. *)
Theorem C18_tree_scores_refuted : exists y left s,
  (forall k v row, nth_error y k = Some v -> nth_error left k = Some row ->
     forall i, (i < 2)%nat -> (among_first (np_unique y) i v -> nth i row 0 = 1) /\
                              (~ among_first (np_unique y) i v -> nth i row 0 = 0)) /\
  length left = length y /\
  tree_scores (fun a b => Rabs (a - b)) (np_unique y) y left = Val s /\ nth 0 s 0 <> 0 /\
  nth 0 s 0 <> Rabs (left_share (np_unique y) 0 y - rmean (col 0 left)).
Proof. exact tree_scores_refuted. Qed.
Print Assumptions C18_tree_scores_refuted.

Theorem C18_tree_scores_actual : forall measure y left, (3 <= length (np_unique y))%nat ->
  tree_scores measure (np_unique y) y left =
  Val (map (fun i => measure (1 - left_share (np_unique y) i y) (rmean (col i left)))
           (seq 0 (length (np_unique y) - 1))).
Proof. exact tree_scores_spec. Qed.
Print Assumptions C18_tree_scores_actual.

Example C18_hypotheses : length (np_unique [4; 2; 2; 7; 4]%Z) = 3%nat.
Proof. reflexivity. Qed.

(** C19 *)
Theorem C19_ddag_estimators : forall n pair l r, (l < r)%nat -> (r < n)%nat ->
  nth_error (ovo_outputs n pair) (pos_estim n l r) = Some (pair l r).
Proof. exact ovo_outputs_pos. Qed.
Print Assumptions C19_ddag_estimators.

Theorem C19_ddag_value : forall method n pair, (1 <= n)%nat ->
  (forall l r, (l < r < n)%nat -> complementary (pair l r)) ->
  length (DDAG_predict_proba method n (ovo_outputs n pair)) = n /\
  forall c, (c < n)%nat -> nth c (DDAG_predict_proba method n (ovo_outputs n pair)) 0 =
    dag_probability (ddag_decision method pair) (n - 1) 0 c.
Proof. exact DDAG_value. Qed.
Print Assumptions C19_ddag_value.

Theorem C19_ddag_distribution : forall method n pair, (1 <= n)%nat ->
  (forall l r, (l < r < n)%nat -> complementary (pair l r)) ->
  distribution_over n (DDAG_predict_proba method n (ovo_outputs n pair)).
Proof. exact DDAG_distribution. Qed.
Print Assumptions C19_ddag_distribution.

(** C20 *)
Theorem C20_winner_node : forall n pair, (2 <= n)%nat ->
  (forall l r, (l < r < n)%nat -> complementary (pair l r)) ->
  exists k, (S k < n)%nat /\
    nth k (DDAG_predict_proba WinnerNode n (ovo_outputs n pair)) 0 = fst (pair k (S k)) /\
    nth (S k) (DDAG_predict_proba WinnerNode n (ovo_outputs n pair)) 0 = snd (pair k (S k)) /\
    forall c, (c < n)%nat -> c <> k -> c <> S k ->
      nth c (DDAG_predict_proba WinnerNode n (ovo_outputs n pair)) 0 = 0.
Proof. exact DDAG_winner. Qed.
Print Assumptions C20_winner_node.

Example C19_C20_hypotheses : forall l r, (l < r < 4)%nat ->
  complementary ((fun l r => (INR l / INR (l + r), INR r / INR (l + r))) l r).
Proof.
  intros l r H. simpl. assert (0 < INR (l + r)) by (apply lt_0_INR; lia).
  repeat split; simpl; try (apply Rmult_le_pos; [apply pos_INR|left; apply Rinv_0_lt_compat; auto]).
  rewrite <- Rdiv_plus_distr, <- plus_INR. field. lra.
Qed.

(** C21 *)
Theorem C21_binarizer : forall y, (3 <= length (np_unique y))%nat ->
  exists m, FH_binarize (np_unique y) y = Val m /\ length m = length y /\
    forall k v, nth_error y k = Some v -> exists row, nth_error m k = Some row /\
      length row = length (np_unique y) /\
      (forall i, (i < length (np_unique y))%nat ->
         (among_first (np_unique y) i v -> nth i row 0 = 1) /\
         (~ among_first (np_unique y) i v -> nth i row 0 = 0)) /\
      nth (length (np_unique y) - 1) row 0 = 1.
Proof. exact FH_binarize_entries. Qed.
Print Assumptions C21_binarizer.

(** With exactly two classes the binarizer (hence every Frank and Hall classifier) fails. *)
Theorem C21_binarizer_two_classes : forall classes y, length classes = 2%nat ->
  FH_binarize classes y = Err IndexError.
Proof. exact FH_binarize_two. Qed.
Print Assumptions C21_binarizer_two_classes.

(** C22 *)
Theorem C22_one_vs_rest : forall (E X S : Type) (q : quantifier E X S) x pt (st : list S) left,
  length left = length st -> Forall (fun v => 0 <= v) left ->
  (forall i s, nth_error st i = Some s -> exists neg rest,
     q_predict q s x (option_map (map (fun r => [1 - nth i r 0; nth i r 0])) pt) = Val (neg :: nth i left 0 :: rest)) ->
  (Exists (fun v => v <> 0) left -> exists p, OVR_predict q st x pt = Val p /\
     distribution_over (length st) p /\ 0 < rsum left /\
     forall i, (i < length st)%nat -> nth i p 0 = nth i left 0 / rsum left) /\
  (Forall (fun v => v = 0) left -> OVR_predict q st x pt = Val left).
Proof. exact OVR_predict_full. Qed.
Print Assumptions C22_one_vs_rest.

Theorem C22_one_vs_rest_over_pcc : forall n rows, rows <> [] -> distributions n rows -> (1 <= n)%nat ->
  OVR_predict PCC_quantifier (repeat tt n) tt (Some rows) = PCC_predict n rows.
Proof. exact OVR_over_PCC. Qed.
Print Assumptions C22_one_vs_rest_over_pcc.

Theorem C22_one_vs_rest_two_classes : forall (E X S : Type) (q : quantifier E X S) et es x y pt st,
  length (np_unique y) = 2%nat -> OVR_fit q et es x y pt <> Val st.
Proof. exact OVR_fit_two. Qed.
Print Assumptions C22_one_vs_rest_two_classes.

(** C71: how the decompositions use the binary quantifier. *)
Theorem C71_frank_hall_fit : forall (E X S : Type) (q : quantifier E X S) et es x y pt st,
  (3 <= length (np_unique y))%nat -> FHQ_fit q et es x y pt = Val st ->
  length st = (length (np_unique y) - 1)%nat /\
  forall i, (i < length (np_unique y) - 1)%nat ->
    exists yb s, marks (among_first (np_unique y) i) y yb /\ nth_error st i = Some s /\
      q_fit q (nth_estimator et i) (nth_estimator es i) x yb
        (option_map (map (fun r => [1 - nth i r 0; nth i r 0])) pt) = Val s.
Proof. exact FHQ_fit_spec. Qed.
Print Assumptions C71_frank_hall_fit.

Theorem C71_frank_hall_fit_without_classifiers : forall (E X S : Type) (q : quantifier E X S) x y,
  FHQ_fit_without q x y = FHQ_fit q None None x y None.
Proof. exact FHQ_fit_without_spec. Qed.
Print Assumptions C71_frank_hall_fit_without_classifiers.

Theorem C71_one_vs_rest_fit : forall (E X S : Type) (q : quantifier E X S) et es x y pt st,
  (3 <= length (np_unique y))%nat -> OVR_fit q et es x y pt = Val st ->
  length st = length (np_unique y) /\
  forall i, (i < length (np_unique y))%nat ->
    exists yb s, marks (fun v => v = nth i (np_unique y) 0%Z) y yb /\ nth_error st i = Some s /\
      q_fit q (nth_estimator et i) (nth_estimator es i) x yb
        (option_map (map (fun r => [1 - nth i r 0; nth i r 0])) pt) = Val s.
Proof. exact OVR_fit_spec. Qed.
Print Assumptions C71_one_vs_rest_fit.

Theorem C71_frank_hall_predict : forall (E X S : Type) (q : quantifier E X S) x pt (st : list S) left,
  st <> [] -> length left = length st -> unit_interval left ->
  (forall i s, nth_error st i = Some s -> exists neg rest,
     q_predict q s x (option_map (map (fun r => [1 - nth i r 0; nth i r 0])) pt) = Val (neg :: nth i left 0 :: rest)) ->
  exists p, FHQ_predict q st x pt = Val p /\ distribution_over (Datatypes.S (length st)) p /\
    forall i, (i < length st)%nat -> halfway left i (rsum (firstn (Datatypes.S i) p)).
Proof. exact FHQ_predict_spec. Qed.
Print Assumptions C71_frank_hall_predict.

(** With PCC as the binary quantifier and coherent left-group probabilities, the decomposition is PCC. *)
Theorem C71_frank_hall_over_pcc : forall n rows, (2 <= n)%nat -> rows <> [] -> distributions n rows ->
  FHQ_predict PCC_quantifier (repeat tt (n - 1)) tt (Some (map (left_groups n) rows)) = PCC_predict n rows.
Proof. exact FHQ_over_PCC. Qed.
Print Assumptions C71_frank_hall_over_pcc.

Theorem C71_frank_hall_two_classes : forall (E X S : Type) (q : quantifier E X S) et es x y pt,
  length (np_unique y) = 2%nat -> FHQ_fit q et es x y pt = Err IndexError.
Proof. exact FHQ_fit_two. Qed.
Print Assumptions C71_frank_hall_two_classes.

Example C71_hypotheses : exists st, FHQ_fit PCC_quantifier None None tt [1; 2; 3]%Z None = Val st /\
  distributions 3 [[1/2; 1/4; 1/4]; [0; 1; 0]].
Proof.
  eexists. split; [reflexivity|].
  repeat (apply Forall_cons; [split; [reflexivity|split;
    [repeat (apply Forall_cons; [lra|]); apply Forall_nil|simpl; lra]]|]); apply Forall_nil.
Qed.

(** C72: predict of the ordinal classifiers. *)
Theorem C72_ordinal_predict_label : forall classes probs, length probs = length classes -> classes <> [] ->
  exists k, (k < length classes)%nat /\ predict_label classes probs = nth k classes 0%Z /\
    (forall i, (i < length classes)%nat -> nth i probs 0 <= nth k probs 0) /\
    (forall i, (i < k)%nat -> nth i probs 0 < nth k probs 0).
Proof. exact predict_label_spec. Qed.
Print Assumptions C72_ordinal_predict_label.
