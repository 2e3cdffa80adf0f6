(** * Proofs about the decompositions into binary quantifiers. *)

From Coq Require Import Reals List ZArith Lia Lra Permutation Bool Sorted.
From Verif Require Import Num Spec L_Num M_Baselines L_Baselines L_Metrics M_Ordinal Spec_Ordinal L_Ordinal
  L_Ordinal2 L_Ordinal3 L_EM.
Import ListNotations.
Open Scope R_scope.

Lemma column_labels_marks : forall (P : Z -> Prop) (f : Z -> nat -> R) n i y, (i < n)%nat ->
  (forall v, In v y -> (P v -> f v i = 1) /\ (~ P v -> f v i = 0)) ->
  marks P y (column_labels i (map (fun v => map (f v) (seq 0 n)) y)).
Proof.
  intros P f n i y Hi H. unfold column_labels. rewrite map_map. split; [apply map_length|].
  intros k v E. rewrite nth_error_map, E. simpl. rewrite nth_map_seq by auto.
  destruct (H v (nth_error_In _ _ E)) as [A B]. split; intros Q.
  - rewrite A by auto. destruct (Req_EM_T 1 1); auto; lra.
  - rewrite B by auto. destruct (Req_EM_T 0 1); auto; lra.
Qed.

Lemma FHQ_fit_spec : forall (E X S : Type) (q : quantifier E X S) et es x y pt st,
  (3 <= length (np_unique y))%nat -> FHQ_fit q et es x y pt = Val st ->
  length st = (length (np_unique y) - 1)%nat /\
  forall i, (i < length (np_unique y) - 1)%nat ->
    exists yb s, marks (among_first (np_unique y) i) y yb /\ nth_error st i = Some s /\
      q_fit q (nth_estimator et i) (nth_estimator es i) x yb
        (option_map (map (fun r => [1 - nth i r 0; nth i r 0])) pt) = Val s.
Proof.
  intros E X S q et es x y pt st L H. unfold FHQ_fit in H.
  rewrite FH_binarize_spec in H by (auto; apply np_unique_NoDup). cbn [obind] in H.
  apply collect_inv in H.
  assert (Ls : length st = (length (np_unique y) - 1)%nat).
  { apply (f_equal (@length _)) in H. rewrite !map_length, seq_length in H. auto. }
  split; auto. intros i Hi.
  assert (Hn : exists s, nth_error st i = Some s).
  { destruct (nth_error st i) eqn:En; eauto. apply nth_error_None in En. lia. }
  destruct Hn as [s Hs].
  apply (f_equal (fun l => nth_error l i)) in H. rewrite !nth_error_map, Hs in H.
  rewrite (nth_error_nth' _ 0%nat) in H by (rewrite seq_length; auto). rewrite seq_nth in H by auto.
  cbn [option_map Nat.add] in H. inversion H as [H1]. clear H.
  eexists. exists s. split; [|split; [exact Hs|exact H1]].
  apply (column_labels_marks _ (fun v i => if in_dec Z.eq_dec v (firstn (Datatypes.S i) (np_unique y)) then 1 else 0)); [lia|].
  intros v Hv. rewrite <- in_firstn_among. destruct (in_dec Z.eq_dec v (firstn _ _)); tauto.
Qed.

Lemma FHQ_fit_without_spec : forall (E X S : Type) (q : quantifier E X S) x y,
  FHQ_fit_without q x y = FHQ_fit q None None x y None.
Proof. reflexivity. Qed.

Lemma FHQ_fit_two : forall (E X S : Type) (q : quantifier E X S) et es x y pt,
  length (np_unique y) = 2%nat -> FHQ_fit q et es x y pt = Err IndexError.
Proof. intros. unfold FHQ_fit. rewrite FH_binarize_two by auto. reflexivity. Qed.

Lemma OVR_fit_spec : forall (E X S : Type) (q : quantifier E X S) et es x y pt st,
  (3 <= length (np_unique y))%nat -> OVR_fit q et es x y pt = Val st ->
  length st = length (np_unique y) /\
  forall i, (i < length (np_unique y))%nat ->
    exists yb s, marks (fun v => v = nth i (np_unique y) 0%Z) y yb /\ nth_error st i = Some s /\
      q_fit q (nth_estimator et i) (nth_estimator es i) x yb
        (option_map (map (fun r => [1 - nth i r 0; nth i r 0])) pt) = Val s.
Proof.
  intros E X S q et es x y pt st L H. unfold OVR_fit in H.
  rewrite label_binarize_many in H by auto. destruct (Nat.eqb_spec (length (np_unique y)) 2); [lia|]. cbn [andb] in H.
  apply collect_inv in H.
  assert (Ls : length st = length (np_unique y)).
  { apply (f_equal (@length _)) in H. rewrite !map_length, seq_length in H. auto. }
  split; auto. intros i Hi.
  assert (Hn : exists s, nth_error st i = Some s).
  { destruct (nth_error st i) eqn:En; eauto. apply nth_error_None in En. lia. }
  destruct Hn as [s Hs].
  apply (f_equal (fun l => nth_error l i)) in H. rewrite !nth_error_map, Hs in H.
  rewrite (nth_error_nth' _ 0%nat) in H by (rewrite seq_length; auto). rewrite seq_nth in H by auto.
  cbn [option_map Nat.add] in H. inversion H as [H1]. clear H.
  eexists. exists s. split; [|split; [exact Hs|exact H1]].
  unfold column_labels. rewrite map_map. split; [apply map_length|].
  intros k v Ev. rewrite nth_error_map, Ev. simpl.
  set (f := fun c => if Z.eqb v c then 1 else 0).
  rewrite (nth_indep _ 0 (f 0%Z)) by (rewrite map_length; auto). rewrite map_nth. unfold f.
  destruct (Z.eqb_spec v (nth i (np_unique y) 0%Z)) as [Eq|Ne]; split; intros Q; try contradiction;
    destruct (Req_EM_T _ 1); auto; lra.
Qed.

Lemma OVR_fit_two : forall (E X S : Type) (q : quantifier E X S) et es x y pt st,
  length (np_unique y) = 2%nat -> OVR_fit q et es x y pt <> Val st.
Proof.
  intros E X S q et es x y pt st L H. unfold OVR_fit in H. rewrite L in H. apply collect_inv in H.
  apply (f_equal (fun l => nth_error l 1)) in H. rewrite (nth_error_map Val 1 st) in H. simpl in H.
  destruct st as [|? [|? ?]]; simpl in H; discriminate.
Qed.

(** The binary prevalences used by predict. *)
Lemma collect_positive : forall (E X S : Type) (q : quantifier E X S) x pt (st : list S) s0 left,
  length st = s0 -> length left = s0 ->
  (forall i s, nth_error st i = Some s -> exists neg rest,
     q_predict q s x (option_map (map (fun r => [1 - nth i r 0; nth i r 0])) pt) = Val (neg :: nth i left 0 :: rest)) ->
  collect (map (fun p => obind (q_predict q (snd p) x (option_map (two_columns (fst p)) pt)) positive_prevalence)
               (combine (seq 0 (length st)) st)) = Val left.
Proof.
  intros E X S q x pt st s0 left Ls Ll H.
  assert (G : forall st left a, length st = length left ->
    (forall i s, nth_error st i = Some s -> exists neg rest,
       q_predict q s x (option_map (map (fun r => [1 - nth (a + i) r 0; nth (a + i) r 0])) pt) = Val (neg :: nth i left 0 :: rest)) ->
    collect (map (fun p => obind (q_predict q (snd p) x (option_map (two_columns (fst p)) pt)) positive_prevalence)
               (combine (seq a (length st)) st)) = Val left).
  { clear. induction st as [|s st IH]; intros [|v left] a L H; simpl in L; try discriminate; [reflexivity|].
    destruct (H O s eq_refl) as [neg [rest E1]]. rewrite Nat.add_0_r in E1.
    cbn [length seq combine map collect fst snd].
    change (option_map (two_columns a) pt) with (option_map (map (fun r => [1 - nth a r 0; nth a r 0])) pt).
    rewrite E1. cbn [obind positive_prevalence nth]. rewrite (IH left (Datatypes.S a)); auto.
    intros i s' Hi. destruct (H (Datatypes.S i) s' Hi) as [neg' [rest' E']]. exists neg', rest'.
    replace (Datatypes.S a + i)%nat with (a + Datatypes.S i)%nat by lia. exact E'. }
  apply G; [lia|]. exact H.
Qed.

Lemma FHQ_predict_spec : forall (E X S : Type) (q : quantifier E X S) x pt (st : list S) left,
  st <> [] -> length left = length st -> unit_interval left ->
  (forall i s, nth_error st i = Some s -> exists neg rest,
     q_predict q s x (option_map (map (fun r => [1 - nth i r 0; nth i r 0])) pt) = Val (neg :: nth i left 0 :: rest)) ->
  exists p, FHQ_predict q st x pt = Val p /\ distribution_over (Datatypes.S (length st)) p /\
    forall i, (i < length st)%nat -> halfway left i (rsum (firstn (Datatypes.S i) p)).
Proof.
  intros E X S q x pt st left Hne L U H. unfold FHQ_predict.
  rewrite (collect_positive _ _ _ q x pt st (length st) left) by auto. cbn [obind].
  rewrite <- L. apply FHQ_combine_spec; auto. destruct left, st; simpl in L; congruence.
Qed.

Lemma OVR_predict_spec : forall (E X S : Type) (q : quantifier E X S) x pt (st : list S) left,
  length left = length st ->
  (forall i s, nth_error st i = Some s -> exists neg rest,
     q_predict q s x (option_map (map (fun r => [1 - nth i r 0; nth i r 0])) pt) = Val (neg :: nth i left 0 :: rest)) ->
  OVR_predict q st x pt = Val (OVR_combine left).
Proof.
  intros E X S q x pt st left L H. unfold OVR_predict.
  rewrite (collect_positive _ _ _ q x pt st (length st) left) by auto. reflexivity.
Qed.

Lemma OVR_predict_full : forall (E X S : Type) (q : quantifier E X S) x pt (st : list S) left,
  length left = length st -> Forall (fun v => 0 <= v) left ->
  (forall i s, nth_error st i = Some s -> exists neg rest,
     q_predict q s x (option_map (map (fun r => [1 - nth i r 0; nth i r 0])) pt) = Val (neg :: nth i left 0 :: rest)) ->
  (Exists (fun v => v <> 0) left -> exists p, OVR_predict q st x pt = Val p /\
     distribution_over (length st) p /\ 0 < rsum left /\
     forall i, (i < length st)%nat -> nth i p 0 = nth i left 0 / rsum left) /\
  (Forall (fun v => v = 0) left -> OVR_predict q st x pt = Val left).
Proof.
  intros E X S q x pt st left L F H. rewrite (OVR_predict_spec E X S q x pt st left) by auto.
  destruct (OVR_spec left F) as [A B]. split.
  - intros Ex. eexists. split; [reflexivity|]. rewrite <- L. apply A; auto.
  - intros Z. f_equal. apply B; auto.
Qed.

Lemma PCC_two_columns : forall i preds, preds <> [] ->
  PCC_predict 2 (map (fun r => [1 - nth i r 0; nth i r 0]) preds) =
  Val [rmean (map (fun r => 1 - nth i r 0) preds); rmean (col i preds)].
Proof.
  intros i preds H. unfold PCC_predict, mean_rows. destruct preds as [|r0 t]; [congruence|].
  change (map (fun r => [1 - nth i r 0; nth i r 0]) (r0 :: t)) with ([1 - nth i r0 0; nth i r0 0] :: map (fun r => [1 - nth i r 0; nth i r 0]) t).
  cbv iota. f_equal. unfold col_means. simpl seq. cbn [map]. unfold col.
  cbn [map nth]. rewrite !map_map. reflexivity.
Qed.

Lemma nth_error_repeat_tt : forall n i (s : unit), nth_error (repeat tt n) i = Some s -> (i < n)%nat.
Proof. intros n i s H. rewrite <- (repeat_length tt n). apply nth_error_Some. congruence. Qed.

Lemma rsum_firstn_sumn : forall l k, (k <= length l)%nat -> rsum (firstn k l) = sumn k (fun j => nth j l 0).
Proof.
  intros l k. induction k; intros H; [reflexivity|]. cbn [sumn]. rewrite <- IHk by lia. clear IHk.
  revert l H. induction k; intros l H; destruct l; simpl in *; try lia; [ring|].
  specialize (IHk l ltac:(lia)). simpl in IHk. rewrite IHk. ring.
Qed.

Lemma FHQ_over_PCC : forall n rows, (2 <= n)%nat -> rows <> [] -> distributions n rows ->
  FHQ_predict PCC_quantifier (repeat tt (n - 1)) tt (Some (map (left_groups n) rows)) = PCC_predict n rows.
Proof.
  intros n rows Hn Hr D.
  assert (Hne : map (left_groups n) rows <> []) by (destruct rows; [congruence|discriminate]).
  unfold FHQ_predict.
  rewrite (collect_positive _ _ _ PCC_quantifier tt (Some (map (left_groups n) rows)) (repeat tt (n - 1)) (n - 1)
            (left_groups n (col_means n rows))).
  - cbn [obind]. unfold PCC_predict, mean_rows. destruct rows as [|r0 t]; [congruence|].
    apply FHQ_combine_exact; auto. apply distribution_over_col_means; auto; discriminate.
  - apply repeat_length.
  - unfold left_groups. rewrite map_length, seq_length. auto.
  - intros i s Hi. apply nth_error_repeat_tt in Hi. cbn [PCC_quantifier q_predict option_map].
    rewrite PCC_two_columns by auto. eexists. exists []. f_equal. f_equal. f_equal.
    unfold left_groups at 2. rewrite nth_map_seq by auto. unfold col. rewrite map_map.
    rewrite (map_ext_in _ (fun r => rsum (firstn (Datatypes.S i) r))).
    2:{ intros r _. unfold left_groups. rewrite nth_map_seq by auto. auto. }
    rewrite rsum_firstn_sumn by (unfold col_means; rewrite map_length, seq_length; lia).
    rewrite (sumn_ext _ _ (fun j => rmean (col j rows))).
    2:{ intros j Hj. unfold col_means. rewrite nth_map_seq by lia. auto. }
    unfold rmean. rewrite map_length.
    rewrite (map_ext_in _ (fun r => sumn (Datatypes.S i) (fun j => nth j r 0))).
    2:{ intros r Hrr. apply rsum_firstn_sumn. unfold distributions in D. rewrite Forall_forall in D. destruct (D r Hrr). lia. }
    rewrite rsum_sumn_swap.
    rewrite <- sumn_div. apply sumn_ext. intros j Hj. unfold col. rewrite map_length. f_equal.
Qed.

Lemma OVR_over_PCC : forall n rows, rows <> [] -> distributions n rows -> (1 <= n)%nat ->
  OVR_predict PCC_quantifier (repeat tt n) tt (Some rows) = PCC_predict n rows.
Proof.
  intros n rows Hr D Hn.
  rewrite (OVR_predict_spec _ _ _ PCC_quantifier tt (Some rows) (repeat tt n) (col_means n rows)).
  - destruct (distribution_over_col_means n rows Hr D) as [L [F S1]].
    unfold OVR_combine. rewrite S1. destruct (Rlt_dec 0 1); [|lra]. rewrite vdiv_1.
    unfold PCC_predict, mean_rows. destruct rows; [congruence|reflexivity].
  - unfold col_means. rewrite map_length, seq_length, repeat_length. auto.
  - intros i s Hi. apply nth_error_repeat_tt in Hi. cbn [PCC_quantifier q_predict option_map].
    rewrite PCC_two_columns by auto. eexists. exists []. f_equal. f_equal. f_equal.
    unfold col_means. rewrite nth_map_seq by auto. auto.
Qed.

(** ** Witnesses against the documented behaviour *)

Lemma FH_documented_refuted : exists ests, Forall complementary ests /\
  exists p c, FH_predict_proba ests = Val p /\ (1 <= c)%nat /\ (c < length ests)%nat /\
    nth c p 0 <> (1 - snd (nth (c - 1) ests (0, 0))) * snd (nth c ests (0, 0)) /\ rsum p <> 1.
Proof.
  exists [(1/2, 1/2); (1/2, 1/2)]. split.
  { repeat (apply Forall_cons; [repeat split; simpl; lra|]); apply Forall_nil. }
  eexists. exists 1%nat. split; [reflexivity|]. simpl. repeat split; try lia; intro; lra.
Qed.

Lemma FHM_documented_refuted : exists ests p, Forall complementary ests /\
  FHM_predict_proba [ests] = Val [p] /\ ~ halfway (map snd ests) 0 (rsum (firstn 1 p)).
Proof.
  exists [(2/5, 3/5); (3/5, 2/5)].
  destruct (FHM_spec [[(2/5, 3/5); (3/5, 2/5)]]) as [rows [E F]].
  { apply Forall_cons; [|apply Forall_nil]. split; [discriminate|].
    repeat (apply Forall_cons; [simpl; lra|]); apply Forall_nil. }
  inversion F as [|? p ? r Hp Fr]; subst. inversion Fr; subst.
  exists p. split; [repeat (apply Forall_cons; [repeat split; simpl; lra|]); apply Forall_nil|].
  split; auto. destruct Hp as [_ Hm]. destruct (Hm O ltac:(simpl; lia)) as [I _]. simpl in I.
  destruct I as [I|I]; [|contradiction]. cbn [firstn] in *. 
  intros H.
  assert (W : halfway (map snd [(2/5, 3/5); (3/5, 2/5)]) 0 (1/2)).
  { exists (3/5), (2/5). simpl. split; [|split; [|lra]]; split; simpl; auto;
    repeat (apply Forall_cons; [lra|]); apply Forall_nil. }
  pose proof (halfway_unique _ _ _ _ H W) as Q. simpl in Q. destruct p; simpl in *; lra.
Qed.

Lemma tree_scores_refuted : exists y left s,
  (forall k v row, nth_error y k = Some v -> nth_error left k = Some row ->
     forall i, (i < 2)%nat -> (among_first (np_unique y) i v -> nth i row 0 = 1) /\
                              (~ among_first (np_unique y) i v -> nth i row 0 = 0)) /\
  length left = length y /\
  tree_scores (fun a b => Rabs (a - b)) (np_unique y) y left = Val s /\ nth 0 s 0 <> 0 /\
  nth 0 s 0 <> Rabs (left_share (np_unique y) 0 y - rmean (col 0 left)).
Proof.
  exists [1; 2; 3]%Z, [[1; 1]; [0; 1]; [0; 0]]. eexists. split; [|split; [reflexivity|split]].
  - change (np_unique [1; 2; 3]%Z) with [1; 2; 3]%Z. intros k v row Hv Hr i Hi.
    rewrite <- in_firstn_among.
    destruct k as [|[|[|k]]]; simpl in Hv, Hr; try (destruct k; discriminate); inversion Hv; inversion Hr; subst;
      (destruct i as [|[|i]]; [| |lia]); simpl; split; intro H; try lra; exfalso;
      try (apply H; tauto); repeat (destruct H as [H|H]; [discriminate|]); auto.
  - apply tree_scores_spec. simpl; lia.
  - rewrite !nth_map_seq by (simpl; lia).
    assert (S0 : left_share (np_unique [1; 2; 3]%Z) 0 [1; 2; 3]%Z = 1 / 3).
    { unfold left_share, fraction. change (np_unique [1; 2; 3]%Z) with [1; 2; 3]%Z. simpl firstn. cbn [map rsum].
      change (zcount 1 [1; 2; 3]%Z) with 1%nat. simpl. lra. }
    rewrite S0.
    assert (M : rmean (col 0 [[1; 1]; [0; 1]; [0; 0]]) = 1 / 3) by (unfold rmean, col; simpl; lra).
    rewrite M. replace (1 / 3 - 1 / 3) with 0 by lra. rewrite Rabs_R0.
    rewrite Rabs_right by lra. split; intro; lra.
Qed.

(** predict *)
Lemma predict_label_spec : forall classes probs, length probs = length classes -> classes <> [] ->
  exists k, (k < length classes)%nat /\ predict_label classes probs = nth k classes 0%Z /\
    (forall i, (i < length classes)%nat -> nth i probs 0 <= nth k probs 0) /\
    (forall i, (i < k)%nat -> nth i probs 0 < nth k probs 0).
Proof.
  intros classes probs L H. exists (argmax probs).
  destruct (argmax_spec probs) as [A [B C]]; [destruct probs, classes; simpl in L; congruence|].
  rewrite L in *. auto.
Qed.

Lemma FH_values : forall ests, ests <> [] ->
  exists p, FH_predict_proba ests = Val p /\ length p = S (length ests) /\
    nth 0 p 0 = snd (nth 0 ests (0, 0)) /\
    nth (length ests) p 0 = 1 - snd (nth (length ests - 1) ests (0, 0)) /\
    forall c, (1 <= c)%nat -> (c < length ests)%nat ->
      nth c p 0 = 1 - snd (nth (c - 1) ests (0, 0)) * snd (nth c ests (0, 0)).
Proof.
  intros ests H. exists (FH_row (map snd ests)). split; [apply FH_predict_proba_val; auto|].
  assert (Hm : map snd ests <> []) by (destruct ests; [congruence|discriminate]).
  assert (N : forall i, nth i (map snd ests) 0 = snd (nth i ests (0, 0))).
  { intros i. change 0 with (snd (0, 0)) at 1. apply map_nth. }
  assert (Lm : length (map snd ests) = length ests) by apply map_length.
  split; [rewrite FH_row_length, Lm; auto|]. split; [rewrite FH_row_first, N; auto|]. split.
  - rewrite <- Lm at 1. rewrite FH_row_last, N, Lm by auto. auto.
  - intros c H1 H2. rewrite FH_row_middle, !N by lia. auto.
Qed.
