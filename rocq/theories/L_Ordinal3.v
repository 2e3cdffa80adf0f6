(** * Proofs about the ordinal models: tree scores, DDAG, decompositions. *)

From Coq Require Import Reals List ZArith Lia Lra Permutation Bool Sorted.
From Verif Require Import Num Spec L_Num M_Baselines L_Baselines L_Metrics M_Ordinal Spec_Ordinal L_Ordinal L_Ordinal2.
Import ListNotations.
Open Scope R_scope.

(** ** Tree scores (C18) *)

Lemma left_share_count : forall classes i y, NoDup classes -> y <> [] ->
  left_share classes i y =
  INR (length (filter (fun v => if in_dec Z.eq_dec v (firstn (S i) classes) then true else false) y)) / INR (length y).
Proof.
  intros classes i y N Hy. unfold left_share.
  assert (Nf : NoDup (firstn (S i) classes)).
  { rewrite <- (firstn_skipn (S i) classes) in N. eapply NoDup_app_l; eauto. }
  revert Nf. generalize (firstn (S i) classes). clear N classes i. intros f Nf.
  assert (Hp : INR (length y) <> 0) by (apply not_0_INR; destruct y; simpl; congruence).
  induction f as [|c f IH].
  - simpl. rewrite (proj2 (length_zero_iff_nil _)); [simpl; field; auto|]. induction y; simpl; auto.
    destruct y; auto. apply IHy; [discriminate|]. apply not_0_INR. simpl. congruence.
  - inversion Nf as [|? ? Hc Nf']; subst. cbn [map rsum]. rewrite IH by auto. unfold fraction, Rdiv.
    rewrite <- Rmult_plus_distr_r. f_equal. rewrite <- plus_INR. f_equal. clear -Hc.
    induction y as [|v y IHy]; [reflexivity|]. rewrite zcount_cons. cbn [filter].
    destruct (in_dec Z.eq_dec v f) as [I|I]; destruct (in_dec Z.eq_dec v (c :: f)) as [I'|I'];
      destruct (Z.eq_dec v c) as [E|E]; cbn [length]; subst; try contradiction; try lia;
      try (exfalso; apply I'; right; assumption); try (exfalso; apply I'; left; reflexivity).
    destruct I' as [I'|I']; [congruence|contradiction].
Qed.

Lemma filter_complement : forall (A : Type) (f : A -> bool) l,
  (length (filter f l) + length (filter (fun x => negb (f x)) l) = length l)%nat.
Proof. induction l; simpl; auto. destruct (f a); simpl; lia. Qed.

Lemma tree_scores_spec : forall measure y left, (3 <= length (np_unique y))%nat ->
  tree_scores measure (np_unique y) y left =
  Val (map (fun i => measure (1 - left_share (np_unique y) i y) (rmean (col i left)))
           (seq 0 (length (np_unique y) - 1))).
Proof.
  intros measure y left L. unfold tree_scores.
  rewrite FH_binarize_spec by (auto; apply np_unique_NoDup). cbn [obind]. f_equal.
  apply map_ext_in. intros i Hi. apply in_seq in Hi. f_equal.
  assert (Hy : y <> []) by (intro; subst; simpl in L; lia).
  assert (Hp : INR (length y) <> 0) by (apply not_0_INR; destruct y; simpl; congruence).
  rewrite left_share_count by (auto; apply np_unique_NoDup).
  unfold col. rewrite map_map.
  set (f := fun v => if in_dec Z.eq_dec v (firstn (S i) (np_unique y)) then true else false).
  assert (E : length (filter (fun v => if Req_EM_T v 0 then true else false)
      (map (fun x => nth i (map (fun j => if in_dec Z.eq_dec x (firstn (S j) (np_unique y)) then 1 else 0)
             (seq 0 (length (np_unique y)))) 0) y)) = length (filter (fun x => negb (f x)) y)).
  { assert (Hi' : (i < length (np_unique y))%nat) by lia. clear -Hi'. revert f Hi'. generalize (np_unique y). intros cl f Hi'.
    induction y as [|v y IH]; [reflexivity|]. cbn [map filter].
    set (g := fun j => if in_dec Z.eq_dec v (firstn (S j) cl) then 1 else 0).
    assert (V : nth i (map g (seq 0 (length cl))) 0 = g i).
    { rewrite (nth_indep _ 0 (g O)) by (rewrite map_length, seq_length; auto). rewrite map_nth, seq_nth by auto. auto. }
    rewrite V. unfold g, f at 1.
    destruct (in_dec Z.eq_dec v (firstn (S i) cl)); destruct (Req_EM_T _ 0); try lra; cbn [negb length]; rewrite IH; auto. }
  rewrite E. pose proof (filter_complement Z f y) as FC.
  apply (f_equal INR) in FC. rewrite plus_INR in FC.
  replace (1 - _) with ((INR (length y) - INR (length (filter f y))) / INR (length y)) by (field; auto).
  unfold Rdiv. f_equal. lra.
Qed.

(** ** DDAG (C19, C20) *)

Lemma nth_error_concat : forall (A : Type) (f : nat -> list A) m s k j,
  (k < m)%nat -> (j < length (f (s + k)%nat))%nat ->
  nth_error (concat (map f (seq s m))) (list_sum (map (fun i => length (f i)) (seq s k)) + j) =
  nth_error (f (s + k)%nat) j.
Proof.
  induction m; intros s k j Hk Hj; [lia|]. cbn [seq map concat]. destruct k.
  - simpl. rewrite Nat.add_0_r in *. apply nth_error_app1; auto.
  - cbn [seq map list_sum fold_right]. rewrite nth_error_app2 by lia.
    change (fold_right Nat.add 0%nat) with list_sum.
    replace (length (f s) + list_sum (map (fun i => length (f i)) (seq (S s) k)) + j - length (f s))%nat
      with (list_sum (map (fun i => length (f i)) (seq (S s) k)) + j)%nat by lia.
    rewrite IHm; [|lia|].
    + f_equal. f_equal. lia.
    + replace (S s + k)%nat with (s + S k)%nat by lia. auto.
Qed.

Lemma list_sum_seq_lengths : forall n l, (l <= n)%nat ->
  list_sum (map (fun i => n - S i)%nat (seq 0 l)) = list_sum (seq (n - l) l).
Proof.
  induction l; intros H; auto. rewrite seq_S, map_app, list_sum_app. rewrite IHl by lia.
  cbn [seq]. replace (S (n - S l)) with (n - l)%nat by lia. simpl. lia.
Qed.

Lemma ovo_outputs_pos : forall n pair l r, (l < r)%nat -> (r < n)%nat ->
  nth_error (ovo_outputs n pair) (pos_estim n l r) = Some (pair l r).
Proof.
  intros n pair l r H1 H2. unfold ovo_outputs, pos_estim.
  rewrite <- list_sum_seq_lengths by lia.
  set (f := fun i => map (fun j => pair i j) (seq (S i) (n - S i))).
  rewrite (map_ext_in _ (fun i => length (f i))) by (intros; unfold f; rewrite map_length, seq_length; auto).
  rewrite (nth_error_concat _ f n 0 l); [|lia|unfold f; rewrite map_length, seq_length; simpl; lia].
  unfold f. simpl (0 + l)%nat. rewrite nth_error_map.
  rewrite (nth_error_nth' _ 0%nat) by (rewrite seq_length; lia). rewrite seq_nth by lia. simpl. f_equal. f_equal. lia.
Qed.

Lemma ovo_outputs_nth : forall n pair l r, (l < r)%nat -> (r < n)%nat ->
  nth (pos_estim n l r) (ovo_outputs n pair) (0, 0) = pair l r.
Proof. intros. apply nth_error_nth. apply ovo_outputs_pos; auto. Qed.

Lemma vmap2_plus_nth : forall a b c, length a = length b -> (c < length a)%nat ->
  nth c (vmap2 Rplus a b) 0 = nth c a 0 + nth c b 0.
Proof. intros. apply vmap2_nth; auto. Qed.

Lemma nth_map_seq : forall (f : nat -> R) n c, (c < n)%nat -> nth c (map f (seq 0 n)) 0 = f c.
Proof.
  intros. rewrite (nth_indep _ 0 (f O)) by (rewrite map_length, seq_length; auto).
  rewrite map_nth, seq_nth by auto. auto.
Qed.

Lemma dag_outside : forall decide d left c, (c < left \/ left + d < c)%nat -> dag_probability decide d left c = 0.
Proof.
  induction d; intros left c H; cbn [dag_probability].
  - destruct (Nat.eqb_spec c left); auto; lia.
  - rewrite !IHd by lia. ring.
Qed.

Lemma ddag_spec : forall method n pair d left accum probs,
  (left + d < n)%nat -> length accum = n -> length probs = n ->
  (forall c, (c < n)%nat -> (c < left \/ left + d < c)%nat -> nth c accum 0 = 0) ->
  let decide := fun l r => node_probs method l r (pair l r) in
  length (ddag_probabilities method n (ovo_outputs n pair) d left accum probs) = n /\
  forall c, (c < n)%nat -> nth c (ddag_probabilities method n (ovo_outputs n pair) d left accum probs) 0 =
    nth c probs 0 + nth c accum 0 * dag_probability decide d left c.
Proof.
  intros method n pair. induction d; intros left accum probs Hb La Lp Hz decide.
  - cbn [ddag_probabilities]. split; [rewrite vmap2_length; auto; lia|].
    intros c Hc. rewrite vmap2_plus_nth by lia. cbn [dag_probability].
    destruct (Nat.eqb_spec c left); [ring|]. rewrite Hz by lia. ring.
  - cbn [ddag_probabilities]. cbv zeta. rewrite ovo_outputs_nth by lia.
    set (p := node_probs method left (left + S d) (pair left (left + S d)%nat)).
    set (la := map (fun c => if (Nat.leb left c && Nat.ltb c (left + S d))%bool then nth c accum 0 * fst p else 0) (seq 0 n)).
    set (ra := map (fun c => if (Nat.leb (S left) c && Nat.ltb c (S (left + S d)))%bool then nth c accum 0 * snd p else 0) (seq 0 n)).
    assert (Vl : forall c, (c < n)%nat -> nth c la 0 = if (Nat.leb left c && Nat.ltb c (left + S d))%bool then nth c accum 0 * fst p else 0).
    { intros c Hc. unfold la. rewrite nth_map_seq by auto. auto. }
    assert (Vr : forall c, (c < n)%nat -> nth c ra 0 = if (Nat.leb (S left) c && Nat.ltb c (S (left + S d)))%bool then nth c accum 0 * snd p else 0).
    { intros c Hc. unfold ra. rewrite nth_map_seq by auto. auto. }
    assert (Ll : length la = n) by (unfold la; rewrite map_length, seq_length; auto).
    assert (Lr : length ra = n) by (unfold ra; rewrite map_length, seq_length; auto).
    destruct (IHd left la probs ltac:(lia) Ll Lp) as [L1 V1].
    { intros c Hc Ho. rewrite Vl by auto. destruct (Nat.leb_spec left c); destruct (Nat.ltb_spec c (left + S d)); simpl; auto; lia. }
    destruct (IHd (S left) ra _ ltac:(lia) Lr L1) as [L2 V2].
    { intros c Hc Ho. rewrite Vr by auto.
      destruct (Nat.leb_spec (S left) c); destruct (Nat.ltb_spec c (S (left + S d))); simpl; auto; lia. }
    split; auto. intros c Hc. rewrite V2, V1 by auto. rewrite Vl, Vr by auto. cbn [dag_probability]. fold decide.
    change (decide left (left + S d)%nat) with p.
    destruct (Nat.leb_spec left c); destruct (Nat.ltb_spec c (left + S d));
      destruct (Nat.leb_spec (S left) c); destruct (Nat.ltb_spec c (S (left + S d))); cbn [andb]; try lia;
      try (rewrite (dag_outside decide d left c) by lia); try (rewrite (dag_outside decide d (S left) c) by lia); ring.
Qed.

Lemma dag_ext : forall f g d left c,
  (forall l r, (left <= l)%nat -> (l < r)%nat -> (r <= left + d)%nat -> f l r = g l r) ->
  dag_probability f d left c = dag_probability g d left c.
Proof.
  induction d; intros left c H; cbn [dag_probability]; auto.
  rewrite H by lia. rewrite (IHd left), (IHd (S left)); auto; intros; apply H; lia.
Qed.

Lemma node_decision : forall method pair l r, complementary (pair l r) ->
  node_probs method l r (pair l r) = ddag_decision method pair l r.
Proof.
  intros method pair l r [A [B C]]. destruct method; simpl; auto. destruct (Nat.eqb (r - l) 1); auto.
  unfold winner. destruct (Rlt_dec (fst (pair l r)) (snd (pair l r)));
  destruct (Rlt_dec (fst (pair l r)) (1/2)); destruct (Rle_dec (snd (pair l r)) (1/2)); auto; lra.
Qed.

Lemma nth_repeat_R : forall n (x : R) i, (i < n)%nat -> nth i (repeat x n) 0 = x.
Proof. induction n; intros x [|i] H; simpl; auto; try lia. apply IHn; lia. Qed.

Lemma DDAG_value : forall method n pair, (1 <= n)%nat ->
  (forall l r, (l < r < n)%nat -> complementary (pair l r)) ->
  length (DDAG_predict_proba method n (ovo_outputs n pair)) = n /\
  forall c, (c < n)%nat -> nth c (DDAG_predict_proba method n (ovo_outputs n pair)) 0 =
    dag_probability (ddag_decision method pair) (n - 1) 0 c.
Proof.
  intros method n pair Hn Hc. unfold DDAG_predict_proba.
  destruct (ddag_spec method n pair (n - 1) 0 (repeat 1 n) (repeat 0 n)) as [L V]; try apply repeat_length; try lia.
  split; auto. intros c Hcn. rewrite V by auto. rewrite !nth_repeat_R by auto. rewrite Rplus_0_l, Rmult_1_l.
  apply dag_ext. intros l r H1 H2 H3. apply node_decision, Hc. lia.
Qed.

Lemma sumn_shift_zero : forall f n, f O = 0 -> sumn (S n) f = sumn n (fun i => f (S i)).
Proof. intros. rewrite sumn_Sl, H. ring. Qed.

Lemma dag_sum : forall decide d left N, (left + d < N)%nat ->
  (forall l r, (left <= l)%nat -> (l < r)%nat -> (r <= left + d)%nat -> complementary (decide l r)) ->
  (forall c, 0 <= dag_probability decide d left c) /\ sumn N (dag_probability decide d left) = 1.
Proof.
  induction d; intros left N HN H.
  - split; [intros; simpl; destruct (Nat.eqb c left); lra|].
    rewrite (sumn_single _ left); [|lia|].
    + simpl. rewrite Nat.eqb_refl. auto.
    + intros i Hi Hne. simpl. destruct (Nat.eqb_spec i left); auto; lia.
  - destruct (IHd left N ltac:(lia) ltac:(intros; apply H; lia)) as [P1 S1].
    destruct (IHd (S left) N ltac:(lia) ltac:(intros; apply H; lia)) as [P2 S2].
    destruct (H left (left + S d)%nat ltac:(lia) ltac:(lia) ltac:(lia)) as [A [B C]].
    split.
    + intros c. cbn [dag_probability]. specialize (P1 c). specialize (P2 c).
      apply Rplus_le_le_0_compat; apply Rmult_le_pos; auto.
    + cbn [dag_probability]. rewrite sumn_plus, !sumn_scal.
      change (sumn N (fun i => dag_probability decide d left i)) with (sumn N (dag_probability decide d left)).
      change (sumn N (fun i => dag_probability decide d (S left) i)) with (sumn N (dag_probability decide d (S left))).
      rewrite S1, S2. lra.
Qed.

Lemma decision_complementary : forall method pair l r, complementary (pair l r) ->
  complementary (ddag_decision method pair l r).
Proof.
  intros method pair l r H. destruct method; simpl; auto. destruct (Nat.eqb (r - l) 1); auto.
  unfold winner. destruct (Rlt_dec _ _); repeat split; simpl; lra.
Qed.

Lemma DDAG_distribution : forall method n pair, (1 <= n)%nat ->
  (forall l r, (l < r < n)%nat -> complementary (pair l r)) ->
  distribution_over n (DDAG_predict_proba method n (ovo_outputs n pair)).
Proof.
  intros method n pair Hn Hc. destruct (DDAG_value method n pair Hn Hc) as [L V].
  destruct (dag_sum (ddag_decision method pair) (n - 1) 0 n ltac:(lia)) as [P S1].
  { intros. apply decision_complementary, Hc. lia. }
  split; auto. split.
  - apply Forall_forall. intros x Hx. apply (In_nth _ _ 0) in Hx. destruct Hx as [i [Hi <-]]. rewrite V by lia. apply P.
  - rewrite <- sumn_nth, L, <- S1. apply sumn_ext. auto.
Qed.

Lemma winner_dag : forall pair d left,
  (forall l r, (left <= l)%nat -> (l < r)%nat -> (r <= left + S d)%nat -> complementary (pair l r)) ->
  exists k, (left <= k <= left + d)%nat /\
    forall c, dag_probability (ddag_decision WinnerNode pair) (S d) left c =
      if Nat.eqb c k then fst (pair k (S k)) else if Nat.eqb c (S k) then snd (pair k (S k)) else 0.
Proof.
  intros pair. induction d; intros left H.
  - exists left. split; [lia|]. intros c. cbn [dag_probability].
    assert (E : ddag_decision WinnerNode pair left (left + 1) = pair left (S left)).
    { unfold ddag_decision. replace (left + 1 - left)%nat with 1%nat by lia. simpl. f_equal. lia. }
    rewrite E. destruct (Nat.eqb_spec c left); destruct (Nat.eqb_spec c (S left)); try lia; ring.
  - assert (E : ddag_decision WinnerNode pair left (left + S (S d)) = winner (pair left (left + S (S d))%nat)).
    { unfold ddag_decision. destruct (Nat.eqb_spec (left + S (S d) - left) 1); auto; lia. }
    remember (S d) as d1. cbn [dag_probability]. rewrite E. subst d1. unfold winner.
    destruct (Rlt_dec _ _).
    + destruct (IHd (S left) ltac:(intros; apply H; lia)) as [k [Hk V]]. exists k. split; [lia|].
      intros c. rewrite V. simpl fst. simpl snd. ring.
    + destruct (IHd left ltac:(intros; apply H; lia)) as [k [Hk V]]. exists k. split; [lia|].
      intros c. rewrite V. simpl fst. simpl snd. ring.
Qed.

Lemma DDAG_winner : forall n pair, (2 <= n)%nat ->
  (forall l r, (l < r < n)%nat -> complementary (pair l r)) ->
  exists k, (S k < n)%nat /\
    nth k (DDAG_predict_proba WinnerNode n (ovo_outputs n pair)) 0 = fst (pair k (S k)) /\
    nth (S k) (DDAG_predict_proba WinnerNode n (ovo_outputs n pair)) 0 = snd (pair k (S k)) /\
    forall c, (c < n)%nat -> c <> k -> c <> S k ->
      nth c (DDAG_predict_proba WinnerNode n (ovo_outputs n pair)) 0 = 0.
Proof.
  intros n pair Hn Hc. destruct (DDAG_value WinnerNode n pair ltac:(lia) Hc) as [L V].
  destruct (winner_dag pair (n - 2) 0) as [k [Hk W]]; [intros; apply Hc; lia|].
  replace (S (n - 2)) with (n - 1)%nat in W by lia.
  exists k. split; [lia|]. split; [|split].
  - rewrite V, W by lia. rewrite Nat.eqb_refl. auto.
  - rewrite V, W by lia. destruct (Nat.eqb_spec (S k) k); [lia|]. rewrite Nat.eqb_refl. auto.
  - intros c H1 H2 H3. rewrite V, W by lia.
    destruct (Nat.eqb_spec c k); [lia|]. destruct (Nat.eqb_spec c (S k)); [lia|]. auto.
Qed.

(** ** One versus rest (C22) *)

Lemma OVR_spec : forall l, Forall (fun x => 0 <= x) l ->
  (Exists (fun x => x <> 0) l ->
     distribution_over (length l) (OVR_combine l) /\ 0 < rsum l /\
     forall i, (i < length l)%nat -> nth i (OVR_combine l) 0 = nth i l 0 / rsum l) /\
  (Forall (fun x => x = 0) l -> OVR_combine l = l).
Proof.
  intros l F. assert (P := rsum_nonneg l F). split.
  - intros E. assert (Pos : 0 < rsum l).
    { clear P. induction E as [x l Hx|x l E IH]; inversion F; subst; simpl.
      - pose proof (rsum_nonneg l H2). lra.
      - specialize (IH H2). lra. }
    unfold OVR_combine. destruct (Rlt_dec 0 (rsum l)) as [H|H]; [|lra].
    split; [|split; auto].
    + split; [apply vdiv_length|]. apply vdiv_distribution; auto.
    + intros i Hi. unfold vdiv. rewrite (nth_indep _ 0 ((fun x => x / rsum l) 0)) by (rewrite map_length; auto).
      rewrite (map_nth (fun x => x / rsum l)). auto.
  - intros Z. assert (rsum l = 0) by (clear -Z; induction Z; simpl; lra).
    unfold OVR_combine. rewrite H. destruct (Rlt_dec 0 0); auto; lra.
Qed.
