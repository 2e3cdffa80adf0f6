(** * Proofs about the ordinal models. *)

From Coq Require Import Reals List ZArith Lia Lra Permutation Bool Sorted.
From Verif Require Import Num Spec L_Num M_Baselines L_Baselines L_Metrics M_Ordinal Spec_Ordinal.
Import ListNotations.
Open Scope R_scope.

(** ** Monotone correction *)

Lemma max_unique : forall a b l, is_maximum a l -> is_maximum b l -> a = b.
Proof.
  intros a b l [Ia Fa] [Ib Fb]. rewrite Forall_forall in *. specialize (Fa b Ib). specialize (Fb a Ia). lra.
Qed.
Lemma min_unique : forall a b l, is_minimum a l -> is_minimum b l -> a = b.
Proof.
  intros a b l [Ia Fa] [Ib Fb]. rewrite Forall_forall in *. specialize (Fa b Ib). specialize (Fb a Ia). lra.
Qed.

Lemma is_ascending_spec : forall l, is_ascending l = true <-> ascending l.
Proof.
  unfold ascending. induction l as [|a t IH]; [simpl; split; intros; auto; simpl in *; lia|].
  cbn [is_ascending]. destruct t as [|b t].
  - split; auto. intros _ i Hi. simpl in Hi. lia.
  - destruct (Rle_dec a b) as [H|H].
    + rewrite IH. split; intros G i Hi.
      * destruct i; [exact H|]. change (nth (S i) (a :: b :: t) 0) with (nth i (b :: t) 0).
        change (nth (S (S i)) (a :: b :: t) 0) with (nth (S i) (b :: t) 0). apply G. simpl in *; lia.
      * apply (G (S i)). simpl in *; lia.
    + split; [discriminate|]. intros G. exfalso. apply H. apply (G O). simpl; lia.
Qed.

Lemma ascending_le : forall l i j, ascending l -> (i <= j)%nat -> (j < length l)%nat -> nth i l 0 <= nth j l 0.
Proof.
  intros l i j A Hij. induction Hij; intros Hj; [lra|].
  apply Rle_trans with (nth m l 0); [apply IHHij; lia|apply A; lia].
Qed.

Lemma raise_from_length : forall l p, length (raise_from p l) = length l.
Proof. induction l; intros; simpl; auto. Qed.
Lemma left_to_right_length : forall l, length (left_to_right l) = length l.
Proof. destruct l; simpl; auto. rewrite raise_from_length; auto. Qed.
Lemma right_to_left_length : forall l, length (right_to_left l) = length l.
Proof. induction l; simpl; auto. destruct (right_to_left l); simpl in *; lia. Qed.

Lemma raise_from_max : forall l p i, (i < length l)%nat ->
  is_maximum (nth i (raise_from p l) 0) (p :: firstn (S i) l).
Proof.
  induction l as [|x t IH]; intros p i Hi; [simpl in Hi; lia|].
  cbn [raise_from firstn]. cbv zeta. destruct i.
  - simpl. destruct (Rlt_dec x p); split; simpl; auto; repeat (apply Forall_cons; [lra|]); apply Forall_nil.
  - cbn [nth]. destruct (IH (if Rlt_dec x p then p else x) i ltac:(simpl in Hi; lia)) as [I F].
    inversion F as [|? ? Fh Ft]; subst. split.
    + destruct I as [I|I]; [|right; right; exact I]. rewrite <- I. destruct (Rlt_dec x p); simpl; auto.
    + apply Forall_cons; [|apply Forall_cons; auto]; destruct (Rlt_dec x p); lra.
Qed.

Lemma left_to_right_max : forall l i, (i < length l)%nat ->
  is_maximum (nth i (left_to_right l) 0) (firstn (S i) l).
Proof.
  intros [|x t] i Hi; [simpl in Hi; lia|]. destruct i.
  - simpl. split; simpl; auto. apply Forall_cons; [lra|apply Forall_nil].
  - cbn [left_to_right nth firstn]. apply (raise_from_max t x i). simpl in Hi; lia.
Qed.

Lemma right_to_left_min : forall l i, (i < length l)%nat ->
  is_minimum (nth i (right_to_left l) 0) (skipn i l).
Proof.
  induction l as [|x t IH]; intros i Hi; [simpl in Hi; lia|].
  cbn [right_to_left]. destruct (right_to_left t) as [|y r] eqn:E.
  - assert (t = []) by (destruct t; auto; pose proof (right_to_left_length (r :: t)); rewrite E in *; discriminate).
    subst t. simpl in Hi. assert (i = O) by lia. subst i. simpl. split; simpl; auto.
    apply Forall_cons; [lra|apply Forall_nil].
  - assert (Ht : (0 < length t)%nat) by (rewrite <- right_to_left_length, E; simpl; lia).
    destruct i.
    + destruct (IH O Ht) as [I F]. cbn [nth skipn] in *. destruct (Rlt_dec y x).
      * split; [right; auto|]. apply Forall_cons; [lra|auto].
      * split; [left; auto|]. apply Forall_cons; [lra|]. eapply Forall_impl; [|exact F]. simpl; intros; lra.
    + cbn [nth skipn]. apply IH. simpl in Hi; lia.
Qed.

Lemma in_firstn : forall (A : Type) n (l : list A) x, In x (firstn n l) -> In x l.
Proof. intros. rewrite <- (firstn_skipn n l). apply in_or_app; auto. Qed.
Lemma in_skipn : forall (A : Type) n (l : list A) x, In x (skipn n l) -> In x l.
Proof. intros. rewrite <- (firstn_skipn n l). apply in_or_app; auto. Qed.

Lemma in_firstn_nth : forall n (l : list R) x, In x (firstn n l) ->
  exists j, (j < n)%nat /\ (j < length l)%nat /\ nth j l 0 = x.
Proof.
  induction n; intros l x H; simpl in H; [contradiction|]. destruct l as [|a l]; simpl in H; [contradiction|].
  destruct H as [->|H]; [exists O; simpl; repeat split; lia|].
  destruct (IHn l x H) as [j [? [? ?]]]. exists (S j). simpl. repeat split; auto; lia.
Qed.
Lemma in_skipn_nth : forall n (l : list R) x, In x (skipn n l) ->
  exists j, (n <= j)%nat /\ (j < length l)%nat /\ nth j l 0 = x.
Proof.
  induction n; intros l x H.
  - apply (In_nth l x 0) in H. destruct H as [j [? ?]]. exists j. repeat split; auto; lia.
  - destruct l as [|a l]; simpl in H; [contradiction|].
    destruct (IHn l x H) as [j [? [? ?]]]. exists (S j). simpl. repeat split; auto; lia.
Qed.
Lemma nth_in_firstn : forall n (l : list R) j, (j < n)%nat -> (j < length l)%nat -> In (nth j l 0) (firstn n l).
Proof.
  induction n; intros l j H1 H2; [lia|]. destruct l; simpl in *; [lia|].
  destruct j; [left; auto|right; apply IHn; lia].
Qed.
Lemma nth_in_skipn : forall n (l : list R) j, (n <= j)%nat -> (j < length l)%nat -> In (nth j l 0) (skipn n l).
Proof.
  induction n; intros l j H1 H2; [simpl; apply nth_In; auto|]. destruct l; simpl in *; [lia|].
  destruct j; [lia|apply IHn; lia].
Qed.

Lemma ascending_max : forall l i, ascending l -> (i < length l)%nat -> is_maximum (nth i l 0) (firstn (S i) l).
Proof.
  intros l i A Hi. split; [apply nth_in_firstn; lia|]. apply Forall_forall. intros x H.
  destruct (in_firstn_nth _ _ _ H) as [j [? [? <-]]]. apply ascending_le; auto; lia.
Qed.
Lemma ascending_min : forall l i, ascending l -> (i < length l)%nat -> is_minimum (nth i l 0) (skipn i l).
Proof.
  intros l i A Hi. split; [apply nth_in_skipn; lia|]. apply Forall_forall. intros x H.
  destruct (in_skipn_nth _ _ _ H) as [j [? [? <-]]]. apply ascending_le; auto; lia.
Qed.

Lemma correct_length : forall l, length (correct_asc l) = length l.
Proof.
  intros. unfold correct_asc. destruct (is_ascending l); auto.
  rewrite vmap2_length; rewrite ?left_to_right_length, ?right_to_left_length; auto.
Qed.

Lemma average_halfway : forall l i, (i < length l)%nat ->
  halfway l i (nth i (vmap2 (fun a b => (a + b) / 2) (left_to_right l) (right_to_left l)) 0).
Proof.
  intros l i Hi. exists (nth i (left_to_right l) 0), (nth i (right_to_left l) 0).
  split; [apply left_to_right_max; auto|]. split; [apply right_to_left_min; auto|].
  rewrite vmap2_nth; auto; rewrite ?left_to_right_length, ?right_to_left_length; auto.
Qed.

Lemma correct_halfway : forall l i, (i < length l)%nat -> halfway l i (nth i (correct_asc l) 0).
Proof.
  intros l i Hi. unfold correct_asc. destruct (is_ascending l) eqn:E.
  - apply is_ascending_spec in E. exists (nth i l 0), (nth i l 0).
    split; [apply ascending_max; auto|]. split; [apply ascending_min; auto|]. field.
  - apply average_halfway; auto.
Qed.

Lemma halfway_unique : forall l i v w, halfway l i v -> halfway l i w -> v = w.
Proof.
  intros l i v w [M [m [H1 [H2 ->]]]] [M' [m' [H1' [H2' ->]]]].
  rewrite (max_unique _ _ _ H1 H1'), (min_unique _ _ _ H2 H2'). auto.
Qed.

Lemma halfway_mono : forall l i v w, halfway l i v -> halfway l (S i) w -> (S i < length l)%nat -> v <= w.
Proof.
  intros l i v w [M [m [[IM FM] [[Im Fm] ->]]]] [M' [m' [[IM' FM'] [[Im' Fm'] ->]]]] Hi.
  rewrite Forall_forall in *.
  assert (M <= M').
  { apply FM'. destruct (in_firstn_nth _ _ _ IM) as [j [? [? <-]]]. apply nth_in_firstn; lia. }
  assert (m <= m').
  { apply Fm. destruct (in_skipn_nth _ _ _ Im') as [j [? [? <-]]]. apply nth_in_skipn; lia. }
  lra.
Qed.

Lemma correct_ascending : forall l, ascending (correct_asc l).
Proof.
  intros l i Hi. rewrite correct_length in Hi.
  apply (halfway_mono l i); auto; apply correct_halfway; lia.
Qed.

Lemma correct_untouched : forall l, ascending l -> correct_asc l = l.
Proof. intros l H. unfold correct_asc. apply is_ascending_spec in H. rewrite H. auto. Qed.

Lemma correct_idempotent : forall l, correct_asc (correct_asc l) = correct_asc l.
Proof. intros. apply correct_untouched, correct_ascending. Qed.

Lemma correct_bounds : forall l lo hi, Forall (fun x => lo <= x <= hi) l ->
  Forall (fun x => lo <= x <= hi) (correct_asc l).
Proof.
  intros l lo hi F. apply Forall_forall. intros x H. apply (In_nth _ _ 0) in H.
  destruct H as [i [Hi <-]]. rewrite correct_length in Hi.
  destruct (correct_halfway l i Hi) as [M [m [[IM _] [[Im _] ->]]]].
  rewrite Forall_forall in F. pose proof (F _ (in_firstn _ _ _ _ IM)). pose proof (F _ (in_skipn _ _ _ _ Im)). lra.
Qed.

(** ** From left groups to classes *)

Lemma increments_length : forall l s, length (increments s l) = length l.
Proof. induction l; intros; simpl; auto. Qed.

Lemma increments_nonneg : forall l s, Forall (fun x => 0 <= x) (increments s l).
Proof.
  induction l; intros; simpl; [constructor|]. apply Forall_cons; auto.
  unfold clip01, Rmin, Rmax. destruct (Rle_dec (a - s) 0); destruct (Rle_dec _ 1); lra.
Qed.

Lemma increments_cum : forall l s i, 0 <= s -> unit_interval l -> (i < length l)%nat ->
  s + rsum (firstn (S i) (increments s l)) = nth i (raise_from s l) 0.
Proof.
  induction l as [|p t IH]; intros s i Hs F Hi; [simpl in Hi; lia|].
  inversion F as [|? ? Fp Ft]; subst.
  assert (E : s + clip01 (p - s) = if Rlt_dec p s then s else p).
  { unfold clip01, Rmin, Rmax. destruct (Rlt_dec p s); destruct (Rle_dec (p - s) 0); destruct (Rle_dec _ 1); lra. }
  cbn [increments raise_from]. cbv zeta. destruct i.
  - simpl. rewrite Rplus_0_r. exact E.
  - cbn [nth firstn rsum]. rewrite <- E. rewrite <- IH; [cbn [firstn]; ring| |auto|simpl in Hi; lia].
    rewrite E. destruct (Rlt_dec p s); lra.
Qed.

Lemma max_in_unit : forall l i, unit_interval l -> (i < length l)%nat -> 0 <= nth i (left_to_right l) 0 <= 1.
Proof.
  intros l i F Hi. destruct (left_to_right_max l i Hi) as [I _]. unfold unit_interval in F.
  rewrite Forall_forall in F. apply F. eapply in_firstn; eauto.
Qed.

Lemma from_left_groups_spec : forall l, l <> [] -> unit_interval l ->
  exists p, from_left_groups l = Val p /\ distribution_over (S (length l)) p /\
    forall i, (i < length l)%nat -> rsum (firstn (S i) p) = nth i (left_to_right l) 0.
Proof.
  intros [|x t] Hn F; [congruence|]. cbn [from_left_groups]. cbv zeta.
  set (front := x :: increments x t).
  assert (Lf : length front = S (length t)) by (unfold front; simpl; rewrite increments_length; auto).
  inversion F as [|? ? Fx Ft]; subst.
  assert (C : forall i, (i < length (x :: t))%nat -> rsum (firstn (S i) front) = nth i (left_to_right (x :: t)) 0).
  { intros i Hi. unfold front. destruct i; [simpl; ring|]. cbn [firstn rsum left_to_right nth].
    rewrite <- increments_cum; auto; [lra|]. simpl in Hi; lia. }
  eexists. split; [reflexivity|].
  assert (Lr : rsum front = nth (length t) (left_to_right (x :: t)) 0).
  { rewrite <- C by (simpl; lia). rewrite firstn_all2 by lia. auto. }
  assert (B := max_in_unit (x :: t) (length t) F ltac:(simpl; lia)).
  split.
  - split; [rewrite app_length, Lf; simpl; lia|]. split.
    + apply Forall_app. split.
      * apply Forall_cons; [lra|apply increments_nonneg].
      * apply Forall_cons; [rewrite Lr; lra|apply Forall_nil].
    + rewrite rsum_app. simpl rsum. lra.
  - intros i Hi. rewrite firstn_app. replace (S i - length front)%nat with O by (simpl in Hi; lia).
    rewrite firstn_O, app_nil_r. apply C; auto.
Qed.

Lemma left_to_right_ascending : forall l, ascending l -> left_to_right l = l.
Proof.
  intros l A. apply list_eq_nth; [apply left_to_right_length|]. intros i Hi.
  rewrite left_to_right_length in Hi.
  apply (max_unique _ _ (firstn (S i) l)); [apply left_to_right_max|apply ascending_max]; auto.
Qed.

Lemma FHQ_combine_spec : forall l, l <> [] -> unit_interval l ->
  exists p, FHQ_combine l = Val p /\ distribution_over (S (length l)) p /\
    forall i, (i < length l)%nat -> halfway l i (rsum (firstn (S i) p)).
Proof.
  intros l Hn F. unfold FHQ_combine.
  destruct (from_left_groups_spec (correct_asc l)) as [p [E [D C]]].
  - intro H. apply Hn. apply length_zero_iff_nil. rewrite <- correct_length, H. auto.
  - apply correct_bounds; auto.
  - rewrite correct_length in *. exists p. split; auto. split; auto. intros i Hi.
    rewrite C by auto. rewrite left_to_right_ascending by apply correct_ascending. apply correct_halfway; auto.
Qed.

Lemma halfway_ascending : forall l i v, ascending l -> (i < length l)%nat -> halfway l i v -> v = nth i l 0.
Proof.
  intros l i v A Hi H. apply (halfway_unique l i); auto. exists (nth i l 0), (nth i l 0).
  split; [apply ascending_max; auto|]. split; [apply ascending_min; auto|]. field.
Qed.

Lemma FHQ_combine_ascending : forall l, l <> [] -> unit_interval l -> ascending l ->
  exists p, FHQ_combine l = Val p /\
    forall i, (i < length l)%nat -> rsum (firstn (S i) p) = nth i l 0.
Proof.
  intros l Hn F A. destruct (FHQ_combine_spec l Hn F) as [p [E [D C]]]. exists p. split; auto.
  intros i Hi. apply halfway_ascending; auto.
Qed.

(** Exact recovery: the cumulative prevalences of a distribution give the distribution back. *)
Lemma FHQ_combine_exact : forall q n, (2 <= n)%nat -> distribution_over n q ->
  FHQ_combine (map (fun i => rsum (firstn (S i) q)) (seq 0 (n - 1))) = Val q.
Proof.
  intros q n Hn [L [F S1]]. set (l := map _ _).
  assert (Ll : length l = (n - 1)%nat) by (unfold l; rewrite map_length, seq_length; auto).
  assert (Nl : forall i, (i < n - 1)%nat -> nth i l 0 = rsum (firstn (S i) q)).
  { intros i Hi. unfold l. rewrite (nth_indep _ 0 ((fun i => rsum (firstn (S i) q)) O)) by (rewrite map_length, seq_length; auto).
    rewrite (map_nth (fun i => rsum (firstn (S i) q))). rewrite seq_nth by auto. auto. }
  assert (Step : forall i, (i < n)%nat -> rsum (firstn (S i) q) = rsum (firstn i q) + nth i q 0).
  { intros i Hi. clear -Hi L. revert i n Hi L. induction q as [|a q IH]; intros i n Hi L; simpl in L; [lia|].
    destruct i; simpl; [ring|]. destruct n; [lia|]. specialize (IH i n ltac:(lia) ltac:(lia)). simpl in IH. rewrite IH. ring. }
  assert (Pos : forall i, 0 <= nth i q 0) by (intros; apply nth_distribution_nonneg; auto).
  assert (Rng : forall k, 0 <= rsum (firstn k q) <= 1).
  { intros k. split.
    - apply rsum_nonneg. apply Forall_forall. intros x Hx. rewrite Forall_forall in F. apply F. eapply in_firstn; eauto.
    - rewrite <- S1. rewrite <- (firstn_skipn k q) at 2. rewrite rsum_app.
      assert (0 <= rsum (skipn k q)); [|lra].
      apply rsum_nonneg. apply Forall_forall. intros x Hx. rewrite Forall_forall in F. apply F. eapply in_skipn; eauto. }
  assert (A : ascending l).
  { intros i Hi. rewrite !Nl by lia. rewrite (Step (S i)) by lia. specialize (Pos (S i)). lra. }
  assert (U : unit_interval l).
  { apply Forall_forall. intros x Hx. unfold l in Hx. apply in_map_iff in Hx. destruct Hx as [k [<- _]]. apply Rng. }
  assert (Hne : l <> []) by (intro Z; rewrite Z in Ll; simpl in Ll; lia).
  destruct (FHQ_combine_spec l Hne U) as [p [E [[Lp [Fp Sp]] _]]].
  destruct (FHQ_combine_ascending l Hne U A) as [p' [E' C]]. assert (p' = p) by congruence. subst p'.
  rewrite E. f_equal. rewrite Ll in *.
  assert (Cum : forall k, (k <= n)%nat -> rsum (firstn k p) = rsum (firstn k q)).
  { intros k Hk. destruct k; auto. destruct (Nat.eq_dec (S k) n) as [e|e].
    - rewrite !firstn_all2 by lia. lra.
    - rewrite C by lia. apply Nl. lia. }
  assert (Stepp : forall i, (i < n)%nat -> rsum (firstn (S i) p) = rsum (firstn i p) + nth i p 0).
  { intros i Hi. assert (Lp' : length p = n) by lia. clear -Hi Lp'. revert i n Hi Lp'. induction p as [|a p IH]; intros i n Hi L; simpl in L; [lia|].
    destruct i; simpl; [ring|]. destruct n; [lia|]. specialize (IH i n ltac:(lia) ltac:(lia)). simpl in IH. rewrite IH. ring. }
  apply list_eq_nth; [lia|]. intros i Hi.
  pose proof (Stepp i ltac:(lia)). pose proof (Step i ltac:(lia)).
  rewrite !Cum in H by lia. lra.
Qed.
