(** * Proofs about compute_quantiles. *)

From Coq Require Import Reals List ZArith Lia Lra Psatz Bool.
From Verif Require Import Num Spec M_Search Spec_Search L_Num.
Import ListNotations.
Open Scope R_scope.

Lemma rsum_cons : forall a l, rsum (a :: l) = a + rsum l.
Proof. reflexivity. Qed.

Lemma add_nth_length : forall l j v, length (add_nth j v l) = length l.
Proof. induction l; intros [|j] v; simpl; auto. Qed.

Lemma add_nth_nth : forall l j v t, (j < length l)%nat ->
  nth t (add_nth j v l) 0 = nth t l 0 + (if Nat.eqb t j then v else 0).
Proof.
  induction l; intros [|j] v [|t] H; simpl in *; try lia; try lra.
  rewrite IHl by lia. auto.
Qed.

Lemma add_nth_sum : forall l j v, (j < length l)%nat -> rsum (add_nth j v l) = rsum l + v.
Proof.
  induction l; intros [|j] v H; simpl in *; try lia; try lra. rewrite IHl by lia. lra.
Qed.

Section Cuts.
  Context (q n : nat) (Hq : (0 < q)%nat) (Hn : (0 < n)%nat).
  Let cut := cutpoint q n.

  Lemma width_pos : 0 < 1 / INR q * INR n.
  Proof.
    apply Rmult_lt_0_compat; [|apply lt_0_INR; auto]. apply Rmult_lt_0_compat; [lra|]. apply Rinv_0_lt_compat, lt_0_INR; auto.
  Qed.

  Lemma cut_S : forall j, cut (S j) = cut j + 1 / INR q * INR n.
  Proof.
    intros j. unfold cut, cutpoint. replace (S j + 1)%nat with (S (j + 1)) by lia. rewrite S_INR.
    assert (INR q <> 0) by (apply not_0_INR; lia). field. auto.
  Qed.

  Lemma cut_0 : cut 0 = 1 / INR q * INR n.
  Proof. unfold cut, cutpoint. simpl. auto. Qed.

  Lemma cut_last : cut (q - 1) = INR n.
  Proof.
    unfold cut, cutpoint. replace (q - 1 + 1)%nat with q by lia. assert (INR q <> 0) by (apply not_0_INR; lia). field. auto.
  Qed.

  Lemma cut_le : forall i j, (i <= j)%nat -> cut i <= cut j.
  Proof. intros i j H. induction H; [lra|]. rewrite cut_S. pose proof width_pos. lra. Qed.

  Lemma cut_lt_inv : forall i j, cut i < cut j -> (i < j)%nat.
  Proof. intros i j H. destruct (le_lt_dec j i) as [L|L]; auto. apply cut_le in L. lra. Qed.

  (** ** Sums, whatever the weights *)
  Lemma spread_sum : forall fuel p x j Q, length Q = q -> (j < q)%nat -> cut j <= x <= INR n -> (q - 1 - j <= fuel)%nat ->
    let '(Q', j') := spread fuel q n p (x - cut j) j Q in
    length Q' = q /\ (j' < q)%nat /\ exists r, 0 <= r <= 1/10000 /\ rsum Q' = rsum Q + p * (x - cut j - r).
  Proof.
    assert (Z : forall fuel p j Q, spread fuel q n p 0 j Q = (Q, j)).
    { intros [|fuel] p j Q; simpl; auto. destruct (Rlt_dec (1/10000) 0); [lra|auto]. }
    induction fuel; intros p x j Q L J B F.
    - assert (j = (q - 1)%nat) by lia. subst j. rewrite cut_last in *. simpl. split; [auto|]. split; [auto|].
      exists 0. split; [lra|]. replace (x - INR n) with 0 by lra. lra.
    - cbn [spread]. destruct (Rlt_dec (1/10000) (x - cut j)) as [G|G].
      + destruct (Nat.ltb_spec j (q - 1)) as [K|K].
        * replace (j + 1 - 1)%nat with j by lia. replace (j + 1)%nat with (S j) by lia. fold cut.
          replace (cut (S j) - cut j) with (1 / INR q * INR n) by (rewrite cut_S; lra).
          pose proof width_pos as W. unfold Rmin. destruct (Rle_dec (x - cut j) (1 / INR q * INR n)) as [M|M].
          -- replace (x - cut j - (x - cut j)) with 0 by lra. rewrite Z. rewrite add_nth_length. split; [auto|]. split; [lia|].
             exists 0. split; [lra|]. rewrite add_nth_sum by lia. lra.
          -- replace (x - cut j - 1 / INR q * INR n) with (x - cut (S j)) by (rewrite cut_S; lra).
             specialize (IHfuel p x (S j) (add_nth (S j) (p * (1 / INR q * INR n)) Q)). rewrite add_nth_length in IHfuel.
             assert (B' : cut (S j) <= x <= INR n) by (rewrite cut_S; lra).
             specialize (IHfuel L ltac:(lia) B' ltac:(lia)). destruct (spread fuel q n p (x - cut (S j)) (S j) _) as [Q' j'].
             destruct IHfuel as [H1 [H2 [r [H3 H4]]]]. split; [auto|]. split; [auto|]. exists r. split; [auto|].
             rewrite H4, add_nth_sum by lia. rewrite cut_S. ring.
        * exfalso. assert (j = (q - 1)%nat) by lia. subst j. rewrite cut_last in *. lra.
      + split; [auto|]. split; [auto|]. exists (x - cut j). split; [lra|]. replace (x - cut j - (x - cut j)) with 0 by lra. lra.
  Qed.

  Lemma fold_sum : forall pws Q c j, length Q = q -> (j < q)%nat -> Forall (fun pw => 0 <= fst pw /\ 0 <= snd pw) pws ->
    c + rsum (map snd pws) <= INR n ->
    let '(Q', _, _) := fold_left (quantile_step q n) pws (Q, c, j) in
    length Q' = q /\
    rsum Q + rsum (map (fun pw => fst pw * snd pw) pws) - 1/10000 * rsum (map fst pws) <= rsum Q' <=
    rsum Q + rsum (map (fun pw => fst pw * snd pw) pws).
  Proof.
    induction pws as [|[p w] pws IH]; intros Q c j L J F S.
    - simpl. split; [auto|split; lra].
    - pose proof (Forall_inv F) as [P W]. pose proof (Forall_inv_tail F) as F'. cbn [fst snd] in P, W. cbn [map rsum fst snd] in S.
      change (c + (w + rsum (map snd pws)) <= INR n) in S.
      assert (N : 0 <= rsum (map snd pws)).
      { apply rsum_nonneg. apply Forall_forall. intros v Hv. apply in_map_iff in Hv. destruct Hv as [pw [<- Hpw]].
        rewrite Forall_forall in F'. apply F'; auto. }
      cbn [fold_left map]. change (rsum ((p * w) :: map (fun pw => fst pw * snd pw) pws)) with (p * w + rsum (map (fun pw => fst pw * snd pw) pws)).
      change (rsum (p :: map fst pws)) with (p + rsum (map fst pws)).
      unfold quantile_step at 2. fold cut. destruct (Rle_dec (c + w) (cut j)) as [G|G].
      + specialize (IH (add_nth j (p * w) Q) (c + w) j). rewrite add_nth_length in IH. specialize (IH L J F' ltac:(lra)).
        destruct (fold_left _ pws _) as [[Q' c'] j']. rewrite add_nth_sum in IH by lia. cbn [fst snd]. rewrite !rsum_cons. destruct IH as [I1 I2]. split; [auto|split; lra].
      + pose proof (spread_sum q p (c + w) j (add_nth j (p * (w - (c + w - cut j))) Q)) as H. rewrite add_nth_length in H.
        specialize (H L J ltac:(lra) ltac:(lia)). destruct (spread q q n p (c + w - cut j) j _) as [Q1 j1].
        destruct H as [H1 [H2 [r [H3 H4]]]]. rewrite add_nth_sum in H4 by lia.
        specialize (IH Q1 (c + w) j1 H1 H2 F' ltac:(lra)). destruct (fold_left _ pws _) as [[Q' c'] j'].
        cbn [fst snd]. rewrite !rsum_cons. destruct IH as [I1 I2]. split; [auto|]. rewrite H4 in I2. assert (0 <= p * r) by (apply Rmult_le_pos; lra). assert (p * r <= p * (1/10000)) by (apply Rmult_le_compat_l; lra). split; lra.
  Qed.

  (** ** The exact case *)
  Lemma spread_exact : forall fuel p x j Q, length Q = q -> (j < q)%nat -> cut j < x <= INR n -> (q - 1 - j <= fuel)%nat ->
    (forall t, (t < q)%nat -> x <= cut t \/ cut t + 1/10000 < x) ->
    let '(Q', j') := spread fuel q n p (x - cut j) j Q in
    length Q' = q /\ (j < j' < q)%nat /\ cut (j' - 1) <= x <= cut j' /\
    forall t, (t < q)%nat -> nth t Q' 0 = nth t Q 0 + (if Nat.ltb j t then p * Rmax 0 (Rmin x (cut t) - cut (t - 1)) else 0).
  Proof.
    assert (Z : forall fuel p j Q, spread fuel q n p 0 j Q = (Q, j)).
    { intros [|fuel] p j Q; simpl; auto. destruct (Rlt_dec (1/10000) 0); [lra|auto]. }
    induction fuel; intros p x j Q L J B F C.
    - assert (j = (q - 1)%nat) by lia. subst j. rewrite cut_last in *. lra.
    - cbn [spread]. destruct (C j J) as [C1|C1]; [lra|]. destruct (Rlt_dec (1/10000) (x - cut j)) as [G|G]; [|lra].
      destruct (Nat.ltb_spec j (q - 1)) as [K|K].
      2:{ exfalso. assert (j = (q - 1)%nat) by lia. subst j. rewrite cut_last in *. lra. }
      replace (j + 1 - 1)%nat with j by lia. replace (j + 1)%nat with (S j) by lia. fold cut.
      replace (cut (S j) - cut j) with (1 / INR q * INR n) by (rewrite cut_S; lra).
      pose proof width_pos as W. destruct (Rle_dec (x - cut j) (1 / INR q * INR n)) as [M|M].
      + rewrite !(Rmin_left (x - cut j)) by auto. replace (x - cut j - (x - cut j)) with 0 by lra. rewrite Z. rewrite add_nth_length. split; [auto|]. split; [lia|].
        split; [replace (S j - 1)%nat with j by lia; rewrite cut_S; lra|].
        intros t Ht. rewrite add_nth_nth by lia. f_equal. destruct (Nat.eqb_spec t (S j)) as [->|Ne].
        * replace (Nat.ltb j (S j)) with true by (symmetry; apply Nat.ltb_lt; lia). replace (S j - 1)%nat with j by lia.
          rewrite Rmin_left by (rewrite cut_S; lra). rewrite Rmax_right by lra. auto.
        * destruct (Nat.ltb_spec j t) as [Lt|Ge]; auto.
          assert (cut (S j) <= cut (t - 1)) by (apply cut_le; lia). rewrite cut_S in H.
          rewrite Rmax_left; [lra|]. pose proof (Rmin_l x (cut t)). lra.
      + rewrite !(Rmin_right (x - cut j)) by lra. replace (x - cut j - 1 / INR q * INR n) with (x - cut (S j)) by (rewrite cut_S; lra).
        specialize (IHfuel p x (S j) (add_nth (S j) (p * (1 / INR q * INR n)) Q)). rewrite add_nth_length in IHfuel.
        assert (B' : cut (S j) < x <= INR n) by (rewrite cut_S; lra).
        specialize (IHfuel L ltac:(lia) B' ltac:(lia) C). destruct (spread fuel q n p (x - cut (S j)) (S j) _) as [Q' j'].
        destruct IHfuel as [H1 [H2 [H3 H4]]]. split; [auto|]. split; [lia|]. split; [auto|].
        intros t Ht. rewrite H4 by auto. rewrite add_nth_nth by lia. rewrite Rplus_assoc. f_equal.
        destruct (Nat.eqb_spec t (S j)) as [->|Ne].
        * replace (Nat.ltb j (S j)) with true by (symmetry; apply Nat.ltb_lt; lia). rewrite Nat.ltb_irrefl.
          replace (S j - 1)%nat with j by lia. rewrite Rmin_right by lra. rewrite Rmax_right by (rewrite cut_S; lra). rewrite cut_S. ring.
        * destruct (Nat.ltb_spec (S j) t), (Nat.ltb_spec j t); try lia; lra.
  Qed.

  Lemma low_cut : forall t, (if Nat.eqb t 0 then 0 else cut (t - 1)) = INR t / INR q * INR n.
  Proof.
    intros [|t]; simpl; [unfold Rdiv; lra|]. unfold cut, cutpoint. rewrite Nat.sub_0_r. replace (t + 1)%nat with (S t) by lia. auto.
  Qed.

  Let low (t : nat) : R := INR t / INR q * INR n.

  Lemma low_S : forall t, low (S t) = cut t.
  Proof. intros t. unfold low, cut, cutpoint. replace (t + 1)%nat with (S t) by lia. auto. Qed.

  Lemma low_le : forall s t, (s <= t)%nat -> low s <= low t.
  Proof.
    intros s t H. unfold low. apply le_INR in H. pose proof width_pos. unfold Rdiv in *.
    assert (0 <= / INR q) by (left; apply Rinv_0_lt_compat, lt_0_INR; auto). assert (0 <= INR n) by apply pos_INR.
    apply Rmult_le_compat_r; auto. apply Rmult_le_compat_r; auto.
  Qed.

  Lemma fold_exact : forall pws Q c j, length Q = q -> (j < q)%nat -> Forall (fun pw => 0 <= snd pw) pws ->
    low j <= c <= cut j -> c + rsum (map snd pws) <= INR n ->
    (forall k t, (k <= length pws)%nat -> (t < q)%nat -> c + begins (map snd pws) k <= cut t \/ cut t + 1/10000 < c + begins (map snd pws) k) ->
    let '(Q', _, _) := fold_left (quantile_step q n) pws (Q, c, j) in
    length Q' = q /\
    forall t, (t < q)%nat -> nth t Q' 0 = nth t Q 0 + sumn (length pws) (fun k => nth k (map fst pws) 0 *
       overlap (c + begins (map snd pws) k) (c + begins (map snd pws) (S k)) (low t) (low (S t))).
  Proof.
    induction pws as [|[p w] pws IH]; intros Q c j L J F B S C.
    - simpl. split; [auto|]. intros. lra.
    - pose proof (Forall_inv F) as W. pose proof (Forall_inv_tail F) as F'. cbn [fst snd] in W. cbn [map rsum fst snd] in S, C.
      change (c + (w + rsum (map snd pws)) <= INR n) in S.
      assert (N : 0 <= rsum (map snd pws)).
      { apply rsum_nonneg. apply Forall_forall. intros v Hv. apply in_map_iff in Hv. destruct Hv as [pw [<- Hpw]].
        rewrite Forall_forall in F'. apply F'; auto. }
      assert (BS : forall k, c + begins (w :: map snd pws) (Datatypes.S k) = c + w + begins (map snd pws) k).
      { intros k. unfold begins. rewrite sumn_Sl. cbn [nth]. lra. }
      assert (B0 : forall l, c + begins l 0 = c) by (intros; unfold begins; simpl; lra).
      assert (C' : forall k t, (k <= length pws)%nat -> (t < q)%nat ->
         c + w + begins (map snd pws) k <= cut t \/ cut t + 1/10000 < c + w + begins (map snd pws) k).
      { intros k t Hk Ht. rewrite <- BS. apply C; auto. simpl. lia. }
      assert (Cw : forall t, (t < q)%nat -> c + w <= cut t \/ cut t + 1/10000 < c + w).
      { intros t Ht. specialize (C' 0%nat t ltac:(lia) Ht). replace (c + w + begins (map snd pws) 0) with (c + w) in C' by (unfold begins; simpl; lra). auto. }
      cbn [fold_left]. unfold quantile_step at 2. fold cut.
      assert (Goal' : forall Q1 j1, length Q1 = q -> (j1 < q)%nat -> low j1 <= c + w <= cut j1 ->
        (forall t, (t < q)%nat -> nth t Q1 0 = nth t Q 0 + p * overlap c (c + w) (low t) (low (Datatypes.S t))) ->
        let '(Q', _, _) := fold_left (quantile_step q n) pws (Q1, c + w, j1) in
        length Q' = q /\
        forall t, (t < q)%nat -> nth t Q' 0 = nth t Q 0 + sumn (length ((p, w) :: pws)) (fun k => nth k (map fst ((p, w) :: pws)) 0 *
           overlap (c + begins (map snd ((p, w) :: pws)) k) (c + begins (map snd ((p, w) :: pws)) (Datatypes.S k)) (low t) (low (Datatypes.S t)))).
      { intros Q1 j1 L1 J1 B1 E1. specialize (IH Q1 (c + w) j1 L1 J1 F' B1 ltac:(lra) C').
        destruct (fold_left _ pws _) as [[Q' c'] j']. destruct IH as [I1 I2]. split; [auto|]. intros t Ht. rewrite I2, E1 by auto.
        cbn [length map fst snd]. rewrite sumn_Sl. cbn [nth]. rewrite B0, BS. replace (c + w + begins (map snd pws) 0) with (c + w) by (unfold begins; simpl; lra).
        rewrite Rplus_assoc. f_equal. f_equal. apply sumn_ext. intros k Hk. rewrite !BS. auto. }
      destruct (Rle_dec (c + w) (cut j)) as [G|G].
      + apply Goal'; auto; [rewrite add_nth_length; auto|lra|]. intros t Ht. rewrite add_nth_nth by lia. f_equal.
        unfold overlap. rewrite low_S. destruct (Nat.eqb_spec t j) as [->|Ne].
        * rewrite (Rmin_left (c + w)) by lra. rewrite (Rmax_left c) by lra. rewrite Rmax_right by lra. ring.
        * rewrite Rmax_left; [lra|]. destruct (le_lt_dec t j) as [Le|Gt].
          -- assert (low (Datatypes.S t) <= low j) by (apply low_le; lia). rewrite low_S in H.
             pose proof (Rmin_r (c + w) (cut t)). pose proof (Rmax_l c (low t)). lra.
          -- assert (low (Datatypes.S j) <= low t) by (apply low_le; lia). rewrite low_S in H.
             pose proof (Rmin_l (c + w) (cut t)). pose proof (Rmax_r c (low t)). lra.
      + pose proof (spread_exact q p (c + w) j (add_nth j (p * (w - (c + w - cut j))) Q)) as H. rewrite add_nth_length in H.
        specialize (H L J ltac:(lra) ltac:(lia) Cw). destruct (spread q q n p (c + w - cut j) j _) as [Q1 j1].
        destruct H as [H1 [H2 [H3 H4]]]. apply Goal'; auto; [lia| |].
        * replace j1 with (Datatypes.S (j1 - 1)) at 1 by lia. rewrite low_S. auto.
        * intros t Ht. rewrite H4 by auto. rewrite add_nth_nth by lia. rewrite Rplus_assoc. f_equal. unfold overlap. rewrite low_S.
          destruct (Nat.eqb_spec t j) as [->|Ne].
          -- rewrite Nat.ltb_irrefl. rewrite (Rmin_right (c + w)) by lra. rewrite (Rmax_left c) by lra. rewrite Rmax_right by lra. ring.
          -- destruct (Nat.ltb_spec j t) as [Lt|Ge].
             ++ replace t with (Datatypes.S (t - 1)) at 4 by lia. rewrite low_S.
                assert (cut j <= cut (t - 1)) by (apply cut_le; lia). rewrite (Rmax_right c) by lra. lra.
             ++ rewrite Rmax_left; [lra|]. assert (low (Datatypes.S t) <= low j) by (apply low_le; lia). rewrite low_S in H.
                pose proof (Rmin_r (c + w) (cut t)). pose proof (Rmax_l c (low t)). lra.
  Qed.
End Cuts.
