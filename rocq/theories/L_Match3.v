(** * Proofs about the cut points of the histograms. *)

From Coq Require Import Reals List ZArith Lia Lra Bool Arith Permutation.
From Verif Require Import Num Spec L_Num M_Baselines L_Baselines M_Bags L_Bags M_Search M_Optim
  Spec_Optim M_Match Spec_Match L_Match L_Match2.
Import ListNotations.
Open Scope R_scope.

Lemma round_even_mono : forall x y, x <= y -> (round_even x <= round_even y)%Z.
Proof.
  intros x y H. destruct (Z.le_gt_cases (round_even x) (round_even y)) as [L|G]; [auto|exfalso].
  assert (G' : (round_even y + 1 <= round_even x)%Z) by lia. apply IZR_le in G'.
  rewrite plus_IZR in G'.
  pose proof (Rabs_le_both _ _ (round_even_near x)). pose proof (Rabs_le_both _ _ (round_even_near y)).
  assert (x = y) by lra. subst. lia.
Qed.

(** ** Sorting *)

Lemma rinsert_length : forall x l, length (rinsert x l) = S (length l).
Proof. intros x l. induction l; simpl; [reflexivity|]. destruct (Rle_dec x a); simpl; auto. Qed.

Lemma rsort_length : forall l, length (rsort l) = length l.
Proof. induction l; simpl; [reflexivity|]. now rewrite rinsert_length, IHl. Qed.

Lemma rinsert_perm : forall x l, Permutation (rinsert x l) (x :: l).
Proof.
  intros x l. induction l as [|a l IH]; simpl; [auto|]. destruct (Rle_dec x a); [auto|].
  rewrite IH. apply perm_swap.
Qed.

Lemma rsort_perm : forall l, Permutation (rsort l) l.
Proof.
  induction l as [|a l IH]; simpl; [auto|]. rewrite rinsert_perm. now apply perm_skip.
Qed.

Definition sorted (l : list R) : Prop := forall i j, (i <= j)%nat -> (j < length l)%nat ->
  nth i l 0 <= nth j l 0.

Lemma sorted_cons : forall a l, sorted l -> Forall (fun v => a <= v) l -> sorted (a :: l).
Proof.
  intros a l Hs Ha i j Hij Hj. destruct j as [|j].
  - replace i with O by lia. simpl. lra.
  - destruct i as [|i].
    + simpl. rewrite Forall_forall in Ha. apply Ha, nth_In. simpl in Hj. lia.
    + simpl. apply Hs; simpl in Hj; lia.
Qed.

Lemma sorted_tail : forall a l, sorted (a :: l) -> sorted l /\ Forall (fun v => a <= v) l.
Proof.
  intros a l H. split.
  - intros i j Hij Hj. apply (H (S i) (S j)); simpl; lia.
  - apply Forall_forall. intros v Hv. apply (In_nth _ _ 0) in Hv. destruct Hv as (k & Hk & <-).
    apply (H O (S k)); simpl; lia.
Qed.

Lemma rinsert_sorted : forall x l, sorted l -> sorted (rinsert x l).
Proof.
  intros x l. induction l as [|a l IH]; intros H.
  - simpl. apply sorted_cons; [exact H|apply Forall_nil].
  - simpl. destruct (sorted_tail _ _ H) as [Ht Ha]. destruct (Rle_dec x a) as [L|L].
    + apply sorted_cons; [exact H|]. apply Forall_cons; [auto|].
      eapply Forall_impl; [|exact Ha]. simpl. intros; lra.
    + apply sorted_cons; [now apply IH|]. apply Forall_forall. intros v Hv.
      apply (Permutation_in _ (rinsert_perm x l)) in Hv. destruct Hv as [<-|Hv]; [lra|].
      rewrite Forall_forall in Ha. now apply Ha.
Qed.

Lemma rsort_sorted : forall l, sorted (rsort l).
Proof.
  induction l as [|a l IH]; simpl; [intros i j _ H; simpl in H; lia|]. now apply rinsert_sorted.
Qed.

(** ** Shape of the cut points *)

Definition wrapped (l : list R) : list edge := NegInf :: map Fin l ++ [PosInf].

Definition shaped (n : nat) (cuts : list edge) : Prop :=
  length cuts = S n /\ nth 0 cuts PosInf = NegInf /\ nth n cuts NegInf = PosInf.

Lemma wrapped_shape : forall n l, (0 < n)%nat -> length l = (n - 1)%nat -> shaped n (wrapped l).
Proof.
  intros n l Hn L. unfold wrapped. split; [|split].
  - simpl. rewrite app_length, map_length. simpl. lia.
  - reflexivity.
  - destruct n as [|n]; [lia|]. cbn [nth]. rewrite app_nth2; rewrite map_length; [|lia].
    replace (n - length l)%nat with O by lia. reflexivity.
Qed.

Lemma wrapped_nth : forall l i, (i < length l)%nat -> nth (S i) (wrapped l) PosInf = Fin (nth i l 0).
Proof.
  intros l i Hi. unfold wrapped. cbn [nth]. rewrite app_nth1 by (rewrite map_length; auto).
  rewrite (nth_indep _ PosInf (Fin 0)) by (rewrite map_length; auto). apply (map_nth Fin).
Qed.

Lemma wrapped_last : forall l, nth (S (length l)) (wrapped l) PosInf = PosInf.
Proof.
  intros l. unfold wrapped. cbn [nth]. rewrite app_nth2; rewrite map_length; [|lia].
  now rewrite Nat.sub_diag.
Qed.

Lemma wrapped_covering : forall n l, (0 < n)%nat -> length l = (n - 1)%nat -> ascending l ->
  covering_cuts n (wrapped l).
Proof.
  intros n l Hn L HA. destruct (wrapped_shape n l Hn L) as (H1 & H2 & H3).
  split; [auto|]. split; [auto|]. split; [auto|].
  intros i Hi. rewrite H1 in Hi. destruct i as [|i]; [exact I|].
  rewrite wrapped_nth by lia.
  destruct (Nat.eq_dec (S i) (length l)) as [E|E].
  - rewrite E, wrapped_last. exact I.
  - rewrite wrapped_nth by lia. simpl. apply HA. lia.
Qed.

Lemma shaped_covering : forall n cuts, shaped n cuts -> ascending_edges cuts -> covering_cuts n cuts.
Proof. intros n cuts (H1 & H2 & H3) HA. repeat split; auto. Qed.

(** ** equal_width *)

Lemma inner_length : forall {A} (l : list A), length (inner l) = (length l - 2)%nat.
Proof.
  intros A l. unfold inner. destruct l as [|a l]; [reflexivity|]. simpl.
  destruct l as [|b l]; [reflexivity|].
  rewrite removelast_firstn_len, firstn_length. simpl. lia.
Qed.

Lemma inner_nth : forall {A} (l : list A) i d, (i < length l - 2)%nat ->
  nth i (inner l) d = nth (S i) l d.
Proof.
  intros A l i d Hi. unfold inner. destruct l as [|a l]; [simpl in Hi; lia|]. cbn [tl nth].
  rewrite removelast_firstn_len. simpl in Hi.
  assert (G : forall k (l : list A) i, (i < k)%nat -> nth i (firstn k l) d = nth i l d).
  { clear. induction k as [|k IH]; intros l i H; [lia|]. destruct l; [now destruct i|].
    destruct i; [reflexivity|]. simpl. apply IH. lia. }
  apply G. lia.
Qed.

Lemma equal_width_ascending : forall n a b, (0 < n)%nat -> a <= b ->
  ascending (inner (uniform_edges n a b)) /\ length (inner (uniform_edges n a b)) = (n - 1)%nat.
Proof.
  intros n a b Hn Hab.
  assert (L : length (inner (uniform_edges n a b)) = (n - 1)%nat)
    by (rewrite inner_length, uniform_edges_length; lia).
  split; [|exact L].
  intros i Hi. rewrite L in Hi. rewrite !inner_nth by (rewrite uniform_edges_length; lia).
  left. apply uniform_ascending; auto. lia.
Qed.

Lemma fold_min_le : forall l a, fold_left Rmin l a <= a /\ forall v, In v l -> fold_left Rmin l a <= v.
Proof.
  induction l as [|b l IH]; intros a; simpl; [split; [lra|tauto]|].
  destruct (IH (Rmin a b)) as [H1 H2]. pose proof (Rmin_l a b). pose proof (Rmin_r a b).
  split; [lra|]. intros v [<-|Hv]; [lra|auto].
Qed.

Lemma fold_max_ge : forall l a, a <= fold_left Rmax l a /\ forall v, In v l -> v <= fold_left Rmax l a.
Proof.
  induction l as [|b l IH]; intros a; simpl; [split; [lra|tauto]|].
  destruct (IH (Rmax a b)) as [H1 H2]. pose proof (Rmax_l a b). pose proof (Rmax_r a b).
  split; [lra|]. intros v [<-|Hv]; [lra|auto].
Qed.

Lemma lmin_lmax : forall l, lmin l <= lmax l.
Proof.
  intros [|a l]; simpl; [lra|]. pose proof (proj1 (fold_min_le l a)). pose proof (proj1 (fold_max_ge l a)).
  lra.
Qed.

Lemma equal_width_cuts : forall ppf x y classes n range, (0 < n)%nat ->
  match range with None => x <> [] | Some (a, b) => a <= b end ->
  exists cuts, compute_bincuts ppf x y classes n EqualWidth range = Val cuts /\ covering_cuts n cuts.
Proof.
  intros ppf x y classes n range Hn Hr. unfold compute_bincuts. destruct n as [|n']; [lia|].
  set (n := S n') in *.
  assert (G : forall a b, a <= b -> covering_cuts n (wrapped (inner (uniform_edges n a b)))).
  { intros a b Hab. destruct (equal_width_ascending n a b Hn Hab). apply wrapped_covering; auto. }
  destruct range as [[a b]|].
  - eexists. split; [reflexivity|]. now apply G.
  - destruct x as [|v x]; [congruence|]. eexists. split; [reflexivity|]. apply G, lmin_lmax.
Qed.

(** ** equal_count *)

Definition cut_index (len n i : nat) : nat := Z.to_nat (round_even (INR (len * i) / INR n)).

Lemma cut_index_mono : forall len n i j, (0 < n)%nat -> (i <= j)%nat ->
  (cut_index len n i <= cut_index len n j)%nat.
Proof.
  intros len n i j Hn Hij. unfold cut_index. apply Z2Nat.inj_le.
  - apply round_even_nonneg. apply Rmult_le_pos; [apply pos_INR|].
    left. apply Rinv_0_lt_compat, INR_pos. auto.
  - apply round_even_nonneg. apply Rmult_le_pos; [apply pos_INR|].
    left. apply Rinv_0_lt_compat, INR_pos. auto.
  - apply round_even_mono. apply Rmult_le_compat_r.
    + left. apply Rinv_0_lt_compat, INR_pos. auto.
    + apply le_INR. apply Nat.mul_le_mono_l. auto.
Qed.

Lemma cut_index_R : forall len n i, (0 < n)%nat ->
  Rabs (INR (cut_index len n i) - INR (len * i) / INR n) <= 1/2.
Proof.
  intros len n i Hn. unfold cut_index. rewrite INR_IZR_INZ, Z2Nat.id.
  - apply round_even_near.
  - apply round_even_nonneg. apply Rmult_le_pos; [apply pos_INR|].
    left. apply Rinv_0_lt_compat, INR_pos. auto.
Qed.

Lemma cut_index_inside : forall len n i, (n < 2 * len)%nat -> (0 < i < n)%nat ->
  (0 < cut_index len n i < len)%nat.
Proof.
  intros len n i Hl Hi. assert (Hn : (0 < n)%nat) by lia.
  assert (Pn : 0 < INR n) by (apply INR_pos; auto).
  pose proof (Rabs_le_both _ _ (cut_index_R len n i Hn)) as B.
  assert (E : INR (len * i) / INR n * INR n = INR (len * i)) by (field; lra).
  set (v := INR (len * i) / INR n) in *.
  assert (H2 : INR n < 2 * INR len).
  { change 2 with (INR 2). rewrite <- mult_INR. now apply lt_INR. }
  rewrite mult_INR in E.
  assert (I1 : 1 <= INR i) by (change 1 with (INR 1); apply le_INR; lia).
  assert (I2 : INR i <= INR n - 1).
  { replace (INR n - 1) with (INR (n - 1)) by (rewrite minus_INR by lia; simpl; lra).
    apply le_INR. lia. }
  assert (Pl : 0 < INR len) by lra.
  assert (V1 : 1/2 < v).
  { apply (Rmult_lt_reg_r (INR n)); [auto|]. rewrite E.
    apply Rlt_le_trans with (INR len * 1); [lra|]. apply Rmult_le_compat_l; lra. }
  assert (V2 : v < INR len - 1/2).
  { apply (Rmult_lt_reg_r (INR n)); [auto|]. rewrite E.
    apply Rle_lt_trans with (INR len * (INR n - 1)); [apply Rmult_le_compat_l; lra|].
    lra. }
  split.
  - apply INR_lt. simpl. lra.
  - apply INR_lt. lra.
Qed.

Lemma equal_count_value : forall s n i, (n < 2 * length s)%nat -> (0 < i < n)%nat ->
  equal_count_cut s n i = Val ((nth (cut_index (length s) n i - 1) s 0 +
                                nth (cut_index (length s) n i) s 0) / 2).
Proof.
  intros s n i Hl Hi. destruct (cut_index_inside (length s) n i Hl Hi) as [H1 H2].
  unfold equal_count_cut. change (Z.to_nat (round_even (INR (length s * i) / INR n)))
    with (cut_index (length s) n i).
  destruct (Nat.leb_spec (length s) (cut_index (length s) n i)); [lia|].
  destruct (cut_index (length s) n i) as [|c]; [lia|]. do 4 f_equal. lia.
Qed.

Lemma equal_count_cuts : forall ppf x y classes n range, (0 < n)%nat -> (n < 2 * length x)%nat ->
  exists cuts, compute_bincuts ppf x y classes n EqualCount range = Val cuts /\ covering_cuts n cuts.
Proof.
  intros ppf x y classes n range Hn Hl. unfold compute_bincuts. destruct n as [|n']; [lia|].
  set (n := S n') in *. set (s := rsort x).
  assert (Ls : length s = length x) by apply rsort_length.
  pose (g := fun i => (nth (cut_index (length s) n i - 1) s 0 + nth (cut_index (length s) n i) s 0) / 2).
  rewrite (collect_val (equal_count_cut s n) g).
  - eexists. split; [reflexivity|]. apply (wrapped_covering n (map g (seq 1 (n - 1)))).
    + auto.
    + now rewrite map_length, seq_length.
    + intros i Hi. rewrite map_length, seq_length in Hi.
      rewrite !(nth_indep (map g (seq 1 (n - 1))) 0 (g O)) by (rewrite map_length, seq_length; lia).
      rewrite !(map_nth g), !seq_nth by lia. unfold g.
      pose proof (cut_index_mono (length s) n (1 + i) (1 + S i) Hn ltac:(lia)).
      destruct (cut_index_inside (length s) n (1 + i)); [lia|lia|].
      destruct (cut_index_inside (length s) n (1 + S i)); [lia|lia|].
      pose proof (rsort_sorted x (cut_index (length s) n (1 + i) - 1)%nat
        (cut_index (length s) n (1 + S i) - 1)%nat ltac:(lia)) as A1.
      pose proof (rsort_sorted x (cut_index (length s) n (1 + i))%nat
        (cut_index (length s) n (1 + S i))%nat ltac:(lia)) as A2.
      fold s in A1, A2. specialize (A1 ltac:(lia)). specialize (A2 ltac:(lia)). lra.
  - intros i Hi. apply in_seq in Hi. apply equal_count_value; lia.
Qed.


Lemma collect_err : forall {A B} (f : A -> out B) e l,
  (forall a, In a l -> (exists v, f a = Val v) \/ f a = Err e) ->
  (exists a, In a l /\ f a = Err e) -> collect (map f l) = Err e.
Proof.
  intros A B f e l H (a & Ha & Ea). induction l as [|b l IH]; [destruct Ha|].
  simpl. destruct (f b) as [v|e'|] eqn:Eb.
  - simpl. rewrite IH; [reflexivity| |].
    + intros c Hc. apply H. now right.
    + destruct Ha as [->|Ha]; [congruence|auto].
  - destruct (H b (or_introl eq_refl)) as [(v & E)|E]; [congruence|]. simpl. congruence.
  - destruct (H b (or_introl eq_refl)) as [(v & E)|E]; congruence.
Qed.

(** Fewer than half as many examples as bins. *)
Lemma equal_count_few : forall ppf x y classes n range, (2 <= n)%nat -> (2 * length x < n)%nat ->
  compute_bincuts ppf x y classes n EqualCount range = Err IndexError.
Proof.
  intros ppf x y classes n range Hn Hl. unfold compute_bincuts. destruct n as [|n']; [lia|].
  set (n := S n') in *. set (s := rsort x).
  assert (Ls : length s = length x) by apply rsort_length.
  rewrite (collect_err (equal_count_cut s n) IndexError); [reflexivity| |].
  - intros i Hi. unfold equal_count_cut. destruct (Nat.leb _ _); eauto.
  - exists (n - 1)%nat. split; [apply in_seq; lia|].
    unfold equal_count_cut.
    change (Z.to_nat (round_even (INR (length s * (n - 1)) / INR n))) with (cut_index (length s) n (n - 1)).
    destruct (Nat.leb_spec (length s) (cut_index (length s) n (n - 1))) as [_|L]; [reflexivity|exfalso].
    assert (Pn : 0 < INR n) by (apply INR_pos; lia).
    pose proof (Rabs_le_both _ _ (cut_index_R (length s) n (n - 1) ltac:(lia))) as B.
    assert (E : INR (length s * (n - 1)) / INR n = INR (length s) - INR (length s) / INR n).
    { rewrite mult_INR, minus_INR by lia. simpl (INR 1). field. lra. }
    rewrite E in B.
    assert (INR (length s) / INR n < 1/2).
    { apply (Rmult_lt_reg_r (INR n)); [auto|]. unfold Rdiv. rewrite Rmult_assoc, Rinv_l by lra.
      assert (INR (2 * length s) < INR n) by (apply lt_INR; lia). rewrite mult_INR in H.
      change (INR 2) with 2 in H. lra. }
    assert (L' : (cut_index (length s) n (n - 1) + 1 <= length s)%nat) by lia.
    apply le_INR in L'. rewrite plus_INR in L'. change (INR 1) with 1 in L'. lra.
Qed.

Lemma equal_count_shape : forall ppf x y classes n range cuts,
  compute_bincuts ppf x y classes n EqualCount range = Val cuts -> shaped n cuts.
Proof.
  intros ppf x y classes n range cuts H. unfold compute_bincuts in H.
  destruct n as [|n']; [discriminate|]. set (n := S n') in *.
  destruct (collect _) as [l| |] eqn:E; try discriminate. inversion H; subst cuts.
  apply collect_inv in E. apply wrapped_shape; [unfold n; lia|].
  apply (f_equal (@length _)) in E. rewrite !map_length, seq_length in E. auto.
Qed.

Lemma equal_width_shape : forall ppf x y classes n range cuts,
  compute_bincuts ppf x y classes n EqualWidth range = Val cuts -> shaped n cuts.
Proof.
  intros ppf x y classes n range cuts H. unfold compute_bincuts in H.
  destruct n as [|n']; [discriminate|]. set (n := S n') in *.
  assert (G : forall a b, shaped n (wrapped (inner (uniform_edges n a b)))).
  { intros a b. apply wrapped_shape; [unfold n; lia|]. rewrite inner_length, uniform_edges_length. lia. }
  destruct range as [[a b]|].
  - inversion H. apply G.
  - destruct x; [discriminate|]. inversion H. apply G.
Qed.

Lemma simple_shape : forall ppf x y classes n strat range cuts, strat = EqualWidth \/ strat = EqualCount ->
  compute_bincuts ppf x y classes n strat range = Val cuts -> shaped n cuts.
Proof.
  intros ppf x y classes n strat range cuts [->| ->]; [apply equal_width_shape|apply equal_count_shape].
Qed.

(** Six bins for three values. *)
Lemma round_half_0 : round_even (1/2) = 0%Z.
Proof.
  pose proof (Rabs_le_both _ _ (round_even_near (1/2))) as B.
  assert (H : (round_even (1/2) = 0 \/ round_even (1/2) = 1)%Z).
  { assert (-1 < round_even (1/2))%Z by (apply lt_IZR; lra).
    assert (round_even (1/2) < 2)%Z by (apply lt_IZR; lra). lia. }
  destruct H as [H|H]; [auto|exfalso]. unfold round_even in H.
  replace (1/2 + 1/2) with 1 in H by lra.
  assert (E : Int_part 1 = 1%Z).
  { pose proof (Int_part_bounds 1) as [B1 B2].
    assert (0 < Int_part 1)%Z by (apply lt_IZR; lra). assert (Int_part 1 < 2)%Z by (apply lt_IZR; lra). lia. }
  rewrite E in H. destruct (Req_EM_T 1 1); [|lra]. simpl in H. discriminate.
Qed.

Lemma equal_count_unordered : exists cuts,
  compute_bincuts (fun p => p) [0; 0; 1] [] [] 6 EqualCount None = Val cuts /\ ~ ascending_edges cuts.
Proof.
  unfold compute_bincuts.
  assert (ES : rsort [0; 0; 1] = [0; 0; 1]).
  { unfold rsort. cbn [fold_right rinsert]. destruct (Rle_dec 0 1); [|lra]. cbn [rinsert].
    destruct (Rle_dec 0 0); [reflexivity|lra]. }
  rewrite ES.
  assert (IN : forall i, (0 < i < 6)%nat -> (cut_index 3 6 i < 3)%nat).
  { intros i Hi. apply INR_lt. pose proof (Rabs_le_both _ _ (cut_index_R 3 6 i ltac:(lia))) as B.
    destruct (Nat.eq_dec i 5) as [->|N5].
    - replace (INR (3 * 5) / INR 6) with (5/2) in B by (simpl; lra).
      destruct (Nat.eq_dec (cut_index 3 6 5) 3) as [E|E].
      + exfalso. unfold cut_index in E. replace (INR (3 * 5) / INR 6) with (5/2) in E by (simpl; lra).
        assert (E' : round_even (5/2) = 3%Z).
        { rewrite <- (Z2Nat.id (round_even (5/2))); [rewrite E; reflexivity|]. apply round_even_nonneg. lra. }
        unfold round_even in E'. replace (5/2 + 1/2) with 3 in E' by lra.
        assert (E3 : Int_part 3 = 3%Z).
        { pose proof (Int_part_bounds 3) as [B1 B2].
          assert (2 < Int_part 3)%Z by (apply lt_IZR; lra). assert (Int_part 3 < 4)%Z by (apply lt_IZR; lra). lia. }
        rewrite E3 in E'. destruct (Req_EM_T 3 3); [|lra]. simpl in E'. discriminate.
      + assert (cut_index 3 6 5 <= 3)%nat by (apply INR_le; simpl; lra).
        apply lt_INR. lia.
    - assert (INR i <= 4) by (replace 4 with (INR 4) by (simpl; lra); apply le_INR; lia).
      rewrite mult_INR in B. simpl in B. simpl. lra. }
  assert (C : forall i, (0 < i < 6)%nat -> equal_count_cut [0; 0; 1] 6 i =
    Val ((nth (match cut_index 3 6 i with O => 2 | S c => c end) [0; 0; 1] 0 +
          nth (cut_index 3 6 i) [0; 0; 1] 0) / 2)).
  { intros i Hi. unfold equal_count_cut. change (length [0; 0; 1]) with 3%nat.
    change (Z.to_nat (round_even (INR (3 * i) / INR 6))) with (cut_index 3 6 i).
    destruct (Nat.leb_spec 3 (cut_index 3 6 i)); [pose proof (IN i Hi); lia|]. reflexivity. }
  rewrite (collect_val (equal_count_cut [0; 0; 1] 6) (fun i =>
    (nth (match cut_index 3 6 i with O => 2 | S c => c end) [0; 0; 1] 0 +
          nth (cut_index 3 6 i) [0; 0; 1] 0) / 2)).
  - eexists. split; [reflexivity|]. intros HA. specialize (HA 1%nat).
    cbn [length map seq app nth Nat.sub] in HA. specialize (HA ltac:(lia)).
    assert (C1 : cut_index 3 6 1 = O).
    { unfold cut_index. replace (INR (3 * 1) / INR 6) with (1/2) by (simpl; lra).
      rewrite round_half_0. reflexivity. }
    assert (C2 : cut_index 3 6 2 = 1%nat).
    { pose proof (Rabs_le_both _ _ (cut_index_R 3 6 2 ltac:(lia))) as B.
      replace (INR (3 * 2) / INR 6) with 1 in B by (simpl; lra).
      assert (0 < cut_index 3 6 2)%nat by (apply INR_lt; simpl; lra).
      assert (cut_index 3 6 2 < 2)%nat by (apply INR_lt; simpl; lra). lia. }
    cbn [map seq app nth] in HA. rewrite C1, C2 in HA. cbn [nth] in HA. simpl in HA. lra.
  - intros i Hi. apply in_seq in Hi. apply C. lia.
Qed.

(** ** normal and binormal *)

Lemma gaussian_covering : forall ppf n mu std, (0 < n)%nat -> 0 < std ->
  (forall u v, 0 < u -> u <= v -> v < 1 -> ppf u <= ppf v) ->
  exists cuts, gaussian_cuts ppf n mu std = Val cuts /\ covering_cuts n cuts.
Proof.
  intros ppf n mu std Hn Hs HP. unfold gaussian_cuts. destruct n as [|n']; [lia|]. set (n := S n') in *.
  destruct (Rlt_dec 0 std) as [_|]; [|contradiction].
  pose (g := fun i => std * ppf (INR i / INR n) + mu).
  eexists. split; [reflexivity|].
  replace (NegInf :: map (fun i => Fin (std * ppf (INR i / INR n) + mu)) (seq 1 (n - 1)) ++ [PosInf])
    with (wrapped (map g (seq 1 (n - 1)))) by (unfold wrapped; now rewrite map_map).
  apply wrapped_covering; [auto|now rewrite map_length, seq_length|].
  intros i Hi. rewrite map_length, seq_length in Hi.
  rewrite !(nth_indep (map g (seq 1 (n - 1))) 0 (g O)) by (rewrite map_length, seq_length; lia).
  rewrite !(map_nth g), !seq_nth by lia. unfold g.
  assert (Pn : 0 < INR n) by (apply INR_pos; auto).
  assert (ppf (INR (1 + i) / INR n) <= ppf (INR (1 + S i) / INR n)).
  { apply HP.
    - apply Rdiv_lt_0_compat; [apply INR_pos; lia|auto].
    - apply Rmult_le_compat_r; [left; now apply Rinv_0_lt_compat|]. apply le_INR. lia.
    - apply (Rmult_lt_reg_r (INR n)); [auto|]. unfold Rdiv. rewrite Rmult_assoc, Rinv_l, Rmult_1_l by lra.
      rewrite Rmult_1_r. apply lt_INR. lia. }
  assert (std * ppf (INR (1 + i) / INR n) <= std * ppf (INR (1 + S i) / INR n))
    by (apply Rmult_le_compat_l; lra).
  lra.
Qed.
