(** * Proofs about the bag generators. *)

From Coq Require Import Reals List ZArith Lia Lra Permutation Bool Sorted.
From Verif Require Import Num Spec L_Num M_Baselines L_Baselines M_Bags Spec_Bags L_Ordinal L_Ordinal3.
Import ListNotations.
Open Scope R_scope.

(** ** Rounding *)

Lemma Int_part_bounds : forall x, IZR (Int_part x) <= x < IZR (Int_part x) + 1.
Proof. intros. destruct (base_Int_part x). lra. Qed.

Lemma round_even_near : forall x, Rabs (IZR (round_even x) - x) <= 1 / 2.
Proof.
  intros x. unfold round_even. pose proof (Int_part_bounds (x + 1 / 2)) as H. set (z := Int_part (x + 1 / 2)) in *.
  destruct (Req_EM_T (IZR z) (x + 1 / 2)).
  - destruct (Z.even z).
    + apply Rabs_le. lra.
    + rewrite minus_IZR. apply Rabs_le. lra.
  - apply Rabs_le. lra.
Qed.

Lemma Rabs_le_both : forall x y, Rabs x <= y -> - y <= x <= y.
Proof. intros x y H. unfold Rabs in H. destruct (Rcase_abs x); lra. Qed.

Lemma round_even_nonneg : forall x, 0 <= x -> (0 <= round_even x)%Z.
Proof.
  intros x H. apply le_IZR. pose proof (Rabs_le_both _ _ (round_even_near x)).
  destruct (Z.lt_ge_cases (round_even x) 0) as [L|L]; [|apply IZR_le; auto].
  exfalso. unfold round_even in L. pose proof (Int_part_bounds (x + 1 / 2)) as B.
  set (z := Int_part (x + 1 / 2)) in *.
  assert (0 <= z)%Z.
  { assert (-1 < z)%Z; [|lia]. apply lt_IZR. lra. }
  destruct (Req_EM_T (IZR z) (x + 1 / 2)); [destruct (Z.even z) eqn:E|]; try lia.
  assert (z = 0%Z) by lia. rewrite H2 in E. discriminate.
Qed.

Lemma trunc_le : forall x, IZR (trunc x) <= x.
Proof. intros. unfold trunc. pose proof (Int_part_bounds x). lra. Qed.

(** ** Sorting and differences *)

Lemma zinsert_sorted_perm : forall x l, Permutation (x :: l) (zinsert_sorted x l).
Proof.
  induction l; simpl; auto. destruct (x <=? a)%Z; auto.
  eapply Permutation_trans; [apply perm_swap|]. constructor. auto.
Qed.
Lemma zsort_perm : forall l, Permutation l (zsort l).
Proof.
  induction l; simpl; auto. eapply Permutation_trans; [|apply zinsert_sorted_perm]. constructor. auto.
Qed.
Lemma zinsert_StronglySorted : forall x l, StronglySorted Z.le l -> StronglySorted Z.le (zinsert_sorted x l).
Proof.
  induction l; intros H; simpl; [repeat constructor|]. inversion H; subst.
  destruct (Z.leb_spec x a).
  - constructor; auto. constructor; auto. eapply Forall_impl; [|exact H3]. intros; lia.
  - constructor; auto. apply (Permutation_Forall (zinsert_sorted_perm x l)). constructor; [lia|auto].
Qed.
Lemma zsort_sorted : forall l, StronglySorted Z.le (zsort l).
Proof. induction l; simpl; [constructor|]. apply zinsert_StronglySorted; auto. Qed.

Lemma sorted_perm_unique : forall a b, StronglySorted Z.le a -> StronglySorted Z.le b -> Permutation a b -> a = b.
Proof.
  induction a as [|x a IH]; intros b Ha Hb P.
  - apply Permutation_nil in P. auto.
  - destruct b as [|y b]; [apply Permutation_sym, Permutation_nil in P; discriminate|].
    inversion Ha; inversion Hb; subst. rewrite Forall_forall in *.
    assert (x = y).
    { assert (In x (y :: b)) by (apply (Permutation_in _ P); left; auto).
      assert (In y (x :: a)) by (apply (Permutation_in _ (Permutation_sym P)); left; auto).
      destruct H; auto. destruct H0; auto. specialize (H2 y H0). specialize (H6 x H). lia. }
    subst y. f_equal. apply IH; auto. eapply Permutation_cons_inv; eauto.
Qed.

Lemma StronglySorted_app_end : forall l b, StronglySorted Z.le l -> Forall (fun v => (v <= b)%Z) l ->
  StronglySorted Z.le (l ++ [b]).
Proof.
  induction l; intros b H F; simpl; [repeat constructor|]. inversion H; inversion F; subst.
  constructor; auto. apply Forall_app. split; auto.
Qed.

Lemma zsort_cut : forall draw b, Forall (fun v => (0 <= v <= b)%Z) draw -> (0 <= b)%Z ->
  zsort (draw ++ [0; b])%Z = 0%Z :: zsort draw ++ [b].
Proof.
  intros draw b F Hb. apply sorted_perm_unique.
  - apply zsort_sorted.
  - assert (F' : Forall (fun v => (0 <= v <= b)%Z) (zsort draw)) by (apply (Permutation_Forall (zsort_perm draw)); auto).
    constructor.
    + apply StronglySorted_app_end; [apply zsort_sorted|]. eapply Forall_impl; [|exact F']. simpl; intros; lia.
    + apply Forall_app. split; [eapply Forall_impl; [|exact F']; simpl; intros; lia|repeat constructor; auto].
  - eapply Permutation_trans; [apply Permutation_sym, zsort_perm|].
    change (0%Z :: zsort draw ++ [b]) with ((0%Z :: zsort draw) ++ [b]).
    change [0%Z; b] with ([0%Z] ++ [b]). rewrite app_assoc. apply Permutation_app_tail.
    eapply Permutation_trans; [apply Permutation_app_comm|]. simpl. constructor. apply zsort_perm.
Qed.

Lemma zdiff_cons2 : forall a b t, zdiff (a :: b :: t) = (b - a)%Z :: zdiff (b :: t).
Proof. reflexivity. Qed.

Lemma zdiff_length : forall l, length (zdiff l) = (length l - 1)%nat.
Proof.
  induction l as [|a t IH]; auto. destruct t as [|b t]; auto. rewrite zdiff_cons2. simpl in *. rewrite IH. lia.
Qed.

Lemma zdiff_nth : forall l i, (S i < length l)%nat -> nth i (zdiff l) 0%Z = (nth (S i) l 0 - nth i l 0)%Z.
Proof.
  induction l as [|a t IH]; intros i H; [simpl in H; lia|]. destruct t as [|b t]; [simpl in H; lia|].
  rewrite zdiff_cons2. destruct i; [reflexivity|]. cbn [nth]. apply (IH i). simpl in *; lia.
Qed.

Lemma sorted_nth_le : forall l i j, StronglySorted Z.le l -> (i <= j)%nat -> (j < length l)%nat ->
  (nth i l 0 <= nth j l 0)%Z.
Proof.
  induction l as [|a t IH]; intros i j H Hij Hj; [simpl in Hj; lia|]. inversion H; subst.
  destruct i, j; simpl; try lia.
  - rewrite Forall_forall in H3. apply H3, nth_In. simpl in Hj; lia.
  - apply IH; auto; simpl in Hj; lia.
Qed.

Definition zlist_sum (l : list Z) : Z := fold_right Z.add 0%Z l.

Lemma zdiff_sum : forall l a, zlist_sum (zdiff (a :: l)) = (last (a :: l) 0 - a)%Z.
Proof.
  induction l as [|b t IH]; intros a; [simpl; lia|]. rewrite zdiff_cons2. unfold zlist_sum in *. cbn [fold_right].
  rewrite IH. cbn [last]. lia.
Qed.

(** ** What a Kraemer draw gives *)

Record split_ok (classes : nat) (bs low high : Z) (ps : list Z) : Prop := {
  sp_length : length ps = classes;
  sp_nonneg : Forall (fun v => (0 <= v)%Z) ps;
  sp_sum : zlist_sum ps = bs;
  sp_first : (2 <= classes)%nat -> (low <= nth 0 ps 0)%Z;
  sp_last : (2 <= classes)%nat -> (bs - high + 1 <= nth (classes - 1) ps 0)%Z;
  sp_middle : (2 <= classes)%nat -> (zlist_sum (middle ps) <= high - 1 - low)%Z
}.

Lemma zlist_sum_app : forall a b, zlist_sum (a ++ b) = (zlist_sum a + zlist_sum b)%Z.
Proof. unfold zlist_sum. induction a; intros; simpl; auto. rewrite IHa. lia. Qed.

Lemma middle_decompose : forall (l : list Z) n, length l = S (S n) ->
  l = nth 0 l 0%Z :: middle l ++ [nth (S n) l 0%Z].
Proof.
  intros l n H. destruct l as [|a t]; [discriminate|]. simpl in H. injection H as H. unfold middle. cbn [tl nth].
  f_equal. assert (t <> []) by (destruct t; [discriminate|congruence]).
  rewrite (app_removelast_last 0%Z H0) at 1. f_equal. f_equal.
  clear -H. revert n H. induction t as [|b t IH]; intros n H; [discriminate|].
  simpl in H. injection H as H. destruct t as [|c t]; [simpl in H; subst; auto|].
  destruct n; [discriminate|]. change (nth (S n) (b :: c :: t) 0%Z) with (nth n (c :: t) 0%Z).
  change (last (b :: c :: t) 0%Z) with (last (c :: t) 0%Z). apply IH. auto.
Qed.

Lemma draw_split : forall draw n bs low high, length draw = (n - 1)%nat -> (1 <= n)%nat ->
  Forall (fun v => (low <= v < high)%Z) draw -> (0 <= low)%Z -> (low < high)%Z -> (high <= bs)%Z ->
  split_ok n bs low high (zdiff (zsort (draw ++ [0; bs])%Z)).
Proof.
  intros draw n bs low high L Hn F H0 H1 H2.
  rewrite zsort_cut; [|eapply Forall_impl; [|exact F]; simpl; intros; lia|lia].
  set (s := zsort draw).
  assert (Ls : length s = (n - 1)%nat) by (unfold s; rewrite <- (Permutation_length (zsort_perm draw)); auto).
  assert (Fs : Forall (fun v => (low <= v < high)%Z) s) by (apply (Permutation_Forall (zsort_perm draw)); auto).
  assert (Ss : StronglySorted Z.le (0%Z :: s ++ [bs])).
  { constructor.
    - apply StronglySorted_app_end; [apply zsort_sorted|]. eapply Forall_impl; [|exact Fs]; simpl; intros; lia.
    - apply Forall_app. split; [eapply Forall_impl; [|exact Fs]; simpl; intros; lia|repeat constructor; lia]. }
  assert (Ll : length (0%Z :: s ++ [bs]) = S n) by (simpl; rewrite app_length; simpl; lia).
  assert (Lp : length (zdiff (0%Z :: s ++ [bs])) = n) by (rewrite zdiff_length, Ll; lia).
  assert (Sum : zlist_sum (zdiff (0%Z :: s ++ [bs])) = bs).
  { rewrite zdiff_sum. change (0%Z :: s ++ [bs]) with ((0%Z :: s) ++ [bs]). rewrite last_last. lia. }
  assert (First : (2 <= n)%nat -> (low <= nth 0 (zdiff (0%Z :: s ++ [bs])) 0)%Z).
  { intros H. rewrite zdiff_nth by lia. cbn [nth]. rewrite app_nth1 by lia.
    rewrite Forall_forall in Fs. specialize (Fs (nth 0 s 0%Z) (@nth_In Z 0 s 0%Z ltac:(lia))). lia. }
  assert (Last : (2 <= n)%nat -> (bs - high + 1 <= nth (n - 1) (zdiff (0%Z :: s ++ [bs])) 0)%Z).
  { intros H. rewrite zdiff_nth by lia.
    change (nth (S (n - 1)) (0%Z :: s ++ [bs]) 0%Z) with (nth (n - 1) (s ++ [bs]) 0%Z).
    rewrite (app_nth2 s) by lia. rewrite Ls, Nat.sub_diag. cbn [nth].
    replace (n - 1)%nat with (S (n - 2)) by lia. cbn [nth]. rewrite app_nth1 by lia.
    rewrite Forall_forall in Fs. specialize (Fs (nth (n - 2) s 0%Z) (@nth_In Z (n - 2) s 0%Z ltac:(lia))). lia. }
  split; auto.
  - apply Forall_forall. intros v Hv. apply (In_nth _ _ 0%Z) in Hv. destruct Hv as [i [Hi <-]].
    rewrite zdiff_nth by lia. pose proof (sorted_nth_le _ i (S i) Ss ltac:(lia) ltac:(lia)). lia.
  - intros H. specialize (First H). specialize (Last H).
    set (ps := zdiff (0%Z :: s ++ [bs])) in *. destruct n as [|[|n]]; try lia.
    pose proof (middle_decompose ps n Lp) as D. apply (f_equal zlist_sum) in D.
    change (zlist_sum (nth 0 ps 0%Z :: middle ps ++ [nth (S n) ps 0%Z]))
      with (nth 0 ps 0 + zlist_sum (middle ps ++ [nth (S n) ps 0%Z]))%Z in D.
    rewrite zlist_sum_app in D. change (zlist_sum [nth (S n) ps 0%Z]) with (nth (S n) ps 0 + 0)%Z in D.
    replace (S (S n) - 1)%nat with (S n) in Last by lia. lia.
Qed.

(** ** Filling a bag *)

Lemma positions_in : forall c y i, In i (positions c y) <-> (i < length y)%nat /\ nth i y 0%Z = c.
Proof.
  intros c y i. unfold positions. rewrite in_map_iff. split.
  - intros [[j v] [E H]]. simpl in E. subst j. apply filter_In in H. destruct H as [H Hc]. simpl in Hc.
    apply Z.eqb_eq in Hc. subst v.
    assert (G : forall y s, In (i, c) (combine (seq s (length y)) y) -> (s <= i < s + length y)%nat /\ nth (i - s) y 0%Z = c).
    { clear. induction y as [|v y IH]; intros s H; simpl in H; [contradiction|].
      destruct H as [H|H].
      - inversion H; subst. split; [simpl; lia|]. rewrite Nat.sub_diag. auto.
      - apply IH in H. destruct H as [H1 H2]. split; [simpl; lia|].
        replace (i - s)%nat with (S (i - S s)) by lia. auto. }
    apply G in H. rewrite Nat.sub_0_r in H. simpl in H. split; [lia|tauto].
  - intros [Hi E]. exists (i, c). split; auto. apply filter_In. split; [|simpl; apply Z.eqb_refl].
    assert (G : forall y s k, (k < length y)%nat -> In ((s + k)%nat, nth k y 0%Z) (combine (seq s (length y)) y)).
    { clear. induction y as [|v y IH]; intros s k H; simpl in H; [lia|]. simpl. destruct k.
      - left. rewrite Nat.add_0_r. auto.
      - right. replace (s + S k)%nat with (S s + k)%nat by lia. apply IH. lia. }
    rewrite <- E. apply (G y O i). auto.
Qed.

Lemma positions_nonempty : forall c y, In c y -> positions c y <> [].
Proof.
  intros c y H E. apply (In_nth _ _ 0%Z) in H. destruct H as [i [Hi Ei]].
  assert (In i (positions c y)) by (apply positions_in; auto). rewrite E in H. auto.
Qed.

Lemma write_length : forall p chunk col, (p + length chunk <= length col)%nat -> length (write p chunk col) = length col.
Proof. intros. unfold write. rewrite !app_length, firstn_length, skipn_length. lia. Qed.

Lemma write_firstn : forall p chunk col, (p + length chunk <= length col)%nat ->
  firstn (p + length chunk) (write p chunk col) = firstn p col ++ chunk.
Proof.
  intros. unfold write. rewrite app_assoc.
  assert (L : length (firstn p col ++ chunk) = (p + length chunk)%nat) by (rewrite app_length, firstn_length; lia).
  rewrite <- L, firstn_app, L, Nat.sub_diag, firstn_O, app_nil_r. rewrite <- L, firstn_all. auto.
Qed.

Definition total (counts : list (Z * Z)) : nat := list_sum (map (fun p => Z.to_nat (snd p)) counts).
Definition count_for (c : Z) (counts : list (Z * Z)) : nat :=
  list_sum (map (fun p => if Z.eq_dec (fst p) c then Z.to_nat (snd p) else O) counts).

Lemma zcount_all : forall c l, Forall (fun v => v = c) l -> zcount c l = length l.
Proof. induction 1; auto. rewrite zcount_cons. subst. destruct (Z.eq_dec c c); [simpl; lia|congruence]. Qed.
Lemma zcount_none : forall c l, Forall (fun v => v <> c) l -> zcount c l = O.
Proof. induction 1; auto. rewrite zcount_cons. destruct (Z.eq_dec x c); [congruence|simpl; lia]. Qed.

Lemma fill_spec : forall {G} (RG : rng G) y, rng_ok RG -> forall counts position column g,
  Forall (fun p => In (fst p) y /\ (0 <= snd p)%Z) counts -> (position + total counts = length column)%nat ->
  exists tail, fst (fill RG y counts position column g) = firstn position column ++ tail /\
    length tail = total counts /\ Forall (fun i => (i < length y)%nat) tail /\
    forall c, zcount c (bag_labels y tail) = count_for c counts.
Proof.
  intros G RG y OK. induction counts as [|[cls n] t IH]; intros position column g F T.
  - exists []. unfold total in T. simpl in *. rewrite firstn_all2 by lia. rewrite app_nil_r. repeat split; auto.
  - inversion F as [|? ? [Hin Hn] Ft]; subst. simpl in Hin, Hn. cbn [fill]. unfold total in T. cbn [map list_sum fold_right snd] in T.
    change (fold_right Nat.add 0%nat (map (fun p : Z * Z => Z.to_nat (snd p)) t)) with (total t) in T.
    destruct (Z.eqb_spec n 0) as [E|E].
    + subst n. destruct (IH position column g Ft ltac:(simpl in T; lia)) as [tail [E1 [E2 [E3 E4]]]].
      exists tail. split; auto. split; [unfold total; simpl; auto|]. split; auto.
      intros c. rewrite E4. unfold count_for. simpl. destruct (Z.eq_dec cls c); auto.
    + destruct (ok_choice RG OK (positions cls y) (Z.to_nat n) g (positions_nonempty _ _ Hin)) as [Lc Fc].
      destruct (r_choice RG (positions cls y) (Z.to_nat n) g) as [idx g'] eqn:Ec. simpl in Lc, Fc.
      destruct (IH (position + length idx)%nat (write position idx column) g' Ft) as [tail [E1 [E2 [E3 E4]]]].
      { rewrite write_length by lia. lia. }
      exists (idx ++ tail). rewrite E1, write_firstn by lia. split; [rewrite app_assoc; auto|].
      split; [rewrite app_length, E2, Lc; unfold total; reflexivity|].
      split.
      * apply Forall_app. split; auto. eapply Forall_impl; [|exact Fc]. simpl. intros i Hi. apply positions_in in Hi. tauto.
      * intros c. unfold bag_labels in *. rewrite map_app, zcount_app, E4. unfold count_for. cbn [map list_sum fold_right fst snd].
        f_equal. destruct (Z.eq_dec cls c) as [Ec'|Ec'].
        -- subst c. rewrite zcount_all, map_length; auto. apply Forall_forall. intros v Hv. apply in_map_iff in Hv.
           destruct Hv as [i [<- Hi]]. rewrite Forall_forall in Fc. apply Fc, positions_in in Hi. tauto.
        -- apply zcount_none. apply Forall_forall. intros v Hv. apply in_map_iff in Hv.
           destruct Hv as [i [<- Hi]]. rewrite Forall_forall in Fc. apply Fc, positions_in in Hi. destruct Hi; congruence.
Qed.

Lemma count_for_combine : forall classes ps i, NoDup classes -> length ps = length classes -> (i < length classes)%nat ->
  count_for (nth i classes 0%Z) (combine classes ps) = Z.to_nat (nth i ps 0%Z).
Proof.
  unfold count_for. induction classes as [|c t IH]; intros ps i N L Hi; [simpl in Hi; lia|].
  destruct ps as [|p ps]; [discriminate|]. inversion N; subst. simpl in L. injection L as L.
  cbn [combine map list_sum fold_right fst snd].
  change (fold_right Nat.add 0%nat) with list_sum.
  destruct i; cbn [nth].
  - destruct (Z.eq_dec c c); [|congruence].
    replace (list_sum _) with O; [lia|]. symmetry. clear -H1.
    revert ps. induction t as [|d t IH]; intros [|p ps]; auto. simpl.
    destruct (Z.eq_dec d c); [subst; exfalso; apply H1; left; auto|]. apply IH. intro; apply H1; right; auto.
  - destruct (Z.eq_dec c (nth i t 0%Z)) as [E|E].
    + exfalso. apply H1. rewrite E. apply nth_In. simpl in Hi; lia.
    + rewrite IH; auto. simpl in Hi; lia.
Qed.

Lemma total_combine : forall classes ps, length ps = length classes -> Forall (fun v => (0 <= v)%Z) ps ->
  total (combine classes ps) = Z.to_nat (zlist_sum ps).
Proof.
  unfold total, zlist_sum. induction classes as [|c t IH]; intros [|p ps] L F; try discriminate; auto.
  inversion F; subst. cbn [combine map list_sum fold_right snd]. change (fold_right Nat.add 0%nat) with list_sum.
  rewrite IH by auto. rewrite Z2Nat.inj_add; auto.
  clear -H2. induction H2; simpl; lia.
Qed.

(** One bag. *)
Lemma bag_honest : forall {G} (RG : rng G) y ps bs g, rng_ok RG -> (0 < bs)%nat ->
  length ps = length (np_unique y) -> Forall (fun v => (0 <= v)%Z) ps -> zlist_sum ps = Z.of_nat bs ->
  let b := (map (fun n => IZR n / INR bs) ps, fst (fill RG y (combine (np_unique y) ps) 0 (repeat O bs) g)) in
  honest_bag y bs b /\
  forall i, (i < length (np_unique y))%nat -> class_size y i b = Z.to_nat (nth i ps 0%Z).
Proof.
  intros G RG y ps bs g OK Hb L F S1 b.
  destruct (fill_spec RG y OK (combine (np_unique y) ps) 0 (repeat O bs) g) as [tail [E [Lt [Ft Ct]]]].
  - apply Forall_forall. intros [c n] H. simpl. split.
    + apply in_combine_l in H. apply np_unique_in; auto.
    + apply in_combine_r in H. rewrite Forall_forall in F. auto.
  - rewrite total_combine by auto. rewrite S1, Nat2Z.id, repeat_length. lia.
  - simpl in E. rewrite total_combine, S1, Nat2Z.id in Lt by auto.
    assert (C : forall i, (i < length (np_unique y))%nat -> class_size y i b = Z.to_nat (nth i ps 0%Z)).
    { intros i Hi. unfold class_size, b. cbn [snd]. rewrite E, Ct. apply count_for_combine; auto. apply np_unique_NoDup. }
    split; auto. unfold honest_bag, b. cbn [fst snd]. rewrite E.
    split; [auto|]. split; [auto|]. split; [rewrite map_length; auto|].
    intros i Hi. unfold fraction, bag_labels. rewrite map_length, Lt.
    specialize (C i Hi). unfold class_size, b, bag_labels in C. cbn [snd] in C. rewrite E in C. rewrite C.
    rewrite (nth_indep _ 0 ((fun n => IZR n / INR bs) 0%Z)) by (rewrite map_length; lia).
    rewrite (map_nth (fun n => IZR n / INR bs)). f_equal.
    rewrite INR_IZR_INZ, Z2Nat.id; auto. rewrite Forall_forall in F. apply F, nth_In. lia.
Qed.

(** ** The loop *)

Lemma np_unique_nonempty : forall y, y <> [] -> (1 <= length (np_unique y))%nat.
Proof.
  intros [|a y] H; [congruence|]. assert (In a (np_unique (a :: y))) by (apply np_unique_in; left; auto).
  destruct (np_unique (a :: y)); [destruct H0|simpl; lia].
Qed.

Definition drawn_bag (y : list Z) (bs : nat) (mins : option (list Z)) (low high : Z) (b : bag) : Prop :=
  honest_bag y bs b /\
  exists ps, split_ok (length (np_unique y)) (Z.of_nat bs) low high ps /\ accepted mins ps = true /\
    forall i, (i < length (np_unique y))%nat -> class_size y i b = Z.to_nat (nth i ps 0%Z).

Lemma uniform_loop_spec : forall {G} (RG : rng G) y bs mins low high, rng_ok RG -> y <> [] -> (0 < bs)%nat ->
  (0 <= low)%Z -> (high <= Z.of_nat bs)%Z ->
  forall fuel left g bags g', uniform_loop RG y (np_unique y) bs mins low high fuel left g = Some (Val bags, g') ->
  length bags = left /\ Forall (drawn_bag y bs mins low high) bags /\ (left <> O -> (low < high)%Z).
Proof.
  intros G RG y bs mins low high OK Hy Hbs Hlow Hhigh.
  induction fuel as [|fuel IH]; intros left g bags g' H.
  - destruct left; [|discriminate]. simpl in H. inversion H; subst. repeat split; auto; congruence.
  - destruct left; [simpl in H; inversion H; subst; repeat split; auto; congruence|].
    cbn [uniform_loop] in H. destruct (Z.ltb_spec low high) as [Hlh|Hlh]; [|discriminate].
    destruct (ok_randint RG OK low high (length (np_unique y) - 1) g Hlh) as [Ld Fd].
    destruct (r_randint RG low high (length (np_unique y) - 1) g) as [draw g1]. simpl in Ld, Fd.
    pose proof (draw_split draw (length (np_unique y)) (Z.of_nat bs) low high Ld (np_unique_nonempty y Hy) Fd Hlow Hlh Hhigh) as Sp.
    set (ps := zdiff (zsort (draw ++ [0%Z; Z.of_nat bs]))) in *.
    destruct (accepted mins ps) eqn:Acc.
    + pose proof (bag_honest RG y ps bs g1 OK Hbs (sp_length _ _ _ _ _ Sp) (sp_nonneg _ _ _ _ _ Sp) (sp_sum _ _ _ _ _ Sp)) as B.
      destruct (fill RG y (combine (np_unique y) ps) 0 (repeat O bs) g1) as [idx g2]. cbn [fst] in B.
      destruct B as [B1 B2].
      destruct (uniform_loop RG y (np_unique y) bs mins low high fuel left g2) as [[[rest|e|] g3]|] eqn:E; try discriminate.
      assert (bags = (map (fun n => IZR n / INR bs) ps, idx) :: rest) by congruence. subst bags.
      apply IH in E. destruct E as [E1 [E2 _]]. repeat split; [simpl; lia| |auto].
      constructor; auto. split; auto. exists ps. auto.
    + apply IH in H. destruct H as [H1 [H2 _]]. auto.
Qed.

Lemma check_scalar : forall v, check_min_prevalence (MPScalar v) = Val tt -> 0 <= v <= 1.
Proof. intros v H. simpl in H. destruct (Rlt_dec 1 v); [discriminate|]. destruct (Rlt_dec v 0); [discriminate|]. lra. Qed.

Lemma check_vector : forall v, check_min_prevalence (MPVector v) = Val tt -> Forall (fun x => 0 <= x) v /\ rsum v <= 1.
Proof.
  intros v H. simpl in H. destruct (Rlt_dec 1 (rsum v)); [discriminate|].
  destruct (existsb _ v) eqn:E; [discriminate|]. split; [|lra]. apply Forall_forall. intros x Hx.
  destruct (Rlt_dec x 0) eqn:D; [|lra]. exfalso.
  assert (existsb (fun x => if Rlt_dec x 0 then true else false) v = true); [|congruence].
  apply existsb_exists. exists x. rewrite D. auto.
Qed.

Lemma limits_range : forall mp bs n mins low high, check_min_prevalence mp = Val tt -> one_per_class mp n -> (1 <= n)%nat ->
  limits mp bs n = (mins, low, high) -> (0 <= low)%Z /\ (high <= Z.of_nat bs)%Z.
Proof.
  intros mp bs n mins low high C O Hn L. pose proof (pos_INR bs) as Pb. destruct mp as [|v|v]; unfold limits in L.
  - inversion L; subst. lia.
  - apply check_scalar in C. destruct (Nat.eqb n 2).
    + inversion L; subst. split; [apply round_even_nonneg; nra|]. apply le_IZR. rewrite <- INR_IZR_INZ.
      eapply Rle_trans; [apply trunc_le|]. nra.
    + destruct n; [lia|].
      assert (R0 : (0 <= round_even (1 * v * INR bs))%Z) by (apply round_even_nonneg; nra).
      assert (Hl : last (repeat (round_even (1 * v * INR bs)) (S n)) 0%Z = round_even (1 * v * INR bs)).
      { clear. induction n; auto. }
      assert (E2 : hd 0%Z (repeat (round_even (1 * v * INR bs)) (S n)) = low) by congruence.
      assert (E3 : (Z.of_nat bs - last (repeat (round_even (1 * v * INR bs)) (S n)) 0)%Z = high) by congruence.
      rewrite Hl in E3. simpl in E2. lia.
  - apply check_vector in C. destruct C as [C _]. simpl in O.
    assert (N : forall i, (i < n)%nat -> 0 <= nth i v 0).
    { intros i Hi. rewrite Forall_forall in C. apply C, nth_In. lia. }
    destruct (Nat.eqb_spec n 2).
    + inversion L; subst. split; [apply round_even_nonneg; pose proof (N 0%nat ltac:(lia)); nra|].
      apply le_IZR. rewrite <- INR_IZR_INZ. eapply Rle_trans; [apply trunc_le|]. pose proof (N 1%nat ltac:(lia)); nra.
    + assert (P : Forall (fun z => (0 <= z)%Z) (map (fun x => round_even (x * INR bs)) v)).
      { apply Forall_forall. intros z Hz. apply in_map_iff in Hz. destruct Hz as [x [<- Hx]].
        apply round_even_nonneg. rewrite Forall_forall in C. specialize (C x Hx). nra. }
      destruct (map (fun x => round_even (x * INR bs)) v) as [|a t] eqn:E.
      { apply (f_equal (@length Z)) in E. rewrite map_length in E. simpl in E. lia. }
      assert (El : low = a) by (simpl in L; congruence).
      assert (Eh : high = (Z.of_nat bs - last (a :: t) 0)%Z) by congruence. subst low high.
      assert (HL : (0 <= last (a :: t) 0)%Z).
      { assert (In (last (a :: t) 0%Z) (a :: t)).
        { destruct (exists_last (l := a :: t) ltac:(congruence)) as [l' [x Hx]]. rewrite Hx, last_last.
          apply in_or_app. right. left. auto. }
        rewrite Forall_forall in P. auto. }
      split; [|lia]. inversion P; subst. auto.
Qed.

Lemma middle_length : forall {A} (l : list A), length (middle l) = (length l - 2)%nat.
Proof.
  intros. unfold middle. destruct l as [|a t]; auto. cbn [tl].
  rewrite removelast_firstn_len, firstn_length. simpl. lia.
Qed.

Lemma middle_nth : forall {A} (l : list A) d i, (S (S i) < length l)%nat -> nth i (middle l) d = nth (S i) l d.
Proof.
  intros A l d i H. destruct l as [|a t]; [simpl in H; lia|]. unfold middle. cbn [tl nth]. simpl in H.
  assert (t <> []) by (destruct t; [simpl in H; lia|congruence]).
  rewrite (app_removelast_last d H0) at 2. rewrite app_nth1; auto.
  rewrite removelast_firstn_len, firstn_length. lia.
Qed.

Lemma accepted_middle : forall m ps i, accepted (Some m) ps = true -> length m = length ps ->
  (1 <= i)%nat -> (S i < length ps)%nat -> (nth i m 0 <= nth i ps 0)%Z.
Proof.
  intros m ps i A L H1 H2. simpl in A. rewrite forallb_forall in A. destruct i; [lia|].
  specialize (A (nth i (combine (middle ps) (middle m)) (0%Z, 0%Z))).
  rewrite combine_nth in A by (rewrite !middle_length; lia). simpl in A.
  rewrite !middle_nth in A by lia. apply Z.leb_le. apply A.
  replace (nth (S i) ps 0%Z, nth (S i) m 0%Z) with (nth i (combine (middle ps) (middle m)) (0%Z, 0%Z)).
  - apply nth_In. rewrite combine_length, !middle_length. lia.
  - rewrite combine_nth by (rewrite !middle_length; lia). rewrite !middle_nth by lia. auto.
Qed.

Lemma last_nth : forall (l : list Z), last l 0%Z = nth (length l - 1) l 0%Z.
Proof.
  induction l as [|a t IH]; auto. destruct t as [|b t]; auto.
  change (last (a :: b :: t) 0%Z) with (last (b :: t) 0%Z). rewrite IH. simpl. rewrite Nat.sub_0_r. auto.
Qed.
Lemma hd_nth0 : forall (l : list Z), hd 0%Z l = nth 0 l 0%Z.
Proof. destruct l; auto. Qed.

Lemma nth_zlist_le_sum : forall l, Forall (fun v => (0 <= v)%Z) l -> forall i, (nth i l 0 <= zlist_sum l)%Z.
Proof.
  unfold zlist_sum. induction 1; intros i; [destruct i; simpl; lia|].
  assert (0 <= fold_right Z.add 0 l)%Z by (clear -H0; induction H0; simpl; lia).
  destruct i; simpl; [lia|]. specialize (IHForall i). lia.
Qed.

Lemma multi_minimum : forall m bs n ps, length m = n -> n <> 2%nat -> (1 <= n)%nat ->
  Forall (fun v => (0 <= v)%Z) m -> (hd 0 m < bs - last m 0)%Z ->
  split_ok n bs (hd 0%Z m) (bs - last m 0)%Z ps -> accepted (Some m) ps = true ->
  forall i, (i < n)%nat -> (nth i m 0 <= nth i ps 0)%Z.
Proof.
  intros m bs n ps Lm N2 Hn Fm Hlh Sp A i Hi. pose proof (sp_length _ _ _ _ _ Sp) as Lp.
  rewrite hd_nth0, last_nth in *. rewrite Lm in *.
  destruct (Nat.eq_dec n 1) as [E|E].
  - subst n. rewrite E in *. assert (i = O) by lia. subst i. destruct ps as [|p [|q ps]]; try (simpl in Lp; lia).
    pose proof (sp_sum _ _ _ _ _ Sp) as S1. simpl in S1. simpl in Hlh. simpl.
    rewrite Forall_forall in Fm. pose proof (Fm (nth 0 m 0%Z) (@nth_In Z 0 m 0%Z ltac:(lia))). lia.
  - destruct (Nat.eq_dec i 0) as [E0|E0]; [subst i; apply (sp_first _ _ _ _ _ Sp); lia|].
    destruct (Nat.eq_dec i (n - 1)) as [E1|E1].
    + subst i. pose proof (sp_last _ _ _ _ _ Sp ltac:(lia)). lia.
    + apply accepted_middle; auto; lia.
Qed.

Lemma minimum_met : forall mp bs n mins low high ps, check_min_prevalence mp = Val tt -> one_per_class mp n -> (1 <= n)%nat ->
  limits mp bs n = (mins, low, high) -> (low < high)%Z -> split_ok n (Z.of_nat bs) low high ps -> accepted mins ps = true ->
  forall i, (i < n)%nat -> (round_even (INR bs * minimum_for mp i) <= nth i ps 0)%Z.
Proof.
  intros mp bs n mins low high ps C O Hn L Hlh Sp A i Hi.
  pose proof (sp_length _ _ _ _ _ Sp) as Lp.
  assert (Binary : forall v0 v1, n = 2%nat -> low = round_even (INR bs * v0) -> high = trunc (INR bs * (1 - v1)) ->
    (round_even (INR bs * (if Nat.eqb i 0 then v0 else v1)) <= nth i ps 0)%Z).
  { intros v0 v1 E El Eh. subst n. destruct i as [|[|i]]; try lia; simpl Nat.eqb; cbv iota.
    - rewrite <- El. apply (sp_first _ _ _ _ _ Sp). lia.
    - pose proof (sp_last _ _ _ _ _ Sp ltac:(lia)) as H. rewrite E in H. simpl in H.
      assert (round_even (INR bs * v1) <= Z.of_nat bs - high + 1)%Z; [|lia].
      apply le_IZR. rewrite plus_IZR, minus_IZR, <- INR_IZR_INZ, Eh.
      pose proof (Rabs_le_both _ _ (round_even_near (INR bs * v1))). pose proof (trunc_le (INR bs * (1 - v1))). lra. }
  destruct mp as [|v|v]; unfold limits in L; cbn [minimum_for].
  - rewrite Rmult_0_r. replace (round_even 0) with 0%Z.
    + pose proof (sp_nonneg _ _ _ _ _ Sp) as F. rewrite Forall_forall in F. apply F, nth_In. lia.
    + pose proof (round_even_nonneg 0 ltac:(lra)). pose proof (Rabs_le_both _ _ (round_even_near 0)) as B.
      assert (round_even 0 < 1)%Z; [|lia]. apply lt_IZR. lra.
  - destruct (Nat.eqb_spec n 2).
    + inversion L; subst mins low high. specialize (Binary v v e eq_refl eq_refl). destruct (Nat.eqb i 0); auto.
    + inversion L; subst mins low high.
      pose proof (check_scalar _ C).
      assert (E : nth i (repeat (round_even (1 * v * INR bs)) n) 0%Z = round_even (INR bs * v)).
      { rewrite (nth_indep _ 0%Z (round_even (1 * v * INR bs))) by (rewrite repeat_length; auto). rewrite nth_repeat.
        f_equal. ring. }
      rewrite <- E.
      apply (multi_minimum _ (Z.of_nat bs) n ps); auto.
      * apply repeat_length.
      * apply Forall_forall. intros z Hz. apply repeat_spec in Hz. subst z. apply round_even_nonneg.
        pose proof (pos_INR bs). nra.
  - destruct (Nat.eqb_spec n 2).
    + inversion L; subst mins low high. specialize (Binary (nth 0 v 0) (nth 1 v 0) e eq_refl eq_refl).
      destruct i as [|[|i]]; auto; lia.
    + inversion L; subst mins low high. simpl in O. destruct (check_vector _ C) as [P _].
      assert (E : nth i (map (fun x => round_even (x * INR bs)) v) 0%Z = round_even (INR bs * nth i v 0)).
      { rewrite (nth_indep _ 0%Z ((fun x => round_even (x * INR bs)) 0)) by (rewrite map_length; lia).
        rewrite (map_nth (fun x => round_even (x * INR bs))). f_equal. ring. }
      rewrite <- E. apply (multi_minimum _ (Z.of_nat bs) n ps); auto.
      * rewrite map_length; auto.
      * apply Forall_forall. intros z Hz. apply in_map_iff in Hz. destruct Hz as [x [<- Hx]].
        apply round_even_nonneg. rewrite Forall_forall in P. specialize (P x Hx). pose proof (pos_INR bs). nra.
Qed.

Theorem uniform_bags : forall {G} (RG : rng G) y n_bags bs mp fuel g bags g', rng_ok RG -> y <> [] -> (0 < bs)%nat ->
  one_per_class mp (length (np_unique y)) ->
  generate_uniform RG y n_bags bs mp fuel g = Some (Val bags, g') ->
  length bags = n_bags /\
  Forall (fun b => honest_bag y bs b /\
                   (forall i, (i < length (np_unique y))%nat ->
                     (round_even (INR bs * minimum_for mp i) <= Z.of_nat (class_size y i b))%Z) /\
                   ((2 <= length (np_unique y))%nat -> (1 <= class_size y (length (np_unique y) - 1) b)%nat)) bags.
Proof.
  intros G RG y n_bags bs mp fuel g bags g' OK Hy Hb O H. unfold generate_uniform in H.
  destruct (check_min_prevalence mp) as [u|e|] eqn:C; try discriminate. destruct u.
  destruct (limits mp bs (length (np_unique y))) as [[mins low] high] eqn:L.
  pose proof (np_unique_nonempty y Hy) as Hn.
  destruct (limits_range mp bs _ mins low high C O Hn L) as [R1 R2].
  destruct (uniform_loop_spec RG y bs mins low high OK Hy Hb R1 R2 fuel n_bags g bags g' H) as [E1 [E2 E3]].
  split; auto. apply Forall_forall. intros b Hin. rewrite Forall_forall in E2.
  assert (Hlh : (low < high)%Z). { apply E3. destruct n_bags; [|lia]. destruct bags; [destruct Hin|discriminate]. }
  destruct (E2 b Hin) as [B1 [ps [Sp [Acc Cs]]]]. split; auto. split.
  - intros i Hi. rewrite Cs by auto. rewrite Z2Nat.id.
    + apply (minimum_met mp bs (length (np_unique y)) mins low high); auto.
    + pose proof (sp_nonneg _ _ _ _ _ Sp) as F. rewrite Forall_forall in F. apply F, nth_In.
      rewrite (sp_length _ _ _ _ _ Sp). auto.
  - intros H2. rewrite Cs by lia. pose proof (sp_last _ _ _ _ _ Sp H2). lia.
Qed.

(** ** Dirichlet *)

Lemma dirichlet_counts_spec : forall p bs pos, p <> [] -> Forall (fun x => 0 <= x) p -> (pos <= bs)%nat ->
  length (dirichlet_counts p bs pos) = length p /\ Forall (fun v => (0 <= v)%Z) (dirichlet_counts p bs pos) /\
  zlist_sum (dirichlet_counts p bs pos) = (Z.of_nat bs - Z.of_nat pos)%Z.
Proof.
  induction p as [|x t IH]; intros bs pos Hp F Hpos; [congruence|]. inversion F; subst.
  destruct t as [|x' t].
  - simpl. split; auto. split; [repeat constructor; lia|unfold zlist_sum; simpl; lia].
  - set (n := Z.min (Z.of_nat bs - Z.of_nat pos) (round_even (x * INR bs))).
    assert (0 <= n)%Z. { unfold n. apply Z.min_glb; [lia|]. apply round_even_nonneg. pose proof (pos_INR bs). nra. }
    assert (n <= Z.of_nat bs - Z.of_nat pos)%Z by (unfold n; lia).
    change (dirichlet_counts (x :: x' :: t) bs pos) with (n :: dirichlet_counts (x' :: t) bs (pos + Z.to_nat n)).
    destruct (IH bs (pos + Z.to_nat n)%nat) as [E1 [E2 E3]]; auto; [congruence|lia|].
    split; [cbn [length] in *; lia|]. split; [constructor; auto|].
    unfold zlist_sum in *. cbn [fold_right]. rewrite E3. lia.
Qed.

Lemma dirichlet_bags_spec : forall {G} (RG : rng G) y bs, rng_ok RG -> (0 < bs)%nat -> y <> [] ->
  forall rows g, distributions (length (np_unique y)) rows ->
  length (fst (dirichlet_bags RG y (np_unique y) bs rows g)) = length rows /\
  Forall (honest_bag y bs) (fst (dirichlet_bags RG y (np_unique y) bs rows g)).
Proof.
  intros G RG y bs OK Hb Hy. induction rows as [|p t IH]; intros g D; [simpl; auto|].
  inversion D; subst. cbn [dirichlet_bags].
  destruct H1 as [Lp [P1 P2]]. pose proof (np_unique_nonempty y Hy).
  destruct (dirichlet_counts_spec p bs 0) as [E1 [E2 E3]]; auto; [destruct p; [simpl in Lp; lia|congruence]|lia|].
  pose proof (bag_honest RG y (dirichlet_counts p bs 0) bs g OK Hb ltac:(lia) E2 ltac:(lia)) as B. cbv zeta in B.
  destruct (fill RG y (combine (np_unique y) (dirichlet_counts p bs 0)) 0 (repeat O bs) g) as [idx g1]. cbn [fst] in B.
  destruct B as [B1 _]. specialize (IH g1 H2).
  destruct (dirichlet_bags RG y (np_unique y) bs t g1) as [rest g2]. cbn [fst] in *. destruct IH.
  split; [simpl; lia|constructor; auto].
Qed.

Lemma effective_alphas_ok : forall a n al, effective_alphas a n = Val al -> length al = n /\ Forall (fun x => 0 < x) al.
Proof.
  intros a n al H. unfold effective_alphas in H.
  assert (Pos : forall l, (if existsb (fun x => if Rle_dec x 0 then true else false) l then Err ValueError else Val l) = Val al ->
                l = al /\ Forall (fun x => 0 < x) al).
  { intros l Hl. destruct (existsb _ l) eqn:E; [discriminate|]. inversion Hl; subst. split; auto.
    apply Forall_forall. intros x Hx. destruct (Rle_dec x 0) eqn:D; [|lra]. exfalso.
    assert (existsb (fun x => if Rle_dec x 0 then true else false) al = true); [|congruence].
    apply existsb_exists. exists x. rewrite D. auto. }
  destruct a; try discriminate.
  - apply Pos in H. destruct H as [<- H]. split; auto. apply repeat_length.
  - destruct (Nat.eqb_spec (length a) n); [|discriminate]. apply Pos in H. destruct H as [<- H]. auto.
Qed.

Theorem dirichlet_honest : forall {G} (RG : rng G) y n_bags bs a global g bags global' g', rng_ok RG -> y <> [] -> (0 < bs)%nat ->
  generate_dirichlet RG y n_bags bs a global g = (Val bags, global', g') ->
  length bags = n_bags /\ Forall (honest_bag y bs) bags.
Proof.
  intros G RG y n_bags bs a global g bags global' g' OK Hy Hb H. unfold generate_dirichlet in H.
  destruct (effective_alphas a (length (np_unique y))) as [al|e|] eqn:E; try congruence.
  destruct (effective_alphas_ok _ _ _ E) as [La Pa]. pose proof (np_unique_nonempty y Hy).
  destruct (ok_dirichlet RG OK al n_bags global) as [D1 D2]; auto; [destruct al; [simpl in La; lia|congruence]|].
  destruct (r_dirichlet RG al n_bags global) as [rows gl]. cbn [fst] in *. rewrite La in D2.
  pose proof (dirichlet_bags_spec RG y bs OK Hb Hy rows g D2) as B.
  destruct (dirichlet_bags RG y (np_unique y) bs rows g) as [bs' g2]. cbn [fst] in B.
  inversion H; subst. destruct B as [B1 B2]. split; auto; lia.
Qed.
