(** * Proofs about the metrics: geometric mean, binary scores, permutations, matrices. *)

From Coq Require Import Reals List ZArith Lia Lra Permutation Bool.
From Verif Require Import Num Spec Spec_Metrics L_Num M_Metrics L_Metrics L_Metrics2.
Import ListNotations.
Open Scope R_scope.

(** ** C30: geometric mean *)

Lemma tp_le : forall c yt yp, length yt = length yp -> (tp_count c yt yp <= zcount c yt)%nat.
Proof.
  unfold tp_count, zcount. induction yt; destruct yp; simpl; intros; try discriminate; auto.
  specialize (IHyt yp ltac:(lia)).
  destruct (Z.eqb_spec a z); simpl.
  - destruct (Z.eqb_spec a c); destruct (Z.eq_dec a c); simpl; try congruence; lia.
  - destruct (Z.eq_dec a c); simpl; lia.
Qed.

Lemma recall_range : forall yt yp c, length yt = length yp -> 0 <= recall 0 yt yp c <= 1.
Proof.
  intros. unfold recall. destruct (Req_EM_T _ 0); [lra|].
  destruct (Nat.eqb_spec (zcount c yt) 0); [lra|].
  pose proof (tp_le c yt yp H). pose proof (INR_pos (zcount c yt) ltac:(lia)).
  apply le_INR in H0. pose proof (pos_INR (tp_count c yt yp)). split.
  - apply Rmult_le_pos; [auto|left; apply Rinv_0_lt_compat; auto].
  - apply (Rmult_le_reg_r (INR (zcount c yt))); auto. field_simplify; lra.
Qed.

Lemma tp_pos : forall c yt yp, (0 < tp_count c yt yp)%nat <-> exists i, nth_error yt i = Some c /\ nth_error yp i = Some c.
Proof.
  unfold tp_count. induction yt; destruct yp; simpl.
  1-3: split; [lia|intros [[|i] [E1 E2]]; simpl in *; discriminate].
  destruct (andb (Z.eqb a z) (Z.eqb a c)) eqn:E; simpl.
  - split; [|lia]. intros _. apply andb_prop in E. destruct E as [E1 E2].
    apply Z.eqb_eq in E1, E2. subst. exists O; auto.
  - rewrite IHyt. split; intros [i [E1 E2]]; [exists (S i); auto|].
    destruct i; simpl in *; [|exists i; auto].
    inversion E1; inversion E2; subst. rewrite Z.eqb_refl in E; discriminate.
Qed.

Lemma recall_zero : forall yt yp c, length yt = length yp ->
  (recall 0 yt yp c = 0 <-> ~ exists i, nth_error yt i = Some c /\ nth_error yp i = Some c).
Proof.
  intros. rewrite <- tp_pos. pose proof (tp_le c yt yp H). unfold recall.
  destruct (Nat.eqb_spec (zcount c yt) 0).
  - destruct (Req_EM_T 0 0); split; intros; auto; try lia; try lra.
  - pose proof (INR_pos (zcount c yt) ltac:(lia)).
    destruct (Req_EM_T _ 0) as [E|E].
    + split; auto. intros _ Ht. apply INR_pos in Ht.
      pose proof (Rdiv_lt_0_compat _ _ Ht H1). lra.
    + split; [tauto|]. intros Ht. exfalso. apply E. replace (tp_count c yt yp) with O by lia. simpl. field. lra.
Qed.

Lemma tp_all : forall c yt yp, length yt = length yp -> tp_count c yt yp = zcount c yt ->
  forall i, nth_error yt i = Some c -> nth_error yp i = Some c.
Proof.
  unfold tp_count, zcount. induction yt; destruct yp; simpl; intros; try discriminate.
  - destruct i; discriminate.
  - pose proof (tp_le c yt yp ltac:(lia)) as Hle. unfold tp_count, zcount in Hle.
    destruct (Z.eqb_spec a z); destruct (Z.eqb_spec a c); destruct (Z.eq_dec a c); simpl in *; try congruence;
    destruct i; simpl in *; try congruence; try lia; apply IHyt; auto; lia.
Qed.

Lemma tp_same : forall c y, tp_count c y y = zcount c y.
Proof.
  unfold tp_count, zcount. induction y; simpl; auto.
  rewrite Z.eqb_refl. simpl. destruct (Z.eqb_spec a c); destruct (Z.eq_dec a c); simpl; congruence.
Qed.

Lemma nth_error_ext_list : forall {A} (a b : list A), length a = length b ->
  (forall i c, nth_error a i = Some c -> nth_error b i = Some c) -> a = b.
Proof.
  induction a; destruct b; simpl; intros; try discriminate; auto.
  pose proof (H0 O a eq_refl) as E. inversion E; subst. f_equal. apply IHa; [lia|].
  intros i c Hc. apply (H0 (S i) c Hc).
Qed.

Lemma recall_one : forall yt yp c, length yt = length yp -> recall 0 yt yp c = 1 ->
  forall i, nth_error yt i = Some c -> nth_error yp i = Some c.
Proof.
  intros yt yp c Hl H. apply tp_all; auto. unfold recall in H.
  destruct (Req_EM_T _ 0); [lra|]. destruct (Nat.eqb_spec (zcount c yt) 0); [lra|].
  pose proof (INR_pos (zcount c yt) ltac:(lia)).
  apply INR_eq. apply (Rmult_eq_compat_r (INR (zcount c yt))) in H. field_simplify in H; lra.
Qed.

Lemma rsum_nonpos_zero : forall l, Forall (fun x => x <= 0) l -> rsum l <= 0 /\ (rsum l = 0 -> Forall (fun x => x = 0) l).
Proof.
  induction 1; simpl; [split; [lra|constructor]|]. destruct IHForall as [H1 H2].
  split; [lra|]. intros. apply Forall_cons; [lra|apply H2; lra].
Qed.

Lemma gmean_unit : forall l, l <> [] -> Forall (fun x => 0 <= x <= 1) l ->
  exists g, gmean l = Val g /\ 0 <= g <= 1 /\ (g = 0 <-> In 0 l) /\ (g = 1 <-> Forall (fun x => x = 1) l).
Proof.
  intros l Hne Hl. unfold gmean. rewrite Forall_forall in Hl.
  destruct (existsb (fun x => if Rlt_dec x 0 then true else false) l) eqn:E1.
  - apply existsb_exists in E1. destruct E1 as [x [Hx E]]. specialize (Hl x Hx).
    destruct (Rlt_dec x 0); [lra|discriminate].
  - destruct (existsb (fun x => if Req_EM_T x 0 then true else false) l) eqn:E2.
    + apply existsb_exists in E2. destruct E2 as [x [Hx E]]. destruct (Req_EM_T x 0); [|discriminate]. subst.
      exists 0. repeat split; auto; try lra. intros HF. rewrite Forall_forall in HF. specialize (HF 0 Hx). lra.
    + assert (Hpos : forall x, In x l -> 0 < x).
      { intros x Hx. destruct (Req_EM_T x 0) as [->|]; [|specialize (Hl x Hx); lra].
        assert (existsb (fun x => if Req_EM_T x 0 then true else false) l = true); [|congruence].
        apply existsb_exists. exists 0. split; auto. destruct (Req_EM_T 0 0); auto; lra. }
      assert (Hln : Forall (fun x => x <= 0) (map ln l)).
      { apply Forall_map, Forall_forall. intros x Hx. rewrite <- ln_1.
        specialize (Hl x Hx). destruct (Req_dec x 1); [subst; lra|]. left. apply ln_increasing; auto; lra. }
      destruct (rsum_nonpos_zero _ Hln) as [Hs Hz].
      assert (Hn : 0 < INR (length l)) by (apply INR_pos; destruct l; [congruence|simpl; lia]).
      exists (exp (rmean (map ln l))). split; [destruct l; [congruence|auto]|].
      unfold rmean. rewrite map_length.
      assert (Hm : rsum (map ln l) / INR (length l) <= 0).
      { unfold Rdiv. pose proof (Rinv_0_lt_compat _ Hn). nra. }
      split; [|split].
      * split; [left; apply exp_pos|]. rewrite <- exp_0. destruct Hm as [Hm| ->]; [left; apply exp_increasing; auto|lra].
      * split; intros H; [pose proof (exp_pos (rsum (map ln l) / INR (length l))); lra|].
        specialize (Hpos 0 H). lra.
      * split; intros H.
        -- rewrite <- exp_0 in H. apply exp_inv in H.
           assert (H0 : rsum (map ln l) = 0).
           { apply (Rmult_eq_compat_r (INR (length l))) in H. field_simplify in H; lra. }
           specialize (Hz H0). apply Forall_forall. intros x Hx. rewrite Forall_forall in Hz.
           apply ln_inv; auto; [lra|]. rewrite ln_1. apply Hz, in_map; auto.
        -- replace (rsum (map ln l)) with 0; [unfold Rdiv; rewrite Rmult_0_l; apply exp_0|].
           symmetry. clear -H. induction H; simpl; auto. subst. rewrite IHForall, ln_1. lra.
Qed.

Lemma geometric_mean_spec : forall yt yp, length yt = length yp -> yt <> [] ->
  exists g, geometric_mean 0 yt yp = Val g /\ 0 <= g <= 1 /\
    (g = 0 <-> exists c, (In c yt \/ In c yp) /\ ~ exists i, nth_error yt i = Some c /\ nth_error yp i = Some c) /\
    (g = 1 <-> yt = yp).
Proof.
  intros yt yp Hl Hne. unfold geometric_mean. set (L := np_unique (yt ++ yp)).
  assert (HL : forall c, In c L <-> In c yt \/ In c yp).
  { intros. unfold L. rewrite np_unique_in. apply in_app_iff. }
  destruct (gmean_unit (map (recall 0 yt yp) L)) as [g [Hg [Hr [H0 H1]]]].
  - destruct yt as [|a yt]; [congruence|]. assert (In a L) by (apply HL; simpl; auto).
    destruct L; [destruct H|simpl; congruence].
  - apply Forall_map, Forall_forall. intros. apply recall_range; auto.
  - exists g. split; auto. split; auto. split.
    + rewrite H0. rewrite in_map_iff. split.
      * intros [c [E Hc]]. exists c. split; [apply HL; auto|]. apply recall_zero; auto.
      * intros [c [Hc E]]. exists c. split; [apply recall_zero; auto|apply HL; auto].
    + rewrite H1. split.
      * intros HF. rewrite Forall_forall in HF.
        apply nth_error_ext_list; auto. intros i c E.
        apply (recall_one yt yp c); auto. apply HF, in_map. apply HL. left. eapply nth_error_In; eauto.
      * intros; subst yp. apply Forall_map, Forall_forall. intros c Hc. apply HL in Hc.
        assert (Hc' : In c yt) by tauto. assert (Hp : (0 < zcount c yt)%nat).
        { rewrite <- tp_same. apply tp_pos. apply In_nth_error in Hc'. destruct Hc' as [i Hi]. exists i; auto. }
        unfold recall. destruct (Nat.eqb_spec (zcount c yt) 0); [lia|]. rewrite tp_same.
        pose proof (INR_pos _ Hp). assert (E : INR (zcount c yt) / INR (zcount c yt) = 1) by (field; lra). rewrite E.
        destruct (Req_EM_T 1 0); lra.
Qed.

(** With a positive correction the geometric mean is never 0. *)
Lemma geometric_mean_correction : forall corr yt yp, 0 < corr -> length yt = length yp -> yt <> [] ->
  exists g, geometric_mean corr yt yp = Val g /\ 0 < g.
Proof.
  intros corr yt yp Hc Hl Hne. unfold geometric_mean. set (L := np_unique (yt ++ yp)).
  assert (HL : L <> []).
  { destruct yt as [|a yt]; [congruence|]. assert (In a L) by (apply np_unique_in; simpl; auto).
    destruct L; [destruct H|congruence]. }
  assert (Hpos : forall c, 0 < recall corr yt yp c).
  { intros. pose proof (recall_range yt yp c Hl) as Hr. unfold recall in *.
    destruct (Req_EM_T _ 0); [auto|]. lra. }
  exists (exp (rmean (map ln (map (recall corr yt yp) L)))). split; [|apply exp_pos].
  unfold gmean.
  replace (existsb (fun x => if Rlt_dec x 0 then true else false) (map (recall corr yt yp) L)) with false.
  2:{ symmetry. clear HL. induction L; simpl; auto. specialize (Hpos a). destruct (Rlt_dec _ 0); [lra|auto]. }
  replace (existsb (fun x => if Req_EM_T x 0 then true else false) (map (recall corr yt yp) L)) with false.
  2:{ symmetry. clear HL. induction L; simpl; auto. specialize (Hpos a). destruct (Req_EM_T _ 0); [lra|auto]. }
  destruct L; [congruence|reflexivity].
Qed.

(** ** C31: binary scores *)

Lemma max_half : forall p, 0 <= p <= 1 -> /2 <= Rmax p (1 - p) <= 1.
Proof. intros. unfold Rmax. destruct (Rle_dec p (1 - p)); lra. Qed.

Lemma ratio_range : forall p q, 0 <= p <= 1 -> 0 <= q <= 1 ->
  0 <= Rabs (q - p) / Rmax p (1 - p) <= 1 /\ (Rabs (q - p) / Rmax p (1 - p) = 0 <-> q = p).
Proof.
  intros p q Hp Hq. pose proof (max_half p Hp). pose proof (Rabs_pos (q - p)).
  assert (Rabs (q - p) <= Rmax p (1 - p)).
  { apply Rabs_le. unfold Rmax in *. destruct (Rle_dec p (1 - p)); lra. }
  split; [split|].
  - apply Rmult_le_pos; [auto|left; apply Rinv_0_lt_compat; lra].
  - apply (Rmult_le_reg_r (Rmax p (1 - p))); [lra|]. field_simplify; lra.
  - split; intros.
    + apply (Rmult_eq_compat_r (Rmax p (1 - p))) in H2. field_simplify in H2; [|lra].
      destruct (Req_dec (q - p) 0); [lra|]. apply Rabs_pos_lt in H3. lra.
    + subst. rewrite Rminus_diag_eq, Rabs_R0 by auto. unfold Rdiv; ring.
Qed.

Lemma nas_spec : forall p q, 0 <= p <= 1 -> 0 <= q <= 1 ->
  0 <= normalized_absolute_score p q <= 1 /\ (normalized_absolute_score p q = 1 <-> q = p).
Proof.
  intros p q Hp Hq. destruct (ratio_range p q Hp Hq) as [H1 H2]. unfold normalized_absolute_score.
  split; [lra|]. rewrite <- H2. split; intros; lra.
Qed.

Lemma nss_spec : forall p q, 0 <= p <= 1 -> 0 <= q <= 1 ->
  0 <= normalized_squared_score p q <= 1 /\ (normalized_squared_score p q = 1 <-> q = p).
Proof.
  intros p q Hp Hq. destruct (ratio_range p q Hp Hq) as [H1 H2]. unfold normalized_squared_score.
  set (r := Rabs (q - p) / Rmax p (1 - p)) in *.
  split; [nra|]. rewrite <- H2. split; intros; nra.
Qed.

Lemma ae_zero : forall p q, 0 <= absolute_error p q /\ (absolute_error p q = 0 <-> q = p).
Proof.
  intros. unfold absolute_error. split; [apply Rabs_pos|]. split; intros.
  - destruct (Req_dec (q - p) 0); [lra|]. apply Rabs_pos_lt in H0. lra.
  - subst. rewrite Rminus_diag_eq by auto. apply Rabs_R0.
Qed.

Lemma se_zero : forall p q, 0 <= squared_error p q /\ (squared_error p q = 0 <-> q = p).
Proof.
  intros. unfold squared_error. split; [apply pow2_ge_0|]. split; intros; [nra|subst; ring].
Qed.

Lemma sape_spec : forall p q, 0 <= p -> 0 <= q ->
  symmetric_absolute_percentage_error p q = symmetric_absolute_percentage_error q p /\
  0 <= symmetric_absolute_percentage_error p q <= 1 /\
  (symmetric_absolute_percentage_error p q = 0 <-> q = p).
Proof.
  intros p q Hp Hq. unfold symmetric_absolute_percentage_error.
  rewrite (Rplus_comm p q). split; [destruct (Req_EM_T (q + p) 0); auto; f_equal; apply Rabs_minus_sym|].
  destruct (Req_EM_T (q + p) 0); [split; [lra|split; intros; lra]|].
  assert (0 < q + p) by lra. pose proof (Rabs_pos (q - p)).
  assert (Rabs (q - p) <= q + p) by (apply Rabs_le; lra). split; [split|].
  - apply Rmult_le_pos; [auto|left; apply Rinv_0_lt_compat; lra].
  - apply (Rmult_le_reg_r (q + p)); [lra|]. field_simplify; lra.
  - split; intros.
    + apply (Rmult_eq_compat_r (q + p)) in H2. field_simplify in H2; [|lra].
      destruct (Req_dec (q - p) 0); [lra|]. apply Rabs_pos_lt in H3. lra.
    + subst. rewrite Rminus_diag_eq, Rabs_R0 by auto. unfold Rdiv; ring.
Qed.

Lemma binary_kld_spec : forall eps p q, 0 < p < 1 -> 0 < q < 1 ->
  exists v, binary_kld eps p q = Val v /\ 0 <= v /\ (v = 0 <-> q = p).
Proof.
  intros eps p q Hp Hq. unfold binary_kld.
  destruct (Req_EM_T q 0); [lra|]. destruct (Req_EM_T q 1); [lra|].
  rewrite !odiv_nz by lra. cbn [obind].
  rewrite !olog2_pos by (apply Rdiv_lt_0_compat; lra). cbn [obind].
  eexists. split; [reflexivity|]. pose proof ln2_pos as H2.
  replace (p * (ln (p / q) / ln 2) + (1 - p) * (ln ((1 - p) / (1 - q)) / ln 2)) with
    ((p * ln (p / q) + (1 - p) * ln ((1 - p) / (1 - q))) / ln 2) by (field; lra).
  assert (Hx : forall x y, 0 < x -> 0 < y -> x - y <= x * ln (x / y)).
  { intros x y Hx Hy. pose proof (ln_ge (x / y) (Rdiv_lt_0_compat _ _ Hx Hy)).
    apply (Rmult_le_compat_l x) in H; [|lra].
    replace (x * (1 - / (x / y))) with (x - y) in H by (field; lra). auto. }
  pose proof (Hx p q ltac:(lra) ltac:(lra)). pose proof (Hx (1 - p) (1 - q) ltac:(lra) ltac:(lra)).
  split.
  - apply Rmult_le_pos; [lra|left; apply Rinv_0_lt_compat; auto].
  - split; intros E.
    + apply (Rmult_eq_compat_r (ln 2)) in E. replace (_ / ln 2 * ln 2) with
        (p * ln (p / q) + (1 - p) * ln ((1 - p) / (1 - q))) in E by (field; lra).
      destruct (Req_dec q p) as [|Hne]; auto. exfalso.
      assert (p / q <> 1). { intro E1. apply Hne. apply (Rmult_eq_compat_r q) in E1. field_simplify in E1; lra. }
      assert (Hpq : 0 < p / q) by (apply Rdiv_lt_0_compat; lra).
      pose proof (ln_gt (p / q) Hpq H1) as Hs.
      apply (Rmult_lt_compat_l p) in Hs; [|lra].
      replace (p * (1 - / (p / q))) with (p - q) in Hs by (field; lra). lra.
    + subst. replace (p / p) with 1 by (field; lra). replace ((1 - p) / (1 - p)) with 1 by (field; lra).
      rewrite ln_1. field. lra.
Qed.

(** ** C65: rejection and class order *)

Definition no_err (o : out R) : Prop := (exists x, o = Val x) \/ o = NotANumber.

Lemma osum_no_err : forall l, Forall no_err l -> no_err (osum l).
Proof.
  induction 1; simpl; [left; eauto|]. destruct H as [[x' ->]| ->]; [|right; auto].
  destruct IHForall as [[s ->]| ->]; simpl; [left; eauto|right; auto].
Qed.

Lemma osum_perm : forall l l', Permutation l l' -> Forall no_err l -> osum l = osum l'.
Proof.
  induction 1; intros HF; auto.
  - inversion HF; subst. simpl. rewrite IHPermutation; auto.
  - inversion HF as [|? ? Hy HF2]; subst. inversion HF2 as [|? ? Hx HF3]; subst.
    pose proof (osum_no_err _ HF3) as Hs. simpl.
    destruct Hy as [[y' ->]| ->]; destruct Hx as [[x' ->]| ->]; destruct Hs as [[s ->]| ->]; simpl; auto.
    f_equal; lra.
  - rewrite IHPermutation1, IHPermutation2; auto. eapply Permutation_Forall; eauto.
Qed.

Lemma map2_pairs : forall {A B C} (f : A -> B -> C) (l : list (A * B)),
  map2 f (map fst l) (map snd l) = map (fun ab => f (fst ab) (snd ab)) l.
Proof. induction l; simpl; f_equal; auto. Qed.

Lemma vmap2_pairs : forall f l,
  vmap2 f (map fst l) (map snd l) = map (fun ab => f (fst ab) (snd ab)) l.
Proof. induction l; simpl; f_equal; auto. Qed.

Lemma checked_perm : forall f l l', Permutation l l' ->
  f (map fst l) (map snd l) = f (map fst l') (map snd l') ->
  checked f (vec (map fst l)) (vec (map snd l)) = checked f (vec (map fst l')) (vec (map snd l')).
Proof.
  intros. destruct l as [|a l].
  - apply Permutation_nil in H. subst. auto.
  - assert (l' <> []). { intro; subst. apply Permutation_sym, Permutation_nil in H. discriminate. }
    rewrite !checked_vec; auto; try (rewrite !map_length; auto); try (simpl; congruence).
    destruct l'; simpl; congruence.
Qed.

Lemma vmap2_sum_perm : forall f l l', Permutation l l' ->
  rsum (vmap2 f (map fst l) (map snd l)) = rsum (vmap2 f (map fst l') (map snd l')).
Proof. intros. rewrite !vmap2_pairs. apply rsum_perm, Permutation_map; auto. Qed.

Lemma vmap2_mean_perm : forall f l l', Permutation l l' ->
  rmean (vmap2 f (map fst l) (map snd l)) = rmean (vmap2 f (map fst l') (map snd l')).
Proof. intros. rewrite !vmap2_pairs. apply rmean_perm, Permutation_map; auto. Qed.

Lemma osum_map2_perm : forall (f : R -> R -> out R) (l l' : list (R * R)), (forall a b, no_err (f a b)) -> Permutation l l' ->
  osum (map2 f (map fst l) (map snd l)) = osum (map2 f (map fst l') (map snd l')).
Proof.
  intros. rewrite !map2_pairs. apply osum_perm; [apply Permutation_map; auto|].
  apply Forall_map, Forall_forall. intros; apply H.
Qed.

Lemma no_err_bind : forall (o : out R) f, no_err o -> (forall x, no_err (f x)) -> no_err (obind o f).
Proof. intros o f [[x ->]| ->] H; simpl; auto. right; auto. Qed.
Lemma no_err_div : forall a b, no_err (odiv a b).
Proof. intros. unfold odiv. destruct (Req_EM_T b 0); [right|left]; eauto. Qed.
Lemma no_err_ln : forall a, no_err (oln a).
Proof. intros. unfold oln. destruct (Rlt_dec 0 a); [left|right]; eauto. Qed.
Lemma no_err_log2 : forall a, no_err (olog2 a).
Proof. intros. unfold olog2. destruct (no_err_ln a) as [[x ->]| ->]; [left|right]; simpl; eauto. Qed.
Lemma no_err_sqrt : forall a, no_err (osqrt a).
Proof. intros. unfold osqrt. destruct (Rle_dec 0 a); [left|right]; eauto. Qed.
Lemma no_err_val : forall x, no_err (Val x).
Proof. left; eauto. Qed.

Ltac noerr := intros; repeat first [apply no_err_bind; intros | apply no_err_div | apply no_err_ln
  | apply no_err_log2 | apply no_err_sqrt | apply no_err_val].

Lemma losses_order_free : forall e, Forall (fun d => order_free (fun p q => d (vec p) (vec q)))
  [kld e; mean_absolute_error; l1; mean_squared_error; l2; hdist; bray_curtis; topsoe e; jensenshannon e; probsymmetric e].
Proof.
  intros e. repeat apply Forall_cons; try apply Forall_nil; intros l l' HP; apply checked_perm; auto.
  - apply osum_map2_perm; auto. noerr.
  - f_equal. apply vmap2_mean_perm; auto.
  - f_equal. apply vmap2_sum_perm; auto.
  - f_equal. apply vmap2_mean_perm; auto.
  - do 2 f_equal. apply vmap2_sum_perm; auto.
  - f_equal. apply osum_map2_perm; auto. noerr.
  - rewrite (vmap2_sum_perm _ l l'), (vmap2_sum_perm _ l l') by auto. auto.
  - apply osum_map2_perm; auto. noerr.
  - f_equal. apply osum_map2_perm; auto. noerr.
  - f_equal. apply osum_map2_perm; auto. noerr.
Qed.

Lemma checked_rejects : forall f p q, length p <> length q \/ n_columns p <> n_columns q \/ p = [] ->
  checked f p q = Err ValueError.
Proof.
  intros. unfold checked, check_prevalences.
  destruct (Nat.eqb_spec (length p) (length q)); simpl; auto.
  destruct (Nat.eqb_spec (length p) 0); simpl; auto.
  destruct (Nat.eqb (n_columns p) 0 || Nat.eqb (n_columns q) 0); simpl; auto.
  destruct (Nat.eqb_spec (n_columns p) (n_columns q)); simpl; auto.
  destruct H as [H|[H|H]]; try congruence. subst. simpl in *; congruence.
Qed.

Lemma losses_reject : forall e p q, length p <> length q \/ n_columns p <> n_columns q \/ p = [] ->
  Forall (fun d => d p q = Err ValueError)
  [kld e; mean_absolute_error; l1; mean_squared_error; l2; hdist; bray_curtis; topsoe e; jensenshannon e; probsymmetric e; emd].
Proof.
  intros. repeat apply Forall_cons; try apply Forall_nil; apply checked_rejects; auto.
Qed.

(** emd does depend on the order of the classes. *)
Lemma emd_order_matters : ~ order_free (fun p q => emd (vec p) (vec q)).
Proof.
  intros H. specialize (H [(1, 0); (0, 1); (0, 0)] [(1, 0); (0, 0); (0, 1)]).
  assert (HP : Permutation [(1, 0); (0, 1); (0, 0)] [(1, 0); (0, 0); (0, 1)]) by (apply perm_skip, perm_swap).
  specialize (H HP). cbn [map fst snd] in H.
  rewrite !(emd_value_emd 3) in H by (auto; lia). inversion H as [E]. unfold emd_value, cum in E. simpl in E.
  replace (0 + 1 - (0 + 0)) with 1 in E by ring. replace (0 + 1 + 0 - (0 + 0 + 1)) with 0 in E by ring.
  replace (0 + 1 + 0 + 0 - (0 + 0 + 1 + 0)) with 0 in E by ring.
  replace (0 + 1 + 0 - (0 + 0 + 0)) with 1 in E by ring.
  replace (0 + 1 + 0 + 0 - (0 + 0 + 0 + 1)) with 0 in E by ring.
  rewrite Rabs_R0, Rabs_R1 in E. lra.
Qed.

(** ** C68: emd of matrices *)

Lemma cumsum_from_app : forall a b s, cumsum_from s (a ++ b) = cumsum_from s a ++ cumsum_from (s + rsum a) b.
Proof.
  induction a; simpl; intros; [rewrite Rplus_0_r; auto|]. f_equal. rewrite IHa.
  f_equal. f_equal. lra.
Qed.

Lemma vmap2_app : forall f a b a' b', length a = length b ->
  vmap2 f (a ++ a') (b ++ b') = vmap2 f a b ++ vmap2 f a' b'.
Proof. induction a; destruct b; simpl; intros; try discriminate; auto. f_equal. apply IHa; lia. Qed.

Lemma rsum_vmap2_minus : forall a b, length a = length b -> rsum (vmap2 Rminus a b) = rsum a - rsum b.
Proof. induction a; destruct b; simpl; intros; try discriminate; [lra|]. rewrite IHa by lia. lra. Qed.

Definition emd_flat (a b : list R) : R := rsum (map Rabs (cumsum (vmap2 Rminus a b))).

Lemma emd_rows : forall A B, Forall2 (fun a b => length a = length b /\ rsum a = rsum b) A B ->
  emd_flat (concat A) (concat B) = rsum (map2 emd_flat A B).
Proof.
  induction 1; simpl; [reflexivity|]. destruct H as [Hl Hs].
  rewrite <- IHForall2. unfold emd_flat at 1.
  rewrite vmap2_app by auto. unfold cumsum. rewrite cumsum_from_app, map_app, rsum_app.
  rewrite rsum_vmap2_minus by auto. replace (0 + (rsum x - rsum y)) with 0 by lra. reflexivity.
Qed.

Lemma emd_flat_emd : forall a b, length a = length b -> a <> [] -> emd (vec a) (vec b) = Val (emd_flat a b).
Proof. intros. unfold emd. rewrite checked_vec by auto. auto. Qed.

Lemma emd_matrix : forall n A B, (0 < n)%nat -> A <> [] ->
  Forall2 (fun a b => length a = n /\ length b = n /\ rsum a = rsum b) A B ->
  exists vs, Forall2 (fun ab v => emd (vec (fst ab)) (vec (snd ab)) = Val v) (combine A B) vs /\
    emd A B = Val (rsum vs).
Proof.
  intros n A B Hn Hne HF. exists (map2 emd_flat A B). split.
  - clear Hne. induction HF; simpl; constructor; auto. destruct H as [H1 [H2 H3]].
    apply emd_flat_emd; [lia|]. apply (length_nonempty n); auto.
  - assert (HF2 : Forall2 (fun a b => length a = length b /\ rsum a = rsum b) A B).
    { clear -HF. induction HF; constructor; auto. destruct H as [? [? ?]]; split; congruence. }
    rewrite <- (emd_rows A B HF2).
    assert (HL : length A = length B) by (clear -HF; induction HF; simpl; auto).
    unfold emd, checked, check_prevalences. rewrite HL, Nat.eqb_refl. simpl.
    inversion HF; subst; [congruence|]. destruct H as [H1 [H2 H3]].
    unfold n_columns. simpl. rewrite H1, H2, Nat.eqb_refl.
    destruct (Nat.eqb_spec n 0); [lia|]. simpl. reflexivity.
Qed.

(** ** C69: squared losses *)

Lemma mse_l2 : forall n p q, (0 < n)%nat -> length p = n -> length q = n ->
  exists m d, mean_squared_error (vec p) (vec q) = Val m /\ l2 (vec p) (vec q) = Val d /\
    d ^ 2 = INR n * m /\ (m = 0 <-> p = q).
Proof.
  intros n p q Hn Hp Hq. pose proof (INR_pos n Hn) as Hpos.
  assert (Hs : 0 <= dsum (fun a b => (a - b) ^ 2) p q) by (apply dsum_nonneg; intros; apply pow2_ge_0).
  assert (E : dsum (fun a b => (b - a) ^ 2) p q = dsum (fun a b => (a - b) ^ 2) p q) by (apply dsum_ext; intros; ring).
  exists (dsum (fun a b => (a - b) ^ 2) p q / INR n), (sqrt (dsum (fun a b => (a - b) ^ 2) p q)).
  split; [rewrite mse_val by (try lia; dist_nonempty n); rewrite Hp, E; auto|].
  split; [apply l2_val; [lia|dist_nonempty n]|]. split.
  - rewrite pow2_sqrt by auto. field. lra.
  - split; intros H.
    + apply list_eq_nth; [lia|]. apply (dsum_sq_zero (fun x => x)); [lia|].
      apply (Rmult_eq_compat_r (INR n)) in H. field_simplify in H; lra.
    + subst q. rewrite (dsum_self_sq (fun x => x)). unfold Rdiv; ring.
Qed.

Lemma same_shape_rect : forall p q, length p = length q ->
  (forall i, (i < length p)%nat -> length (nth i p []) = length (nth i q [])) -> same_shape p q = true.
Proof.
  intros p q Hl H. unfold same_shape. rewrite Hl, Nat.eqb_refl. simpl.
  revert q Hl H. induction p; destruct q; simpl; intros; try discriminate; auto.
  rewrite (H O ltac:(lia)), Nat.eqb_refl. simpl. apply IHp; [lia|].
  intros i Hi. apply (H (S i)). lia.
Qed.

Lemma map2_sum_nth : forall (f : list R -> list R -> R) p q, length p = length q ->
  rsum (map2 f p q) = sumn (length p) (fun i => f (nth i p []) (nth i q [])) /\ length (map2 f p q) = length p.
Proof.
  induction p; destruct q; intros; try discriminate; [split; reflexivity|].
  destruct (IHp q ltac:(simpl in H; lia)) as [H1 H2]. split; [|simpl; lia].
  change (length (a :: p)) with (S (length p)). rewrite sumn_Sl. simpl. rewrite H1. auto.
Qed.

Lemma brier_spec : forall n k p q, (0 < n)%nat -> length p = n -> length q = n ->
  Forall (fun r => length r = k) p -> Forall (fun r => length r = k) q ->
  exists b, brier_multi p q = Val b /\ 0 <= b /\ (b = 0 <-> p = q) /\
    INR n * b = sumn n (fun i => sumn k (fun j => (nth j (nth i p []) 0 - nth j (nth i q []) 0) ^ 2)).
Proof.
  intros n k p q Hn Hp Hq Fp Fq. rewrite Forall_forall in Fp, Fq. pose proof (INR_pos n Hn) as Hpos.
  assert (Lp : forall i, (i < n)%nat -> length (nth i p []) = k) by (intros; apply Fp, nth_In; lia).
  assert (Lq : forall i, (i < n)%nat -> length (nth i q []) = k) by (intros; apply Fq, nth_In; lia).
  unfold brier_multi. rewrite same_shape_rect; [|lia|intros; rewrite Lp, Lq by lia; auto].
  set (f := fun a b => rsum (vmap2 (fun x y => (y - x) ^ 2) a b)).
  destruct (map2_sum_nth f p q ltac:(lia)) as [Hs Hlen].
  exists (rmean (map2 f p q)). split; [destruct p; [simpl in Hp; lia|auto]|].
  unfold rmean. rewrite Hs, Hlen, Hp.
  assert (Ef : forall i, (i < n)%nat -> f (nth i p []) (nth i q []) =
     sumn k (fun j => (nth j (nth i p []) 0 - nth j (nth i q []) 0) ^ 2)).
  { intros i Hi. unfold f. rewrite rsum_vmap2 by (rewrite Lp, Lq; auto). rewrite Lp by auto.
    apply sumn_ext. intros; ring. }
  rewrite (sumn_ext n _ _ Ef).
  set (T := sumn n _).
  assert (HT : 0 <= T) by (apply sumn_nonneg; intros; apply sumn_nonneg; intros; apply pow2_ge_0).
  split; [apply Rmult_le_pos; [auto|left; apply Rinv_0_lt_compat; auto]|]. split; [|field; lra].
  split; intros H.
  - assert (H0 : T = 0) by (apply (Rmult_eq_compat_r (INR n)) in H; field_simplify in H; lra).
    apply (nth_ext p q [] []); [lia|]. intros i Hi. apply list_eq_nth; [rewrite Lp, Lq by lia; auto|].
    intros j Hj. rewrite Lp in Hj by lia.
    assert (E1 : sumn k (fun j => (nth j (nth i p []) 0 - nth j (nth i q []) 0) ^ 2) = 0).
    { apply (sumn_zero_all n (fun i => sumn k (fun j => (nth j (nth i p []) 0 - nth j (nth i q []) 0) ^ 2))); auto; [|lia].
      intros; apply sumn_nonneg; intros; apply pow2_ge_0. }
    assert (E2 : (nth j (nth i p []) 0 - nth j (nth i q []) 0) ^ 2 = 0).
    { apply (sumn_zero_all k (fun j => (nth j (nth i p []) 0 - nth j (nth i q []) 0) ^ 2)); auto.
      intros; apply pow2_ge_0. }
    nra.
  - subst q. unfold T. rewrite sumn_0; [unfold Rdiv; ring|]. intros; apply sumn_0; intros; ring.
Qed.

Lemma binary_errors_agree : forall p q,
  (0 < bias p q <-> p < q) /\ absolute_error p q = Rabs (bias p q) /\ squared_error p q = bias p q ^ 2.
Proof. intros. unfold bias, absolute_error, squared_error. repeat split; intros; lra. Qed.

Lemma rae_spec : forall eps p q, 0 < eps -> 0 <= p ->
  exists v, relative_absolute_error eps p q = Val v /\
    (0 < p -> v * p = absolute_error p q) /\ (p = 0 -> v * eps = absolute_error p q) /\
    0 <= v /\ (v = 0 <-> q = p).
Proof.
  intros eps p q He Hp. unfold relative_absolute_error, absolute_error.
  assert (HZ : forall d, 0 < d -> 0 <= Rabs (q - p) / d /\ (Rabs (q - p) / d = 0 <-> q = p)).
  { intros d Hd. split; [apply Rmult_le_pos; [apply Rabs_pos|left; apply Rinv_0_lt_compat; auto]|].
    split; intros H.
    - apply (Rmult_eq_compat_r d) in H. field_simplify in H; [|lra].
      destruct (Req_dec (q - p) 0); [lra|]. apply Rabs_pos_lt in H0. lra.
    - subst. rewrite Rminus_diag_eq, Rabs_R0 by auto. unfold Rdiv; ring. }
  destruct (Req_EM_T p 0).
  - rewrite odiv_nz by lra. eexists. split; [reflexivity|].
    split; [intros; lra|]. split; [intros _; replace (p + eps) with eps by lra; field; lra|]. apply HZ; lra.
  - rewrite odiv_nz by lra. eexists. split; [reflexivity|].
    split; [intros; field; lra|]. split; [intros; lra|]. apply HZ; lra.
Qed.
