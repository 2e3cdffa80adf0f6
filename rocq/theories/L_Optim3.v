(** * Proofs about the energy-distance program. *)

From Coq Require Import Reals List ZArith Lia Lra Bool Arith.
From Verif Require Import Num Spec L_Num M_Baselines M_Optim Spec_Optim L_Optim L_Optim2.
Import ListNotations.
Open Scope R_scope.

Section Energy.
Context {A : Type}.
Implicit Types (dist : A -> A -> R) (X Y bag : list A) (cs : list (list A)).

Definition mean_dist dist X Y : R := pair_sum dist X Y / (INR (length X) * INR (length Y)).

Lemma pair_sum_sym : forall dist X Y, (forall x y, dist x y = dist y x) ->
  pair_sum dist X Y = pair_sum dist Y X.
Proof.
  intros dist X Y Hd. unfold pair_sum. rewrite rsum_map_swap. apply rsum_map_ext. intros y _.
  apply rsum_map_ext. auto.
Qed.

Lemma mean_dist_sym : forall dist X Y, (forall x y, dist x y = dist y x) ->
  mean_dist dist X Y = mean_dist dist Y X.
Proof.
  intros. unfold mean_dist. rewrite (pair_sum_sym dist X Y) by auto. f_equal. ring.
Qed.

Lemma expected_flip : forall dist P Q,
  expected dist P Q = expected (fun x y => dist y x) Q P.
Proof.
  intros. unfold expected. rewrite rsum_map_swap. apply rsum_map_ext. intros q _.
  apply rsum_map_ext. intros p _. ring.
Qed.

Lemma expected_concat : forall dist (Ps : list (weighted A)) Q,
  expected dist (concat Ps) Q = rsum (map (fun P => expected dist P Q) Ps).
Proof.
  intros. unfold expected. rewrite concat_map, rsum_concat, map_map. reflexivity.
Qed.

Lemma expected_spread : forall dist w v X Y,
  expected dist (spread_over w X) (spread_over v Y) = w * v * mean_dist dist X Y.
Proof.
  intros dist w v X Y. unfold expected, spread_over. rewrite map_map.
  rewrite (rsum_map_ext _ (fun x => (w / INR (length X)) * (v / INR (length Y)) *
             rsum (map (dist x) Y))).
  - rewrite rsum_map_scal. unfold mean_dist, pair_sum.
    destruct X as [|x X]; [simpl; unfold Rdiv; ring|].
    destruct Y as [|y Y].
    + rewrite (rsum_map_ext _ (fun _ => 0)) by (intros; reflexivity).
      rewrite rsum_map_const. unfold Rdiv. ring.
    + field. split; apply not_0_INR; discriminate.
  - intros x _. rewrite map_map. simpl. rewrite rsum_map_scal. reflexivity.
Qed.

Lemma rsum_sumn : forall {B} (f : B -> R) l d,
  rsum (map f l) = sumn (length l) (fun i => f (nth i l d)).
Proof.
  intros B f l d. rewrite <- sumn_nth, map_length. apply sumn_ext. intros i Hi.
  rewrite (nth_indep _ 0 (f d)) by (now rewrite map_length). now rewrite map_nth.
Qed.

Lemma rsum_combine : forall n (f : R * list A -> R) p cs, length p = n -> length cs = n ->
  rsum (map f (combine p cs)) = sumn n (fun i => f (nth i p 0, nth i cs [])).
Proof.
  intros n f p cs Lp Lc. rewrite (rsum_sumn f _ (0, [])).
  rewrite combine_length, Lp, Lc, Nat.min_id. apply sumn_ext. intros i Hi.
  rewrite combine_nth by lia. reflexivity.
Qed.

Lemma expected_class : forall n dist p cs Q, length p = n -> length cs = n ->
  expected dist (class_mixture p cs) Q =
  sumn n (fun i => expected dist (spread_over (nth i p 0) (nth i cs [])) Q).
Proof.
  intros n dist p cs Q Lp Lc. unfold class_mixture. rewrite expected_concat, map_map.
  rewrite (rsum_combine n) by auto. reflexivity.
Qed.

Lemma expected_mixture_bag : forall n dist p cs bag, length p = n -> length cs = n ->
  expected dist (class_mixture p cs) (spread_over 1 bag) =
  sumn n (fun i => nth i p 0 * mean_dist dist (nth i cs []) bag).
Proof.
  intros n dist p cs bag Lp Lc. rewrite (expected_class n) by auto. apply sumn_ext. intros i Hi.
  rewrite expected_spread. ring.
Qed.

Lemma expected_mixtures : forall n dist p q cs, length p = n -> length q = n -> length cs = n ->
  expected dist (class_mixture p cs) (class_mixture q cs) =
  sumn n (fun i => sumn n (fun j =>
    nth i p 0 * nth j q 0 * mean_dist dist (nth i cs []) (nth j cs []))).
Proof.
  intros n dist p q cs Lp Lq Lc. rewrite (expected_class n) by auto. apply sumn_ext. intros i Hi.
  rewrite expected_flip, (expected_class n) by auto. apply sumn_ext. intros j Hj.
  rewrite <- expected_flip, expected_spread. ring.
Qed.

(** ** The constraints *)

Lemma ed_constraints : forall n x, length x = n ->
  (qp_feasible n (S n) ed_C ed_b 0 x <-> distribution_over (S n) (x ++ [1 - rsum x])).
Proof.
  intros n x L. unfold qp_feasible, distribution_over, distribution.
  rewrite app_length, rsum_app, L. simpl length.
  assert (E0 : sumn n (fun i => ed_C i O * nth i x 0) = - rsum x).
  { rewrite <- sumn_nth, L.
    rewrite <- (Rmult_1_l (sumn n (fun i => nth i x 0))), <- Ropp_mult_distr_l_reverse, <- sumn_scal.
    apply sumn_ext. intros; simpl; ring. }
  assert (ES : forall j, (j < n)%nat -> sumn n (fun i => ed_C i (S j) * nth i x 0) = nth j x 0).
  { intros j Hj. simpl. rewrite (sumn_ext n _ (fun i => if Nat.eqb i j then nth j x 0 else 0)).
    - apply sumn_pick. auto.
    - intros i Hi. destruct (Nat.eqb_spec i j); [subst|]; ring. }
  split.
  - intros (_ & H). split; [lia|]. split; [|simpl; ring].
    apply Forall_app. split.
    + apply Forall_forall. intros v Hv. apply (In_nth x v 0) in Hv. destruct Hv as (j & Hj & <-).
      rewrite L in Hj. destruct (H (S j)) as [H1 _]; [lia|]. rewrite ES in H1 by auto.
      simpl in H1. lra.
    + apply Forall_cons; [|apply Forall_nil]. destruct (H O) as [H1 _]; [lia|].
      rewrite E0 in H1. simpl in H1. lra.
  - intros (_ & Hn & _). split; [auto|]. apply Forall_app in Hn. destruct Hn as [Hn Hl].
    apply Forall_inv in Hl. intros j Hj. split; [|lia]. destruct j as [|j].
    + rewrite E0. simpl. lra.
    + rewrite ES by lia. simpl. rewrite Forall_forall in Hn.
      assert (0 <= nth j x 0) by (apply Hn; apply nth_In; lia). lra.
Qed.

(** ** The objective *)

Lemma ed_B_entry : forall n K i j, ed_B n K i j =
  - K i j - K (n - 1)%nat (n - 1)%nat + K i (n - 1)%nat + K j (n - 1)%nat.
Proof.
  intros. unfold ed_B. destruct (Nat.eqb_spec i j); [subst|]; ring.
Qed.

Lemma ed_K_mean : forall dist train i j, (forall x y, dist x y = dist y x) ->
  ed_K dist train (fun i => INR (length (train i))) i j = mean_dist dist (train i) (train j).
Proof.
  intros dist train i j Hd. unfold ed_K, mean_dist. destruct (Nat.leb i j); [reflexivity|].
  rewrite (pair_sum_sym dist (train j) (train i)) by auto. reflexivity.
Qed.

Lemma quad_scal : forall n c M x, quad n (fun i j => c * M i j) x = c * quad n M x.
Proof.
  intros. unfold quad. rewrite <- sumn_scal. apply sumn_ext. intros i Hi. rewrite <- sumn_scal.
  apply sumn_ext. intros; ring.
Qed.

(** Algebra of the reduction to [l] = n - 1 variables. *)
Lemma quad_reduced : forall l (K : matrix) (x : nat -> R),
  quad l (fun i j => - K i j - K l l + K i l + K j l) x =
  - sumn l (fun i => sumn l (fun j => x i * K i j * x j))
  - sumn l x * sumn l x * K l l + 2 * sumn l x * sumn l (fun i => x i * K i l).
Proof.
  intros l K x. unfold quad.
  set (s := sumn l x). set (k := sumn l (fun i => x i * K i l)).
  rewrite (sumn_ext l _ (fun i => -1 * sumn l (fun j => x i * K i j * x j)
             + (- K l l * s) * x i + s * (x i * K i l) + k * x i)).
  - rewrite !sumn_plus, !sumn_scal. fold s. fold k. ring.
  - intros i Hi.
    rewrite (sumn_ext l _ (fun j => -1 * (x i * K i j * x j) + (- K l l * x i) * x j
               + (x i * K i l) * x j + x i * (x j * K j l))) by (intros; ring).
    rewrite !sumn_plus, !sumn_scal. fold s. fold k. ring.
Qed.

Lemma ed_algebra : forall l (K : matrix) (Kt : nat -> R) (x : nat -> R),
  (forall i j, (i <= l)%nat -> (j <= l)%nat -> K i j = K j i) ->
  let s := sumn l x in
  let B := fun i j => - K i j - K l l + K i l + K j l in
  let p := fun i => if Nat.eqb i l then 1 - s else x i in
  quad l B x - sumn l (fun i => 2 * (- Kt i + K i l + Kt l - K l l) * x i) =
  2 * sumn (S l) (fun i => p i * Kt i) -
  sumn (S l) (fun i => sumn (S l) (fun j => p i * p j * K i j)) - (2 * Kt l - K l l).
Proof.
  intros l K Kt x HK s B p.
  assert (Ep : forall i, (i < l)%nat -> p i = x i).
  { intros i Hi. unfold p. destruct (Nat.eqb_spec i l); [lia|auto]. }
  assert (El : p l = 1 - s) by (unfold p; now rewrite Nat.eqb_refl).
  set (k := sumn l (fun i => x i * K i l)).
  set (SS := sumn l (fun i => sumn l (fun j => x i * K i j * x j))).
  set (T := sumn l (fun i => x i * Kt i)).
  assert (E1 : quad l B x = - SS - s * s * K l l + 2 * s * k).
  { apply quad_reduced. }
  assert (E2 : sumn l (fun i => 2 * (- Kt i + K i l + Kt l - K l l) * x i) =
               2 * (- T + k + s * Kt l - s * K l l)).
  { unfold T, k, s. rewrite <- !sumn_scal_r.
    rewrite <- (Rmult_1_l (sumn l (fun i => x i * Kt i))), <- Ropp_mult_distr_l_reverse.
    rewrite <- (sumn_scal _ (-(1))), <- !sumn_plus, <- sumn_minus, <- sumn_scal. apply sumn_ext.
    intros; ring. }
  assert (E3 : sumn (S l) (fun i => p i * Kt i) = T + (1 - s) * Kt l).
  { simpl. rewrite El. f_equal. apply sumn_ext. intros i Hi. now rewrite Ep. }
  assert (E4 : sumn (S l) (fun i => sumn (S l) (fun j => p i * p j * K i j)) =
               SS + 2 * (1 - s) * k + (1 - s) * (1 - s) * K l l).
  { simpl. rewrite sumn_plus, El.
    rewrite (sumn_ext l (fun i => sumn l (fun j => p i * p j * K i j))
               (fun i => sumn l (fun j => x i * K i j * x j))).
    - fold SS.
      rewrite (sumn_ext l (fun i => p i * (1 - s) * K i l) (fun i => (1 - s) * (x i * K i l)))
        by (intros i Hi; rewrite Ep by auto; ring).
      rewrite (sumn_ext l (fun j => (1 - s) * p j * K l j) (fun i => (1 - s) * (x i * K i l)))
        by (intros i Hi; rewrite Ep by auto; rewrite (HK l i) by lia; ring).
      rewrite !sumn_scal. fold k. ring.
    - intros i Hi. apply sumn_ext. intros j Hj. rewrite !Ep by auto. ring. }
  rewrite E1, E2, E3, E4. ring.
Qed.

Lemma ed_objective : forall l dist (train : nat -> list A) bag x,
  (forall x y, dist x y = dist y x) -> length x = l ->
  let sizes := fun i => INR (length (train i)) in
  let K := ed_K dist train sizes in
  let cs := map train (seq 0 (S l)) in
  let p := x ++ [1 - rsum x] in
  qp_objective l (fun i j => 2 * ed_B (S l) K i j)
    (compute_ed_param_test (S l) dist train bag K sizes) x =
  energy dist (class_mixture p cs) (spread_over 1 bag)
  + (mean_dist dist bag bag - (2 * mean_dist dist (train l) bag - K l l)).
Proof.
  intros l dist train bag x Hd L sizes K cs p.
  assert (Lp : length p = S l) by (unfold p; rewrite app_length, L; simpl; lia).
  assert (Lc : length cs = S l) by (unfold cs; now rewrite map_length, seq_length).
  assert (Ncs : forall i, (i < S l)%nat -> nth i cs [] = train i).
  { intros i Hi. unfold cs. rewrite (nth_indep _ [] (train O)) by (now rewrite map_length, seq_length).
    rewrite map_nth, seq_nth by auto. reflexivity. }
  assert (HK : forall i j, K i j = mean_dist dist (train i) (train j)).
  { intros. unfold K, sizes. apply ed_K_mean. auto. }
  set (Kt := fun i => mean_dist dist (train i) bag).
  pose proof (ed_algebra l K Kt (fun i => nth i x 0)) as Alg. cbv zeta in Alg.
  unfold qp_objective. rewrite quad_scal.
  rewrite (quad_ext l (ed_B (S l) K)
     (fun i j => - K i j - K l l + K i l + K j l) _ (fun i => nth i x 0)).
  2: { intros i j _ _. rewrite ed_B_entry. replace (S l - 1)%nat with l by lia. reflexivity. }
  2: { auto. }
  assert (Ea : forall i, compute_ed_param_test (S l) dist train bag K sizes i =
     2 * (- Kt i + K i l + Kt l - K l l)).
  { intros i. unfold compute_ed_param_test, Kt, mean_dist, sizes.
    replace (S l - 1)%nat with l by lia. reflexivity. }
  rewrite (sumn_ext l (fun i => compute_ed_param_test (S l) dist train bag K sizes i * nth i x 0)
     (fun i => 2 * (- Kt i + K i l + Kt l - K l l) * nth i x 0))
    by (intros; now rewrite Ea).
  rewrite <- Rmult_assoc, Rinv_l, Rmult_1_l by lra.
  rewrite Alg by (intros; rewrite !HK; apply mean_dist_sym; auto).
  unfold energy.
  rewrite (expected_mixture_bag (S l)), (expected_mixtures (S l)) by auto.
  rewrite (expected_spread dist 1 1 bag bag).
  assert (Es : sumn l (fun i => nth i x 0) = rsum x) by (rewrite <- L; apply sumn_nth).
  rewrite Es.
  assert (Ep : forall i, (i < S l)%nat ->
    (if Nat.eqb i l then 1 - rsum x else nth i x 0) = nth i p 0).
  { intros i Hi. unfold p. destruct (Nat.eqb_spec i l) as [->|Ne].
    - rewrite app_nth2 by lia. rewrite L, Nat.sub_diag. reflexivity.
    - rewrite app_nth1 by lia. reflexivity. }
  rewrite (sumn_ext (S l) (fun i => (if Nat.eqb i l then 1 - rsum x else nth i x 0) * Kt i)
     (fun i => nth i p 0 * mean_dist dist (nth i cs []) bag)).
  2: { intros i Hi. rewrite Ep, Ncs by auto. reflexivity. }
  rewrite (sumn_ext (S l) (fun i => sumn (S l) (fun j =>
      (if Nat.eqb i l then 1 - rsum x else nth i x 0) *
      (if Nat.eqb j l then 1 - rsum x else nth j x 0) * K i j))
     (fun i => sumn (S l) (fun j =>
        nth i p 0 * nth j p 0 * mean_dist dist (nth i cs []) (nth j cs [])))).
  2: { intros i Hi. apply sumn_ext. intros j Hj. rewrite !Ep, !Ncs, HK by auto. reflexivity. }
  fold (Kt l). ring.
Qed.

(** ** Positive definiteness from the energy distance of mixtures *)

Lemma energy_mixtures : forall n dist p q cs, (forall x y, dist x y = dist y x) ->
  length p = n -> length q = n -> length cs = n ->
  energy dist (class_mixture p cs) (class_mixture q cs) =
  - sumn n (fun i => sumn n (fun j =>
      (nth i p 0 - nth i q 0) * (nth j p 0 - nth j q 0) *
      mean_dist dist (nth i cs []) (nth j cs []))).
Proof.
  intros n dist p q cs Hd Lp Lq Lc. unfold energy. rewrite !(expected_mixtures n) by auto.
  set (M := fun i j => mean_dist dist (nth i cs []) (nth j cs [])).
  set (f := fun i => nth i p 0). set (g := fun i => nth i q 0).
  change (2 * sumn n (fun i => sumn n (fun j => f i * g j * M i j)) -
    sumn n (fun i => sumn n (fun j => f i * f j * M i j)) -
    sumn n (fun i => sumn n (fun j => g i * g j * M i j)) =
    - sumn n (fun i => sumn n (fun j => (f i - g i) * (f j - g j) * M i j))).
  assert (Sw : sumn n (fun i => sumn n (fun j => f i * g j * M i j)) =
               sumn n (fun i => sumn n (fun j => g i * f j * M i j))).
  { rewrite sumn_swap. apply sumn_ext. intros i _. apply sumn_ext. intros j _.
    unfold M. rewrite (mean_dist_sym dist (nth j cs [])) by auto. ring. }
  assert (E : sumn n (fun i => sumn n (fun j => (f i - g i) * (f j - g j) * M i j)) =
    sumn n (fun i => sumn n (fun j => f i * f j * M i j))
    - sumn n (fun i => sumn n (fun j => f i * g j * M i j))
    - sumn n (fun i => sumn n (fun j => g i * f j * M i j))
    + sumn n (fun i => sumn n (fun j => g i * g j * M i j))).
  { repeat (rewrite <- sumn_minus || rewrite <- sumn_plus). apply sumn_ext. intros i _.
    repeat (rewrite <- sumn_minus || rewrite <- sumn_plus). apply sumn_ext. intros j _. ring. }
  rewrite E, <- Sw. ring.
Qed.

(** [x^T B x] is the energy distance of two distributions that differ by a multiple of
    [(x, - sum x)]. *)
Lemma ed_quad_energy : forall l dist (train : nat -> list A) x,
  (forall x y, dist x y = dist y x) ->
  let K := ed_K dist train (fun i => INR (length (train i))) in
  let cs := map train (seq 0 (S l)) in
  exists eps p q, 0 < eps /\ distribution_over (S l) p /\ distribution_over (S l) q /\
    (forall i, (i < l)%nat -> nth i p 0 - nth i q 0 = eps * x i) /\
    energy dist (class_mixture p cs) (class_mixture q cs) = eps * eps * quad l (ed_B (S l) K) x.
Proof.
  intros l dist train x Hd K cs.
  set (z := fun i => if Nat.eqb i l then - sumn l x else x i).
  set (w := sumn (S l) (fun i => Rabs (z i))).
  assert (Hw : 0 <= w) by (apply sumn_nonneg; intros; apply Rabs_pos).
  assert (HN : 0 < INR (S l)) by (apply lt_0_INR; lia).
  set (eps := / (INR (S l) * (1 + w))).
  assert (Hd0 : 0 < INR (S l) * (1 + w)) by nra.
  assert (He : 0 < eps) by (apply Rinv_0_lt_compat; auto).
  assert (Zs : sumn (S l) z = 0).
  { simpl. rewrite (sumn_ext l z x).
    - unfold z. rewrite Nat.eqb_refl. ring.
    - intros i Hi. unfold z. destruct (Nat.eqb_spec i l); [lia|auto]. }
  assert (Hb : forall i, (i < S l)%nat -> Rabs (eps * z i) <= / INR (S l)).
  { intros i Hi. rewrite Rabs_mult, (Rabs_pos_eq eps) by lra.
    assert (Rabs (z i) <= w).
    { unfold w. apply (sumn_ge_term (S l) (fun i => Rabs (z i)) i); auto. intros; apply Rabs_pos. }
    assert (E : / INR (S l) = eps * (1 + w)).
    { unfold eps. field. split; lra. }
    rewrite E. nra. }
  exists eps, (tabulate (S l) (fun i => / INR (S l) + eps * z i)),
    (tabulate (S l) (fun _ => / INR (S l))).
  split; [auto|]. split; [|split; [|split]].
  - split; [apply tabulate_length|]. split.
    + apply Forall_forall. intros v Hv. unfold tabulate in Hv. apply in_map_iff in Hv.
      destruct Hv as (i & <- & Hi). apply in_seq in Hi. specialize (Hb i ltac:(lia)).
      pose proof (Rle_abs (- (eps * z i))) as Hn. rewrite Rabs_Ropp in Hn. lra.
    + rewrite rsum_tabulate, sumn_plus, sumn_const, sumn_scal, Zs. field. lra.
  - split; [apply tabulate_length|]. split.
    + apply Forall_forall. intros v Hv. unfold tabulate in Hv. apply in_map_iff in Hv.
      destruct Hv as (i & <- & Hi). left. apply Rinv_0_lt_compat; auto.
    + rewrite rsum_tabulate, sumn_const. field. lra.
  - intros i Hi. rewrite !tabulate_nth by lia. unfold z.
    destruct (Nat.eqb_spec i l); [lia|]. ring.
  - rewrite (energy_mixtures (S l)); auto using tabulate_length.
    2: { unfold cs. now rewrite map_length, seq_length. }
    rewrite (sumn_ext (S l) _ (fun i => eps * eps * sumn (S l) (fun j => z i * z j * K i j))).
    + rewrite sumn_scal.
      (* direct expansion of the form on z *)
      assert (Q : sumn (S l) (fun i => sumn (S l) (fun j => z i * z j * K i j)) =
                  - quad l (ed_B (S l) K) x).
      { assert (HKs : forall i j, K i j = K j i).
        { intros. unfold K. rewrite !ed_K_mean by auto. apply mean_dist_sym; auto. }
        assert (Ez : forall i, (i < l)%nat -> z i = x i).
        { intros i Hi. unfold z. destruct (Nat.eqb_spec i l); [lia|auto]. }
        assert (El : z l = - sumn l x) by (unfold z; now rewrite Nat.eqb_refl).
        set (k := sumn l (fun i => x i * K i l)). set (s := sumn l x) in *.
        set (SS := sumn l (fun i => sumn l (fun j => x i * K i j * x j))).
        assert (E4 : sumn (S l) (fun i => sumn (S l) (fun j => z i * z j * K i j)) =
               SS - 2 * s * k + s * s * K l l).
        { simpl. rewrite sumn_plus, El.
          rewrite (sumn_ext l (fun i => sumn l (fun j => z i * z j * K i j))
                     (fun i => sumn l (fun j => x i * K i j * x j))).
          - fold SS.
            rewrite (sumn_ext l (fun i => z i * - s * K i l) (fun i => - s * (x i * K i l)))
              by (intros i Hi; rewrite Ez by auto; ring).
            rewrite (sumn_ext l (fun j => - s * z j * K l j) (fun i => - s * (x i * K i l)))
              by (intros i Hi; rewrite Ez by auto; rewrite (HKs l i); ring).
            rewrite !sumn_scal. fold k. ring.
          - intros i Hi. apply sumn_ext. intros j Hj. rewrite !Ez by auto. ring. }
        rewrite E4.
        rewrite (quad_ext l (ed_B (S l) K) (fun i j => - K i j - K l l + K i l + K j l) x x).
        2: { intros i j _ _. rewrite ed_B_entry. replace (S l - 1)%nat with l by lia. reflexivity. }
        2: { auto. }
        assert (E1 : quad l (fun i j => - K i j - K l l + K i l + K j l) x
                     = - SS - s * s * K l l + 2 * s * k).
        { apply quad_reduced. }
        rewrite E1. ring. }
      rewrite Q. ring.
    + intros i Hi. rewrite <- sumn_scal. apply sumn_ext. intros j Hj.
      rewrite !tabulate_nth by lia.
      assert (Ncs : forall i, (i < S l)%nat -> nth i cs [] = train i).
      { intros i0 Hi0. unfold cs.
        rewrite (nth_indep _ [] (train O)) by (now rewrite map_length, seq_length).
        rewrite map_nth, seq_nth by auto. reflexivity. }
      rewrite !Ncs by auto. unfold K. rewrite ed_K_mean by auto. ring.
Qed.
End Energy.
