(** * Proofs about changing n_bins, bin_strategy and distribution_function between calls (C130). *)

From Coq Require Import Reals List ZArith Lia Lra Bool Arith.
From Verif Require Import Num Spec L_Num M_Baselines L_Baselines M_Search M_Optim Spec_Optim L_Optim2 L_Optim3 L_Optim4 L_Optim5 M_Match Spec_Match
  L_Match L_Match2 L_Match3 L_Match4 L_Match10 M_History Spec_History L_History M_Rebin Spec_Rebin L_Fit9.
Import ListNotations.
Open Scope R_scope.

(** ** The cut points have n_bins + 1 edges each *)

Lemma cuts_length : forall ppf x y classes n strat range cuts, compute_bincuts ppf x y classes n strat range = Val cuts -> length cuts = S n.
Proof.
  intros ppf x y classes n strat range cuts H.
  assert (G : forall mu std, gaussian_cuts ppf n mu std = Val cuts -> length cuts = S n).
  { intros mu std E. unfold gaussian_cuts in E. destruct n as [|m]; [discriminate|]. destruct (Rlt_dec 0 std); inversion E; cbn [length].
    - rewrite app_length, map_length, seq_length. cbn [length]. lia.
    - rewrite map_length. apply uniform_edges_length. }
  destruct strat.
  - apply equal_width_shape in H. apply H.
  - apply equal_count_shape in H. apply H.
  - unfold compute_bincuts in H. destruct n as [|m]; [discriminate|]. destruct (negb _); [discriminate|]. destruct (negb _); [discriminate|].
    destruct (existsb _ _); [discriminate|]. eapply G. exact H.
  - unfold compute_bincuts in H. destruct n as [|m]; [discriminate|]. destruct (negb _); [discriminate|]. destruct x; [discriminate|]. eapply G. exact H.
  - unfold compute_bincuts in H. destruct n; discriminate.
Qed.

Lemma all_cuts_length : forall q ppf n strat y rows cuts, hc_cuts q ppf n strat y rows = Val cuts -> Forall (fun c => length c = S n) cuts.
Proof.
  intros q ppf n strat y rows cuts H. apply Forall_forall. intros c Hc.
  assert (K : forall (f : nat -> out (list edge)) l, collect (map f l) = Val cuts -> exists a, f a = Val c).
  { intros f l E. apply collect_inv in E. assert (In (Val c) (map f l)) as I by (rewrite E; now apply in_map).
    apply in_map_iff in I. destruct I as (a & Ea & _). eauto. }
  destruct q as [|k]; cbn [hc_cuts] in H; apply K in H; destruct H as [a E]; eapply cuts_length; exact E.
Qed.

Lemma cuts_not_empty : forall q ppf n strat y rows cuts, has_descriptors q y -> hc_cuts q ppf n strat y rows = Val cuts -> cuts <> [].
Proof.
  intros q ppf n strat y rows cuts HD H E. subst cuts. destruct q as [|k]; cbn [hc_cuts has_descriptors] in *;
    apply collect_inv in H; apply (f_equal (@length _)) in H; rewrite !map_length, seq_length in H; cbn in H; [|lia].
  unfold n_descriptors in H. destruct (Nat.eqb_spec (length (np_unique y)) 2); [discriminate|].
  apply length_zero_iff_nil in H. destruct y as [|c y]; [congruence|]. assert (In c (np_unique (c :: y))) by (apply np_unique_in; now left).
  rewrite H in H0. destruct H0.
Qed.

Lemma fit_inv : forall q ppf N fuel crit y rows o o', ho_fit q ppf N fuel crit y rows o = Val o' ->
  exists cuts m, hc_cuts q ppf (ho_bins o) (ho_strat o) y rows = Val cuts /\
    hc_fit q ppf N fuel (ho_kind o) (ho_bins o) (ho_strat o) crit y rows = Val m /\
    mt_represent m = hc_represent q (ho_kind o) cuts /\ mt_problem m = None /\ mt_mixtures m = None /\
    o' = {| ho_kind := ho_kind o; ho_bins := ho_bins o; ho_strat := ho_strat o; ho_cuts := Some cuts; ho_state := assign_matcher crit (ho_state o) m |}.
Proof.
  intros q ppf N fuel crit y rows o o' H. unfold ho_fit in H. destruct (hc_cuts _ _ _ _ _ _) as [cuts| |] eqn:EC; try discriminate. cbn [obind] in H.
  destruct (hc_fit _ _ _ _ _ _ _ _ _ _) as [m| |] eqn:EM; try discriminate. inversion H. exists cuts, m. split; [reflexivity|]. split; [reflexivity|].
  assert (K : forall A bins (rep : list A -> out (list R)) classes ye (rs : list A) m', fit_matching N fuel crit bins rep classes ye rs = Val m' ->
    mt_represent m' = rep /\ mt_problem m' = None /\ mt_mixtures m' = None).
  { intros A bins rep classes ye rs m' E. unfold fit_matching in E. destruct (Nat.eqb _ _); [|discriminate]. destruct (collect _); try discriminate.
    inversion E. repeat split. }
  destruct q as [|k]; cbn [hc_fit hc_cuts] in *.
  - unfold DFy_fit in EM. rewrite EC in EM. cbn [obind] in EM. apply K in EM. destruct EM as (a & b & c). auto.
  - unfold DFX_fit in EM. rewrite EC in EM. cbn [obind] in EM. apply K in EM. destruct EM as (a & b & c). auto.
Qed.

(** ** Between two fits *)

Definition as_fitted crit cuts (m : matcher (list (list R))) (o : histogram_object) : Prop :=
  ho_cuts o = Some cuts /\ mt_classes (ho_state o) = mt_classes m /\ mt_bins (ho_state o) = mt_bins m /\ mt_T (ho_state o) = mt_T m /\
  (crit = Named L2 -> mt_l2 (ho_state o) = mt_l2 m) /\ cache_ok crit (ho_state o).

Lemma predict_as_fitted : forall q N cvx crit tol cuts m bag o, as_fitted crit cuts m o ->
  as_fitted crit cuts m (fst (ho_predict q N cvx crit tol bag o)).
Proof.
  intros q N cvx crit tol cuts m bag o H. pose proof H as (a & b & c & d & e & f). unfold ho_predict. rewrite a.
  destruct (forallb _ cuts); [|exact H].
  destruct (matching_predict_state N cvx crit tol (with_represent (hc_represent q (ho_kind o) cuts) (ho_state o)) bag) as [S1 S2].
  { exact f. }
  destruct (matching_predict _ _ _ _ _ _) as [m' r]. cbn [fst] in *. destruct S1 as (s1 & s2 & s3 & s4 & s5). cbn [with_represent mt_classes mt_bins mt_T mt_l2 mt_represent] in *.
  split; [reflexivity|]. cbn [ho_state]. split; [congruence|]. split; [congruence|]. split; [congruence|]. split; [|exact S2].
  intros E. rewrite s4. auto.
Qed.

Lemma used_as_fitted : forall q N cvx crit tol cuts m o o', used_after q N cvx crit tol o o' -> as_fitted crit cuts m o -> as_fitted crit cuts m o'.
Proof.
  intros q N cvx crit tol cuts m o o' H HA. induction H; auto.
  apply predict_as_fitted. auto.
Qed.

Lemma fit_as_fitted : forall q ppf N fuel crit y rows o o', ho_fit q ppf N fuel crit y rows o = Val o' ->
  exists cuts m, hc_cuts q ppf (ho_bins o) (ho_strat o) y rows = Val cuts /\
    hc_fit q ppf N fuel (ho_kind o) (ho_bins o) (ho_strat o) crit y rows = Val m /\ as_fitted crit cuts m o'.
Proof.
  intros q ppf N fuel crit y rows o o' H. destruct (fit_inv _ _ _ _ _ _ _ _ _ H) as (cuts & m & E1 & E2 & E3 & E4 & E5 & ->).
  exists cuts, m. split; [exact E1|]. split; [exact E2|]. unfold as_fitted. cbn [ho_cuts ho_state assign_matcher mt_classes mt_bins mt_T mt_l2].
  split; [reflexivity|]. split; [reflexivity|]. split; [reflexivity|]. split; [reflexivity|]. split; [intros ->; reflexivity|]. split; exact I.
Qed.

Theorem unchanged_answers : forall q ppf N cvx fuel crit tol y rows o1 o2 o bag,
  ho_fit q ppf N fuel crit y rows o1 = Val o2 -> used_after q N cvx crit tol o2 o ->
  ho_kind o = ho_kind o1 -> ho_bins o = ho_bins o1 -> (crit = Named HD \/ crit = Named L1 -> ignores_warm_start cvx) ->
  exists fresh, ho_fit q ppf N fuel crit y rows (ho_new (ho_kind o1) (ho_bins o1) (ho_strat o1)) = Val fresh /\
    snd (ho_predict q N cvx crit tol bag o) = snd (ho_predict q N cvx crit tol bag fresh).
Proof.
  intros q ppf N cvx fuel crit tol y rows o1 o2 o bag HF HU HK HB HW.
  destruct (fit_as_fitted _ _ _ _ _ _ _ _ _ HF) as (cuts & m & EC & EM & AF). pose proof (used_as_fitted _ _ _ _ _ _ _ _ _ HU AF) as AO.
  unfold ho_fit. cbn [ho_new ho_kind ho_bins ho_strat ho_state]. rewrite EC. cbn [obind]. rewrite EM. cbn [omap]. eexists. split; [reflexivity|].
  destruct AO as (a & b & c & d & e & f). unfold ho_predict. rewrite a. cbn [ho_cuts ho_kind ho_bins ho_state]. rewrite HK, HB.
  destruct (forallb _ cuts); [|reflexivity].
  pose proof (fitted_as_answer N cvx crit tol (with_represent (hc_represent q (ho_kind o1) cuts) m)
    (with_represent (hc_represent q (ho_kind o1) cuts) (ho_state o))
    (with_represent (hc_represent q (ho_kind o1) cuts) (assign_matcher crit unfitted_matcher m)) bag HW) as K.
  destruct (matching_predict N cvx crit tol (with_represent _ (ho_state o)) bag) as [m1 r1].
  destruct (matching_predict N cvx crit tol (with_represent _ (assign_matcher crit unfitted_matcher m)) bag) as [m2 r2].
  cbn [snd] in *. apply K.
  - unfold fitted_as. cbn [with_represent mt_classes mt_bins mt_T mt_l2 mt_represent]. auto 10.
  - unfold fitted_as. cbn [with_represent assign_matcher mt_classes mt_bins mt_T mt_l2 mt_represent]. repeat (split; [reflexivity|]).
    split; [intros ->; reflexivity|]. split; [reflexivity|]. split; exact I.
Qed.

Theorem other_bins : forall q ppf N cvx fuel crit tol y rows o1 o2 o bag, has_descriptors q y ->
  ho_fit q ppf N fuel crit y rows o1 = Val o2 -> used_after q N cvx crit tol o2 o -> ho_bins o <> ho_bins o1 ->
  ho_predict q N cvx crit tol bag o = (o, Err ValueError).
Proof.
  intros q ppf N cvx fuel crit tol y rows o1 o2 o bag HD HF HU NB.
  destruct (fit_as_fitted _ _ _ _ _ _ _ _ _ HF) as (cuts & m & EC & EM & AF). destruct (used_as_fitted _ _ _ _ _ _ _ _ _ HU AF) as (a & _).
  unfold ho_predict. rewrite a. pose proof (all_cuts_length _ _ _ _ _ _ _ EC) as L. pose proof (cuts_not_empty _ _ _ _ _ _ _ HD EC) as NE.
  destruct cuts as [|c0 cuts]; [congruence|]. inversion L as [|? ? L0 _]. cbn [forallb]. rewrite L0.
  destruct (Nat.eqb_spec (S (ho_bins o1)) (S (ho_bins o))) as [E|_]; [congruence|]. reflexivity.
Qed.

(** ** distribution_function *)

Definition width_cuts : list edge := [NegInf; Fin (5/4); Fin (3/2); Fin (7/4); PosInf].

Lemma width_cuts_computed : forall ppf y classes, compute_bincuts ppf [1; 1; 2; 2] y classes 4 EqualWidth None = Val width_cuts.
Proof.
  intros ppf y classes. unfold compute_bincuts. cbn [lmin lmax fold_left].
  assert (M : Rmin (Rmin (Rmin 1 1) 2) 2 = 1) by (rewrite (Rmin_left 1 1) by lra; rewrite !(Rmin_left 1 2) by lra; reflexivity).
  assert (X : Rmax (Rmax (Rmax 1 1) 2) 2 = 2).
  { rewrite (Rmax_left 1 1) by lra. rewrite (Rmax_right 1 2) by lra. apply Rmax_left. lra. }
  rewrite M, X. unfold uniform_edges. destruct (Req_EM_T 1 2) as [E|_]; [lra|].
  unfold tabulate, inner, width_cuts. cbn [seq map tl removelast app]. cbn [INR].
  replace (1 + 1 * ((2 - 1) / (1 + 1 + 1 + 1))) with (5/4) by lra. replace (1 + (1 + 1) * ((2 - 1) / (1 + 1 + 1 + 1))) with (3/2) by lra.
  replace (1 + (1 + 1 + 1) * ((2 - 1) / (1 + 1 + 1 + 1))) with (7/4) by lra. reflexivity.
Qed.

Lemma width_represented : forall kind n, (0 < n)%nat ->
  dfx_represent kind [width_cuts] (repeat [1] n) = Val (match kind with PDF => [1; 0; 0; 0] | CDF => [1; 1; 1; 1] end) /\
  dfx_represent kind [width_cuts] (repeat [2] n) = Val [0; 0; 0; 1].
Proof.
  intros kind n Hn.
  assert (FT : forall (f : R -> bool) v, f v = true -> length (filter f (repeat v n)) = n).
  { intros f v H. clear Hn. induction n as [|m IH]; [reflexivity|]. cbn. rewrite H. cbn. now rewrite IH. }
  assert (FF : forall (f : R -> bool) v, f v = false -> length (filter f (repeat v n)) = O).
  { intros f v H. clear Hn FT. induction n as [|m IH]; [reflexivity|]. cbn. now rewrite H. }
  assert (CR : forall v, col 0 (repeat [v] n) = repeat v n).
  { intros v. clear. induction n as [|m IH]; [reflexivity|]. cbn. f_equal. exact IH. }
  assert (PN : 0 < INR n) by (apply INR_pos; exact Hn).
  assert (A : ascending_edges width_cuts).
  { apply non_decreasing_spec. unfold width_cuts. cbn. decide_reals. reflexivity. }
  assert (H1 : histogram (repeat 1 n) width_cuts = Val [n; 0; 0; 0]%nat).
  { rewrite histogram_counts by exact A. unfold width_cuts, tabulate. cbn [length Nat.sub seq map]. repeat f_equal; (apply FT || apply FF);
      unfold in_binb, before, below, at_most; cbn; decide_reals; reflexivity. }
  assert (H2 : histogram (repeat 2 n) width_cuts = Val [0; 0; 0; n]%nat).
  { rewrite histogram_counts by exact A. unfold width_cuts, tabulate. cbn [length Nat.sub seq map]. repeat f_equal; (apply FT || apply FF);
      unfold in_binb, before, below, at_most; cbn; decide_reals; reflexivity. }
  destruct n as [|n]; [lia|]. split.
  - unfold dfx_represent, df_blocks. cbn [repeat]. change ([1] :: repeat [1] n) with (repeat [1] (S n)).
    cbn [length seq combine map fst snd]. rewrite CR, H1. rewrite repeat_length. cbn [collect obind omap map concat app]. unfold vdiv, cumsum.
    cbn [map]. set (m := INR (S n)) in *. cbn [INR cumsum_from app]. change (INR 0) with 0.
    assert (E0 : 0 / m = 0) by (unfold Rdiv; apply Rmult_0_l). assert (E1 : m / m = 1) by (unfold Rdiv; apply Rinv_r; lra).
    rewrite ?E0, ?E1, ?Rplus_0_l, ?Rplus_0_r. destruct kind; reflexivity.
  - unfold dfx_represent, df_blocks. cbn [repeat]. change ([2] :: repeat [2] n) with (repeat [2] (S n)).
    cbn [length seq combine map fst snd]. rewrite CR, H2. rewrite repeat_length. cbn [collect obind omap map concat app]. unfold vdiv, cumsum.
    cbn [map]. set (m := INR (S n)) in *. cbn [INR cumsum_from app]. change (INR 0) with 0.
    assert (E0 : 0 / m = 0) by (unfold Rdiv; apply Rmult_0_l). assert (E1 : m / m = 1) by (unfold Rdiv; apply Rinv_r; lra).
    rewrite ?E0, ?E1, ?Rplus_0_l, ?Rplus_0_r. destruct kind; reflexivity.
Qed.

Definition width_train : matrix := matrix_of_columns [[1; 1; 1; 1]; [0; 0; 0; 1]].

Lemma width_l1 : forall x, 0 <= x <= 1 ->
  l1_objective 4 2 width_train [1; 1; 1; 1] [x; 1 - x] = 3 - 3 * x /\ l1_objective 4 2 width_train [1; 0; 0; 0] [x; 1 - x] = 2 + x.
Proof.
  intros x Hx.
  assert (M : mix 4 2 width_train [x; 1 - x] = [x; x; x; 1]).
  { unfold mix, width_train, matrix_of_columns, tabulate. cbn. repeat apply f_equal2; try reflexivity; ring. }
  unfold l1_objective. rewrite M. cbn [vmap2 map rsum]. rewrite !Rminus_0_l, !Rabs_Ropp.
  replace (1 - 1) with 0 by ring. rewrite !Rabs_R0, Rabs_R1.
  rewrite !(Rabs_right x) by lra. rewrite !(Rabs_right (1 - x)) by lra. split; ring.
Qed.

Lemma width_before : forall cvx, exact_cvx cvx -> answering_cvx cvx -> exists P, solve_l1 cvx 4 2 width_train [1; 1; 1; 1] None = Val (P, [1; 0]).
Proof.
  intros cvx HX HA. pose proof (proj1 (width_l1 1 ltac:(lra))) as V1. replace (1 - 1) with 0 in V1 by ring.
  apply unique_l1; auto.
  - repeat (apply Forall_cons; [lra|]). apply Forall_nil.
  - split; [apply corners|]. intros q Hq. destruct (dist2_of 2 q eq_refl Hq) as (x & Hx & ->).
    rewrite V1, (proj1 (width_l1 x Hx)). lra.
  - intros q [Hq Ho]. destruct (dist2_of 2 q eq_refl Hq) as (x & Hx & ->). specialize (Ho _ (proj1 corners)).
    rewrite V1, (proj1 (width_l1 x Hx)) in Ho. apply pair_eq; lra.
Qed.

Lemma width_after : forall cvx, exact_cvx cvx -> answering_cvx cvx -> exists P, solve_l1 cvx 4 2 width_train [1; 0; 0; 0] None = Val (P, [0; 1]).
Proof.
  intros cvx HX HA. pose proof (proj2 (width_l1 0 ltac:(lra))) as V1. replace (1 - 0) with 1 in V1 by ring.
  apply unique_l1; auto.
  - repeat (apply Forall_cons; [lra|]). apply Forall_nil.
  - split; [apply corners|]. intros q Hq. destruct (dist2_of 2 q eq_refl Hq) as (x & Hx & ->).
    rewrite V1, (proj2 (width_l1 x Hx)). lra.
  - intros q [Hq Ho]. destruct (dist2_of 2 q eq_refl Hq) as (x & Hx & ->). specialize (Ho _ (proj2 corners)).
    rewrite V1, (proj2 (width_l1 x Hx)) in Ho. apply pair_eq; lra.
Qed.

Theorem kind_changes : forall ppf N fuel cvx tol, exact_cvx cvx -> answering_cvx cvx ->
  exists o, ho_fit (DFX_class_of 1) ppf N fuel (Named L1) [0; 0; 1; 1]%Z [[1]; [1]; [2]; [2]] (ho_new CDF 4 EqualWidth) = Val o /\
    snd (ho_predict (DFX_class_of 1) N cvx (Named L1) tol [[1]] o) = Val [1; 0] /\
    snd (ho_predict (DFX_class_of 1) N cvx (Named L1) tol [[1]] (set_kind PDF o)) = Val [0; 1].
Proof.
  intros ppf N fuel cvx tol HX HA. unfold ho_fit. cbn [ho_new ho_kind ho_bins ho_strat ho_state hc_cuts hc_fit]. unfold DFX_fit.
  assert (EC : DFX_cuts ppf 4 EqualWidth [0; 0; 1; 1]%Z 1 [[1]; [1]; [2]; [2]] = Val [width_cuts]).
  { unfold DFX_cuts. cbn [seq map]. unfold col. cbn [map nth]. rewrite width_cuts_computed. reflexivity. }
  rewrite EC. cbn [obind]. unfold fit_matching. cbn [length Nat.eqb].
  change (np_unique [0; 0; 1; 1]%Z) with [0; 1]%Z. cbn [map]. change (select 0 [0; 0; 1; 1]%Z [[1]; [1]; [2]; [2]]) with (repeat [1] 2).
  change (select 1 [0; 0; 1; 1]%Z [[1]; [1]; [2]; [2]]) with (repeat [2] 2).
  destruct (width_represented CDF 2 ltac:(lia)) as [-> ->]. cbn [collect obind omap]. eexists. split; [reflexivity|].
  destruct (width_represented CDF 1 ltac:(lia)) as [RC _]. destruct (width_represented PDF 1 ltac:(lia)) as [RP _]. cbn [repeat] in RC, RP.
  destruct (width_before cvx HX HA) as [P1 B1]. destruct (width_after cvx HX HA) as [P2 B2].
  split; unfold ho_predict, set_kind; cbn [ho_cuts ho_kind ho_bins ho_state forallb width_cuts length Nat.eqb andb]; fold width_cuts;
    unfold matching_predict; cbn [with_represent mt_represent hc_represent].
  - rewrite RC. unfold estimate. cbv zeta. cbn [with_represent assign_matcher new_matcher mt_bins mt_classes mt_T mt_problem length Nat.mul Nat.add].
    fold width_train. rewrite B1. reflexivity.
  - rewrite RP. unfold estimate. cbv zeta. cbn [with_represent assign_matcher new_matcher mt_bins mt_classes mt_T mt_problem length Nat.mul Nat.add].
    fold width_train. rewrite B2. reflexivity.
Qed.
