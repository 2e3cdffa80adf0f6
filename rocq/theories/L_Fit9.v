(** * Proofs about DFX after failing fits (C129), continued: counterexamples. *)

From Coq Require Import Reals List ZArith Lia Lra Bool Arith.
From Verif Require Import Num Spec L_Num M_Baselines L_Baselines M_Bags L_Bags L_Bags3 M_Search M_Optim Spec_Optim L_Optim2 L_Optim4 L_Optim5 M_Match
  Spec_Match L_Match L_Match2 L_Match3 L_Match6 M_Fit3 Spec_Fit Spec_Fit3 L_Fit7 L_Fit8.
Import ListNotations.
Open Scope R_scope.

Ltac decide_reals := repeat match goal with
  | |- context [Rle_dec ?a ?b] => destruct (Rle_dec a b); try (exfalso; lra)
  | |- context [Rlt_dec ?a ?b] => destruct (Rlt_dec a b); try (exfalso; lra)
  end.

(** ** A fit that raises changes the answers *)

Definition four_cuts : list edge := [NegInf; Fin 1; Fin (3/2); Fin 2; PosInf].

Lemma four_sorted : rsort [1; 1; 2; 2] = [1; 1; 2; 2].
Proof. unfold rsort. cbn [fold_right rinsert]. repeat (decide_reals; cbn [rinsert]). reflexivity. Qed.

Lemma four_cuts_computed : forall ppf y classes, compute_bincuts ppf [1; 1; 2; 2] y classes 4 EqualCount None = Val four_cuts.
Proof.
  intros ppf y classes. unfold compute_bincuts. rewrite four_sorted.
  assert (C : forall i, (0 < i < 4)%nat -> Z.to_nat (round_even (INR (4 * i) / INR 4)) = i).
  { intros i Hi. replace (INR (4 * i) / INR 4) with (IZR (Z.of_nat i)).
    - rewrite (round_even_unique _ (Z.of_nat i)); [apply Nat2Z.id|]. unfold Rminus. rewrite Rplus_opp_r, Rabs_R0. lra.
    - rewrite mult_INR, <- INR_IZR_INZ. assert (INR 4 <> 0) by (cbn; lra). field. exact H. }
  assert (V : forall i, In i (seq 1 3) -> equal_count_cut [1; 1; 2; 2] 4 i = Val (match i with 1%nat => 1 | 2%nat => 3/2 | _ => 2 end)).
  { intros i Hi. apply in_seq in Hi. unfold equal_count_cut. cbn [length]. rewrite C by lia. destruct i as [|[|[|[|i]]]]; try lia; cbn; f_equal; lra. }
  cbn [Nat.sub]. rewrite (collect_val (equal_count_cut [1; 1; 2; 2] 4) (fun i => (match i with 1%nat => 1 | 2%nat => 3/2 | _ => 2 end))) by exact V. reflexivity.
Qed.

Lemma four_represented : forall n, (0 < n)%nat ->
  dfx_represent CDF [four_cuts] (repeat [1] n) = Val [0; 1; 1; 1] /\ dfx_represent CDF [four_cuts] (repeat [2] n) = Val [0; 0; 0; 1].
Proof.
  intros n Hn.
  assert (FT : forall (f : R -> bool) v, f v = true -> length (filter f (repeat v n)) = n).
  { intros f v H. clear Hn. induction n as [|m IH]; [reflexivity|]. cbn. rewrite H. cbn. now rewrite IH. }
  assert (FF : forall (f : R -> bool) v, f v = false -> length (filter f (repeat v n)) = O).
  { intros f v H. clear Hn FT. induction n as [|m IH]; [reflexivity|]. cbn. now rewrite H. }
  assert (CR : forall v, col 0 (repeat [v] n) = repeat v n).
  { intros v. clear. induction n as [|m IH]; [reflexivity|]. cbn. f_equal. exact IH. }
  assert (PN : 0 < INR n) by (apply INR_pos; exact Hn).
  assert (A : ascending_edges four_cuts).
  { apply non_decreasing_spec. unfold four_cuts. cbn. decide_reals. reflexivity. }
  assert (H1 : histogram (repeat 1 n) four_cuts = Val [0; n; 0; 0]%nat).
  { rewrite histogram_counts by exact A. unfold four_cuts, tabulate. cbn [length Nat.sub seq map]. repeat f_equal; (apply FT || apply FF); unfold in_binb, before, below, at_most; cbn; decide_reals; reflexivity. }
  assert (H2 : histogram (repeat 2 n) four_cuts = Val [0; 0; 0; n]%nat).
  { rewrite histogram_counts by exact A. unfold four_cuts, tabulate. cbn [length Nat.sub seq map]. repeat f_equal; (apply FT || apply FF); unfold in_binb, before, below, at_most; cbn; decide_reals; reflexivity. }
  destruct n as [|n]; [lia|]. split.
  - unfold dfx_represent, df_blocks. cbn [repeat]. change ([1] :: repeat [1] n) with (repeat [1] (S n)).
    cbn [length seq combine map fst snd]. rewrite CR, H1. rewrite repeat_length. cbn [collect obind omap map concat]. unfold vdiv, cumsum.
    cbn [map]. set (m := INR (S n)) in *. cbn [INR cumsum_from]. change (INR 0) with 0.
    assert (E0 : 0 / m = 0) by (unfold Rdiv; apply Rmult_0_l). assert (E1 : m / m = 1) by (unfold Rdiv; apply Rinv_r; lra).
    rewrite ?E0, ?E1, ?Rplus_0_l, ?Rplus_0_r. reflexivity.
  - unfold dfx_represent, df_blocks. cbn [repeat]. change ([2] :: repeat [2] n) with (repeat [2] (S n)).
    cbn [length seq combine map fst snd]. rewrite CR, H2. rewrite repeat_length. cbn [collect obind omap map concat]. unfold vdiv, cumsum.
    cbn [map]. set (m := INR (S n)) in *. cbn [INR cumsum_from]. change (INR 0) with 0.
    assert (E0 : 0 / m = 0) by (unfold Rdiv; apply Rmult_0_l). assert (E1 : m / m = 1) by (unfold Rdiv; apply Rinv_r; lra).
    rewrite ?E0, ?E1, ?Rplus_0_l, ?Rplus_0_r. reflexivity.
Qed.

Definition four_train : matrix := matrix_of_columns [[0; 1; 1; 1]; [0; 0; 0; 1]].

Lemma four_l1 : forall x, 0 <= x <= 1 ->
  l1_objective 4 2 four_train [0; 1; 1; 1] [x; 1 - x] = 2 - 2 * x /\ l1_objective 4 2 four_train [0; 0; 0; 0] [x; 1 - x] = 1 + 2 * x.
Proof.
  intros x Hx.
  assert (M : mix 4 2 four_train [x; 1 - x] = [0; x; x; 1]).
  { unfold mix, four_train, matrix_of_columns, tabulate. cbn. repeat apply f_equal2; try reflexivity; ring. }
  unfold l1_objective. rewrite M. cbn [vmap2 map rsum]. rewrite !Rminus_0_l, !Rabs_Ropp.
  replace (0 - 0) with 0 by ring. replace (1 - 1) with 0 by ring. rewrite !Rabs_R0, Rabs_R1.
  rewrite !(Rabs_right x) by lra. rewrite !(Rabs_right (1 - x)) by lra. split; ring.
Qed.

(** The answer of an exact solver when there is only one. *)
Lemma unique_l1 : forall cvx d T t p, exact_cvx cvx -> answering_cvx cvx -> length t = d -> Forall (fun v => 0 <= v) t ->
  best_distribution 2 (l1_objective d 2 T t) p -> (forall q, best_distribution 2 (l1_objective d 2 T t) q -> q = p) ->
  exists P, solve_l1 cvx d 2 T t None = Val (P, p).
Proof.
  intros cvx d T t p HX HA L NN HB HU. unfold solve_l1. rewrite L, Nat.eqb_refl.
  destruct (run_problem_answers cvx {| cp_n := 2; cp_d := d; cp_objective := l1_objective d 2 T; cp_last := None |} t p HA L NN HB) as (P & x & E).
  rewrite E. exists P. apply run_problem_best in E; [|exact HX]. cbn [cp_n cp_objective] in E. apply HU in E. now subst.
Qed.

Lemma corners : distribution_over 2 [1; 0] /\ distribution_over 2 [0; 1].
Proof.
  split; (split; [reflexivity|]); (split; [|simpl; lra]); (apply Forall_cons; [lra|]; apply Forall_cons; [lra|]; apply Forall_nil).
Qed.

Lemma pair_eq : forall a b c d : R, a = c -> b = d -> [a; b] = [c; d].
Proof. intros. now subst. Qed.

Lemma four_before : forall cvx, exact_cvx cvx -> answering_cvx cvx -> exists P, solve_l1 cvx 4 2 four_train [0; 1; 1; 1] None = Val (P, [1; 0]).
Proof.
  intros cvx HX HA. pose proof (proj1 (four_l1 1 ltac:(lra))) as V1. replace (1 - 1) with 0 in V1 by ring.
  apply unique_l1; auto.
  - repeat (apply Forall_cons; [lra|]). apply Forall_nil.
  - split; [apply corners|]. intros q Hq. destruct (dist2_of 2 q eq_refl Hq) as (x & Hx & ->).
    rewrite V1, (proj1 (four_l1 x Hx)). lra.
  - intros q [Hq Ho]. destruct (dist2_of 2 q eq_refl Hq) as (x & Hx & ->). specialize (Ho _ (proj1 corners)).
    rewrite V1, (proj1 (four_l1 x Hx)) in Ho. apply pair_eq; lra.
Qed.

Lemma four_after : forall cvx, exact_cvx cvx -> answering_cvx cvx -> exists P, solve_l1 cvx 4 2 four_train [0; 0; 0; 0] None = Val (P, [0; 1]).
Proof.
  intros cvx HX HA. pose proof (proj2 (four_l1 0 ltac:(lra))) as V1. replace (1 - 0) with 1 in V1 by ring.
  apply unique_l1; auto.
  - repeat (apply Forall_cons; [lra|]). apply Forall_nil.
  - split; [apply corners|]. intros q Hq. destruct (dist2_of 2 q eq_refl Hq) as (x & Hx & ->).
    rewrite V1, (proj2 (four_l1 x Hx)). lra.
  - intros q [Hq Ho]. destruct (dist2_of 2 q eq_refl Hq) as (x & Hx & ->). specialize (Ho _ (proj2 corners)).
    rewrite V1, (proj2 (four_l1 x Hx)) in Ho. apply pair_eq; lra.
Qed.

Theorem failed_refit_changes : forall ppf N fuel cvx tol, increasing_ppf ppf -> exact_cvx cvx -> answering_cvx cvx ->
  exists s1 s2 r,
    DFX_object_fit ppf N fuel CDF 4 EqualCount (Named L1) 1 [0; 0; 1; 1]%Z [[1]; [1]; [2]; [2]] DFX_new = (Val tt, s1) /\
    DFX_object_fit ppf N fuel CDF 4 EqualCount (Named L1) 1 [0; 1]%Z [[1]; [2]] s1 = (r, s2) /\ raises r /\
    snd (DFX_object_predict N cvx CDF 4 (Named L1) tol 1 [[1]] s1) = Val [1; 0] /\
    snd (DFX_object_predict N cvx CDF 4 (Named L1) tol 1 [[1]] s2) = Val [0; 1].
Proof.
  intros ppf N fuel cvx tol HP HX HA.
  set (s1 := fitted N fuel 4 (Named L1) 1 [0; 1]%Z [four_cuts] [[0; 1; 1; 1]; [0; 0; 0; 1]] DFX_new).
  assert (F1 : DFX_object_fit ppf N fuel CDF 4 EqualCount (Named L1) 1 [0; 0; 1; 1]%Z [[1]; [1]; [2]; [2]] DFX_new = (Val tt, s1)).
  { apply object_fit_returns; [split; [reflexivity|split; [discriminate|lia]]|]. exists [four_cuts], [[0; 1; 1; 1]; [0; 0; 0; 1]].
    split; [|split; [reflexivity|split; [|reflexivity]]].
    - unfold DFX_cuts. cbn [seq map]. unfold col. cbn [map nth]. rewrite four_cuts_computed. reflexivity.
    - change (np_unique [0; 0; 1; 1]%Z) with [0; 1]%Z. cbn [map]. change (select 0 [0; 0; 1; 1]%Z [[1]; [1]; [2]; [2]]) with (repeat [1] 2).
      change (select 1 [0; 0; 1; 1]%Z [[1]; [1]; [2]; [2]]) with (repeat [2] 2).
      destruct (four_represented 2 ltac:(lia)) as [-> ->]. reflexivity. }
  assert (HM : (EqualCount = EqualCount -> 4 mod 4 <> 2)%nat) by (intros _; cbn; lia).
  assert (A2 : accepted_data 1 [0; 1]%Z [[1]; [2]]) by (split; [reflexivity|split; [discriminate|lia]]).
  destruct (fit_fate ppf N fuel CDF 4 EqualCount (Named L1) 1 [0; 1]%Z [[1]; [2]] s1 HP HM A2) as [[s' F]|[e F]].
  { exfalso. apply object_fit_returns in F; [|exact A2]. destruct F as (cuts & cols & EC & _). unfold DFX_cuts in EC. cbn [seq map] in EC.
    rewrite (equal_count_half ppf _ _ _ 4 None) in EC; [discriminate|lia|reflexivity|reflexivity]. }
  exists s1. eexists. exists (Err e). split; [exact F1|]. split; [exact F|]. split; [intros a; discriminate|].
  assert (RB : dfx_represent CDF [four_cuts] [[1]] = Val [0; 1; 1; 1]) by (apply (four_represented 1); lia).
  assert (RZ : dfx_represent CDF (repeat (repeat (Fin 0) 5) 1) [[1]] = Val [0; 0; 0; 0]).
  { rewrite (zero_represent CDF 4 1).
    - unfold empty_representation. cbn. rewrite !Rplus_0_l. reflexivity.
    - split; [discriminate|]. apply Forall_cons; [|apply Forall_nil]. split; [reflexivity|]. cbn. lra. }
  destruct (four_before cvx HX HA) as [P1 B1]. destruct (four_after cvx HX HA) as [P2 B2]. split.
  - unfold DFX_object_predict, s1. cbn [fitted dx_classes dx_cuts dx_train dx_problem needs_cvx length Nat.eqb negb andb]. rewrite RB.
    unfold matching_predict. cbn [dx_matcher mt_represent]. rewrite RB. unfold estimate. cbv zeta.
    cbn [dx_matcher fitted mt_bins mt_classes mt_T mt_problem dx_problem length Nat.mul Nat.add]. fold four_train. rewrite B1. reflexivity.
  - unfold DFX_object_predict, s1. cbn [reset_cuts fitted dx_classes dx_cuts dx_train dx_problem needs_cvx]. rewrite RZ.
    change (length (np_unique [0; 1]%Z)) with 2%nat. cbn [length Nat.eqb negb andb].
    unfold matching_predict. cbn [dx_matcher mt_represent]. rewrite RZ. unfold estimate. cbv zeta.
    cbn [dx_matcher reset_cuts fitted mt_bins mt_classes mt_T mt_problem dx_problem length Nat.mul Nat.add]. fold four_train. rewrite B2. reflexivity.
Qed.

(** ** Two fits that raise, none that returns, and an answer *)

Theorem two_failed_fits_answer : forall ppf N fuel cvx tol, answering_cvx cvx ->
  exists s1 s2 r1 r2 p,
    DFX_object_fit ppf N fuel PDF 6 EqualCount (Named L1) 1 [0; 0; 1]%Z [[0]; [0]; [1]] DFX_new = (r1, s1) /\ raises r1 /\
    DFX_object_fit ppf N fuel PDF 6 EqualCount (Named L1) 1 [0; 1]%Z [[0]; [1]] s1 = (r2, s2) /\ raises r2 /\
    snd (DFX_object_predict N cvx PDF 6 (Named L1) tol 1 [[2]] s2) = Val p.
Proof.
  intros ppf N fuel cvx tol HA.
  destruct equal_count_unordered as (cuts & EC & NA).
  assert (EC' : compute_bincuts ppf [0; 0; 1] [0; 0; 1]%Z (np_unique [0; 0; 1]%Z) 6 EqualCount None = Val cuts) by (rewrite <- EC; reflexivity).
  assert (EH : forall x, histogram x cuts = Err ValueError).
  { intros x. unfold histogram. destruct (non_decreasing cuts) eqn:E; [|reflexivity]. apply non_decreasing_spec in E. contradiction. }
  assert (F1 : DFX_object_fit ppf N fuel PDF 6 EqualCount (Named L1) 1 [0; 0; 1]%Z [[0]; [0]; [1]] DFX_new =
    (Err ValueError, {| dx_classes := Some [0; 1]%Z; dx_cuts := Some [cuts]; dx_train := Some [repeat 0 6; repeat 0 6]; dx_l2 := None;
                        dx_problem := None; dx_mixtures := None |})).
  { unfold DFX_object_fit. cbn [length Nat.eqb negb orb]. unfold DFX_fill_cuts. cbn [seq fill_rows]. unfold col. cbn [map nth]. rewrite EC'.
    change (np_unique [0; 0; 1]%Z) with [0; 1]%Z. cbn [DFX_fill_train]. unfold DFX_fill_column at 1. cbn [seq fill_rows nth]. rewrite EH. reflexivity. }
  assert (E2 : compute_bincuts ppf [0; 1] [0; 1]%Z (np_unique [0; 1]%Z) 6 EqualCount None = Err IndexError) by (apply equal_count_few; cbn; lia).
  eexists. eexists. exists (Err ValueError), (Err IndexError).
  assert (RZ : dfx_represent PDF (repeat (repeat (Fin 0) 7) 1) [[2]] = Val (repeat 0 6)).
  { rewrite (zero_represent PDF 6 1).
    - reflexivity.
    - split; [discriminate|]. apply Forall_cons; [|apply Forall_nil]. split; [reflexivity|]. cbn. lra. }
  set (T := matrix_of_columns [repeat 0 6; repeat 0 6]).
  assert (V : forall q, l1_objective 6 2 T (repeat 0 6) q = 0).
  { intros q. assert (M : mix 6 2 T q = repeat 0 6).
    { unfold mix, T, matrix_of_columns, tabulate. cbn. rewrite !Rmult_0_l, !Rplus_0_l. reflexivity. }
    unfold l1_objective. rewrite M. cbn. rewrite Rminus_0_r, Rabs_R0. ring. }
  destruct (run_problem_answers cvx {| cp_n := 2; cp_d := 6; cp_objective := l1_objective 6 2 T; cp_last := None |} (repeat 0 6) [1; 0] HA eq_refl)
    as (P & x & E).
  { repeat (apply Forall_cons; [lra|]). apply Forall_nil. }
  { split; [apply corners|]. intros q _. cbn [cp_objective]. rewrite !V. lra. }
  exists x. split; [exact F1|]. split; [intros a; discriminate|]. split; [|split; [intros a; discriminate|]].
  - unfold DFX_object_fit. cbn [length Nat.eqb negb orb]. unfold DFX_fill_cuts. cbn [seq fill_rows]. unfold col. cbn [map nth]. rewrite E2. reflexivity.
  - unfold DFX_object_predict. cbn [dx_classes dx_cuts dx_train dx_problem dx_l2 dx_mixtures needs_cvx length].
    change (repeat (repeat (Fin 0) 7) 1) with [repeat (Fin 0) 7] in RZ. cbn [repeat length] in RZ |- *. rewrite RZ.
    change (np_unique [0; 1]%Z) with [0; 1]%Z. cbn [length Nat.eqb negb andb].
    unfold matching_predict. cbn [dx_matcher mt_represent]. rewrite RZ. unfold estimate. cbv zeta.
    cbn [dx_matcher mt_bins mt_classes mt_T mt_problem dx_problem length Nat.mul Nat.add]. unfold solve_l1. cbn [length Nat.eqb].
    change (matrix_of_columns [[0; 0; 0; 0; 0; 0]; [0; 0; 0; 0; 0; 0]]) with T. change [0; 0; 0; 0; 0; 0] with (repeat 0 6) at 1. cbn [repeat] in E |- *.
    rewrite E. reflexivity.
Qed.
