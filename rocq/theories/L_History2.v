(** * Histories with solvers that depend on the warm start, and with estimators (C62). *)

From Coq Require Import Reals List ZArith Lia Lra Bool Arith ClassicalDescription.
From Verif Require Import Num Spec L_Num M_Baselines L_Baselines M_Bags L_Bags M_Search L_Search3 M_Optim
  Spec_Optim L_Optim2 L_Optim3 L_Optim4 L_Optim5 M_Estimators M_Match Spec_Match L_Match L_Match2 M_History Spec_History
  L_History.
Import ListNotations.
Open Scope R_scope.

(** ** Exact solvers: the answers may differ, their distances do not *)

Lemma matcher_related : forall {A B} N cvx crit tol (fit : A -> out (matcher B)) a h s m,
  last_fit a h -> reaches (matcher_class N cvx crit tol fit) h s -> fit a = Val m -> fitted_as crit m s.
Proof.
  intros A B N cvx crit tol fit a h s m (before & bags & ->) H E.
  assert (G : exists m, fit a = Val m /\ fitted_as crit m s).
  { eapply (related (matcher_class N cvx crit tol fit) (fun a s => exists m, fit a = Val m /\ fitted_as crit m s)) with (bags := bags).
    - intros a0 s0 s' E0. cbn [matcher_class qc_fit] in *. apply omap_val in E0. destruct E0 as (m0 & E0 & _). rewrite E0.
      eexists. reflexivity.
    - intros a0 s0 s' E0. cbn [matcher_class qc_fit] in *. apply omap_val in E0. destruct E0 as (m0 & E0 & ->). exists m0.
      split; auto. apply assign_fitted_as.
    - intros a0 s0 t (m0 & Em & Hm). exists m0. split; auto. cbn [matcher_class qc_predict].
      destruct (matching_predict_state N cvx crit tol s0 t) as [S1 S2]; [apply Hm|]. eapply fitted_as_step; eauto.
    - exact H.
    - cbn [matcher_class qc_fit]. rewrite E. reflexivity. }
  destruct G as (m' & E' & F). assert (m' = m) by congruence. subst m'. exact F.
Qed.

Lemma matcher_l1_best : forall {A B} N cvx tol (fit : A -> out (matcher B)) a h s m bag t p, exact_cvx cvx ->
  last_fit a h -> reaches (matcher_class N cvx (Named L1) tol fit) h s -> fit a = Val m ->
  mt_represent m bag = Val t -> length t = mt_bins m ->
  snd (qc_predict (matcher_class N cvx (Named L1) tol fit) bag s) = Val p ->
  best_distribution (mt_classes m) (l1_distance (mt_bins m) (mt_classes m) (mt_T m) t) p.
Proof.
  intros A B N cvx tol fit a h s m bag t p HX HL H E Ht L Hp.
  destruct (matcher_related N cvx (Named L1) tol fit a h s m HL H E) as (F1 & F2 & F3 & _ & F5 & F6).
  cbn [matcher_class qc_predict] in Hp. unfold matching_predict in Hp. rewrite F5, Ht in Hp.
  rewrite <- F1, <- F2, <- F3. eapply l1_cached_best; eauto. congruence.
Qed.

Lemma matcher_hd_best : forall {A B} N cvx tol (fit : A -> out (matcher B)) a h s m bag t p, exact_cvx cvx ->
  last_fit a h -> reaches (matcher_class N cvx (Named HD) tol fit) h s -> fit a = Val m ->
  mt_represent m bag = Val t -> length t = mt_bins m ->
  snd (qc_predict (matcher_class N cvx (Named HD) tol fit) bag s) = Val p ->
  best_distribution (mt_classes m)
    (fun q => 1 - sumn (mt_bins m) (fun r => sqrt (nth r t 0 * mixture_at (mt_classes m) (mt_T m) q r))) p.
Proof.
  intros A B N cvx tol fit a h s m bag t p HX HL H E Ht L Hp.
  destruct (matcher_related N cvx (Named HD) tol fit a h s m HL H E) as (F1 & F2 & F3 & _ & F5 & F6).
  cbn [matcher_class qc_predict] in Hp. unfold matching_predict in Hp. rewrite F5, Ht in Hp.
  unfold estimate in Hp.
  destruct (solve_hd _ _ _ _ _ _) as [[P x]| |] eqn:E1; try discriminate. cbn [snd] in Hp.
  inversion Hp; subst x. destruct (cached_hd _ _ _ _ _ F6 E1) as (P0 & R & H1 & H2 & H3).
  apply run_problem_best in R; auto. rewrite H1, H3, F1, F2, F3 in R. destruct R as [D O].
  split; [exact D|]. intros q Hq. specialize (O q Hq). rewrite !hd_objective_val in O by auto. exact O.
Qed.

(** Both answers minimise, hence their losses are equal. *)
Lemma best_same : forall n loss p q, best_distribution n loss p -> best_distribution n loss q -> loss p = loss q.
Proof. intros n loss p q [D O] [D' O']. apply Rle_antisym; auto. Qed.

Lemma solve_l1_best : forall cvx n T t P P' x, exact_cvx cvx -> l1_problem n T P -> length t = n ->
  solve_l1 cvx n n T t P = Val (P', x) -> best_distribution n (l1_distance n n T t) x.
Proof.
  intros cvx n T t P P' x HX H L E. unfold solve_l1 in E.
  assert (K : best_distribution n (l1_objective n n T t) x).
  { destruct P as [P|].
    - apply run_problem_best in E; auto. destruct H as (a & b & c). rewrite a, c in E. exact E.
    - rewrite L, Nat.eqb_refl in E. apply run_problem_best in E; auto. }
  destruct K as [D O]. split; auto. intros q Hq. specialize (O q Hq). rewrite !l1_objective_val in O by auto. exact O.
Qed.

Lemma solve_hd_best : forall cvx n T t P P' x, exact_cvx cvx -> hd_problem n T P -> length t = n ->
  solve_hd cvx n n T t P = Val (P', x) ->
  best_distribution n (fun q => 1 - sumn n (fun r => sqrt (nth r t 0 * mixture_at n T q r))) x.
Proof.
  intros cvx n T t P P' x HX H L E. unfold solve_hd in E.
  assert (K : best_distribution n (hd_objective n n T t) x).
  { destruct P as [P|].
    - apply run_problem_best in E; auto. destruct H as (a & b & c). rewrite a, c in E. exact E.
    - rewrite L, Nat.eqb_refl in E. apply run_problem_best in E; auto. }
  destruct K as [D O]. split; auto. intros q Hq. specialize (O q Hq). rewrite !hd_objective_val in O by auto. exact O.
Qed.

(** ** A solver that is exact and depends on the warm start *)

(** The first time it answers (1, 0) if that is a best distribution; from a warm start it answers (0, 1) if that is one. *)
Definition moody_cvx : cvx_solver := fun warm n f =>
  let x := match warm with None => [1; 0] | Some _ => [0; 1] end in
  if excluded_middle_informative (best_distribution n f x) then Some x else None.

Lemma moody_exact : exact_cvx moody_cvx.
Proof.
  intros warm n f x H. unfold moody_cvx in H.
  match type of H with (if excluded_middle_informative ?P then _ else _) = _ => destruct (excluded_middle_informative P) as [K|] end;
    [|discriminate]. inversion H; subst. exact K.
Qed.

Definition no_numerics : numerics :=
  {| svd := fun _ _ => (fun _ => 0, fun _ _ => 0); min_eigenvalue := fun _ _ => 0; spacing := fun x => x;
     solve_qp := fun _ _ _ _ _ _ _ => None |}.

Lemma confusion_blind : AC_fit [0; 1]%Z [0; 0]%Z = Val [Some [1; 0]; Some [1; 0]].
Proof.
  unfold AC_fit. change (Nat.eqb (length (y_ext [0; 1]%Z (length [0; 0]%Z))) (length [0; 0]%Z)) with true. cbv iota.
  change (np_unique [0; 1]%Z) with [0; 1]%Z.
  change (confusion [0; 1]%Z (y_ext [0; 1]%Z (length [0; 0]%Z)) [0; 0]%Z) with [[1; 0]; [1; 0]].
  cbn [map]. unfold norm_row. cbn [rsum fold_right]. unfold rsum. cbn [fold_right].
  destruct (Req_EM_T (1 + (0 + 0)) 0) as [E|E]; [lra|]. unfold vdiv. cbn [map].
  repeat f_equal; lra.
Qed.

(** Both classes look the same: all distributions are at the same distance. *)
Lemma blind_best : forall T t, (forall r, T r 0%nat = T r 1%nat) -> forall p, distribution_over 2 p ->
  best_distribution 2 (l1_objective 2 2 T t) p.
Proof.
  intros T t HT p Hp. split; auto. intros q Hq. apply Req_le.
  assert (K : forall p, distribution_over 2 p -> mix 2 2 T p = [T 0%nat 0%nat; T 1%nat 0%nat]).
  { intros v (L & _ & S). destruct v as [|a [|b [|]]]; try discriminate. unfold mix, tabulate. cbn. unfold rsum in S. cbn in S.
    rewrite <- !HT. f_equal; [|f_equal]; replace b with (1 - a) by lra; ring. }
  unfold l1_objective. rewrite !K by auto. reflexivity.
Qed.

Definition blind : matcher (list Z) :=
  new_matcher no_numerics 0 (Named L1) 2 (aco_represent [0; 1]%Z) (map cumsum [[1; 0]; [1; 0]]).
Definition blind_class := ACOrdinal_class no_numerics moody_cvx 0.

Lemma blind_fit : qc_fit blind_class ([0; 1], [0; 0])%Z (qc_new blind_class) = Val blind.
Proof.
  unfold blind_class. cbn [ACOrdinal_class qc_fit qc_new fst snd]. unfold ACOrdinal_fit. rewrite confusion_blind. reflexivity.
Qed.

Lemma blind_represent : mt_represent blind [0%Z] = Val [1; 1].
Proof.
  unfold blind. cbn [new_matcher mt_represent]. unfold aco_represent, class_frequencies. cbn [map].
  change (zcount 0 [0%Z]) with 1%nat. change (zcount 1 [0%Z]) with 0%nat. cbn [length omap].
  change (INR 1) with 1. change (INR 0) with 0.
  replace (1 / 1) with 1 by lra. replace (0 / 1) with 0 by lra.
  unfold cumsum. cbn. f_equal. f_equal; [|f_equal]; lra.
Qed.

Lemma blind_first : matching_predict no_numerics moody_cvx (Named L1) 0 blind [0%Z] =
  (with_problem blind {| cp_n := 2; cp_d := 2; cp_objective := l1_objective 2 2 (mt_T blind); cp_last := Some [1; 0] |}, Val [1; 0]).
Proof.
  unfold matching_predict. rewrite blind_represent. unfold estimate, solve_l1.
  change (mt_problem blind) with (@None cvx_problem). change (mt_bins blind) with 2%nat. change (mt_classes blind) with 2%nat.
  cbn [length Nat.eqb]. unfold run_problem, valid_parameter. cbn [cp_d cp_n cp_last cp_objective length Nat.eqb forallb andb].
  destruct (Rle_dec 0 1) as [_|E]; [|lra]. cbn [andb]. unfold moody_cvx.
  match goal with |- context[if excluded_middle_informative ?P then _ else _] => destruct (excluded_middle_informative P) as [K|K] end.
  - reflexivity.
  - destruct K. apply blind_best.
    + intros [|[|r]]; cbn; try reflexivity; destruct r; reflexivity.
    + split; [reflexivity|]. split; [repeat (apply Forall_cons; [lra|]); apply Forall_nil|]. unfold rsum. cbn. lra.
Qed.

Lemma blind_second : 
  snd (matching_predict no_numerics moody_cvx (Named L1) 0
    (with_problem blind {| cp_n := 2; cp_d := 2; cp_objective := l1_objective 2 2 (mt_T blind); cp_last := Some [1; 0] |}) [0%Z])
  = Val [0; 1].
Proof.
  unfold matching_predict.
  change (mt_represent (with_problem blind {| cp_n := 2; cp_d := 2; cp_objective := l1_objective 2 2 (mt_T blind); cp_last := Some [1; 0] |}))
    with (mt_represent blind).
  rewrite blind_represent. unfold estimate, solve_l1. cbn [with_problem mt_problem].
  unfold run_problem, valid_parameter. cbn [cp_d cp_n cp_last cp_objective length Nat.eqb forallb andb].
  destruct (Rle_dec 0 1) as [_|E]; [|lra]. cbn [andb]. unfold moody_cvx.
  match goal with |- context[if excluded_middle_informative ?P then _ else _] => destruct (excluded_middle_informative P) as [K|K] end.
  - reflexivity.
  - destruct K. apply blind_best.
    + intros [|[|r]]; cbn; try reflexivity; destruct r; reflexivity.
    + split; [reflexivity|]. split; [repeat (apply Forall_cons; [lra|]); apply Forall_nil|]. unfold rsum. cbn. lra.
Qed.

Lemma moody_refutes : exists N cvx fuel, exact_cvx cvx /\ ~ history_independent (ACOrdinal_class N cvx fuel) (fun _ => True).
Proof.
  exists no_numerics, moody_cvx, 0%nat. split; [exact moody_exact|]. intros [_ H].
  specialize (H [Fit ([0; 1], [0; 0])%Z; Predict [0%Z]] ([0; 1], [0; 0])%Z).
  specialize (H (fst (matching_predict no_numerics moody_cvx (Named L1) 0 blind [0%Z])) blind [0%Z] I).
  assert (HL : last_fit ([0; 1], [0; 0])%Z [Fit ([0; 1], [0; 0])%Z; Predict [0%Z]]).
  { exists [], [[0%Z]]. reflexivity. }
  assert (R : reaches blind_class [Fit ([0; 1], [0; 0])%Z; Predict [0%Z]]
                (fst (matching_predict no_numerics moody_cvx (Named L1) 0 blind [0%Z]))).
  { apply (reaches_predict blind_class [Fit ([0; 1], [0; 0])%Z] blind [0%Z]).
    apply (reaches_fit blind_class [] (qc_new blind_class) ([0; 1], [0; 0])%Z); [constructor|]. apply blind_fit. }
  specialize (H HL R blind_fit). cbn [ACOrdinal_class qc_predict] in H. unfold ACOrdinal_predict in H.
  rewrite blind_first in H. cbn [fst snd] in H. rewrite blind_second in H. inversion H. lra.
Qed.

(** ** AC and PAC with exact solvers *)

Section Adjusters2.
  Context {P T : Type} (inv : nat -> matrix -> option matrix) (N : numerics) (cvx : cvx_solver) (fuel : nat) (dist : distance)
    (fit : list Z -> P -> out (list (option (list R)))) (p0 : T -> list Z -> out (list R)).
  Let C : quantifier_class (list Z * P) T adjuster (list R) :=
    {| qc_new := unfitted_adjuster;
       qc_fit := fun a old => omap (assign_adjuster N fuel dist (fst a) old) (fit (fst a) (snd a));
       qc_predict := fun bag o => adjuster_predict inv N cvx dist (p0 bag) o |}.

  Lemma adjusters_related : forall h a s cm, last_fit a h -> reaches C h s -> fit (fst a) (snd a) = Val cm ->
    adjusted N fuel dist (fst a) cm s.
  Proof.
    intros h a s cm (before & bags & ->) H E.
    destruct (related C _ (adjusters_fit' inv N cvx fuel dist fit p0) (adjusters_rel inv N cvx fuel dist fit p0)
                (adjusters_pred inv N cvx fuel dist fit p0) bags before a s
                (assign_adjuster N fuel dist (fst a) unfitted_adjuster cm) H) as (cm' & E' & H').
    { unfold C. cbn. rewrite E. reflexivity. }
    assert (cm' = cm) by congruence. subst cm'. exact H'.
  Qed.

  Lemma adjusters_best : exact_cvx cvx -> forall h a s rows t test p, last_fit a h -> reaches C h s ->
    let n := length (np_unique (fst a)) in
    let M := fun i j => entry rows j i in
    fit (fst a) (snd a) = Val (map Some rows) -> n <> 2%nat -> inv n M = None ->
    p0 t (np_unique (fst a)) = Val test -> length test = n ->
    snd (qc_predict C t s) = Val p ->
    (dist = L1 -> best_distribution n (l1_distance n n M test) p) /\
    (dist = HD -> best_distribution n (fun q => 1 - sumn n (fun r => sqrt (nth r test 0 * mixture_at n M q r))) p).
  Proof.
    intros HX h a s rows t test p HL H n M E Hn HI Ht Hl Hp.
    pose proof (adjusters_related h a s _ HL H E) as (E1 & E2 & E3).
    assert (Es : all_some (map Some rows) = Some rows).
    { clear. induction rows as [|r rows IH]; [reflexivity|]. cbn. rewrite IH. reflexivity. }
    specialize (E3 rows Es). cbv zeta in E3. fold n M in E3. destruct E3 as (_ & F2 & F3).
    unfold C in Hp. cbn [qc_predict] in Hp. unfold adjuster_predict in Hp. rewrite E1, E2, Ht, Es in Hp. cbv zeta in Hp.
    fold n M in Hp. destruct (Nat.eqb_spec n 2); [contradiction|]. rewrite HI in Hp.
    split; intros ->; rewrite keep_problem_answer in Hp; apply omap_val in Hp; destruct Hp as ((P', x) & Ex & ->); cbn [snd].
    - eapply solve_l1_best; eauto.
    - eapply solve_hd_best; eauto.
  Qed.
End Adjusters2.

Lemma frequencies_length : forall classes bag v, class_frequencies classes bag = Val v -> length v = length classes.
Proof. intros classes [|b bag] v H; inversion H. now rewrite map_length. Qed.
Lemma mean_rows_length : forall k bag v, mean_rows k bag = Val v -> length v = k.
Proof. intros k [|b bag] v H; inversion H. unfold col_means, tabulate. now rewrite map_length, seq_length. Qed.

Lemma ac_best : forall inv N cvx fuel dist y preds rows bag test p h s, exact_cvx cvx ->
  let n := length (np_unique y) in let M := fun i j => entry rows j i in
  AC_fit y preds = Val (map Some rows) -> n <> 2%nat -> inv n M = None ->
  last_fit (y, preds) h -> reaches (AC_class inv N cvx fuel dist) h s ->
  class_frequencies (np_unique y) bag = Val test ->
  snd (qc_predict (AC_class inv N cvx fuel dist) bag s) = Val p ->
  (dist = L1 -> best_distribution n (l1_distance n n M test) p) /\
  (dist = HD -> best_distribution n (fun q => 1 - sumn n (fun r => sqrt (nth r test 0 * mixture_at n M q r))) p).
Proof.
  intros inv N cvx fuel dist y preds rows bag test p h s HX n M E Hn HI HL H Ht Hp.
  exact (adjusters_best inv N cvx fuel dist AC_fit (fun bag classes => class_frequencies classes bag) HX h (y, preds) s rows bag test p
           HL H E Hn HI Ht (frequencies_length _ _ _ Ht) Hp).
Qed.

Lemma pac_best : forall inv N cvx fuel dist y preds rows bag test p h s, exact_cvx cvx ->
  let n := length (np_unique y) in let M := fun i j => entry rows j i in
  PAC_fit y preds = Val (map Some rows) -> n <> 2%nat -> inv n M = None ->
  last_fit (y, preds) h -> reaches (PAC_class inv N cvx fuel dist) h s ->
  mean_rows n bag = Val test ->
  snd (qc_predict (PAC_class inv N cvx fuel dist) bag s) = Val p ->
  (dist = L1 -> best_distribution n (l1_distance n n M test) p) /\
  (dist = HD -> best_distribution n (fun q => 1 - sumn n (fun r => sqrt (nth r test 0 * mixture_at n M q r))) p).
Proof.
  intros inv N cvx fuel dist y preds rows bag test p h s HX n M E Hn HI HL H Ht Hp.
  exact (adjusters_best inv N cvx fuel dist PAC_fit (fun bag classes => mean_rows (length classes) bag) HX h (y, preds) s rows bag test p
           HL H E Hn HI Ht (mean_rows_length _ _ _ Ht) Hp).
Qed.

(** ** An example history: a fit that fails, a fit, a prediction, a fit with other data, a prediction *)

Lemma ideal_ignores : ignores_warm_start ideal_cvx.
Proof. intros w w' n f. reflexivity. Qed.

Definition sharp : matcher (list Z) :=
  new_matcher no_numerics 0 (Named L1) 2 (aco_represent [0; 1]%Z) (map cumsum [[1; 0]; [0; 1]]).

Lemma confusion_sharp : AC_fit [0; 1]%Z [0; 1]%Z = Val [Some [1; 0]; Some [0; 1]].
Proof.
  unfold AC_fit. change (Nat.eqb (length (y_ext [0; 1]%Z (length [0; 1]%Z))) (length [0; 1]%Z)) with true. cbv iota.
  change (np_unique [0; 1]%Z) with [0; 1]%Z.
  change (confusion [0; 1]%Z (y_ext [0; 1]%Z (length [0; 1]%Z)) [0; 1]%Z) with [[1; 0]; [0; 1]].
  cbn [map]. unfold norm_row, rsum. cbn [fold_right].
  destruct (Req_EM_T (1 + (0 + 0)) 0) as [E|E]; [lra|]. destruct (Req_EM_T (0 + (1 + 0)) 0) as [E'|E']; [lra|].
  unfold vdiv. cbn [map]. repeat f_equal; lra.
Qed.

Lemma sharp_fit : forall cvx s, exists m, qc_fit (ACOrdinal_class no_numerics cvx 0) ([0; 1], [0; 1])%Z s = Val m /\
  mt_represent m = aco_represent [0; 1]%Z /\ mt_T m = mt_T sharp /\ mt_bins m = 2%nat /\ mt_classes m = 2%nat /\ mt_problem m = None.
Proof.
  intros cvx s. eexists. split.
  - cbn [ACOrdinal_class qc_fit qc_new fst snd]. unfold ACOrdinal_fit. rewrite confusion_sharp. reflexivity.
  - repeat split; reflexivity.
Qed.

Definition example_history : list (call (list Z * list Z) (list Z)) :=
  [Fit ([0; 1], [0; 1; 1])%Z; Fit ([0; 1], [0; 0])%Z; Predict [0%Z]; Fit ([0; 1], [0; 1])%Z; Predict [0; 1]%Z].

Lemma example_reached : forall cvx, exists s, reaches (ACOrdinal_class no_numerics cvx 0) example_history s.
Proof.
  intros cvx. set (C := ACOrdinal_class no_numerics cvx 0).
  assert (H1 : reaches C [Fit ([0; 1], [0; 1; 1])%Z] blind).
  { apply (reaches_failed_fit C [] (qc_new C) ([0; 1], [0; 1; 1])%Z blind); [constructor|].
    intros v H. unfold C in H. cbn [ACOrdinal_class qc_fit fst snd] in H. unfold ACOrdinal_fit in H.
    assert (E : AC_fit [0; 1]%Z [0; 1; 1]%Z = Err ValueError) by reflexivity. rewrite E in H. discriminate. }
  assert (E2 : exists m, qc_fit C ([0; 1], [0; 0])%Z blind = Val m).
  { unfold C. cbn [ACOrdinal_class qc_fit fst snd]. unfold ACOrdinal_fit. rewrite confusion_blind. eexists. reflexivity. }
  destruct E2 as [m2 E2].
  pose proof (reaches_fit C _ _ _ _ H1 E2) as H2. pose proof (reaches_predict C _ _ [0%Z] H2) as H3.
  destruct (sharp_fit cvx (fst (qc_predict C [0%Z] m2))) as (m4 & E4 & _).
  pose proof (reaches_fit C _ _ _ _ H3 E4) as H4. pose proof (reaches_predict C _ _ [0; 1]%Z H4) as H5.
  eexists. exact H5.
Qed.
