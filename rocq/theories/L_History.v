(** * Proofs about histories of calls (C62). *)

From Coq Require Import Reals List ZArith Lia Lra Bool Arith.
From Verif Require Import Num Spec L_Num M_Baselines L_Baselines M_Bags L_Bags M_Search L_Search3 M_Optim
  Spec_Optim L_Optim2 L_Optim3 L_Optim4 L_Optim5 M_Estimators M_Match Spec_Match L_Match L_Match2 M_History Spec_History.
Import ListNotations.
Open Scope R_scope.

(** ** The method: a relation between the state of a used object and that of a fresh one. *)

Lemma reaches_snoc_inv : forall {A T St Rt} (C : quantifier_class A T St Rt) h e s, reaches C (h ++ [e]) s ->
  exists s1, reaches C h s1 /\
    match e with
    | Fit a => qc_fit C a s1 = Val s \/ (forall v, qc_fit C a s1 <> Val v)
    | Predict t => s = fst (qc_predict C t s1)
    end.
Proof.
  intros A T St Rt C h e s H. remember (h ++ [e]) as l eqn:El. destruct H as [|h0 s0 a s' H E|h0 s0 a s' H E|h0 s0 t H].
  - destruct h; discriminate.
  - apply app_inj_tail in El. destruct El as [-> <-]. exists s0. auto.
  - apply app_inj_tail in El. destruct El as [-> <-]. exists s0. auto.
  - apply app_inj_tail in El. destruct El as [-> <-]. exists s0. auto.
Qed.

Section Method.
  Context {A T St Rt : Type} (C : quantifier_class A T St Rt) (rel : A -> St -> Prop).
  Hypothesis Hfit : forall a s s', qc_fit C a s = Val s' -> exists s0, qc_fit C a (qc_new C) = Val s0.
  Hypothesis Hfit' : forall a s s0, qc_fit C a (qc_new C) = Val s0 -> exists s', qc_fit C a s = Val s'.
  Hypothesis Hrel : forall a s s', qc_fit C a s = Val s' -> rel a s'.
  Hypothesis Hpred : forall a s t, rel a s -> rel a (fst (qc_predict C t s)).

  Lemma related : forall bags before a s s0, reaches C (before ++ Fit a :: map Predict bags) s ->
    qc_fit C a (qc_new C) = Val s0 -> rel a s.
  Proof.
    intros bags. induction bags as [|t bags IH] using rev_ind; intros before a s s0 H E.
    - cbn [map] in H. apply reaches_snoc_inv in H. destruct H as (s1 & H1 & [H2|H2]).
      + eapply Hrel; eauto.
      + destruct (Hfit' a s1 s0 E) as [s' E']. destruct (H2 s' E').
    - rewrite map_app in H. cbn [map] in H.
      change (Fit a :: map Predict bags ++ [Predict t]) with ((Fit a :: map Predict bags) ++ [Predict t]) in H.
      rewrite app_assoc in H. apply reaches_snoc_inv in H. destruct H as (s1 & H1 & ->).
      apply Hpred. eapply IH; eauto.
  Qed.

  Lemma method : forall ok : A -> Prop,
    (forall a s s0 t, ok a -> rel a s -> rel a s0 -> snd (qc_predict C t s) = snd (qc_predict C t s0)) ->
    history_independent C ok.
  Proof.
    intros ok Hans. split.
    - intros h s a _. split; intros [s' E]; [eapply Hfit; eauto|eapply Hfit'; eauto].
    - intros h a s s0 t Ha (before & bags & ->) H E. apply (Hans a); auto.
      + eapply related; eauto.
      + eapply Hrel; eauto.
  Qed.
End Method.

Lemma omap_val : forall {A B} (f : A -> B) o b, omap f o = Val b -> exists a, o = Val a /\ b = f a.
Proof. intros A B f [a|e|] b H; inversion H. eauto. Qed.

(** ** Matchers *)

(** Only the fields that are used with the criterion must agree. *)
Definition fitted_as {B} (crit : criterion) (m s : matcher B) : Prop :=
  mt_classes s = mt_classes m /\ mt_bins s = mt_bins m /\ mt_T s = mt_T m /\
  (crit = Named L2 -> mt_l2 s = mt_l2 m) /\ mt_represent s = mt_represent m /\ cache_ok crit s.

Lemma fitted_as_step : forall {B} crit (m s s' : matcher B), fitted_as crit m s -> same_fit s s' -> cache_ok crit s' ->
  fitted_as crit m s'.
Proof.
  intros B crit m s s' (a & b & c & d & e & f) (a' & b' & c' & d' & e') H.
  split; [congruence|]. split; [congruence|]. split; [congruence|]. split; [|split; [congruence|auto]].
  intros E. rewrite d'. auto.
Qed.

Lemma assign_fitted_as : forall {B} crit (old m : matcher B), fitted_as crit m (assign_matcher crit old m).
Proof. intros. repeat split. intros ->. reflexivity. Qed.

(** A copy of [s] with other L2 parameters. *)
Definition with_l2 {B} (s : matcher B) l2 : matcher B :=
  Build_matcher (mt_classes s) (mt_bins s) (mt_T s) l2 (mt_represent s) (mt_problem s) (mt_mixtures s).

Lemma estimate_l2 : forall {B} N cvx crit tol (s : matcher B) l2 t, crit <> Named L2 ->
  snd (estimate N cvx crit tol (with_l2 s l2) t) = snd (estimate N cvx crit tol s t).
Proof.
  intros B N cvx crit tol s l2 t H. unfold estimate. cbn [with_l2 mt_classes mt_bins mt_T mt_l2 mt_problem mt_mixtures].
  change (train_column (with_l2 s l2)) with (train_column s).
  destruct crit as [[| | |]|f]; cbv zeta; try congruence.
  - destruct (solve_hd _ _ _ _ _ _) as [[P x]| |]; reflexivity.
  - destruct (solve_l1 _ _ _ _ _ _) as [[P x]| |]; reflexivity.
  - reflexivity.
  - destruct (Nat.ltb _ 2); [reflexivity|]. destruct (global_search _ _ _ _ _ _) as [[P x]| |]; reflexivity.
Qed.

Lemma matching_l2 : forall {B} N cvx crit tol (s : matcher B) l2 bag, crit <> Named L2 ->
  snd (matching_predict N cvx crit tol (with_l2 s l2) bag) = snd (matching_predict N cvx crit tol s bag).
Proof.
  intros. unfold matching_predict. cbn [with_l2 mt_represent]. destruct (mt_represent s bag); [|reflexivity..].
  apply estimate_l2; auto.
Qed.

Lemma l2_or_not : forall crit, crit = Named L2 \/ crit <> Named L2.
Proof. intros [[| | |]|f]; auto; right; discriminate. Qed.

Lemma fitted_as_answer : forall {B} N cvx crit tol (m s s' : matcher B) bag,
  (crit = Named HD \/ crit = Named L1 -> ignores_warm_start cvx) ->
  fitted_as crit m s -> fitted_as crit m s' ->
  snd (matching_predict N cvx crit tol s bag) = snd (matching_predict N cvx crit tol s' bag).
Proof.
  intros B N cvx crit tol m s s' bag HW (a & b & c & d & e & f) (a' & b' & c' & d' & e' & f').
  destruct (l2_or_not crit) as [E|E].
  - apply matching_predict_answer; auto. repeat split; try congruence. rewrite d, d' by auto. reflexivity.
  - rewrite <- (matching_l2 N cvx crit tol s (mt_l2 s')) by auto. apply matching_predict_answer; auto.
    repeat split; cbn [with_l2 mt_classes mt_bins mt_T mt_l2 mt_represent]; congruence.
Qed.

Lemma matcher_history : forall {A B} N cvx crit tol (fit : A -> out (matcher B)),
  (crit = Named HD \/ crit = Named L1 -> ignores_warm_start cvx) ->
  history_independent (matcher_class N cvx crit tol fit) (fun _ => True).
Proof.
  intros A B N cvx crit tol fit HW.
  apply (method _ (fun a s => exists m, fit a = Val m /\ fitted_as crit m s)); cbn [matcher_class qc_new qc_fit qc_predict].
  - intros a s s' E. apply omap_val in E. destruct E as (m & -> & ->). eexists. reflexivity.
  - intros a s s' E. apply omap_val in E. destruct E as (m & -> & ->). eexists. reflexivity.
  - intros a s s' E. apply omap_val in E. destruct E as (m & -> & ->). exists m. split; auto. apply assign_fitted_as.
  - intros a s t (m & Em & Hm). exists m. split; auto.
    destruct (matching_predict_state N cvx crit tol s t) as [S1 S2]; [apply Hm|].
    eapply fitted_as_step; eauto.
  - intros a s s0 t _ (m & Em & Hm) (m' & Em' & Hm'). assert (m' = m) by congruence. subst m'.
    eapply fitted_as_answer; eauto.
Qed.

Lemma aco_history : forall N cvx fuel, ignores_warm_start cvx ->
  history_independent (ACOrdinal_class N cvx fuel) (fun _ => True).
Proof.
  intros N cvx fuel HW.
  exact (matcher_history N cvx (Named L1) 0 (fun a : list Z * list Z => ACOrdinal_fit N fuel (fst a) (snd a)) (fun _ => HW)).
Qed.

Lemma PDFO_state : forall N cvx d (m : matcher (list (list R))) bag, cache_ok (pdfo_criterion d) m ->
  let m' := fst (PDFO_predict N cvx d m bag) in same_fit m m' /\ cache_ok (pdfo_criterion d) m'.
Proof.
  intros N cvx d m bag HC. unfold PDFO_predict.
  assert (K : same_fit m m /\ cache_ok (pdfo_criterion d) m) by (split; [apply same_fit_refl|auto]).
  destruct (mt_represent m bag); [|exact K..].
  destruct d; [| | |exact K]; 
    (pose proof (matching_predict_state N cvx _ 0 m bag HC) as G; cbv zeta in G |- *;
     match type of G with context[matching_predict ?a ?b ?c ?d ?e ?f] => destruct (matching_predict a b c d e f) end; exact G).
Qed.

Lemma PDFO_answer : forall N cvx d (m s s' : matcher (list (list R))) bag,
  (d = OHD \/ d = OEMD -> ignores_warm_start cvx) ->
  fitted_as (pdfo_criterion d) m s -> fitted_as (pdfo_criterion d) m s' ->
  snd (PDFO_predict N cvx d s bag) = snd (PDFO_predict N cvx d s' bag).
Proof.
  intros N cvx d m s s' bag HW H H'. unfold PDFO_predict.
  assert (E : mt_represent s = mt_represent s').
  { destruct H as (_ & _ & _ & _ & -> & _). destruct H' as (_ & _ & _ & _ & -> & _). reflexivity. }
  rewrite E. destruct (mt_represent s' bag); [|reflexivity..].
  destruct d; [| | |reflexivity]; 
    (match goal with |- snd (let (_, _) := matching_predict ?N ?cvx ?c 0 s bag in _) = _ =>
       assert (G : snd (matching_predict N cvx c 0 s bag) = snd (matching_predict N cvx c 0 s' bag)) end;
     [eapply fitted_as_answer; eauto; intros [?|?]; auto; discriminate|];
     destruct (matching_predict _ _ _ _ s _), (matching_predict _ _ _ _ s' _); cbn [snd] in *; congruence).
Qed.

Lemma pdfo_history : forall N cvx fuel n_bins d meth, (d = OHD \/ d = OEMD -> ignores_warm_start cvx) ->
  history_independent (PDFOrdinaly_class N cvx fuel n_bins d meth) (fun _ => True).
Proof.
  intros N cvx fuel n_bins d meth HW.
  apply (method _ (fun a s => exists m, PDFO_fit N fuel n_bins d meth (fst a) (snd a) = Val m /\
                                 fitted_as (pdfo_criterion d) m s)); cbn [PDFOrdinaly_class qc_new qc_fit qc_predict].
  - intros a s s' E. apply omap_val in E. destruct E as (m & -> & ->). eexists. reflexivity.
  - intros a s s' E. apply omap_val in E. destruct E as (m & -> & ->). eexists. reflexivity.
  - intros a s s' E. apply omap_val in E. destruct E as (m & -> & ->). exists m. split; auto. apply assign_fitted_as.
  - intros a s t (m & Em & Hm). exists m. split; auto.
    destruct (PDFO_state N cvx d s t) as [S1 S2]; [apply Hm|].
    eapply fitted_as_step; eauto.
  - intros a s s0 t _ (m & Em & Hm) (m' & Em' & Hm'). assert (m' = m) by congruence. subst m'.
    eapply PDFO_answer; eauto.
Qed.

(** ** QUANTy *)

Lemma quanty_history : forall argsort q distance tol,
  history_independent (QUANTy_class argsort q distance tol) (fun _ => True).
Proof.
  intros argsort q distance tol.
  pose (mixes := fun s => map (fun i => compute_quantiles (Some (INR i / 100)) (b_scores s) q (b_labels s)
                                  (nth 0 (b_classes s) 0%Z) (nth 1 (b_classes s) 0%Z)) (seq 0 101)).
  pose (answer := fun s bag => global_search_from
    (fun p => distance (compute_quantiles (Some p) (b_scores s) q (b_labels s) (nth 0 (b_classes s) 0%Z) (nth 1 (b_classes s) 0%Z))
                (compute_quantiles None (pick bag (argsort bag)) q [] 0 0)) tol
    (fun i => distance (compute_quantiles (Some (INR i / 100)) (b_scores s) q (b_labels s) (nth 0 (b_classes s) 0%Z) (nth 1 (b_classes s) 0%Z))
                (compute_quantiles None (pick bag (argsort bag)) q [] 0 0))).
  assert (K : forall s ms bag, ms = None \/ ms = Some (mixes s) ->
    QUANTy_predict argsort q distance tol s ms bag = omap (fun p => (Some (mixes s), p)) (answer s bag)).
  { intros s ms bag H. unfold QUANTy_predict. cbv zeta.
    match goal with |- global_search ?d ?m ?t ?tol _ _ = _ => pose proof (global_search_stored d m t tol) as (G1 & G2 & _) end.
    destruct H as [->| ->]; [exact G1|exact G2]. }
  apply (method _ (fun a s => exists f, sorted_fit argsort (np_unique (fst a)) (y_ext (fst a) (length (snd a))) (snd a) = Val f /\
           qo_fitted s = Some f /\ (qo_mixtures s = None \/ qo_mixtures s = Some (mixes f))));
    cbn [QUANTy_class qc_new qc_fit qc_predict].
  - intros a s s' E. exists s'. exact E.
  - intros a s s' E. exists s'. exact E.
  - intros a s s' E. apply omap_val in E. destruct E as (f & E & ->). exists f. cbn. auto.
  - intros a s t (f & E & F & M). exists f. split; auto. rewrite F, (K f _ t M).
    destruct (answer f t); cbn; auto.
  - intros a s s0 t _ (f & E & F & M) (f' & E' & F' & M'). assert (f' = f) by congruence. subst f'.
    rewrite F, F', (K f _ t M), (K f _ t M'). destruct (answer f t); reflexivity.
Qed.

(** ** AC, PAC, PWKQuantifier *)

Definition hd_problem (n : nat) (T : matrix) (P : option cvx_problem) : Prop :=
  match P with None => True | Some P => cp_n P = n /\ cp_d P = n /\ cp_objective P = hd_objective n n T end.
Definition l1_problem (n : nat) (T : matrix) (P : option cvx_problem) : Prop :=
  match P with None => True | Some P => cp_n P = n /\ cp_d P = n /\ cp_objective P = l1_objective n n T end.

Lemma solve_hd_problem : forall cvx n T t P P' x, hd_problem n T P -> solve_hd cvx n n T t P = Val (P', x) ->
  hd_problem n T (Some P').
Proof.
  intros cvx n T t P P' x H E. unfold solve_hd in E. destruct P as [P|].
  - destruct (run_problem_shape _ _ _ _ _ E) as (a & b & c). destruct H as (a' & b' & c'). repeat split; congruence.
  - destruct (Nat.eqb_spec (length t) n) as [L|]; [|discriminate].
    destruct (run_problem_shape _ _ _ _ _ E) as (a & b & c). repeat split; cbn in *; congruence.
Qed.

Lemma solve_l1_problem : forall cvx n T t P P' x, l1_problem n T P -> solve_l1 cvx n n T t P = Val (P', x) ->
  l1_problem n T (Some P').
Proof.
  intros cvx n T t P P' x H E. unfold solve_l1 in E. destruct P as [P|].
  - destruct (run_problem_shape _ _ _ _ _ E) as (a & b & c). destruct H as (a' & b' & c'). repeat split; congruence.
  - destruct (Nat.eqb_spec (length t) n) as [L|]; [|discriminate].
    destruct (run_problem_shape _ _ _ _ _ E) as (a & b & c). repeat split; cbn in *; congruence.
Qed.

Lemma bad_length : forall cvx n P t, cp_d P = n -> length t <> n -> run_problem cvx P t = Err ValueError.
Proof.
  intros cvx n P t E L. unfold run_problem, valid_parameter. rewrite E.
  destruct (Nat.eqb_spec (length t) n); [contradiction|reflexivity].
Qed.

Lemma solve_hd_answer : forall cvx n T t P P', ignores_warm_start cvx -> hd_problem n T P -> hd_problem n T P' ->
  omap snd (solve_hd cvx n n T t P) = omap snd (solve_hd cvx n n T t P').
Proof.
  intros cvx n T t P P' W H H'. unfold solve_hd.
  destruct P as [P|], P' as [P'|]; try destruct H as (a & b & c); try destruct H' as (a' & b' & c');
    destruct (Nat.eqb_spec (length t) n) as [L|L];
    try (apply run_problem_answer; auto; cbn; congruence);
    rewrite ?(bad_length cvx n) by auto; reflexivity.
Qed.

Lemma solve_l1_answer : forall cvx n T t P P', ignores_warm_start cvx -> l1_problem n T P -> l1_problem n T P' ->
  omap snd (solve_l1 cvx n n T t P) = omap snd (solve_l1 cvx n n T t P').
Proof.
  intros cvx n T t P P' W H H'. unfold solve_l1.
  destruct P as [P|], P' as [P'|]; try destruct H as (a & b & c); try destruct H' as (a' & b' & c');
    destruct (Nat.eqb_spec (length t) n) as [L|L];
    try (apply run_problem_answer; auto; cbn; congruence);
    rewrite ?(bad_length cvx n) by auto; reflexivity.
Qed.

(** The object was fitted with labels [y], which gave the matrix [cm]. *)
Definition adjusted (N : numerics) (fuel : nat) (dist : distance) (y : list Z) (cm : list (option (list R))) (o : adjuster) : Prop :=
  let n := length (np_unique y) in
  aj_classes o = Some (np_unique y) /\ aj_cm o = cm /\
  forall rows, all_some cm = Some rows ->
    let T := fun i j => entry rows j i in
    ((2 < n)%nat -> dist = L2 -> aj_l2 o = compute_l2_param_train N fuel n n T) /\
    (dist = HD -> hd_problem n T (aj_problem o)) /\
    (dist = L1 -> l1_problem n T (aj_problem o)).

Lemma assign_adjusted : forall N fuel dist y old cm, adjusted N fuel dist y cm (assign_adjuster N fuel dist y old cm).
Proof.
  intros N fuel dist y old cm. unfold adjusted, assign_adjuster. cbn [aj_classes aj_cm aj_l2 aj_problem].
  split; [reflexivity|]. split; [reflexivity|]. intros rows E. rewrite E. cbv zeta.
  split; [|split; intros; exact I]. intros Hn ->. apply Nat.ltb_lt in Hn. rewrite Hn. reflexivity.
Qed.

Lemma keep_problem_state : forall o r, 
  fst (keep_problem o r) = o \/
  exists P x, r = Val (P, x) /\
    fst (keep_problem o r) = {| aj_classes := aj_classes o; aj_cm := aj_cm o; aj_l2 := aj_l2 o; aj_problem := Some P |}.
Proof. intros o [[P x]| |]; cbn; eauto. Qed.

Lemma keep_problem_answer : forall o r, snd (keep_problem o r) = omap snd r.
Proof. intros o [[P x]| |]; reflexivity. Qed.

Lemma adjuster_state : forall inv N cvx fuel dist p0_of y cm o, adjusted N fuel dist y cm o ->
  adjusted N fuel dist y cm (fst (adjuster_predict inv N cvx dist p0_of o)).
Proof.
  intros inv N cvx fuel dist p0_of y cm o H. pose proof H as (E1 & E2 & E3). unfold adjuster_predict. rewrite E1, E2.
  destruct (p0_of (np_unique y)) as [p0| |]; [|exact H..]. cbv zeta.
  destruct (Nat.eqb _ 2); [exact H|].
  destruct (all_some cm) as [rows|] eqn:Er; [|exact H].
  destruct (inv _ _) as [M|]; [exact H|].
  specialize (E3 rows eq_refl). cbv zeta in E3. destruct E3 as (F1 & F2 & F3).
  destruct dist; [|exact H| |exact H].
  - match goal with |- adjusted _ _ _ _ _ (fst (keep_problem _ ?r)) => destruct (keep_problem_state o r) as [->|(P & x & Ex & ->)] end;
      [exact H|]. split; [exact E1|]. split; [exact E2|]. intros rows' Er'. rewrite Er in Er'. inversion Er'; subst rows'.
    cbn [aj_l2 aj_problem]. cbv zeta. split; [exact F1|]. split; [|intros; discriminate].
    intros _. eapply solve_hd_problem; eauto.
  - match goal with |- adjusted _ _ _ _ _ (fst (keep_problem _ ?r)) => destruct (keep_problem_state o r) as [->|(P & x & Ex & ->)] end;
      [exact H|]. split; [exact E1|]. split; [exact E2|]. intros rows' Er'. rewrite Er in Er'. inversion Er'; subst rows'.
    cbn [aj_l2 aj_problem]. cbv zeta. split; [exact F1|]. split; [intros; discriminate|].
    intros _. eapply solve_l1_problem; eauto.
Qed.

(** What a used object answers is what M_Baselines says. *)
Lemma adjuster_answer : forall inv N cvx fuel dist p0_of y cm o, 
  (dist = HD \/ dist = L1 -> ignores_warm_start cvx) -> (2 <= length (np_unique y))%nat \/ dist <> L2 ->
  adjusted N fuel dist y cm o ->
  snd (adjuster_predict inv N cvx dist p0_of o) =
  obind (p0_of (np_unique y)) (fun p0 =>
    if Nat.eqb (length (np_unique y)) 2 then Val (binary_adjust cm p0)
    else multi_adjust (library_solvers inv N cvx fuel) dist (length (np_unique y)) cm p0).
Proof.
  intros inv N cvx fuel dist p0_of y cm o HW Hn (E1 & E2 & E3). unfold adjuster_predict, multi_adjust. rewrite E1, E2.
  destruct (p0_of (np_unique y)) as [p0| |]; [|reflexivity..]. cbn [obind]. cbv zeta.
  destruct (Nat.eqb_spec (length (np_unique y)) 2) as [E|E]; [reflexivity|].
  destruct (all_some cm) as [rows|] eqn:Er; [|reflexivity]. cbn [library_solvers M_Baselines.inv M_Baselines.solve].
  destruct (inv _ _) as [M|]; [reflexivity|].
  specialize (E3 rows eq_refl). cbv zeta in E3. destruct E3 as (F1 & F2 & F3).
  destruct dist; [| | |reflexivity].
  - rewrite keep_problem_answer. apply solve_hd_answer; auto. exact I.
  - cbn [snd]. destruct Hn as [Hn|Hn]; [|congruence]. rewrite F1 by (auto; lia). reflexivity.
  - rewrite keep_problem_answer. apply solve_l1_answer; auto. exact I.
Qed.

Section Adjusters.
  Context {P T : Type} (inv : nat -> matrix -> option matrix) (N : numerics) (cvx : cvx_solver) (fuel : nat) (dist : distance)
    (fit : list Z -> P -> out (list (option (list R)))) (p0 : T -> list Z -> out (list R)).
  Let C : quantifier_class (list Z * P) T adjuster (list R) :=
    {| qc_new := unfitted_adjuster;
       qc_fit := fun a old => omap (assign_adjuster N fuel dist (fst a) old) (fit (fst a) (snd a));
       qc_predict := fun bag o => adjuster_predict inv N cvx dist (p0 bag) o |}.
  Let rel := fun (a : list Z * P) o => exists cm, fit (fst a) (snd a) = Val cm /\ adjusted N fuel dist (fst a) cm o.

  Lemma adjusters_fit : forall a s s', qc_fit C a s = Val s' -> exists s0, qc_fit C a (qc_new C) = Val s0.
  Proof. intros a s s' E. apply omap_val in E. destruct E as (m & E & _). unfold C. cbn. rewrite E. eexists. reflexivity. Qed.
  Lemma adjusters_fit' : forall a s s0, qc_fit C a (qc_new C) = Val s0 -> exists s', qc_fit C a s = Val s'.
  Proof. intros a s s' E. apply omap_val in E. destruct E as (m & E & _). unfold C. cbn. rewrite E. eexists. reflexivity. Qed.
  Lemma adjusters_rel : forall a s s', qc_fit C a s = Val s' -> rel a s'.
  Proof. intros a s s' E. apply omap_val in E. destruct E as (m & E & ->). exists m. split; auto. apply assign_adjusted. Qed.
  Lemma adjusters_pred : forall a s t, rel a s -> rel a (fst (qc_predict C t s)).
  Proof. intros a s t (cm & E & H). exists cm. split; auto. apply adjuster_state. exact H. Qed.

  Lemma adjusters_history : (dist = HD \/ dist = L1 -> ignores_warm_start cvx) ->
    history_independent C (fun a => (2 <= length (np_unique (fst a)))%nat \/ dist <> L2).
  Proof.
    intros HW. apply (method C rel adjusters_fit adjusters_fit' adjusters_rel adjusters_pred).
    intros a s s0 t Ha (cm & E & H) (cm' & E' & H'). assert (cm' = cm) by congruence. subst cm'.
    unfold C. cbn [qc_predict]. rewrite (adjuster_answer inv N cvx fuel dist _ _ _ s HW Ha H).
    rewrite (adjuster_answer inv N cvx fuel dist _ _ _ s0 HW Ha H'). reflexivity.
  Qed.

  Lemma adjusters_refine : (dist = HD \/ dist = L1 -> ignores_warm_start cvx) ->
    forall h a s cm t, (2 <= length (np_unique (fst a)))%nat \/ dist <> L2 -> last_fit a h -> reaches C h s ->
    fit (fst a) (snd a) = Val cm ->
    snd (qc_predict C t s) =
    obind (p0 t (np_unique (fst a))) (fun p0 =>
      if Nat.eqb (length (np_unique (fst a))) 2 then Val (binary_adjust cm p0)
      else multi_adjust (library_solvers inv N cvx fuel) dist (length (np_unique (fst a))) cm p0).
  Proof.
    intros HW h a s cm t Ha (before & bags & ->) H E.
    destruct (related C rel adjusters_fit' adjusters_rel adjusters_pred bags before a s
                (assign_adjuster N fuel dist (fst a) unfitted_adjuster cm) H) as (cm' & E' & H').
    { unfold C. cbn. rewrite E. reflexivity. }
    assert (cm' = cm) by congruence. subst cm'. apply adjuster_answer; auto.
  Qed.
End Adjusters.

Lemma ac_history : forall inv N cvx fuel dist, (dist = HD \/ dist = L1 -> ignores_warm_start cvx) ->
  history_independent (AC_class inv N cvx fuel dist) (fun a => (2 <= length (np_unique (fst a)))%nat \/ dist <> L2).
Proof.
  intros inv N cvx fuel dist HW.
  exact (adjusters_history inv N cvx fuel dist AC_fit (fun bag classes => class_frequencies classes bag) HW).
Qed.

Lemma pac_history : forall inv N cvx fuel dist, (dist = HD \/ dist = L1 -> ignores_warm_start cvx) ->
  history_independent (PAC_class inv N cvx fuel dist) (fun a => (2 <= length (np_unique (fst a)))%nat \/ dist <> L2).
Proof.
  intros inv N cvx fuel dist HW.
  exact (adjusters_history inv N cvx fuel dist PAC_fit (fun bag classes => mean_rows (length classes) bag) HW).
Qed.

Lemma ac_refines : forall inv N cvx fuel dist y preds cm bag h s,
  (dist = HD \/ dist = L1 -> ignores_warm_start cvx) -> (2 <= length (np_unique y))%nat \/ dist <> L2 ->
  AC_fit y preds = Val cm -> last_fit (y, preds) h -> reaches (AC_class inv N cvx fuel dist) h s ->
  snd (qc_predict (AC_class inv N cvx fuel dist) bag s) =
  AC_predict (library_solvers inv N cvx fuel) dist (np_unique y) cm bag.
Proof.
  intros inv N cvx fuel dist y preds cm bag h s HW Hn E L H.
  exact (adjusters_refine inv N cvx fuel dist AC_fit (fun bag classes => class_frequencies classes bag) HW h (y, preds) s cm bag
           Hn L H E).
Qed.

Lemma pac_refines : forall inv N cvx fuel dist y preds cm bag h s,
  (dist = HD \/ dist = L1 -> ignores_warm_start cvx) -> (2 <= length (np_unique y))%nat \/ dist <> L2 ->
  PAC_fit y preds = Val cm -> last_fit (y, preds) h -> reaches (PAC_class inv N cvx fuel dist) h s ->
  snd (qc_predict (PAC_class inv N cvx fuel dist) bag s) =
  PAC_predict (library_solvers inv N cvx fuel) dist (np_unique y) cm bag.
Proof.
  intros inv N cvx fuel dist y preds cm bag h s HW Hn E L H.
  exact (adjusters_refine inv N cvx fuel dist PAC_fit (fun bag classes => mean_rows (length classes) bag) HW h (y, preds) s cm bag
           Hn L H E).
Qed.

Definition pwk_fitted {X} (x : list X) (y : list Z) (cm : list (option (list R))) (o : pwk_object X) : Prop :=
  pw_train o = Some (x, y) /\ pw_cm o = cm /\
  forall rows, all_some cm = Some rows -> l1_problem (length (np_unique y)) (fun i j => entry rows j i) (pw_problem o).

Lemma pwk_state : forall {X} (kn : list X -> list X -> list (list nat)) cvx bag x y cm o, pwk_fitted x y cm o ->
  pwk_fitted x y cm (fst (PWKQ_object_predict kn cvx bag o)).
Proof.
  intros X kn cvx bag x y cm o H. pose proof H as (E1 & E2 & E3). unfold PWKQ_object_predict. rewrite E1, E2. cbv zeta.
  destruct (class_frequencies _ _) as [p0| |]; [|exact H..]. destruct (Nat.eqb _ 2); [exact H|].
  destruct (all_some cm) as [rows|] eqn:Er; [|exact H]. specialize (E3 rows eq_refl).
  destruct (solve_l1 _ _ _ _ _ _) as [[P p]| |] eqn:E; [|exact H..]. cbn [fst].
  split; [reflexivity|]. split; [reflexivity|]. intros rows' Er'. assert (rows' = rows) by congruence. subst rows'.
  cbn [pw_problem]. eapply solve_l1_problem; eauto.
Qed.

Lemma pwk_answer : forall {X} (kn : list X -> list X -> list (list nat)) inv N cvx fuel bag x y cm o, ignores_warm_start cvx ->
  pwk_fitted x y cm o ->
  snd (PWKQ_object_predict kn cvx bag o) =
  PWKQ_predict (library_solvers inv N cvx fuel) (np_unique y) cm (PWK_predict y (kn x bag)).
Proof.
  intros X kn inv N cvx fuel bag x y cm o HW (E1 & E2 & E3). unfold PWKQ_object_predict, PWKQ_predict. rewrite E1, E2. cbv zeta.
  destruct (class_frequencies _ _) as [p0| |]; [|reflexivity..]. cbn [obind].
  destruct (Nat.eqb _ 2); [reflexivity|].
  destruct (all_some cm) as [rows|] eqn:Er; [|reflexivity]. specialize (E3 rows eq_refl).
  cbn [library_solvers M_Baselines.solve].
  rewrite <- (solve_l1_answer cvx _ _ p0 (pw_problem o) None HW E3 I).
  destruct (solve_l1 _ _ _ _ _ _) as [[P p]| |]; reflexivity.
Qed.

Lemma pwk_rel : forall {X} (kn : list X -> list X -> list (list nat)) cvx (a : list X * list Z) (s s' : pwk_object X),
  qc_fit (PWKQ_class kn cvx) a s = Val s' ->
  exists cm, AC_fit (snd a) (PWK_predict (snd a) (kn (fst a) (fst a))) = Val cm /\ pwk_fitted (fst a) (snd a) cm s'.
Proof.
  intros X kn cvx a s s' E. apply omap_val in E. destruct E as (cm & E & ->). exists cm. split; auto.
  repeat split.
Qed.

Lemma pwkq_history : forall {X} (kn : list X -> list X -> list (list nat)) cvx, ignores_warm_start cvx ->
  history_independent (PWKQ_class kn cvx) (fun _ => True).
Proof.
  intros X kn cvx HW.
  apply (method _ (fun a o => exists cm, AC_fit (snd a) (PWK_predict (snd a) (kn (fst a) (fst a))) = Val cm /\
                                   pwk_fitted (fst a) (snd a) cm o)).
  - intros a s s' E. exists s'. exact E.
  - intros a s s' E. exists s'. exact E.
  - intros a s s' E. eapply pwk_rel; eauto.
  - intros a s t (cm & E & H). exists cm. split; auto. apply pwk_state; auto.
  - intros a s s0 t _ (cm & E & H) (cm' & E' & H'). assert (cm' = cm) by congruence. subst cm'.
    cbn [PWKQ_class qc_predict].
    pose (N := {| svd := fun _ _ => (fun _ => 0, fun _ _ => 0); min_eigenvalue := fun _ _ => 0; spacing := fun x => x;
                  solve_qp := fun _ _ _ _ _ _ _ => None |}).
    rewrite (pwk_answer kn (fun _ _ => None) N cvx 0 t _ _ _ s HW H).
    rewrite (pwk_answer kn (fun _ _ => None) N cvx 0 t _ _ _ s0 HW H'). reflexivity.
Qed.

Lemma pwkq_refines : forall {X} (kn : list X -> list X -> list (list nat)) inv N cvx fuel x y cm bag h s,
  ignores_warm_start cvx -> AC_fit y (PWK_predict y (kn x x)) = Val cm ->
  last_fit (x, y) h -> reaches (PWKQ_class kn cvx) h s ->
  snd (qc_predict (PWKQ_class kn cvx) bag s) =
  PWKQ_predict (library_solvers inv N cvx fuel) (np_unique y) cm (PWK_predict y (kn x bag)).
Proof.
  intros X kn inv N cvx fuel x y cm bag h s HW E (before & bags & ->) H.
  assert (G : exists cm', AC_fit y (PWK_predict y (kn x x)) = Val cm' /\ pwk_fitted x y cm' s).
  { eapply (related (PWKQ_class kn cvx) (fun a o => exists cm, AC_fit (snd a) (PWK_predict (snd a) (kn (fst a) (fst a))) = Val cm /\
                                   pwk_fitted (fst a) (snd a) cm o)) with (a := (x, y)) (bags := bags); eauto.
    - intros a s0 s1 E0. eapply pwk_rel; eauto.
    - intros a s0 t (cm' & E' & H'). exists cm'. split; auto. apply pwk_state; auto.
    - cbn [PWKQ_class qc_fit qc_new fst snd]. unfold PWKQ_fit. rewrite E. reflexivity. }
  destruct G as (cm' & E' & H'). assert (cm' = cm) by congruence. subst cm'. apply pwk_answer; auto.
Qed.
