(** * Proofs about base.py. *)

From Coq Require Import Reals List ZArith Lia Lra Bool.
From Verif Require Import Num Spec M_Baselines M_Base Spec_Base L_Num L_Ordinal2.
Import ListNotations.
Open Scope R_scope.

Section Fits.
  Context {X M : Type} (A : nat -> algorithm X M).

  (** [w'] is reached from [w] by fitting each unfitted estimator at most once. *)
  Definition step_ok (w w' : world X M) : Prop :=
    forall e, match models w e with
              | Some m => models w' e = Some m /\ times_fitted e w' = times_fitted e w
              | None => (models w' e = None /\ times_fitted e w' = times_fitted e w) \/
                        (models w' e <> None /\ times_fitted e w' = S (times_fitted e w))
              end.

  Lemma step_ok_refl : forall w, step_ok w w.
  Proof. intros w e. destruct (models w e) eqn:E; auto. Qed.

  Lemma step_ok_trans : forall a b c, step_ok a b -> step_ok b c -> step_ok a c.
  Proof.
    intros a b c H1 H2 e. specialize (H1 e). specialize (H2 e). destruct (models a e) as [m|].
    - destruct H1 as [E1 T1]. rewrite E1 in H2. destruct H2. split; auto. congruence.
    - destruct H1 as [[E1 T1]|[E1 T1]].
      + rewrite E1 in H2. destruct H2 as [[E2 T2]|[E2 T2]]; [left|right]; split; auto; congruence.
      + destruct (models b e) as [m|]; [|congruence]. destruct H2 as [E2 T2]. right. split; congruence.
  Qed.

  Lemma set_model_ok : forall w e x y, models w e = None -> step_ok w (set_model A w e x y).
  Proof.
    intros w e x y H e'. unfold times_fitted, set_model. cbn [models fits]. rewrite filter_app, app_length. cbn [filter fst].
    rewrite (Nat.eqb_sym e e'). destruct (Nat.eqb_spec e' e) as [E|E].
    - subst e'. rewrite H. right. split; [congruence|simpl; lia].
    - simpl. rewrite Nat.add_0_r. destruct (models w e') as [m|] eqn:Em; auto.
  Qed.

  Lemma ensure_ok : forall w e x y w', ensure_fitted A w e x y = Val w' -> step_ok w w'.
  Proof.
    intros w [e|] x y w' H; simpl in H; [|inversion H; subst; apply step_ok_refl].
    destruct (models w e) eqn:E; [inversion H; subst; apply step_ok_refl|].
    destruct (Nat.eqb _ _); [|discriminate]. inversion H; subst. apply set_model_ok; auto.
  Qed.

  (** What [fit] does to the estimators. *)
  Lemma UC_fit_world : forall q w x y given,
    step_ok w (snd (UC_fit A q w x y given)).
  Proof.
    intros. unfold UC_fit. destruct (_ && _); [apply step_ok_refl|].
    destruct (ensure_fitted A w (estimator_train (with_classes q (np_unique y))) x y) as [w1|e|] eqn:E1; [|apply step_ok_refl|apply step_ok_refl].
    apply ensure_ok in E1.
    destruct (ensure_fitted A w1 (estimator_test (with_classes q (np_unique y))) x y) as [w2|e|] eqn:E2; [|exact E1|exact E1].
    apply ensure_ok in E2. pose proof (step_ok_trans _ _ _ E1 E2).
    destruct (needs_predictions_train _); [|exact H].
    match goal with |- context[match ?p with Val _ => _ | _ => _ end] => destruct p end; exact H.
  Qed.

  Lemma after_fits_ok : forall calls w, step_ok w (after_fits A w calls).
  Proof.
    induction calls as [|c t IH]; intros w; [apply step_ok_refl|]. unfold after_fits in *. cbn [fold_left].
    eapply step_ok_trans; [apply UC_fit_world|apply IH].
  Qed.

  Theorem fitted_at_most_once : forall w calls e, times_fitted e w = O ->
    (times_fitted e (after_fits A w calls) <= 1)%nat /\
    (models w e <> None -> times_fitted e (after_fits A w calls) = O /\ models (after_fits A w calls) e = models w e).
  Proof.
    intros w calls e H. pose proof (after_fits_ok calls w e) as S1. destruct (models w e) as [m|].
    - destruct S1 as [E T]. rewrite T, H. split; [lia|]. auto.
    - split; [|congruence]. destruct S1 as [[_ T]|[_ T]]; rewrite T, H; lia.
  Qed.

  Lemma ensure_other : forall w e x y w' e', ensure_fitted A w e x y = Val w' -> e <> Some e' -> models w' e' = models w e'.
  Proof.
    intros w [e|] x y w' e' H N; simpl in H; [|inversion H; subst; auto].
    destruct (models w e); [inversion H; subst; auto|]. destruct (Nat.eqb _ _); [|discriminate]. inversion H; subst.
    unfold set_model. cbn [models]. destruct (Nat.eqb_spec e' e); [congruence|auto].
  Qed.

  Lemma not_met : forall (c : fit_call X) w e, ~ meets e c ->
    models (snd (UC_fit A (caller c) w (call_x c) (call_y c) (call_given c))) e = models w e.
  Proof.
    intros c w e N. unfold meets in N. unfold UC_fit. destruct (_ && _); [auto|].
    cbn [with_classes estimator_train estimator_test].
    destruct (ensure_fitted A w (estimator_train (caller c)) (call_x c) (call_y c)) as [w1|?|] eqn:E1; auto.
    assert (H1 : models w1 e = models w e) by (eapply ensure_other; eauto).
    destruct (ensure_fitted A w1 (estimator_test (caller c)) (call_x c) (call_y c)) as [w2|?|] eqn:E2; auto.
    assert (H2 : models w2 e = models w1 e) by (eapply ensure_other; eauto).
    rewrite <- H1, <- H2. destruct (needs_predictions_train _); [|auto].
    match goal with |- context[match ?p with Val _ => _ | _ => _ end] => destruct p end; auto.
  Qed.

  Lemma ensure_met : forall w e x y, length x = length y -> models w e = None ->
    exists w', ensure_fitted A w (Some e) x y = Val w' /\ models w' e = Some (learn (A e) x y).
  Proof.
    intros w e x y L H. simpl. rewrite H, L, Nat.eqb_refl. eexists. split; [reflexivity|].
    unfold set_model. cbn [models]. rewrite Nat.eqb_refl. auto.
  Qed.

  Lemma ensure_val : forall w e x y, length x = length y -> exists w', ensure_fitted A w e x y = Val w'.
  Proof.
    intros w [e|] x y L; simpl; eauto. destruct (models w e); eauto. rewrite L, Nat.eqb_refl. eauto.
  Qed.

  Lemma missing_false : forall q given y, has_source q given ->
    needs_predictions_train (with_classes q (np_unique y)) &&
      match estimator_train (with_classes q (np_unique y)), given with None, None => true | _, _ => false end = false.
  Proof.
    intros q given y H. unfold has_source in H. cbn [with_classes needs_predictions_train estimator_train].
    destruct (needs_predictions_train q); auto. specialize (H eq_refl). simpl.
    destruct (estimator_train q); auto. destruct given; auto. destruct H; congruence.
  Qed.

  Lemma met : forall (c : fit_call X) w e, meets e c -> length (call_x c) = length (call_y c) ->
    has_source (caller c) (call_given c) -> models w e = None ->
    models (snd (UC_fit A (caller c) w (call_x c) (call_y c) (call_given c))) e = Some (learn (A e) (call_x c) (call_y c)).
  Proof.
    intros c w e Hm L S1 H. unfold UC_fit. rewrite (missing_false _ _ _ S1).
    cbn [with_classes estimator_train estimator_test needs_predictions_train].
    destruct (ensure_val w (estimator_train (caller c)) (call_x c) (call_y c) L) as [w1 E1]. rewrite E1.
    destruct (ensure_val w1 (estimator_test (caller c)) (call_x c) (call_y c) L) as [w2 E2]. rewrite E2.
    assert (G : models w2 e = Some (learn (A e) (call_x c) (call_y c))).
    { destruct (estimator_train (caller c)) as [e0|] eqn:Et.
      - destruct (Nat.eq_dec e0 e) as [Ee|Ee].
        + subst e0. destruct (ensure_met w e _ _ L H) as [w' [F1 F2]]. rewrite F1 in E1. inversion E1; subst w'.
          apply ensure_ok in E2. specialize (E2 e). rewrite F2 in E2. tauto.
        + assert (F1 : models w1 e = None) by (rewrite <- H; eapply ensure_other; eauto; congruence).
          unfold meets in Hm. rewrite Et in Hm. destruct Hm as [Hm|Hm]; [congruence|]. rewrite Hm in E2.
          destruct (ensure_met w1 e _ _ L F1) as [w' [F3 F4]]. congruence.
      - unfold meets in Hm. rewrite Et in Hm. destruct Hm as [Hm|Hm]; [congruence|]. rewrite Hm in E2.
        simpl in E1. inversion E1; subst w1. destruct (ensure_met w e _ _ L H) as [w' [F3 F4]]. congruence. }
    destruct (needs_predictions_train (caller c)); [|auto].
    match goal with |- context[match ?p with Val _ => _ | _ => _ end] => destruct p end; auto.
  Qed.

  Theorem first_fit_wins : forall w before c after e,
    models w e = None -> (forall c', In c' before -> ~ meets e c') ->
    meets e c -> length (call_x c) = length (call_y c) -> has_source (caller c) (call_given c) ->
    models (after_fits A w (before ++ c :: after)) e = Some (learn (A e) (call_x c) (call_y c)).
  Proof.
    intros w before c after e H N Hm L S1. unfold after_fits. rewrite fold_left_app. cbn [fold_left].
    set (w1 := fold_left _ before w).
    assert (H1 : models w1 e = None).
    { unfold w1. clear -H N. revert w H. induction before as [|b t IH]; intros w H; auto. cbn [fold_left]. apply IH.
      - intros. apply N. right; auto.
      - rewrite not_met; auto. apply N. left; auto. }
    pose proof (met c w1 e Hm L S1 H1) as H2. set (w2 := snd (UC_fit A (caller c) w1 _ _ _)) in *.
    pose proof (after_fits_ok after w2 e) as H3. rewrite H2 in H3. destruct H3 as [H3 _]. exact H3.
  Qed.

  (** ** Explicit predictions *)

  Theorem fit_given_probabilities : forall q w x y p, length x = length y -> needs_predictions_train q = true ->
    probabilistic q = true ->
    exists q' w', UC_fit A q w x y (Some p) = (Val tt, q', w') /\ predictions_train_ q' = Some p /\
      classes_ q' = Some (np_unique y) /\ y_ext_ q' = Some (y_ext y (n_predictions p)).
  Proof.
    intros q w x y p L Hn Hp. unfold UC_fit.
    pose proof (missing_false q (Some p) y ltac:(intros _; right; congruence)) as E0. cbv iota in E0. rewrite E0.
    cbn [with_classes estimator_train estimator_test needs_predictions_train probabilistic].
    destruct (ensure_val w (estimator_train q) x y L) as [w1 E1]. rewrite E1.
    destruct (ensure_val w1 (estimator_test q) x y L) as [w2 E2]. rewrite E2. rewrite Hn, Hp.
    eexists _, _. split; [reflexivity|]. auto.
  Qed.

  Theorem fit_given_crisp : forall q w x y p, length x = length y -> needs_predictions_train q = true ->
    probabilistic q = false ->
    exists w', (exists q' p', UC_fit A q w x y (Some p) = (Val tt, q', w') /\ probs2crisps (np_unique y) p = Val p' /\
                  predictions_train_ q' = Some p') \/
               (exists q' e, UC_fit A q w x y (Some p) = (Err e, q', w') /\ probs2crisps (np_unique y) p = Err e) \/
               (exists q', UC_fit A q w x y (Some p) = (NotANumber, q', w') /\ probs2crisps (np_unique y) p = NotANumber).
  Proof.
    intros q w x y p L Hn Hp. unfold UC_fit.
    pose proof (missing_false q (Some p) y ltac:(intros _; right; congruence)) as E0. cbv iota in E0. rewrite E0.
    cbn [with_classes estimator_train estimator_test needs_predictions_train probabilistic].
    destruct (ensure_val w (estimator_train q) x y L) as [w1 E1]. rewrite E1.
    destruct (ensure_val w1 (estimator_test q) x y L) as [w2 E2]. rewrite E2. rewrite Hn, Hp. exists w2.
    destruct (probs2crisps (np_unique y) p) as [p'|e|]; [left|right; left|right; right].
    - eexists _, p'. split; [reflexivity|]. auto.
    - eexists _, e. split; [reflexivity|]. auto.
    - eexists. split; [reflexivity|]. auto.
  Qed.

  Theorem fit_value_error : forall q w x y, length x = length y ->
    (forall given, (needs_predictions_train q = true /\ estimator_train q = None /\ given = None) ->
       exists q', UC_fit A q w x y given = (Err ValueError, q', w)) /\
    (forall given, has_source q given -> probabilistic q = true \/ given = None ->
       exists q' w', UC_fit A q w x y given = (Val tt, q', w')).
  Proof.
    intros q w x y L. split.
    - intros given [H1 [H2 ->]]. unfold UC_fit. cbn [with_classes estimator_train needs_predictions_train].
      rewrite H1, H2. simpl. eauto.
    - intros given S1 P. unfold UC_fit. rewrite (missing_false _ _ _ S1).
      cbn [with_classes estimator_train estimator_test needs_predictions_train probabilistic].
      destruct (ensure_val w (estimator_train q) x y L) as [w1 E1]. rewrite E1.
      destruct (ensure_val w1 (estimator_test q) x y L) as [w2 E2]. rewrite E2.
      destruct (needs_predictions_train q) eqn:Hn; [|eauto].
      destruct given as [p|].
      + destruct P as [P|P]; [|congruence]. rewrite P. eauto.
      + destruct (S1 Hn) as [S2|S2]; [|congruence]. destruct (estimator_train q) as [e|]; [|congruence].
        unfold ask. apply ensure_ok in E2. specialize (E2 e).
        assert (F : models w1 e <> None).
        { simpl in E1. destruct (models w e) eqn:Em; [inversion E1; subst; congruence|].
          rewrite L, Nat.eqb_refl in E1. inversion E1; subst. unfold set_model. cbn [models]. rewrite Nat.eqb_refl. congruence. }
        destruct (models w1 e); [|congruence]. destruct E2 as [E2 _]. rewrite E2. eauto.
  Qed.

  Theorem predict_given : forall q w x p, probabilistic q = true ->
    UC_predict A q w x (Some p) = (Val tt, with_test q p).
  Proof. intros q w x p H. unfold UC_predict. rewrite H. auto. Qed.

  Theorem predict_value_error : forall q w x given, (probabilistic q = true \/ given = None) ->
    (forall e, estimator_test q = Some e -> models w e <> None) ->
    ((exists q', UC_predict A q w x given = (Err ValueError, q')) <-> (estimator_test q = None /\ given = None)) /\
    ((exists q', UC_predict A q w x given = (Val tt, q')) <-> (estimator_test q <> None \/ given <> None)).
  Proof.
    intros q w x given P F. unfold UC_predict. destruct given as [p|].
    - destruct P as [P|P]; [|congruence]. rewrite P. split.
      + split; [intros [q' H]; discriminate|intros [_ H]; discriminate].
      + split; [intros _; right; congruence|eauto].
    - destruct (estimator_test q) as [e|].
      + specialize (F e eq_refl). unfold ask. destruct (models w e); [|congruence]. split.
        * split; [intros [q' H]; discriminate|intros [H _]; discriminate].
        * split; [intros _; left; congruence|eauto].
      + split.
        * split; [auto|eauto].
        * split; [intros [q' H]; discriminate|intros [H|H]; congruence].
  Qed.
End Fits.

(** ** Conversion of probabilities *)

Theorem probs2crisps_matrix : forall labels rows k, rows <> [] -> (2 <= k)%nat -> Forall (fun r => length r = k) rows ->
  length labels = k ->
  exists l, probs2crisps labels (Matrix rows) = Val (Labels l) /\ length l = length rows /\
    forall i, (i < length rows)%nat -> exists j, (j < k)%nat /\ nth i l 0%Z = nth j labels 0%Z /\
      (forall m, (m < k)%nat -> nth m (nth i rows []) 0 <= nth j (nth i rows []) 0) /\
      (forall m, (m < j)%nat -> nth m (nth i rows []) 0 < nth j (nth i rows []) 0).
Proof.
  intros labels rows k Hr Hk F L. destruct rows as [|r t]; [congruence|].
  assert (Am : forall row, In row (r :: t) -> (argmax row < k)%nat /\
     (forall m, (m < k)%nat -> nth m row 0 <= nth (argmax row) row 0) /\
     (forall m, (m < argmax row)%nat -> nth m row 0 < nth (argmax row) row 0)).
  { intros row Hin. rewrite Forall_forall in F. pose proof (F row Hin) as Lr.
    destruct (argmax_spec row) as [B1 [B2 B3]]; [intro; subst row; simpl in Lr; lia|]. rewrite Lr in *. auto. }
  assert (E : probs2crisps labels (Matrix (r :: t)) =
    if forallb (fun k => Nat.ltb k (length labels)) (map argmax (r :: t))
    then Val (Labels (map (fun k => nth k labels 0%Z) (map argmax (r :: t)))) else Err IndexError).
  { inversion F as [|? ? L1 _]; subst. destruct r as [|a [|b r]]; simpl in L1; try (exfalso; lia). reflexivity. }
  rewrite E. replace (forallb _ _) with true.
  - eexists. split; [reflexivity|]. rewrite !map_length. split; auto.
    intros i Hi. exists (argmax (nth i (r :: t) [])). destruct (Am (nth i (r :: t) []) (nth_In _ _ Hi)) as [B1 [B2 B3]].
    split; auto. split; [|auto]. rewrite map_map.
    rewrite (nth_indep _ 0%Z (nth (argmax []) labels 0%Z)) by (rewrite map_length; auto).
    rewrite (map_nth (fun row => nth (argmax row) labels 0%Z) (r :: t) []). auto.
  - symmetry. apply forallb_forall. intros j Hj. apply in_map_iff in Hj. destruct Hj as [row [<- Hin]].
    apply Nat.ltb_lt. rewrite L. apply (Am row Hin).
Qed.

Theorem probs2crisps_scores : forall labels l,
  l <> [] -> probs2crisps labels (Scores l) = Val (Labels (map (fun x => if Rle_dec (1/2) x then 1%Z else 0%Z) l)).
Proof. intros labels [|x l] H; [congruence|reflexivity]. Qed.

Lemma probs2crisps_matrix2 : forall labels rows, rows <> [] -> (2 <= length labels)%nat ->
  Forall (fun r => length r = length labels) rows ->
  exists l, probs2crisps labels (Matrix rows) = Val (Labels l) /\ Forall2 (first_best_label labels) rows l.
Proof.
  intros labels rows H0 H2 F. destruct (probs2crisps_matrix labels rows (length labels) H0 H2 F eq_refl) as [l [E [L H]]].
  exists l. split; auto. clear E H0. revert rows L H F. induction l as [|c l IH]; intros [|r rows] L H F; try discriminate; constructor.
  - inversion F as [|? ? L1 F1]; subst. destruct (H 0%nat ltac:(simpl; lia)) as [j [Hj [Ej [B1 B2]]]]. simpl in *.
    exists j. rewrite L1. auto.
  - inversion F as [|? ? L1 F1]; subst. apply IH; auto. intros i Hi. destruct (H (Datatypes.S i) ltac:(simpl; lia)) as [j Hj].
    exists j. exact Hj.
Qed.

Theorem crisp_fit_matrix : forall (X M : Type) (A : nat -> algorithm X M) q w x y rows,
  length x = length y -> needs_predictions_train q = true -> probabilistic q = false ->
  rows <> [] -> (2 <= length (np_unique y))%nat -> Forall (fun r => length r = length (np_unique y)) rows ->
  exists q' w' l, UC_fit A q w x y (Some (Matrix rows)) = (Val tt, q', w') /\ predictions_train_ q' = Some (Labels l) /\
    Forall2 (first_best_label (np_unique y)) rows l.
Proof.
  intros X M A q w x y rows L Hn Hp H0 H2 F. destruct (probs2crisps_matrix2 _ _ H0 H2 F) as [l [E H]].
  destruct (fit_given_crisp A q w x y (Matrix rows) L Hn Hp) as [w' [[q' [p' [E1 [E2 E3]]]]|[[q' [e [E1 E2]]]|[q' [E1 E2]]]]];
    rewrite E in E2; try discriminate.
  inversion E2; subst p'. exists q', w', l. auto.
Qed.

Theorem crisp_predict_matrix : forall (X M : Type) (A : nat -> algorithm X M) q w x labels rows,
  probabilistic q = false -> classes_ q = Some labels ->
  rows <> [] -> (2 <= length labels)%nat -> Forall (fun r => length r = length labels) rows ->
  exists l, UC_predict A q w x (Some (Matrix rows)) = (Val tt, with_test q (Labels l)) /\
    Forall2 (first_best_label labels) rows l.
Proof.
  intros X M A q w x labels rows Hp Hc H0 H2 F. destruct (probs2crisps_matrix2 _ _ H0 H2 F) as [l [E H]].
  exists l. unfold UC_predict. rewrite Hp, Hc, E. auto.
Qed.

Theorem crisp_predict_scores : forall (X M : Type) (A : nat -> algorithm X M) q w x labels l,
  probabilistic q = false -> classes_ q = Some labels -> l <> [] ->
  UC_predict A q w x (Some (Scores l)) =
    (Val tt, with_test q (Labels (map (fun p => if Rle_dec (1/2) p then 1%Z else 0%Z) l))).
Proof.
  intros X M A q w x labels l Hp Hc H. unfold UC_predict. rewrite Hp, Hc, probs2crisps_scores; auto.
Qed.

Theorem one_by_one_matrix_fails : forall (X M : Type) (A : nat -> algorithm X M) q w x labels p,
  probabilistic q = false -> classes_ q = Some labels ->
  UC_predict A q w x (Some (Matrix [[p]])) = (Err IndexError, q).
Proof. intros X M A q w x labels p Hp Hc. unfold UC_predict. rewrite Hp, Hc. reflexivity. Qed.

(** Crisp quantifiers use the labels they are given as they are. *)
Theorem crisp_given_labels : forall (X M : Type) (A : nat -> algorithm X M) q w x l, probabilistic q = false ->
  UC_predict A q w x (Some (Labels l)) = (Val tt, with_test q (Labels l)) /\
  (forall y, length x = length y -> needs_predictions_train q = true ->
     exists q' w', UC_fit A q w x y (Some (Labels l)) = (Val tt, q', w') /\ predictions_train_ q' = Some (Labels l)).
Proof.
  intros X M A q w x l Hp. split.
  - unfold UC_predict. rewrite Hp. destruct (classes_ q); reflexivity.
  - intros y L Hn.
    destruct (fit_given_crisp A q w x y (Labels l) L Hn Hp) as [w' [[q' [p' [E1 [E2 E3]]]]|[[q' [e [E1 E2]]]|[q' [E1 E2]]]]];
      simpl in E2; try discriminate. inversion E2; subst. eauto.
Qed.

(** ** A small world: estimators count their examples. *)
Definition counting : nat -> algorithm nat nat :=
  fun _ => {| learn := fun x _ => length x; crisp := fun m x => map (fun v => Z.of_nat (v + m)) x;
              proba := fun m x => map (fun _ => [1/2; 1/2]) x |}.
Definition untrained : world nat nat := {| models := fun _ => None; fits := [] |}.
Definition plain (train test : option nat) (prob : bool) : quantifier_object :=
  {| estimator_train := train; estimator_test := test; needs_predictions_train := true; probabilistic := prob;
     predictions_train_ := None; predictions_test_ := None; classes_ := None; y_ext_ := None |}.
