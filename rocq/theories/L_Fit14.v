(** * Proofs about ACOrdinal after failing fits (C135). *)

From Coq Require Import Reals List ZArith Lia Lra Bool Arith.
From Verif Require Import Num Spec L_Num M_Baselines L_Baselines M_Eoq M_Base M_Bags M_Search M_Optim Spec_Optim M_Match
  Spec_Match L_Match2 L_Match5 L_Match11 M_History M_Fit M_Fit2 M_Fit7 Spec_Fit Spec_Fit4 Spec_Fit7 L_Fit3 L_Fit6 L_Fit7 L_Fit8 L_Fit11.
Import ListNotations.
Open Scope R_scope.

Lemma zcount_renamed : forall a b, NoDup a -> NoDup b -> forall bag bag', renamed a b bag bag' ->
  forall i z z', nth_error a i = Some z -> nth_error b i = Some z' -> zcount z bag = zcount z' bag'.
Proof.
  intros a b Ha Hb bag bag' H i z z' E E'. induction H as [|u u' bag bag' (j & J & J') _ IH]; [reflexivity|].
  unfold zcount in *. cbn [count_occ].
  assert (K : u = z <-> u' = z').
  { split; intros ->.
    - assert (i = j) as <-; [|congruence]. apply (proj1 (NoDup_nth_error a) Ha); [apply nth_error_Some; congruence|congruence].
    - assert (i = j) as <-; [|congruence]. apply (proj1 (NoDup_nth_error b) Hb); [apply nth_error_Some; congruence|congruence]. }
  destruct (Z.eq_dec u z), (Z.eq_dec u' z'); tauto || congruence.
Qed.

Lemma nth_error_ext : forall {B} (a b : list B), (forall i, nth_error a i = nth_error b i) -> a = b.
Proof.
  intros B a. induction a as [|u a IH]; intros [|v b] H; [reflexivity|discriminate (H O)..|]. injection (H O) as <-. f_equal. apply IH. intros i. exact (H (Datatypes.S i)).
Qed.

Lemma represent_renamed : forall a b, NoDup a -> NoDup b -> length a = length b -> forall bag bag', renamed a b bag bag' ->
  aco_represent a bag = aco_represent b bag'.
Proof.
  intros a b Ha Hb HL bag bag' H. unfold aco_represent. f_equal.
  assert (L : length bag = length bag') by (induction H; cbn; congruence).
  assert (K : map (fun c => INR (zcount c bag) / INR (length bag)) a = map (fun c => INR (zcount c bag') / INR (length bag')) b).
  { apply nth_error_ext. intros i. rewrite !nth_error_map. destruct (nth_error a i) as [z|] eqn:E.
    - destruct (nth_error b i) as [z'|] eqn:E'.
      + cbn. rewrite (zcount_renamed a b Ha Hb bag bag' H i z z' E E'), L. reflexivity.
      + apply nth_error_None in E'. assert (i < length a)%nat by (apply nth_error_Some; congruence). lia.
    - apply nth_error_None in E. assert (E' : nth_error b i = None) by (apply nth_error_None; lia). now rewrite E'. }
  unfold class_frequencies. destruct H; [reflexivity|]. now rewrite K.
Qed.

Lemma represent_outside : forall classes bag bag', bag <> [] -> bag' <> [] -> (forall z, In z bag -> ~ In z classes) -> (forall z, In z bag' -> ~ In z classes) ->
  aco_represent classes bag = aco_represent classes bag'.
Proof.
  intros classes bag bag' N1 N2 H1 H2. unfold aco_represent. f_equal.
  assert (K : forall b, b <> [] -> (forall z, In z b -> ~ In z classes) -> class_frequencies classes b = Val (map (fun _ => 0) classes)).
  { intros b Hb H. unfold class_frequencies. destruct b as [|z b]; [congruence|]. f_equal. apply map_ext_in. intros c Hc.
    unfold zcount. rewrite (proj1 (count_occ_not_In Z.eq_dec (z :: b) c)); [cbn [INR]; unfold Rdiv; ring|]. intros I. exact (H _ I Hc). }
  now rewrite !K.
Qed.

Lemma represent_size : forall classes bag t, aco_represent classes bag = Val t -> length t = length classes.
Proof.
  intros classes bag t H. unfold aco_represent, class_frequencies in H. destruct bag; [discriminate|]. cbn [omap obind] in H. injection H as <-.
  now rewrite cumsum_length', map_length.
Qed.

Lemma estimate_mismatch : forall {B} N cvx tol (m : matcher B) t p, length t <> mt_bins m -> match mt_problem m with None => True | Some P => cp_d P = mt_bins m end ->
  snd (estimate N cvx (Named L1) tol m t) <> Val p.
Proof.
  intros B N cvx tol m t p Hl H. unfold estimate. cbv zeta. unfold solve_l1. destruct (mt_problem m) as [P|].
  - unfold run_problem, valid_parameter. rewrite H. destruct (Nat.eqb_spec (length t) (mt_bins m)); [contradiction|]. cbn [andb]. cbn. discriminate.
  - destruct (Nat.eqb_spec (length t) (mt_bins m)); [contradiction|]. cbn. discriminate.
Qed.

Section Object.
Context {X M : Type} (A : nat -> algorithm X M) (N : numerics) (cvx : cvx_solver).
Notation calls := (ACOrdinal_calls A N cvx).
Notation after := (ACOrdinal_after_fit A N cvx).
Notation fit := (ACOrdinal_object_fit A).
Notation predict := (ACOrdinal_object_predict A N cvx).

Lemma ar_predict_base s x given w : let s' := fst (predict x given s w) in
  ar_base s' = snd (UC_predict A (ar_base s) w x given) /\ ar_train s' = ar_train s.
Proof.
  cbv zeta. unfold ACOrdinal_object_predict. destruct (UC_predict A (ar_base s) w x given) as [r q]. cbn [snd].
  destruct r as [[]| |]; try solve [cbn; auto]. destruct (classes_ q) as [cl|]; [|solve [cbn; auto]].
  destruct (aco_represent _ _) as [t| |]; try solve [cbn; auto]. destruct (ar_train s) as [[cols|]|] eqn:ET; try solve [cbn; auto].
  destruct (estimate N cvx (Named L1) 0 (ar_matcher cols s) t) as [m r]. cbn. auto.
Qed.

Lemma ar_fit_base x y given s w r s' w' : fit x y given s w = (r, s', w') -> exists r0, UC_fit A (ar_base s) w x y given = (r0, ar_base s', w').
Proof.
  unfold ACOrdinal_object_fit. destruct (UC_fit A (ar_base s) w x y given) as [[r0 q] w0]. intros H. exists r0.
  destruct r0 as [[]| |]; [|injection H as <- <- <-; reflexivity..].
  destruct (predictions_train_ q) as [[l|l|l]|]; try (injection H as <- <- <-; reflexivity).
  destruct (AC_fit y l); injection H as <- <- <-; reflexivity.
Qed.

Lemma ar_flags s : calls s -> probabilistic (ar_base s) = false /\ needs_predictions_train (ar_base s) = true.
Proof.
  intros C. induction C as [et es|s x y given w r s' w' _ [I1 I2] F|s x given w _ [I1 I2]]; [split; reflexivity| |].
  - destruct (ar_fit_base _ _ _ _ _ _ _ _ F) as [r0 U]. destruct (UC_fit_keeps A _ _ _ _ _ _ _ _ U) as (_ & _ & K3 & K4 & _). split; congruence.
  - destruct (ar_predict_base s x given w) as (EB & _). rewrite EB. destruct (UC_predict A (ar_base s) w x given) as [r q] eqn:U.
    destruct (UC_predict_keeps A _ _ _ _ _ _ U) as (_ & _ & K3 & K4 & _). cbn [snd]. split; congruence.
Qed.

Lemma ar_after_calls y s : after y s -> calls s.
Proof. intros H. induction H; [eapply ACOrdinal_calls_fit; eassumption|now apply ACOrdinal_calls_predict]. Qed.

(** A fit that raises changes the base only. *)
Lemma ar_fit_raises x y given s w r s' w' : fit x y given s w = (r, s', w') -> raises r -> ar_train s' = ar_train s /\ ar_problem s' = ar_problem s.
Proof.
  unfold ACOrdinal_object_fit. destruct (UC_fit A (ar_base s) w x y given) as [[r0 q] w0]. intros H HR.
  destruct r0 as [[]| |]; [|injection H as <- <- <-; split; reflexivity..].
  destruct (predictions_train_ q) as [[l|l|l]|]; try (injection H as <- <- <-; split; reflexivity).
  destruct (AC_fit y l); injection H as <- <- <-; try (split; reflexivity). exfalso. exact (HR tt eq_refl).
Qed.

Lemma ar_given_train s x y l w q w' : calls s -> UC_fit A (ar_base s) w x y (Some (Labels l)) = (Val tt, q, w') -> predictions_train_ q = Some (Labels l).
Proof.
  intros C U. destruct (ar_flags _ C) as [HP HN]. unfold UC_fit in U. cbv zeta in U.
  cbn [with_classes needs_predictions_train estimator_train estimator_test probabilistic] in U. rewrite HN, HP in U.
  destruct (estimator_train (ar_base s)); cbn [andb] in U;
    destruct (ensure_fitted A w _ x y) as [wa| |]; try discriminate; destruct (ensure_fitted A wa _ x y); try discriminate; injection U as <- <-; reflexivity.
Qed.

Definition settled (n : nat) (s : aco_object) : Prop := exists T, ar_train s = Some T /\
  (forall cols, T = Some cols -> length cols = n) /\ match ar_problem s with None => True | Some P => cp_d P = n end.

Lemma all_some_size : forall {B} (l : list (option B)) v, all_some l = Some v -> length v = length l.
Proof. intros B l v H. apply all_some_length in H. rewrite <- H, map_length. reflexivity. Qed.

Lemma ar_after_settled y0 s : after y0 s -> classes_ (ar_base s) = Some (np_unique y0) /\ settled (length (np_unique y0)) s.
Proof.
  intros H. induction H as [s0 x given w s w' C F|s x given w HA [IC IS]].
  - destruct (ar_fit_base _ _ _ _ _ _ _ _ F) as [r0 U]. destruct (UC_fit_keeps A _ _ _ _ _ _ _ _ U) as (_ & _ & _ & _ & K5). split; [exact K5|].
    unfold ACOrdinal_object_fit in F. rewrite U in F. destruct r0 as [[]| |]; try discriminate.
    destruct (predictions_train_ _) as [[l|l|l]|]; try discriminate. destruct (AC_fit y0 l) as [cm| |] eqn:EC; try discriminate. injection F as F1.
    rewrite <- F1. eexists. split; [reflexivity|]. split; [|exact I]. intros cols E. cbn in E.
    destruct (all_some cm) as [rows|] eqn:EA; [|discriminate]. injection E as <-. rewrite map_length, (all_some_size _ _ EA).
    unfold AC_fit in EC. destruct (Nat.eqb _ _); [|discriminate]. injection EC as <-. rewrite map_length. unfold confusion. apply map_length.
  - destruct (ar_predict_base s x given w) as (EB & ET). split.
    + rewrite EB. destruct (UC_predict A (ar_base s) w x given) as [r q] eqn:U. destruct (UC_predict_keeps A _ _ _ _ _ _ U) as (_ & _ & _ & _ & K5). cbn [snd]. congruence.
    + destruct IS as (T & E1 & E2 & E3). exists T. split; [congruence|]. split; [exact E2|].
      unfold ACOrdinal_object_predict. destruct (UC_predict A (ar_base s) w x given) as [r q] eqn:U.
      destruct (UC_predict_keeps A _ _ _ _ _ _ U) as (_ & _ & _ & _ & K5).
      destruct r as [[]| |]; try exact E3. destruct (classes_ q) as [cl|] eqn:EQ; [|exact E3].
      destruct (aco_represent _ _) as [t| |] eqn:ER; try exact E3. rewrite E1. destruct T as [cols|]; [|exact E3].
      pose proof (@estimate_problem unit N cvx (Named L1) 0 (ar_matcher cols s) t) as K. cbn [ar_matcher mt_bins mt_problem] in K.
      rewrite (E2 _ eq_refl) in K.
      destruct (estimate N cvx (Named L1) 0 (ar_matcher cols s) t) as [m r]. cbn [fst ar_problem]. apply K; [|exact E3].
      rewrite (represent_size _ _ _ ER). congruence.
Qed.

(** A predict whose cumulative frequencies are [t]. *)
Lemma ar_answer s x given w q classes cols : UC_predict A (ar_base s) w x given = (Val tt, q) -> classes_ q = Some classes -> ar_train s = Some cols ->
  snd (predict x given s w) = obind (aco_represent classes (labels_in (predictions_test_ q))) (fun t =>
    match cols with Some cols => snd (estimate N cvx (Named L1) 0 (ar_matcher cols s) t) | None => NotANumber end).
Proof.
  intros U EC ET. unfold ACOrdinal_object_predict. rewrite U, EC. destruct (aco_represent _ _) as [t| |]; try reflexivity. rewrite ET.
  destruct cols as [cols|]; [|reflexivity]. cbn [obind]. destruct (estimate N cvx (Named L1) 0 (ar_matcher cols s) t). reflexivity.
Qed.

Theorem ar_fit_returns fuel x y l s w s' w' m : calls s -> fit x y (Some (Labels l)) s w = (Val tt, s', w') -> ACOrdinal_fit N fuel y l = Val m ->
  forall t bag w2, snd (predict t (Some (Labels bag)) s' w2) = snd (ACOrdinal_predict N cvx m bag).
Proof.
  intros C F EM t bag w2. destruct (ar_fit_base _ _ _ _ _ _ _ _ F) as [r0 U]. destruct (UC_fit_keeps A _ _ _ _ _ _ _ _ U) as (_ & _ & K3 & _ & K5).
  unfold ACOrdinal_object_fit in F. rewrite U in F. destruct r0 as [[]| |]; try discriminate.
  rewrite (ar_given_train _ _ _ _ _ _ _ C U) in F. unfold ACOrdinal_fit in EM. destruct (AC_fit y l) as [cm| |] eqn:EC; try discriminate. cbn [obind] in EM.
  destruct (all_some cm) as [rows|] eqn:EA; [|discriminate]. injection EM as <-. cbn [option_map] in F. injection F as F.
  assert (ET : ar_train s' = Some (Some (map cumsum rows))) by (now rewrite <- F).
  assert (EP : ar_problem s' = None) by (now rewrite <- F).
  assert (LC : length (map cumsum rows) = length (np_unique y)).
  { rewrite map_length, (all_some_size _ _ EA). unfold AC_fit in EC. destruct (Nat.eqb _ _); [|discriminate]. injection EC as <-. rewrite map_length. unfold confusion. apply map_length. }
  destruct (ar_flags _ C) as [HP _].
  assert (UP : UC_predict A (ar_base s') w2 t (Some (Labels bag)) = (Val tt, with_test (ar_base s') (Labels bag))).
  { unfold UC_predict. rewrite K3, HP, K5. reflexivity. }
  rewrite (ar_answer _ _ _ _ _ _ _ UP K5 ET). cbn [with_test predictions_test_ labels_in]. unfold ACOrdinal_predict, matching_predict. cbn [new_matcher mt_represent].
  destruct (aco_represent (np_unique y) bag) as [v| |]; try reflexivity. cbn [obind].
  apply estimate_same; cbn; auto; try discriminate.
Qed.

Theorem ar_returns x y l s w : calls s -> estimator_train (ar_base s) = None -> estimator_test (ar_base s) = None ->
  ((exists s' w', fit x y (Some (Labels l)) s w = (Val tt, s', w')) <-> length (y_ext y (length l)) = length l).
Proof.
  intros C H1 H2. destruct (ar_flags _ C) as [HP HN]. unfold ACOrdinal_object_fit, UC_fit. cbv zeta.
  cbn [with_classes needs_predictions_train estimator_train estimator_test probabilistic]. rewrite HN, HP, H1, H2. cbn [andb ensure_fitted probs2crisps with_train predictions_train_].
  unfold AC_fit. destruct (Nat.eqb_spec (length (y_ext y (length l))) (length l)) as [E|E]; split; intros H.
  - exact E.
  - eexists. eexists. reflexivity.
  - destruct H as (s' & w' & H). discriminate.
  - contradiction.
Qed.

Theorem ar_never_fitted s : ACOrdinal_only_failed A N cvx s -> forall t p w, raises (snd (predict t p s w)).
Proof.
  intros H. assert (K : ar_train s = None).
  { induction H as [et es|s x y given w r s' w' _ IH F HR|s x given w _ IH]; [reflexivity| |].
    - rewrite (proj1 (ar_fit_raises _ _ _ _ _ _ _ _ F HR)). exact IH.
    - rewrite (proj2 (ar_predict_base s x given w)). exact IH. }
  intros t p w v. unfold ACOrdinal_object_predict. destruct (UC_predict A (ar_base s) w t p) as [r q].
  destruct r as [[]| |]; try discriminate. destruct (classes_ q); [|discriminate]. destruct (aco_represent _ _); try discriminate. rewrite K. discriminate.
Qed.

(** After a fit that raised. *)
Lemma ar_failed y0 s x y given w r s' w' : after y0 s -> fit x y given s w = (r, s', w') -> raises r ->
  classes_ (ar_base s') = Some (np_unique y) /\ estimator_test (ar_base s') = estimator_test (ar_base s) /\
  probabilistic (ar_base s') = false /\ ar_train s' = ar_train s /\ ar_problem s' = ar_problem s.
Proof.
  intros HA F HR. destruct (ar_flags _ (ar_after_calls _ _ HA)) as [HP HN]. destruct (ar_fit_raises _ _ _ _ _ _ _ _ F HR) as [E1 E2].
  destruct (ar_fit_base _ _ _ _ _ _ _ _ F) as [r0 U]. destruct (UC_fit_keeps A _ _ _ _ _ _ _ _ U) as (_ & K2 & K3 & _ & K5).
  split; [exact K5|]. split; [exact K2|]. split; [congruence|]. auto.
Qed.

Theorem ar_same_classes y0 s x y given w r s' w' : after y0 s -> fit x y given s w = (r, s', w') -> raises r -> np_unique y = np_unique y0 ->
  forall t p w2, snd (predict t p s' w2) = snd (predict t p s w2).
Proof.
  intros HA F HR HY t p w2. destruct (ar_failed _ _ _ _ _ _ _ _ _ HA F HR) as (B1 & B2 & B3 & B4 & B5).
  destruct (ar_after_settled _ _ HA) as [C1 (T & T1 & _)]. destruct (ar_flags _ (ar_after_calls _ _ HA)) as [HP _].
  assert (UU : exists rr q1 q2, UC_predict A (ar_base s') w2 t p = (rr, q1) /\ UC_predict A (ar_base s) w2 t p = (rr, q2) /\
    classes_ q1 = classes_ q2 /\ (rr = Val tt -> predictions_test_ q1 = predictions_test_ q2)).
  { unfold UC_predict. cbv zeta. rewrite B2, B3, HP, B1, C1, HY.
    match goal with |- context [match ?e with Val _ => _ | Err _ => _ | NotANumber => _ end] => destruct e end;
      eexists; eexists; eexists; (split; [reflexivity|]); (split; [reflexivity|]); cbn; rewrite B1, C1, HY; split; auto; discriminate. }
  destruct UU as (rr & q1 & q2 & U1 & U2 & E1 & E2). unfold ACOrdinal_object_predict. rewrite U1, U2, E1. destruct rr as [[]| |]; try reflexivity.
  rewrite (E2 eq_refl). destruct (classes_ q2); [|reflexivity]. destruct (aco_represent _ _) as [v| |]; try reflexivity. rewrite B4. destruct (ar_train s) as [[cols|]|]; try reflexivity.
  assert (EM : ar_matcher cols s' = ar_matcher cols s) by (unfold ar_matcher; now rewrite B5). rewrite EM.
  destruct (estimate N cvx (Named L1) 0 (ar_matcher cols s) v). reflexivity.
Qed.

Lemma ar_labels s classes cols : probabilistic (ar_base s) = false -> classes_ (ar_base s) = Some classes -> ar_train s = Some cols ->
  forall t bag w2, snd (predict t (Some (Labels bag)) s w2) = obind (aco_represent classes bag) (fun v =>
    match cols with Some cols => snd (estimate N cvx (Named L1) 0 (ar_matcher cols s) v) | None => NotANumber end).
Proof.
  intros HP HC HT t bag w2.
  assert (UP : UC_predict A (ar_base s) w2 t (Some (Labels bag)) = (Val tt, with_test (ar_base s) (Labels bag))) by (unfold UC_predict; rewrite HP, HC; reflexivity).
  rewrite (ar_answer _ _ _ _ _ _ _ UP HC HT). reflexivity.
Qed.

Theorem ar_renamed y0 s x y given w r s' w' : after y0 s -> fit x y given s w = (r, s', w') -> raises r ->
  length (np_unique y) = length (np_unique y0) ->
  forall t t' bag bag' w2 w3, renamed (np_unique y) (np_unique y0) bag bag' ->
    snd (predict t (Some (Labels bag)) s' w2) = snd (predict t' (Some (Labels bag')) s w3).
Proof.
  intros HA F HR HY t t' bag bag' w2 w3 HB. destruct (ar_failed _ _ _ _ _ _ _ _ _ HA F HR) as (B1 & B2 & B3 & B4 & B5).
  destruct (ar_after_settled _ _ HA) as [C1 (T & T1 & _)]. destruct (ar_flags _ (ar_after_calls _ _ HA)) as [HP _].
  rewrite (ar_labels s' _ T B3 B1 ltac:(congruence)), (ar_labels s _ T HP C1 T1).
  rewrite (represent_renamed _ _ (np_unique_NoDup y) (np_unique_NoDup y0) HY _ _ HB).
  destruct (aco_represent _ _) as [v| |]; try reflexivity. cbn [obind]. destruct T as [cols|]; [|reflexivity].
  assert (EM : ar_matcher cols s' = ar_matcher cols s) by (unfold ar_matcher; now rewrite B5). now rewrite EM.
Qed.

Lemma crisp_renamed a b best : length a = length b -> forallb (fun k => Nat.ltb k (length a)) best = true ->
  renamed a b (map (fun k => nth k a 0%Z) best) (map (fun k => nth k b 0%Z) best).
Proof.
  intros HL H. induction best as [|k best IH]; [constructor|]. cbn in H. apply andb_prop in H. destruct H as [H1 H2]. apply Nat.ltb_lt in H1.
  constructor; [|now apply IH]. exists k. split; apply nth_error_nth'; lia.
Qed.

Theorem ar_probabilities y0 s x y given w r s' w' : after y0 s -> fit x y given s w = (r, s', w') -> raises r ->
  length (np_unique y) = length (np_unique y0) ->
  forall t t' k rows w2 w3, (2 <= k)%nat -> Spec_Fit4.columns k rows ->
    snd (predict t (Some (Matrix rows)) s' w2) = snd (predict t' (Some (Matrix rows)) s w3).
Proof.
  intros HA F HR HY t t' k rows w2 w3 Hk HC. pose proof (ar_renamed _ _ _ _ _ _ _ _ _ HA F HR HY) as HB.
  destruct (ar_failed _ _ _ _ _ _ _ _ _ HA F HR) as (B1 & B2 & B3 & B4 & B5).
  destruct (ar_after_settled _ _ HA) as [C1 (T & T1 & _)]. destruct (ar_flags _ (ar_after_calls _ _ HA)) as [HP _].
  destruct rows as [|row rows].
  { unfold ACOrdinal_object_predict, UC_predict. cbv zeta. rewrite B3, HP, B1, C1. cbn [probs2crisps with_test classes_ predictions_test_ labels_in]. rewrite B1, C1. reflexivity. }
  inversion HC as [|? ? L0 _]; subst. destruct row as [|v0 [|v1 row]]; [cbn in Hk; lia|cbn in Hk; lia|].
  set (best := map argmax ((v0 :: v1 :: row) :: rows)).
  assert (E : forall a, probs2crisps a (Matrix ((v0 :: v1 :: row) :: rows)) =
    if forallb (fun k => Nat.ltb k (length a)) best then Val (Labels (map (fun k => nth k a 0%Z) best)) else Err IndexError) by reflexivity.
  assert (P1 : forall s1 a, probabilistic (ar_base s1) = false -> classes_ (ar_base s1) = Some a -> forall t1 w1,
    snd (predict t1 (Some (Matrix ((v0 :: v1 :: row) :: rows))) s1 w1) =
    if forallb (fun k => Nat.ltb k (length a)) best then snd (predict t1 (Some (Labels (map (fun k => nth k a 0%Z) best))) s1 w1) else Err IndexError).
  { intros s1 a Q1 Q2 t1 w1. unfold ACOrdinal_object_predict, UC_predict. cbv zeta. rewrite Q1, Q2, E. destruct (forallb _ best); reflexivity. }
  rewrite (P1 s' _ B3 B1), (P1 s _ HP C1), HY. destruct (forallb (fun k => Nat.ltb k (length (np_unique y0))) best) eqn:EB; [|reflexivity].
  apply HB. apply crisp_renamed; [exact HY|]. now rewrite HY.
Qed.

Theorem ar_blind y0 s x y given w r s' w' : after y0 s -> fit x y given s w = (r, s', w') -> raises r ->
  forall t t' bag bag' w2 w3, bag <> [] -> bag' <> [] -> (forall z, In z bag -> ~ In z y) -> (forall z, In z bag' -> ~ In z y) ->
    snd (predict t (Some (Labels bag)) s' w2) = snd (predict t' (Some (Labels bag')) s' w3).
Proof.
  intros HA F HR t t' bag bag' w2 w3 N1 N2 H1 H2. destruct (ar_failed _ _ _ _ _ _ _ _ _ HA F HR) as (B1 & B2 & B3 & B4 & B5).
  destruct (ar_after_settled _ _ HA) as [C1 (T & T1 & _)].
  rewrite (ar_labels s' _ T B3 B1 ltac:(congruence) t bag), (ar_labels s' _ T B3 B1 ltac:(congruence) t' bag').
  rewrite (represent_outside (np_unique y) bag bag' N1 N2); [reflexivity|..]; intros z Hz Hc; apply (np_unique_in z y) in Hc; [exact (H1 z Hz Hc)|exact (H2 z Hz Hc)].
Qed.

Theorem ar_other_number y0 s x y given w r s' w' : after y0 s -> fit x y given s w = (r, s', w') -> raises r ->
  length (np_unique y) <> length (np_unique y0) -> forall t p w2, raises (snd (predict t p s' w2)).
Proof.
  intros HA F HR HY t p w2 v. destruct (ar_failed _ _ _ _ _ _ _ _ _ HA F HR) as (B1 & B2 & B3 & B4 & B5).
  destruct (ar_after_settled _ _ HA) as [C1 (T & T1 & T2 & T3)].
  unfold ACOrdinal_object_predict. destruct (UC_predict A (ar_base s') w2 t p) as [rr q] eqn:U.
  destruct (UC_predict_keeps A _ _ _ _ _ _ U) as (_ & _ & _ & _ & K5). rewrite B1 in K5.
  destruct rr as [[]| |]; try discriminate. rewrite K5. destruct (aco_represent _ _) as [u| |] eqn:ER; try discriminate.
  rewrite B4, T1. destruct T as [cols|]; [|discriminate].
  pose proof (@estimate_mismatch unit N cvx 0 (ar_matcher cols s') u v) as K. cbn [ar_matcher mt_bins mt_problem] in K. rewrite (T2 _ eq_refl), B5, (represent_size _ _ _ ER) in K.
  specialize (K HY T3). destruct (estimate N cvx (Named L1) 0 (ar_matcher cols s') u). exact K.
Qed.
End Object.

(** ** An example *)

Lemma ar_keeps_refuted : forall N cvx, exact_qp (solve_qp N) -> answering_qp (solve_qp N) -> exact_cvx cvx -> answering_cvx cvx ->
  let fit := ACOrdinal_object_fit no_algorithm [] in
  let ask s bag := snd (ACOrdinal_object_predict no_algorithm N cvx [] (Some (Labels bag)) s nobody) in
  exists s s', fit [0; 1; 2]%Z (Some (Labels [0; 1; 2]%Z)) (ACOrdinal_new None None) nobody = (Val tt, s, nobody) /\
    fit [10; 20; 30]%Z (Some (Labels [10; 20]%Z)) s nobody = (Err ValueError, s', nobody) /\
    ask s [0]%Z = Val [1; 0; 0] /\ ask s [2]%Z = Val [0; 0; 1] /\ ask s' [0]%Z = ask s' [2]%Z.
Proof.
  intros N cvx HQ HA HX HC fit ask.
  assert (C : ACOrdinal_calls no_algorithm N cvx (ACOrdinal_new None None)) by constructor.
  destruct (aco_facts N 0) as (m & EM & HI).
  set (s := snd (fst (fit [0; 1; 2]%Z (Some (Labels [0; 1; 2]%Z)) (ACOrdinal_new None None) nobody))).
  set (s' := snd (fst (fit [10; 20; 30]%Z (Some (Labels [10; 20]%Z)) s nobody))).
  assert (F : fit [0; 1; 2]%Z (Some (Labels [0; 1; 2]%Z)) (ACOrdinal_new None None) nobody = (Val tt, s, nobody)) by reflexivity.
  assert (F' : fit [10; 20; 30]%Z (Some (Labels [10; 20]%Z)) s nobody = (Err ValueError, s', nobody)) by reflexivity.
  assert (HR : raises (@Err unit ValueError)) by (intros v; discriminate).
  assert (KS : class_samples (np_unique [0; 1; 2]%Z) (y_ext [0; 1; 2]%Z (length [0; 1; 2]%Z)) [0; 1; 2]%Z = [[0%Z]; [1%Z]; [2%Z]]) by reflexivity.
  assert (G : forall ks bag p, copies_of ks [[0%Z]; [1%Z]; [2%Z]] bag -> bag <> [] -> copies_prevalences ks [[0%Z]; [1%Z]; [2%Z]] bag = p -> ask s bag = Val p).
  { intros ks bag p H1 H2 H3. unfold ask. rewrite (ar_fit_returns _ N cvx 0 _ _ _ _ _ _ _ m C F EM [] bag nobody). rewrite <- H3, <- KS.
    apply (proj2 (ACOrdinal_consistent N 0 cvx [0; 1; 2]%Z [0; 1; 2]%Z m [] ks bag HX HQ ltac:(discriminate) (fun z H => H) EM HI ltac:(rewrite KS; exact H1) H2) HC HA). }
  exists s, s'. split; [exact F|]. split; [exact F'|]. split; [|split].
  - apply (G [1; 0; 0]%nat); [|discriminate|].
    + split; [reflexivity|]. apply Permutation.Permutation_refl.
    + unfold copies_prevalences. cbn [combine map fst snd length Nat.mul Nat.add INR]. repeat (apply (f_equal2 cons); [lra|]). reflexivity.
  - apply (G [0; 0; 1]%nat); [|discriminate|].
    + split; [reflexivity|]. apply Permutation.Permutation_refl.
    + unfold copies_prevalences. cbn [combine map fst snd length Nat.mul Nat.add INR]. repeat (apply (f_equal2 cons); [lra|]). reflexivity.
  - unfold ask. apply (ar_blind _ N cvx [0; 1; 2]%Z s [] [10; 20; 30]%Z _ nobody _ s' nobody (ACOrdinal_after_now _ _ _ _ _ _ _ _ _ _ C F) F' HR); try discriminate;
      intros z Hz Hc; cbn in Hz, Hc; lia.
Qed.
