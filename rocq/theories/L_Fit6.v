(** * Proofs about CC, PCC, PAC, DeBias and EM after failing fits. *)

From Coq Require Import Reals List ZArith Bool Lia Lra.
From Verif Require Import Num Spec M_Metrics M_Baselines M_Base M_Optim M_EM M_History M_Fit M_Fit2 Spec_Fit Spec_Fit2
  L_Num L_Baselines L_History2 L_Fit L_Fit3 L_Error3.
Import ListNotations.
Open Scope R_scope.

Local Hint Resolve raises_err raises_nan : core.

Section Base.
Context {X M : Type} (A : nat -> algorithm X M).

Lemma UC_predict_keeps q w x given r q' : UC_predict A q w x given = (r, q') ->
  estimator_train q' = estimator_train q /\ estimator_test q' = estimator_test q /\ probabilistic q' = probabilistic q /\
  needs_predictions_train q' = needs_predictions_train q /\ classes_ q' = classes_ q.
Proof.
  unfold UC_predict. cbv zeta.
  match goal with |- match ?o with Val p => _ | Err e => _ | NotANumber => _ end = _ -> _ => destruct o end; intros [= <- <-]; cbn; auto.
Qed.

(** ** CC and PCC *)
Lemma CC_calls_inv s last : CC_calls A s last -> probabilistic s = false /\ classes_ s = option_map np_unique last.
Proof.
  induction 1 as [est|s last x y w r s' w' _ (H1 & H2) F|s last x given w _ (H1 & H2)]; [split; reflexivity| |].
  - destruct (UC_fit_keeps A _ _ _ _ _ _ _ _ F) as (_ & _ & K3 & _ & K5). split; [congruence|exact K5].
  - unfold CC_object_predict. destruct (UC_predict A s w x given) as [r q] eqn:U.
    destruct (UC_predict_keeps _ _ _ _ _ _ U) as (_ & _ & K3 & _ & K5).
    destruct r as [[]|e|]; cbn; split; congruence.
Qed.

Theorem CC_answers s last : CC_calls A s last -> forall t l w, l <> [] ->
  match last with
  | None => raises (snd (CC_object_predict A t (Some (Labels l)) s w))
  | Some y => snd (CC_object_predict A t (Some (Labels l)) s w) = Val (map (fun c => share c l) (np_unique y))
  end.
Proof.
  intros H t l w Hl. destruct (CC_calls_inv _ _ H) as (H1 & H2). unfold CC_object_predict, UC_predict. cbv zeta. rewrite H1, H2.
  destruct last as [y|]; cbn; rewrite H2; cbn; [|auto].
  unfold CC_predict, class_frequencies. destruct l; [easy|]. reflexivity.
Qed.

Lemma PCC_calls_inv s : PCC_calls A s -> probabilistic s = true.
Proof.
  induction 1 as [est|s x y w r s' w' _ H1 F|s x given w _ H1]; [reflexivity| |].
  - destruct (UC_fit_keeps A _ _ _ _ _ _ _ _ F) as (_ & _ & K3 & _ & K5). congruence.
  - unfold PCC_object_predict. destruct (UC_predict A s w x given) as [r q] eqn:U.
    destruct (UC_predict_keeps _ _ _ _ _ _ U) as (_ & _ & K3 & _ & K5).
    destruct r as [[]|e|]; cbn; congruence.
Qed.

Theorem PCC_answers s : PCC_calls A s -> forall t k rows w, rows <> [] -> Forall (fun r => length r = k) rows ->
  snd (PCC_object_predict A t (Some (Matrix rows)) s w) = Val (map (fun j => rmean (col j rows)) (seq 0 k)).
Proof.
  intros H t k rows w Hr Hk. unfold PCC_object_predict, UC_predict. cbv zeta. rewrite (PCC_calls_inv _ H). cbn.
  unfold PCC_predict, mean_rows. destruct rows as [|row rows]; [easy|]. unfold width. cbn [hd].
  inversion Hk as [|? ? L _]; subst. reflexivity.
Qed.

(** ** PAC *)
Section PAC.
Context (inv : nat -> matrix -> option matrix) (N : numerics) (cvx : cvx_solver) (fuel : nat) (dist : distance).

Lemma PAC_calls_inv s : PAC_calls A inv N cvx fuel dist s ->
  estimator_train (ao_base s) = None /\ estimator_test (ao_base s) = None /\ probabilistic (ao_base s) = true /\
  needs_predictions_train (ao_base s) = true.
Proof.
  induction 1 as [|s x y given w r s' w' _ (H1 & H2 & H3 & H4) F|s x given w _ (H1 & H2 & H3 & H4)]; [cbn; auto| |].
  - unfold PAC_object_fit in F. destruct (UC_fit A (ao_base s) w x y given) as [[r0 q] w0] eqn:U.
    destruct (UC_fit_keeps A _ _ _ _ _ _ _ _ U) as (K1 & K2 & K3 & K4 & K5).
    assert (ao_base s' = q) as ->.
    { destruct r0 as [[]|er|]; [|injection F as <- <- <-; reflexivity..]. cbv zeta in F.
      destruct (predictions_train_ q) as [p|]; [|injection F as <- <- <-; reflexivity].
      destruct (negb _); [injection F as <- <- <-; reflexivity|]. destruct (_ || _); injection F as <- <- <-; reflexivity. }
    repeat split; congruence.
  - unfold PAC_object_predict. cbv zeta. destruct (UC_predict A (ao_base s) w x given) as [r q] eqn:U.
    destruct (UC_predict_keeps _ _ _ _ _ _ U) as (K1 & K2 & K3 & K4 & K5).
    assert (G : forall a, estimator_train (ao_base {| ao_base := q; ao_adjuster := a |}) = None /\
      estimator_test (ao_base {| ao_base := q; ao_adjuster := a |}) = None /\
      probabilistic (ao_base {| ao_base := q; ao_adjuster := a |}) = true /\
      needs_predictions_train (ao_base {| ao_base := q; ao_adjuster := a |}) = true) by (intros a; cbn; repeat split; congruence).
    destruct r as [[]|e|]; [|apply G..].
    destruct (classes_ q); [|apply G]. destruct (predictions_test_ q); [|apply G].
    destruct (cm_problem _ _); [apply G|]. destruct (_ || _); [|apply G]. destruct (adjuster_predict _ _ _ _ _ _); apply G.
Qed.

(** A fit with given predictions that raises leaves a matrix of zeros ... *)
Lemma PAC_raised s x y p w r s' w' : PAC_calls A inv N cvx fuel dist s ->
  PAC_object_fit A N fuel dist x y (Some p) s w = (r, s', w') -> raises r ->
  ao_adjuster s' = zeroed (length (np_unique y)) (ao_adjuster s) /\ classes_ (ao_base s') = Some (np_unique y).
Proof.
  intros H F Hr. destruct (PAC_calls_inv _ H) as (H1 & H2 & H3 & H4). unfold PAC_object_fit, UC_fit in F. cbv zeta in F.
  cbn [with_classes estimator_train estimator_test needs_predictions_train probabilistic] in F. rewrite H1, H2, H3, H4 in F. cbn in F.
  destruct (negb _); [injection F as <- <- <-; split; reflexivity|].
  destruct (_ || _); injection F as <- <- <-; [exfalso; eapply raises_not_val, Hr|split; reflexivity].
Qed.

(** ... so that with two classes it answers what PCC answers. *)
Lemma binary_adjust_zero m : 0 <= m <= 1 -> binary_adjust (repeat (Some (repeat 0 2)) 2) [1 - m; m] = [1 - m; m].
Proof.
  intros Hm. unfold binary_adjust. cbn [repeat nth]. rewrite Rminus_diag_eq by reflexivity. rewrite Rabs_R0.
  destruct (Rlt_dec (1/1000) 0); [lra|]. unfold clip01. cbn [map rsum].
  rewrite (Rmax_left (1 - m)) by lra. rewrite (Rmax_left m) by lra. rewrite (Rmin_left (1 - m)), (Rmin_left m) by lra.
  destruct (Rlt_dec 0 _); [|lra]. unfold vdiv. cbn. f_equal; [field; lra|]. f_equal. field; lra.
Qed.

Theorem PAC_failed_answers s x y p w r s' w' : PAC_calls A inv N cvx fuel dist s -> length (np_unique y) = 2%nat ->
  PAC_object_fit A N fuel dist x y (Some p) s w = (r, s', w') -> raises r ->
  forall t rows w2, rows <> [] -> distributions 2 rows ->
  snd (PAC_object_predict A inv N cvx dist t (Some (Matrix rows)) s' w2) = Val (map (fun j => rmean (col j rows)) [0; 1]%nat).
Proof.
  intros H H2 F Hr t rows w2 Hrows D. destruct (PAC_raised _ _ _ _ _ _ _ _ H F Hr) as (Ha & Hc).
  assert (H' : PAC_calls A inv N cvx fuel dist s') by (eapply PAC_calls_fit; eauto).
  destruct (PAC_calls_inv _ H') as (_ & _ & H3 & _). destruct (two_means rows Hrows D) as (E & B).
  unfold PAC_object_predict, UC_predict. cbv zeta. rewrite H3. cbn [with_test classes_ predictions_test_ as_rows]. rewrite Hc, Ha. rewrite H2.
  cbn [zeroed aj_cm aj_classes].
  change (cm_problem 2 (repeat (Some (repeat 0 2)) 2)) with (@None exn). cbn [as_rows].
  assert (W : width rows = 2%nat).
  { destruct rows as [|row rows]; [easy|]. inversion D as [|? ? [L _] _]; subst. exact L. }
  rewrite W. cbn [Nat.eqb orb].
  unfold adjuster_predict. cbn [aj_classes aj_cm]. rewrite H2. cbn [Nat.eqb].
  unfold mean_rows. destruct rows as [|row rows]; [easy|]. rewrite E. cbn [snd map]. f_equal.
  rewrite binary_adjust_zero by lra. unfold col_means in E. cbn [tabulate seq map] in E. rewrite <- E. reflexivity.
Qed.

(** A fit that raises because there are no predictions keeps the matrix. *)
Theorem PAC_no_predictions s x y w r s' w' : PAC_calls A inv N cvx fuel dist s ->
  PAC_object_fit A N fuel dist x y None s w = (r, s', w') ->
  raises r /\ w' = w /\ (classes_ (ao_base s) = Some (np_unique y) ->
  forall t pt w2, snd (PAC_object_predict A inv N cvx dist t pt s' w2) = snd (PAC_object_predict A inv N cvx dist t pt s w2)).
Proof.
  intros H F. destruct (PAC_calls_inv _ H) as (H1 & H2 & H3 & H4). unfold PAC_object_fit, UC_fit in F. cbv zeta in F.
  cbn [with_classes estimator_train estimator_test needs_predictions_train probabilistic] in F. rewrite H1, H4 in F. cbn in F.
  injection F as <- <- <-. split; [auto|]. split; [reflexivity|]. intros Hc t pt w2. unfold PAC_object_predict. cbv zeta. cbn [ao_base ao_adjuster].
  destruct (UC_predict_same A (with_classes (ao_base s) (np_unique y)) (ao_base s) w2 t pt eq_refl eq_refl)
    as [(p & -> & ->)|[(e & -> & ->)|(-> & ->)]]; [cbn; congruence| |reflexivity..].
  cbn [with_test with_classes classes_ predictions_test_]. rewrite Hc. destruct (cm_problem _ _); [reflexivity|].
  destruct (_ || _); [|reflexivity]. destruct (adjuster_predict _ _ _ _ _ _); reflexivity.
Qed.
End PAC.

(** ** DeBias *)
Theorem DeBias_not_binary s x y given w r s' w' : DeBias_object_fit A x y given s w = (r, s', w') ->
  length (np_unique y) <> 2%nat -> r = Err AttributeError /\ s' = s /\ w' = w.
Proof.
  unfold DeBias_object_fit. destruct (np_unique y) as [|c0 [|c1 [|c2 l]]]; intros F H; try (injection F as <- <- <-; auto); now cbn in H.
Qed.

Lemma DeBias_raised s x y given w r s' w' : DeBias_object_fit A x y given s w = (r, s', w') -> raises r ->
  dbo_Vt s' = dbo_Vt s /\ estimator_test (dbo_base s') = estimator_test (dbo_base s) /\ probabilistic (dbo_base s') = probabilistic (dbo_base s) /\
  (dbo_prev1 s' = dbo_prev1 s \/ exists c0 c1, np_unique y = [c0; c1] /\ dbo_prev1 s' = Some (share c1 y)).
Proof.
  unfold DeBias_object_fit. intros F Hr.
  destruct (np_unique y) as [|c0 [|c1 [|c2 l]]] eqn:Hy; try (injection F as <- <- <-; auto).
  destruct (UC_fit A (dbo_base s) w x y given) as [[r0 q] w0] eqn:U.
  destruct (UC_fit_keeps A _ _ _ _ _ _ _ _ U) as (K1 & K2 & K3 & K4 & K5).
  destruct r0 as [[]|er|]; [|injection F as <- <- <-; cbn; auto..]. cbv zeta in F.
  destruct (predictions_train_ q) as [p|].
  - destruct (has_second_column p); injection F as <- <- <-; [exfalso; eapply raises_not_val, Hr|]. cbn. repeat split; auto. right. exists c0, c1. auto.
  - injection F as <- <- <-. cbn. repeat split; auto. right. exists c0, c1. auto.
Qed.

Lemma DeBias_predict_unfitted s : dbo_Vt s = Err TypeError -> forall t pt w,
  raises (snd (DeBias_object_predict A t pt s w)) /\ dbo_Vt (fst (DeBias_object_predict A t pt s w)) = Err TypeError.
Proof.
  intros H t pt w. unfold DeBias_object_predict. cbv zeta. destruct (UC_predict A (dbo_base s) w t pt) as [[[]|er|] q]; cbn; auto.
  split; [|exact H]. destruct (dbo_prev1 s); [|auto]. destruct (predictions_test_ q); [|auto]. destruct (has_second_column _); [|auto].
  rewrite H. cbn. auto.
Qed.

Theorem DeBias_never_fitted s : DeBias_only_failed A s -> forall t pt w, raises (snd (DeBias_object_predict A t pt s w)).
Proof.
  intros H. assert (K : dbo_Vt s = Err TypeError).
  { induction H as [et es|s x y given w r s' w' _ IH F Hr|s x given w _ IH]; [reflexivity| |].
    - destruct (DeBias_raised _ _ _ _ _ _ _ _ F Hr) as (-> & _). exact IH.
    - apply DeBias_predict_unfitted, IH. }
  intros t pt w. apply (DeBias_predict_unfitted s K).
Qed.

Lemma DeBias_same_answers s1 s2 : dbo_Vt s1 = dbo_Vt s2 -> dbo_prev1 s1 = dbo_prev1 s2 ->
  estimator_test (dbo_base s1) = estimator_test (dbo_base s2) ->
  probabilistic (dbo_base s1) = true -> probabilistic (dbo_base s2) = true ->
  forall t pt w, snd (DeBias_object_predict A t pt s1 w) = snd (DeBias_object_predict A t pt s2 w).
Proof.
  intros H1 H2 H3 H4 H5 t pt w. unfold DeBias_object_predict, UC_predict. cbv zeta. rewrite H1, H2, H3, H4, H5.
  match goal with |- context [match ?o with Val p => (Val tt, _) | Err e => _ | NotANumber => _ end] => destruct o end; reflexivity.
Qed.

(** A fit that raises keeps the answers, if the second class has the prevalence of the last fit that returned. *)
Theorem DeBias_failed_same s0 x0 y0 given0 w0 s w1 x y given w r s' w' : probabilistic (dbo_base s0) = true ->
  DeBias_object_fit A x0 y0 given0 s0 w0 = (Val tt, s, w1) ->
  DeBias_object_fit A x y given s w = (r, s', w') -> raises r ->
  (forall a b c d, np_unique y0 = [a; b] -> np_unique y = [c; d] -> share d y = share b y0) ->
  forall t pt w2, snd (DeBias_object_predict A t pt s' w2) = snd (DeBias_object_predict A t pt s w2).
Proof.
  intros Hp F0 F Hr Hs t pt w2. destruct (DeBias_raised _ _ _ _ _ _ _ _ F Hr) as (K1 & K2 & K3 & K4).
  unfold DeBias_object_fit in F0. destruct (np_unique y0) as [|a [|b [|]]] eqn:Hy0; [discriminate..| |discriminate].
  destruct (UC_fit A (dbo_base s0) w0 x0 y0 given0) as [[r0 q] w00] eqn:U.
  destruct (UC_fit_keeps A _ _ _ _ _ _ _ _ U) as (_ & _ & L3 & _ & _).
  destruct r0 as [[]|er|]; [|discriminate..]. cbv zeta in F0.
  destruct (predictions_train_ q) as [p|]; [|discriminate]. destruct (has_second_column p); [|discriminate]. injection F0 as <- <-.
  cbn in *. apply DeBias_same_answers; cbn; try congruence.
  destruct K4 as [K4|(c & d & Hy & K4)]; [exact K4|]. rewrite K4. f_equal. exact (Hs a b c d eq_refl Hy).
Qed.

(** ** EM *)
Section EM.
Context (eps : R) (max_iter : nat).

Lemma EM_raised s x y given w r s' w' : EM_object_fit A x y given s w = (r, s', w') -> raises r ->
  emo_train s' = emo_train s /\ estimator_test (emo_base s') = estimator_test (emo_base s) /\
  probabilistic (emo_base s') = probabilistic (emo_base s) /\ classes_ (emo_base s') = Some (np_unique y).
Proof.
  unfold EM_object_fit. intros F Hr. destruct (UC_fit A (emo_base s) w x y given) as [[r0 q] w0] eqn:U.
  destruct (UC_fit_keeps A _ _ _ _ _ _ _ _ U) as (K1 & K2 & K3 & K4 & K5).
  destruct r0 as [[]|er|]; [|injection F as <- <- <-; cbn; auto..].
  destruct (EM_fit y); injection F as <- <- <-; cbn; auto. exfalso; eapply raises_not_val, Hr.
Qed.

Lemma EM_predict_unfitted s : emo_train s = None -> forall t pt w,
  raises (snd (EM_object_predict A eps max_iter t pt s w)) /\ emo_train (fst (EM_object_predict A eps max_iter t pt s w)) = None.
Proof.
  intros H t pt w. unfold EM_object_predict. cbv zeta. rewrite H. destruct (UC_predict A (emo_base s) w t pt) as [[[]|er|] q]; cbn; auto.
  destruct (classes_ q); auto.
Qed.

Theorem EM_never_fitted s : EM_only_failed A eps max_iter s -> forall t pt w, raises (snd (EM_object_predict A eps max_iter t pt s w)).
Proof.
  intros H. assert (K : emo_train s = None).
  { induction H as [et es|s x y given w r s' w' _ IH F Hr|s x given w _ IH]; [reflexivity| |].
    - destruct (EM_raised _ _ _ _ _ _ _ _ F Hr) as (-> & _). exact IH.
    - apply EM_predict_unfitted, IH. }
  intros t pt w. apply (EM_predict_unfitted s K).
Qed.

(** After a fit that returned, one that raises: the answers stay if the number of classes is the same ... *)
Lemma EM_fitted s0 x0 y0 given0 w0 s w1 : EM_object_fit A x0 y0 given0 s0 w0 = (Val tt, s, w1) ->
  exists train, emo_train s = Some train /\ length train = length (np_unique y0) /\ classes_ (emo_base s) = Some (np_unique y0) /\
    probabilistic (emo_base s) = probabilistic (emo_base s0).
Proof.
  unfold EM_object_fit. intros F. destruct (UC_fit A (emo_base s0) w0 x0 y0 given0) as [[r0 q] w00] eqn:U.
  destruct (UC_fit_keeps A _ _ _ _ _ _ _ _ U) as (K1 & K2 & K3 & K4 & K5).
  destruct r0 as [[]|er|]; [|discriminate..]. destruct (EM_fit y0) as [train| |] eqn:E; [|discriminate..]. injection F as <- <-.
  exists train. cbn. split; [reflexivity|]. split; [|split; assumption].
  unfold EM_fit in E. destruct y0; [discriminate|]. injection E as <-. apply map_length.
Qed.

Theorem EM_failed_same s0 x0 y0 given0 w0 s w1 x y given w r s' w' : probabilistic (emo_base s0) = true ->
  EM_object_fit A x0 y0 given0 s0 w0 = (Val tt, s, w1) ->
  EM_object_fit A x y given s w = (r, s', w') -> raises r -> length (np_unique y) = length (np_unique y0) ->
  forall t pt w2, snd (EM_object_predict A eps max_iter t pt s' w2) = snd (EM_object_predict A eps max_iter t pt s w2).
Proof.
  intros Hp F0 F Hr Hn t pt w2. destruct (EM_fitted _ _ _ _ _ _ _ F0) as (train & E1 & E2 & E3 & E4).
  destruct (EM_raised _ _ _ _ _ _ _ _ F Hr) as (K1 & K2 & K3 & K4).
  unfold EM_object_predict, UC_predict. cbv zeta. rewrite K2. replace (probabilistic (emo_base s')) with true by congruence.
  replace (probabilistic (emo_base s)) with true by congruence. rewrite K1, E1.
  match goal with |- context [match ?o with Val p => (Val tt, _) | Err e => _ | NotANumber => _ end] => destruct o end; [|reflexivity..].
  cbn [with_test classes_ predictions_test_ snd]. rewrite K4, E3, Hn. reflexivity.
Qed.

(** ... and with another number of classes every call of predict raises. *)
Theorem EM_failed_other s0 x0 y0 given0 w0 s w1 x y given w r s' w' : (0 < max_iter)%nat ->
  EM_object_fit A x0 y0 given0 s0 w0 = (Val tt, s, w1) ->
  EM_object_fit A x y given s w = (r, s', w') -> raises r -> length (np_unique y) <> length (np_unique y0) ->
  forall t pt w2, raises (snd (EM_object_predict A eps max_iter t pt s' w2)).
Proof.
  intros Hm F0 F Hr Hn t pt w2. destruct (EM_fitted _ _ _ _ _ _ _ F0) as (train & E1 & E2 & E3 & E4).
  destruct (EM_raised _ _ _ _ _ _ _ _ F Hr) as (K1 & K2 & K3 & K4).
  unfold EM_object_predict. cbv zeta. destruct (UC_predict A (emo_base s') w2 t pt) as [r0 q] eqn:U.
  destruct (UC_predict_keeps _ _ _ _ _ _ U) as (_ & _ & _ & _ & L5).
  destruct r0 as [[]|er|]; cbn [snd]; auto. rewrite L5, K4, K1, E1.
  destruct (predictions_test_ q); [|auto]. destruct (_ || _); [|auto].
  destruct max_iter as [|m]; [lia|]. cbn [em_loop]. unfold mean_absolute_error, checked, check_prevalences, vec.
  rewrite !map_length, repeat_length, E2. rewrite (proj2 (Nat.eqb_neq _ _)) by congruence. cbn. auto.
Qed.
End EM.
End Base.

(** ** Histories *)
Section Histories.
Context {X M : Type} (A : nat -> algorithm X M) (eps : R) (max_iter : nat).

Lemma DeBias_calls_inv s : DeBias_calls A s -> probabilistic (dbo_base s) = true.
Proof.
  induction 1 as [et es|s x y given w r s' w' _ IH F|s x given w _ IH]; [reflexivity| |].
  - unfold DeBias_object_fit in F. destruct (np_unique y) as [|c0 [|c1 [|c2 l]]]; try (injection F as <- <- <-; assumption).
    destruct (UC_fit A (dbo_base s) w x y given) as [[r0 q] w0] eqn:U.
    destruct (UC_fit_keeps A _ _ _ _ _ _ _ _ U) as (_ & _ & K3 & _ & _). cbv zeta in F.
    destruct r0 as [[]|er|]; [|injection F as <- <- <-; cbn; congruence..].
    destruct (predictions_train_ q) as [p|]; [destruct (has_second_column p)|]; injection F as <- <- <-; cbn; congruence.
  - unfold DeBias_object_predict. cbv zeta. destruct (UC_predict A (dbo_base s) w x given) as [r q] eqn:U.
    destruct (UC_predict_keeps A _ _ _ _ _ _ U) as (_ & _ & K3 & _ & _). destruct r as [[]|er|]; cbn; congruence.
Qed.

Lemma EM_calls_inv s : EM_calls A eps max_iter s -> probabilistic (emo_base s) = true.
Proof.
  induction 1 as [et es|s x y given w r s' w' _ IH F|s x given w _ IH]; [reflexivity| |].
  - unfold EM_object_fit in F. destruct (UC_fit A (emo_base s) w x y given) as [[r0 q] w0] eqn:U.
    destruct (UC_fit_keeps A _ _ _ _ _ _ _ _ U) as (_ & _ & K3 & _ & _).
    destruct r0 as [[]|er|]; [|injection F as <- <- <-; cbn; congruence..].
    destruct (EM_fit y); injection F as <- <- <-; cbn; congruence.
  - unfold EM_object_predict. cbv zeta. destruct (UC_predict A (emo_base s) w x given) as [r q] eqn:U.
    destruct (UC_predict_keeps A _ _ _ _ _ _ U) as (_ & _ & K3 & _ & _). destruct r as [[]|er|]; cbn; congruence.
Qed.

Theorem DeBias_refit s0 x0 y0 given0 w0 s w1 x y given w r s' w' : DeBias_calls A s0 ->
  DeBias_object_fit A x0 y0 given0 s0 w0 = (Val tt, s, w1) ->
  DeBias_object_fit A x y given s w = (r, s', w') -> raises r ->
  (forall a b c d, np_unique y0 = [a; b] -> np_unique y = [c; d] -> share d y = share b y0) ->
  forall t pt w2, snd (DeBias_object_predict A t pt s' w2) = snd (DeBias_object_predict A t pt s w2).
Proof. intros H. apply DeBias_failed_same, DeBias_calls_inv, H. Qed.

Theorem EM_refit s0 x0 y0 given0 w0 s w1 x y given w r s' w' : EM_calls A eps max_iter s0 ->
  EM_object_fit A x0 y0 given0 s0 w0 = (Val tt, s, w1) ->
  EM_object_fit A x y given s w = (r, s', w') -> raises r -> length (np_unique y) = length (np_unique y0) ->
  forall t pt w2, snd (EM_object_predict A eps max_iter t pt s' w2) = snd (EM_object_predict A eps max_iter t pt s w2).
Proof. intros H. apply EM_failed_same, (EM_calls_inv s0), H. Qed.
End Histories.

(** ** Witnesses *)
Lemma binary_adjust_value a b c d m0 m q : 1/1000 < Rabs (d - b) -> (m - b) / (d - b) = q -> 0 <= q <= 1 ->
  binary_adjust [Some [a; b]; Some [c; d]] [m0; m] = [1 - q; q].
Proof.
  intros H E Hq. unfold binary_adjust. cbn [nth]. destruct (Rlt_dec (1/1000) _); [|contradiction]. cbv zeta. rewrite E. unfold clip01. cbn [map rsum].
  rewrite (Rmax_left (1 - q)), (Rmax_left q), (Rmin_left (1 - q)), (Rmin_left q) by lra.
  destruct (Rlt_dec 0 _); [|lra]. unfold vdiv. cbn. f_equal; [field; lra|]. f_equal. field; lra.
Qed.

Lemma DeBias_value p1 v m : v <> 0 ->
  DeBias_predict {| db_prev1 := p1; db_Vt := v |} [[1 - m; m]] =
  Val (let p := p1 + (m - p1) / v in vdiv [clip01 (1 - p); clip01 p] (clip01 (1 - p) + clip01 p)).
Proof.
  intros Hv. unfold DeBias_predict. cbn [db_Vt db_prev1]. destruct (Req_EM_T v 0); [contradiction|].
  unfold rmean, col. cbn. replace ((m + 0) / 1) with m by field. rewrite Rplus_0_r.
  destruct (Rlt_dec 0 _) as [G|G]; [reflexivity|]. exfalso. apply G. unfold clip01, Rmin, Rmax.
  repeat destruct (Rle_dec _ _); lra.
Qed.
(** A new PAC whose only fit raised answers. *)
Lemma PAC_never_fitted_answers : exists (X M : Type) (A : nat -> algorithm X M) inv N cvx fuel dist w s r x y p t pt,
  PAC_object_fit A N fuel dist x y p (PAC_new None None) w = (r, s, w) /\ raises r /\
  snd (PAC_object_predict A inv N cvx dist t pt s w) = Val [1/4; 3/4].
Proof.
  exists nat, nat, no_algorithm, (fun _ _ => None), no_numerics, (fun _ _ _ => None), O, HD, nobody.
  do 2 eexists. exists [0; 1]%nat, [0; 1]%Z, (Some (Matrix [[1; 0]; [0; 1]; [0; 1]])), [0]%nat, (Some (Matrix [[1/4; 3/4]])).
  split; [reflexivity|]. split; [auto|].
  erewrite (PAC_failed_answers no_algorithm (fun _ _ => None) no_numerics (fun _ _ _ => None) O HD (PAC_new None None) [0; 1]%nat [0; 1]%Z
    (Matrix [[1; 0]; [0; 1]; [0; 1]]) nobody); [| |reflexivity|reflexivity| | |].
  - cbn. unfold rmean. cbn. f_equal. f_equal; [field|f_equal; field].
  - constructor.
  - auto.
  - discriminate.
  - repeat constructor; cbn; try lra.
Qed.

(** A fit that raises changes the answers of a fitted PAC, with the same labels. *)
Lemma PAC_failed_refit_changes : exists (X M : Type) (A : nat -> algorithm X M) inv N cvx fuel dist w s1 s2 r x y p1 p2 t pt,
  PAC_object_fit A N fuel dist x y p1 (PAC_new None None) w = (Val tt, s1, w) /\
  PAC_object_fit A N fuel dist x y p2 s1 w = (r, s2, w) /\ raises r /\
  snd (PAC_object_predict A inv N cvx dist t pt s1 w) = Val [0; 1] /\
  snd (PAC_object_predict A inv N cvx dist t pt s2 w) = Val [1/4; 3/4].
Proof.
  exists nat, nat, no_algorithm, (fun _ _ => None), no_numerics, (fun _ _ _ => None), O, HD, nobody.
  pose (s1 := snd (fst (PAC_object_fit no_algorithm no_numerics O HD [0; 1]%nat [0; 1]%Z (Some (Matrix [[3/4; 1/4]; [1/4; 3/4]]))
    (PAC_new None None) nobody))).
  exists s1. do 2 eexists. exists [0; 1]%nat, [0; 1]%Z, (Some (Matrix [[3/4; 1/4]; [1/4; 3/4]])), (Some (Matrix [[1; 0]; [0; 1]; [0; 1]])),
    [0]%nat, (Some (Matrix [[1/4; 3/4]])).
  split; [reflexivity|]. split; [reflexivity|]. split; [auto|]. split.
  - unfold PAC_object_predict. cbn -[binary_adjust class_mean]. unfold class_mean, col_means, rmean. cbn -[binary_adjust].
    f_equal. erewrite (binary_adjust_value _ _ _ _ _ _ 1); [f_equal; ring| | |lra]; [rewrite Rabs_right; lra|field; lra].
  - erewrite (PAC_failed_answers no_algorithm (fun _ _ => None) no_numerics (fun _ _ _ => None) O HD s1 [0; 1]%nat [0; 1]%Z
      (Matrix [[1; 0]; [0; 1]; [0; 1]]) nobody); [| |reflexivity|reflexivity| | |].
    + cbn. unfold rmean. cbn. f_equal. f_equal; [field|f_equal; field].
    + apply (PAC_calls_fit _ _ _ _ _ _ (PAC_new None None) [0; 1]%nat [0; 1]%Z (Some (Matrix [[3/4; 1/4]; [1/4; 3/4]])) nobody (Val tt) s1 nobody);
        [constructor|reflexivity].
    + auto.
    + discriminate.
    + repeat constructor; cbn; try lra.
Qed.

(** A fit that raises changes the answers of a fitted DeBias, although its classes are the same. *)
Lemma DeBias_failed_refit_changes : exists (X M : Type) (A : nat -> algorithm X M) w s1 s2 r x1 y1 p1 x2 y2 p2 t pt,
  DeBias_object_fit A x1 y1 p1 (DeBias_new None None) w = (Val tt, s1, w) /\
  DeBias_object_fit A x2 y2 p2 s1 w = (r, s2, w) /\ raises r /\ np_unique y1 = np_unique y2 /\
  snd (DeBias_object_predict A t pt s1 w) = Val [1/2; 1/2] /\
  snd (DeBias_object_predict A t pt s2 w) = Val [1; 0].
Proof.
  exists nat, nat, no_algorithm, nobody. do 3 eexists.
  exists [0; 1]%nat, [0; 1]%Z, (Some (Matrix [[3/4; 1/4]; [1/4; 3/4]])), [0; 1; 2; 3]%nat, [0; 1; 1; 1]%Z, (Some (Matrix [[1]; [0]; [1]; [1]])),
    [0]%nat, (Some (Matrix [[1/2; 1/2]])).
  split; [reflexivity|]. split; [reflexivity|]. split; [auto|]. split; [reflexivity|].
  assert (V : omap db_Vt (DeBias_fit [0; 1]%Z [[3/4; 1/4]; [1/4; 3/4]]) = Val (1/4)).
  { unfold DeBias_fit. cbn. f_equal. unfold rmean, zcount. cbn. field. }
  assert (H : [1/2; 1/2] = [1 - 1/2; 1/2]) by (f_equal; lra).
  split; unfold DeBias_object_predict; cbn -[DeBias_predict DeBias_fit omap]; rewrite V; cbn [obind]; rewrite H at 1;
    rewrite DeBias_value by lra; f_equal; cbv zeta; unfold zcount; cbn.
  - replace (1 / (1 + 1) + (1 / 2 - 1 / (1 + 1)) / (1 / 4)) with (1/2) by field. unfold clip01, vdiv. cbn.
    rewrite (Rmax_left (1 - _)), (Rmax_left (1/2)), (Rmin_left (1 - _)), (Rmin_left (1/2)) by lra. f_equal; [field|f_equal; field].
  - replace ((1 + 1 + 1) / (1 + 1 + 1 + 1) + (1 / 2 - (1 + 1 + 1) / (1 + 1 + 1 + 1)) / (1 / 4)) with (-1/4) by field. unfold clip01, vdiv. cbn.
    rewrite (Rmax_left (1 - _)), (Rmax_right (-1/4)), (Rmin_right (1 - _)), (Rmin_left 0) by lra. f_equal; [field|f_equal; field].
Qed.
