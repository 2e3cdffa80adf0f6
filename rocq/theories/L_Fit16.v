(** * Proofs about QUANTy after failing fits (C137). *)

From Coq Require Import Reals List ZArith Bool Lia Lra Permutation.
From Verif Require Import Num Spec M_Baselines M_Base M_Estimators M_Search Spec_Search M_Optim M_Fit M_Fit2 M_Fit8 M_Fit9 Spec_Fit Spec_Fit4 Spec_Fit8
  Spec_Fit9 L_Num L_Estimators L_Baselines L_Sord L_Search L_Search2 L_Search3 L_Fit3 L_Fit6 L_Fit11 L_Fit15.
Import ListNotations.
Open Scope R_scope.

Lemma flat_search : forall f tol losses k, (forall i, losses i = k) -> global_search_from f tol losses = Err ValueError.
Proof.
  intros f tol losses k H. unfold global_search_from.
  assert (E : forall is best, search_minima f tol losses is best = Val best).
  { induction is as [|i is IH]; intros best; cbn [search_minima]; [reflexivity|]. rewrite !H. destruct (Rlt_dec k k); [lra|]. apply IH. }
  rewrite E. cbn [obind]. rewrite !H. destruct (Req_EM_T k k); [reflexivity|congruence].
Qed.

Lemma flat_global : forall {P T : Type} (distance : P -> T -> R) (mixture : R -> P) test tol, (forall p, mixture p = mixture 0) ->
  global_search distance mixture test tol None true = Err ValueError.
Proof.
  intros P T distance mixture test tol H. destruct (global_search_stored distance mixture test tol) as (G & _). rewrite G.
  rewrite (flat_search _ _ _ (distance (mixture 0) test)); [reflexivity|]. intros i. now rewrite H.
Qed.

Section Object.
Context {X M : Type} (A : nat -> algorithm X M) (argsort : list R -> list nat) (q : nat) (distance : list R -> list R -> R) (tol : R).
Notation calls := (QUANTy_calls A argsort q distance tol).
Notation fit := (QUANTy_object_fit A argsort).
Notation predict := (QUANTy_object_predict A argsort q distance tol).
Notation preds := (QUANTy_predictions A argsort q distance tol).

Lemma qa_predict_sorted s x given w : qa_sorted (fst (predict x given s w)) = so_with_base (snd (UC_predict A (so_base (qa_sorted s)) w x given)) (qa_sorted s).
Proof.
  unfold QUANTy_object_predict. cbv zeta. destruct (UC_predict A (so_base (qa_sorted s)) w x given) as [[[]| |] b]; try reflexivity. cbn [snd].
  destruct (predictions_test_ b) as [p|]; [|reflexivity]. destruct (has_second_column p); [|reflexivity].
  destruct (classes_ b) as [cl|]; [|reflexivity]. destruct (so_scores (qa_sorted s)) as [S|]; [|reflexivity].
  destruct (quanty_mixture q cl S (so_labels (qa_sorted s))); try reflexivity. destruct (global_search _ _ _ _ _ _) as [[ms v]| |]; reflexivity.
Qed.

Lemma qa_fit_inv x y given s w r s' w' : fit x y given s w = (r, s', w') ->
  SORDy_object_fit A argsort x y given (qa_sorted s) w = (r, qa_sorted s', w') /\
  qa_mixtures s' = match r with Val _ => None | _ => qa_mixtures s end.
Proof.
  unfold QUANTy_object_fit. destruct (SORDy_object_fit A argsort x y given (qa_sorted s) w) as [[[[]| |] o] w1]; intros H; injection H as <- <- <-; split; reflexivity.
Qed.

Lemma qa_calls s : calls s -> SORDy_calls A argsort tol (qa_sorted s).
Proof.
  intros C. induction C as [et es|s x y given w r s' w' _ I F|s x given w _ I].
  - apply SORDy_calls_new.
  - destruct (qa_fit_inv _ _ _ _ _ _ _ _ F) as [F1 _]. eapply SORDy_calls_fit; [exact I|exact F1].
  - rewrite qa_predict_sorted, <- (so_predict_base A argsort tol). now apply SORDy_calls_predict.
Qed.

Lemma qa_preds_calls s s' : calls s -> preds s s' -> calls s'.
Proof. intros C H. induction H; [exact C|]. now apply QUANTy_calls_predict. Qed.

Lemma qa_preds_state s s' : preds s s' -> so_scores (qa_sorted s') = so_scores (qa_sorted s) /\ so_labels (qa_sorted s') = so_labels (qa_sorted s) /\
  classes_ (so_base (qa_sorted s')) = classes_ (so_base (qa_sorted s)) /\ estimator_test (so_base (qa_sorted s')) = estimator_test (so_base (qa_sorted s)).
Proof.
  intros H. induction H as [|s' x given w _ (I1 & I2 & I3 & I4)]; [auto|]. rewrite qa_predict_sorted. cbn [so_with_base so_scores so_labels so_base].
  destruct (UC_predict A (so_base (qa_sorted s')) w x given) as [r b] eqn:U. destruct (UC_predict_keeps A _ _ _ _ _ _ U) as (_ & K2 & _ & _ & K5).
  cbn [snd]. repeat split; congruence.
Qed.

(** What predict answers, from the state. *)
Definition qa_answer (s : quant_object) (p : predictions) : out (list R) :=
  if has_second_column p then
    match classes_ (so_base (qa_sorted s)), so_scores (qa_sorted s) with
    | Some classes, Some scores =>
        let test := col 1 (as_rows p) in
        obind (quanty_mixture q classes scores (so_labels (qa_sorted s))) (fun mixture =>
          as_pair (omap snd (global_search distance mixture (compute_quantiles None (pick test (argsort test)) q [] 0 0) tol (qa_mixtures s) true)))
    | _, _ => Err TypeError
    end
  else Err IndexError.

Lemma qa_predict_val s t given w : snd (predict t given s w) =
  match UC_predict A (so_base (qa_sorted s)) w t given with
  | (Val tt, b) => match predictions_test_ b with Some p => qa_answer s p | None => Err TypeError end
  | (Err e, _) => Err e
  | (NotANumber, _) => NotANumber
  end.
Proof.
  unfold QUANTy_object_predict, qa_answer. cbv zeta. destruct (UC_predict A (so_base (qa_sorted s)) w t given) as [r b] eqn:U.
  destruct (UC_predict_keeps A _ _ _ _ _ _ U) as (_ & _ & _ & _ & K5). destruct r as [[]| |]; try reflexivity.
  destruct (predictions_test_ b) as [p|]; [|reflexivity]. destruct (has_second_column p); [|reflexivity]. rewrite K5.
  destruct (classes_ (so_base (qa_sorted s))) as [cl|]; [|reflexivity]. destruct (so_scores (qa_sorted s)) as [S|]; [|reflexivity].
  destruct (quanty_mixture q cl S (so_labels (qa_sorted s))); try reflexivity. cbn [obind]. destruct (global_search _ _ _ _ _ _) as [[ms v]| |]; reflexivity.
Qed.

Lemma qa_given s t p w : probabilistic (so_base (qa_sorted s)) = true -> snd (predict t (Some p) s w) = qa_answer s p.
Proof. intros HP. rewrite qa_predict_val. unfold UC_predict. rewrite HP. reflexivity. Qed.

Lemma qa_same s1 s2 : estimator_test (so_base (qa_sorted s1)) = estimator_test (so_base (qa_sorted s2)) ->
  probabilistic (so_base (qa_sorted s1)) = true -> probabilistic (so_base (qa_sorted s2)) = true -> (forall p, qa_answer s1 p = qa_answer s2 p) ->
  forall t p w, snd (predict t p s1 w) = snd (predict t p s2 w).
Proof.
  intros H1 H2 H3 E t p w. rewrite !qa_predict_val.
  destruct (UC_predict_prob A (so_base (qa_sorted s1)) (so_base (qa_sorted s2)) w t p H1 H2 H3) as [(v & -> & ->)|[(e & -> & ->)|[-> ->]]]; try reflexivity.
  cbn [with_test predictions_test_]. apply E.
Qed.

(** The stored grid belongs to the mixture [mix]. *)
Definition grid_of (mix : R -> list R) (s : quant_object) : Prop :=
  qa_mixtures s = None \/ qa_mixtures s = Some (map (fun i => mix (INR i / 100)) (seq 0 101)).

Lemma qa_preds_grid s s' cl S mix : preds s s' -> classes_ (so_base (qa_sorted s)) = Some cl -> so_scores (qa_sorted s) = Some S ->
  quanty_mixture q cl S (so_labels (qa_sorted s)) = Val mix -> grid_of mix s -> grid_of mix s'.
Proof.
  intros H EC ES EM G. induction H as [|s' x given w H I]; [exact G|]. destruct (qa_preds_state _ _ H) as (I1 & I2 & I3 & _).
  unfold QUANTy_object_predict. cbv zeta. destruct (UC_predict A (so_base (qa_sorted s')) w x given) as [r b] eqn:U.
  destruct (UC_predict_keeps A _ _ _ _ _ _ U) as (_ & _ & _ & _ & K5). destruct r as [[]| |]; try exact I.
  destruct (predictions_test_ b) as [p|]; [|exact I]. destruct (has_second_column p); [|exact I]. rewrite K5, I3, EC, I1, ES, I2, EM.
  match goal with |- context [global_search distance mix ?t tol _ _] => destruct (global_search_stored distance mix t tol) as (G1 & G2 & _) end.
  cbv zeta in G1, G2. unfold grid_of in I |- *. destruct I as [I|I]; rewrite I.
  - rewrite G1. destruct (global_search_from _ _ _); cbn; auto.
  - rewrite G2. destruct (global_search_from _ _ _); cbn; auto.
Qed.

Lemma qa_grid_answer mix s t : grid_of mix s ->
  omap snd (global_search distance mix t tol (qa_mixtures s) true) = omap snd (global_search distance mix t tol None true).
Proof.
  intros G. destruct (global_search_stored distance mix t tol) as (G1 & G2 & _). cbv zeta in G1, G2. destruct G as [G|G]; rewrite G; [reflexivity|].
  rewrite G1, G2. reflexivity.
Qed.

Section Sorts.
Context (SO : sorts argsort pick).

Lemma qa_fitted x y given s w s' w' c0 c1 : fit x y given s w = (Val tt, s', w') -> np_unique y = [c0; c1] ->
  classes_ (so_base (qa_sorted s')) = Some [c0; c1] /\ qa_mixtures s' = None /\
  exists p, predictions_train_ (so_base (qa_sorted s')) = Some p /\
    let S := pick (col 1 (as_rows p)) (argsort (col 1 (as_rows p))) in
    let L := pick (y_ext y (length (as_rows p))) (argsort (col 1 (as_rows p))) in
    so_scores (qa_sorted s') = Some S /\ so_labels (qa_sorted s') = Some L /\ length L = length S /\ (forall z, In z L -> In z y) /\
    quanty_mixture q [c0; c1] S (Some L) = Val (fun p => compute_quantiles (Some p) S q L c0 c1).
Proof.
  intros F U. destruct (qa_fit_inv _ _ _ _ _ _ _ _ F) as [F1 EM]. destruct (so_fit_base A argsort _ _ _ _ _ _ _ _ F1) as [r0 UF].
  destruct (UC_fit_keeps A _ _ _ _ _ _ _ _ UF) as (_ & _ & _ & _ & K5). rewrite U in K5.
  destruct (so_fit_val A argsort SO _ _ _ _ _ _ _ F1) as (_ & p & EP & _ & LE & ES & EL). split; [exact K5|]. split; [exact EM|]. exists p. split; [exact EP|].
  cbv zeta. assert (LC : length (col 1 (as_rows p)) = length (as_rows p)) by apply map_length.
  assert (LL : length (pick (y_ext y (length (as_rows p))) (argsort (col 1 (as_rows p)))) = length (pick (col 1 (as_rows p)) (argsort (col 1 (as_rows p)))))
    by (rewrite !(picked_length argsort SO) by lia; reflexivity).
  split; [exact ES|]. split; [exact EL|]. split; [exact LL|]. split.
  - intros z Hz. apply picked_in in Hz. now apply y_ext_sub in Hz.
  - unfold quanty_mixture. rewrite LL, Nat.eqb_refl. reflexivity.
Qed.

Lemma qa_fit_returns x y rows s w s' w' c0 c1 f : calls s -> fit x y (Some (Matrix rows)) s w = (Val tt, s', w') ->
  np_unique y = [c0; c1] -> sorted_fit argsort (np_unique y) (y_ext y (length rows)) (col 1 rows) = Val f ->
  forall s2, preds s' s2 -> forall t k bag w2, (2 <= k)%nat -> Spec_Fit4.columns k bag ->
    snd (predict t (Some (Matrix bag)) s2 w2) = as_pair (omap snd (QUANTy_predict argsort q distance tol f None (col 1 bag))).
Proof.
  intros C F U E s2 P t k bag w2 HK HC. assert (C' : calls s') by (eapply QUANTy_calls_fit; [exact C|exact F]).
  pose proof (qa_preds_calls _ _ C' P) as C2. destruct (so_flags A argsort tol _ (qa_calls _ C2)) as [HP _].
  destruct (qa_fitted _ _ _ _ _ _ _ _ _ F U) as (EC & EM & p & EP & ES & EL & LL & _ & EQ). cbv zeta in *.
  destruct (qa_fit_inv _ _ _ _ _ _ _ _ F) as [F1 _].
  assert (p = Matrix rows) as ->.
  { destruct (so_fit_base A argsort _ _ _ _ _ _ _ _ F1) as [r0 UF].
    assert (R0 : r0 = Val tt). { unfold SORDy_object_fit in F1. rewrite UF in F1. destruct r0 as [[]| |]; [reflexivity|discriminate..]. }
    subst r0. pose proof (so_given_train A argsort tol _ _ _ _ _ _ _ (qa_calls _ C) UF). congruence. }
  cbn [as_rows] in *. destruct (qa_preds_state _ _ P) as (I1 & I2 & I3 & _). rewrite qa_given by exact HP. unfold qa_answer.
  rewrite (second_matrix k bag HK HC), I3, EC, I1, ES, I2, EL. cbv zeta. rewrite EQ. cbn [obind as_rows]. apply (f_equal as_pair).
  rewrite qa_grid_answer.
  - unfold sorted_fit in E. rewrite U in E. cbn in E. injection E as <-. unfold QUANTy_predict. cbv zeta. cbn [b_classes b_scores b_labels nth]. reflexivity.
  - eapply (qa_preds_grid s' s2); [exact P|exact EC|exact ES| |left; exact EM]. rewrite EL. exact EQ.
Qed.

Lemma qa_never_fitted s : QUANTy_only_failed A argsort q distance tol s -> forall t p w, raises (snd (predict t p s w)).
Proof.
  intros H. assert (N : so_labels (qa_sorted s) = None /\ qa_mixtures s = None).
  { induction H as [et es|s x y given w r s' w' _ [I1 I2] F HR|s x given w _ [I1 I2]]; [split; reflexivity| |].
    - destruct (qa_fit_inv _ _ _ _ _ _ _ _ F) as [F1 EM]. destruct (so_fit_raises A argsort _ _ _ _ _ _ _ _ F1 HR) as [R1 _].
      split; [congruence|]. rewrite EM. destruct r as [u| |]; auto.
    - rewrite qa_predict_sorted. split; [exact I1|]. unfold QUANTy_object_predict. cbv zeta.
      destruct (UC_predict A (so_base (qa_sorted s)) w x given) as [[[]| |] b]; try exact I2. destruct (predictions_test_ b) as [p|]; [|exact I2].
      destruct (has_second_column p); [|exact I2]. destruct (classes_ b) as [cl|]; [|exact I2]. destruct (so_scores (qa_sorted s)) as [S|]; [|exact I2].
      unfold quanty_mixture. rewrite I1. destruct cl as [|c0 [|c1 cl]]; try exact I2. rewrite I2, flat_global by reflexivity. reflexivity. }
  destruct N as [N1 N2]. intros t p w. rewrite qa_predict_val. destruct (UC_predict A (so_base (qa_sorted s)) w t p) as [[[]| |] b]; try (intros v; discriminate).
  destruct (predictions_test_ b) as [u|]; [|intros v; discriminate]. unfold qa_answer. destruct (has_second_column u); [|intros v; discriminate].
  destruct (classes_ (so_base (qa_sorted s))) as [cl|]; [|intros v; discriminate]. destruct (so_scores (qa_sorted s)) as [S|]; [|intros v; discriminate].
  unfold quanty_mixture. rewrite N1. destruct cl as [|c0 [|c1 cl]]; try (intros v; discriminate). cbv zeta. cbn [obind]. rewrite N2, flat_global by reflexivity. intros v. discriminate.
Qed.

Lemma qa_keeps x0 y0 given0 s0 w0 s1 w1 c0 c1 rest s x y given w r s' w' : calls s0 -> fit x0 y0 given0 s0 w0 = (Val tt, s1, w1) -> np_unique y0 = [c0; c1] ->
  preds s1 s -> fit x y given s w = (r, s', w') -> raises r -> r <> Err IndexError -> np_unique y = c0 :: c1 :: rest ->
  forall t p w2, snd (predict t p s' w2) = snd (predict t p s w2).
Proof.
  intros C F0 U P F HR NI UY. assert (C1 : calls s1) by (eapply QUANTy_calls_fit; [exact C|exact F0]). pose proof (qa_preds_calls _ _ C1 P) as C2.
  destruct (qa_fitted _ _ _ _ _ _ _ _ _ F0 U) as (EC & _). destruct (qa_preds_state _ _ P) as (_ & _ & I3 & _).
  destruct (qa_fit_inv _ _ _ _ _ _ _ _ F) as [F1 EM]. destruct (so_fit_raises A argsort _ _ _ _ _ _ _ _ F1 HR) as [R1 R2]. specialize (R2 NI).
  destruct (so_fit_base A argsort _ _ _ _ _ _ _ _ F1) as [r0 UF]. destruct (UC_fit_keeps A _ _ _ _ _ _ _ _ UF) as (_ & K2 & K3 & _ & K5).
  destruct (so_flags A argsort tol _ (qa_calls _ C2)) as [HP _]. apply qa_same; [exact K2|congruence|exact HP|]. intros p. unfold qa_answer.
  assert (EM' : qa_mixtures s' = qa_mixtures s) by (rewrite EM; destruct r as [[]| |]; [exfalso; exact (HR tt eq_refl)|reflexivity..]).
  rewrite K5, UY, I3, EC, R1, R2, EM'. reflexivity.
Qed.

Lemma qa_blind x0 y0 given0 s0 w0 s c0 c1 w1 x y given w r s' w' : fit x0 y0 given0 s0 w0 = (Val tt, s, w1) -> np_unique y0 = [c0; c1] ->
  fit x y given s w = (r, s', w') -> raises r -> r <> Err IndexError -> (forall z, In z y0 -> ~ In z y) ->
  forall t p w2, raises (snd (predict t p s' w2)).
Proof.
  intros F0 U F HR NI D t p w2. destruct (qa_fitted _ _ _ _ _ _ _ _ _ F0 U) as (EC & EM0 & p0 & _ & ES & EL & LL & LI & _). cbv zeta in *.
  destruct (qa_fit_inv _ _ _ _ _ _ _ _ F) as [F1 EM]. destruct (so_fit_raises A argsort _ _ _ _ _ _ _ _ F1 HR) as [R1 R2]. specialize (R2 NI).
  destruct (so_fit_base A argsort _ _ _ _ _ _ _ _ F1) as [r0 UF]. destruct (UC_fit_keeps A _ _ _ _ _ _ _ _ UF) as (_ & _ & _ & _ & K5).
  assert (EM' : qa_mixtures s' = None) by (rewrite EM; destruct r; [reflexivity|exact EM0..]).
  rewrite qa_predict_val. destruct (UC_predict A (so_base (qa_sorted s')) w2 t p) as [[[]| |] b]; try (intros v; discriminate).
  destruct (predictions_test_ b) as [u|]; [|intros v; discriminate]. unfold qa_answer. destruct (has_second_column u); [|intros v; discriminate].
  rewrite K5, R2, ES, R1, EL, EM'. cbv zeta. set (S := pick (col 1 (as_rows p0)) _) in *. set (L := pick (y_ext y0 _) _) in *.
  destruct (np_unique y) as [|d0 [|d1 ds]] eqn:UY; try (intros v; discriminate). unfold quanty_mixture. rewrite LL, Nat.eqb_refl. cbn [obind].
  rewrite flat_global; [intros v; discriminate|]. intros v. unfold compute_quantiles. f_equal. unfold quantile_weights. apply map_ext_in. intros c Hc.
  assert (NC : forall d, In d (np_unique y) -> c <> d).
  { intros d Hd ->. apply (proj1 (np_unique_in d y)) in Hd. exact (D d (LI d Hc) Hd). }
  destruct (Z.eqb_spec c d1) as [->|_]; [exfalso; apply (NC d1); [rewrite UY; right; left|]; reflexivity|].
  destruct (Z.eqb_spec c d0) as [->|_]; [exfalso; apply (NC d0); [rewrite UY; left|]; reflexivity|]. reflexivity.
Qed.
End Sorts.
End Object.
