(** * PAC, DeBias and EM after calls of fit that return (C125). *)

From Coq Require Import Reals List ZArith Bool Lia Lra.
From Verif Require Import Num Spec M_Baselines M_Base M_Optim M_EM M_History M_Fit M_Fit2 Spec_Fit Spec_Fit2 L_Fit L_Fit3 L_Fit6.
Import ListNotations.
Open Scope R_scope.

Section Base.
Context {X M : Type} (A : nat -> algorithm X M).

(** ** EM *)
Theorem EM_fit_returns eps max_iter s0 x y given w s w1 : EM_calls A eps max_iter s0 ->
  EM_object_fit A x y given s0 w = (Val tt, s, w1) ->
  forall t rows w2, Forall (fun r => length r = length (np_unique y)) rows ->
  snd (EM_object_predict A eps max_iter t (Some (Matrix rows)) s w2) = EM_predict eps max_iter (map (fun c => share c y) (np_unique y)) rows.
Proof.
  intros C F t rows w2 HR. pose proof (EM_calls_inv _ _ _ _ C) as HP. unfold EM_object_fit in F.
  destruct (UC_fit A (emo_base s0) w x y given) as [[r0 q] w0] eqn:U. destruct (UC_fit_keeps A _ _ _ _ _ _ _ _ U) as (K1 & K2 & K3 & K4 & K5).
  destruct r0 as [[]|er|]; [|discriminate..]. destruct (EM_fit y) as [train| |] eqn:E; [|discriminate..]. injection F as <- <-.
  assert (ET : train = map (fun c => share c y) (np_unique y)) by (unfold EM_fit in E; destruct y; [discriminate|]; injection E as <-; reflexivity).
  unfold EM_object_predict, UC_predict. cbv zeta. cbn [emo_base emo_train]. rewrite K3, HP. cbn [with_test classes_ predictions_test_ as_rows snd]. rewrite K5.
  assert (LT : length train = length (np_unique y)) by (rewrite ET; apply map_length).
  assert (W : (width rows =? length train)%nat || (length rows =? 0)%nat = true).
  { destruct rows as [|r rows]; [apply orb_true_r|]. inversion HR as [|? ? L _]; subst. unfold width. cbn [hd]. rewrite L, LT, Nat.eqb_refl. reflexivity. }
  cbn [as_rows]. rewrite W. unfold EM_predict, EM_run. rewrite <- LT, ET. reflexivity.
Qed.

(** ** DeBias *)
Lemma DeBias_fitted s0 x y P w s w1 : DeBias_calls A s0 ->
  DeBias_object_fit A x y (Some (Matrix P)) s0 w = (Val tt, s, w1) -> exists a b, np_unique y = [a; b] /\
  probabilistic (dbo_base s) = true /\ dbo_prev1 s = Some (INR (zcount b y) / INR (length y)) /\ dbo_Vt s = omap db_Vt (DeBias_fit y P).
Proof.
  intros C F. pose proof (DeBias_calls_inv _ _ C) as HP. unfold DeBias_object_fit in F.
  destruct (np_unique y) as [|a [|b [|]]] eqn:Hy; [discriminate..| |discriminate]. exists a, b. split; [reflexivity|].
  destruct (UC_fit A (dbo_base s0) w x y (Some (Matrix P))) as [[r0 q] w0] eqn:U. destruct (UC_fit_keeps A _ _ _ _ _ _ _ _ U) as (K1 & K2 & K3 & K4 & K5).
  assert (PT : r0 = Val tt -> needs_predictions_train (dbo_base s0) = true -> predictions_train_ q = Some (Matrix P)).
  { intros -> HN. unfold UC_fit in U. cbv zeta in U. cbn [with_classes needs_predictions_train estimator_train estimator_test probabilistic] in U.
    rewrite HN, HP in U. destruct (estimator_train (dbo_base s0)); cbn [andb] in U;
      destruct (ensure_fitted A w _ x y) as [wa| |]; try discriminate; destruct (ensure_fitted A wa _ x y); try discriminate; injection U as <- <-; reflexivity. }
  assert (HN : needs_predictions_train (dbo_base s0) = true).
  { clear - C. induction C as [et es|s x y given w r s' w' _ IH F|s x given w _ IH]; [reflexivity| |].
    - unfold DeBias_object_fit in F. destruct (np_unique y) as [|a [|b [|]]]; try (injection F as <- <- <-; exact IH).
      destruct (UC_fit A (dbo_base s) w x y given) as [[r0 q] w0] eqn:U. destruct (UC_fit_keeps A _ _ _ _ _ _ _ _ U) as (_ & _ & _ & K4 & _).
      destruct r0 as [[]|er|]; cbv zeta in F; [|injection F as <- <- <-; cbn; congruence..].
      destruct (predictions_train_ q) as [p|]; [|injection F as <- <- <-; cbn; congruence].
      destruct (has_second_column p); injection F as <- <- <-; cbn; congruence.
    - unfold DeBias_object_predict. destruct (UC_predict A (dbo_base s) w x given) as [r q] eqn:U.
      destruct (UC_predict_keeps A _ _ _ _ _ _ U) as (_ & _ & _ & K4 & _). destruct r as [[]|e|]; cbn; congruence. }
  destruct r0 as [[]|er|]; [|discriminate..]. cbv zeta in F. rewrite (PT eq_refl HN) in F.
  destruct (has_second_column (Matrix P)); [|discriminate]. injection F as <- <-. cbn [dbo_base dbo_prev1 dbo_Vt as_rows]. split; [congruence|]. auto.
Qed.

Theorem DeBias_fit_returns s0 x y P w s w1 : DeBias_calls A s0 ->
  DeBias_object_fit A x y (Some (Matrix P)) s0 w = (Val tt, s, w1) ->
  forall t rows w2, rows <> [] -> Forall (fun r => length r = 2%nat) rows ->
  snd (DeBias_object_predict A t (Some (Matrix rows)) s w2) = obind (DeBias_fit y P) (fun d => DeBias_predict d rows).
Proof.
  intros C F t rows w2 HN HR. destruct (DeBias_fitted _ _ _ _ _ _ _ C F) as (a & b & Hy & HP & H1 & HV).
  unfold DeBias_object_predict, UC_predict. cbv zeta. rewrite HP. cbn [with_test predictions_test_ snd]. rewrite H1, HV.
  destruct rows as [|r rows]; [easy|]. inversion HR as [|? ? L _]; subst.
  cbn [has_second_column]. unfold width. cbn [hd]. rewrite L. cbn [Nat.leb as_rows].
  unfold DeBias_fit. rewrite Hy. destruct P; reflexivity.
Qed.

Theorem DeBias_one_column s0 x y P w s w1 : DeBias_calls A s0 ->
  DeBias_object_fit A x y (Some (Matrix P)) s0 w = (Val tt, s, w1) ->
  forall t v l w2, snd (DeBias_object_predict A t (Some (Scores (v :: l))) s w2) = Err IndexError /\
    snd (DeBias_object_predict A t (Some (Matrix (map (fun x => [x]) (v :: l)))) s w2) = Err IndexError.
Proof.
  intros C F t v l w2. destruct (DeBias_fitted _ _ _ _ _ _ _ C F) as (a & b & Hy & HP & H1 & HV).
  unfold DeBias_object_predict, UC_predict. cbv zeta. rewrite HP. cbn [with_test predictions_test_ snd]. rewrite H1. split; reflexivity.
Qed.

(** ** PAC *)
Section PAC.
Context (inv : nat -> matrix -> option matrix) (N : numerics) (cvx : cvx_solver) (fuel : nat) (dist : distance).

Lemma PAC_returned s0 x y p w s w1 : PAC_calls A inv N cvx fuel dist s0 ->
  PAC_object_fit A N fuel dist x y (Some p) s0 w = (Val tt, s, w1) ->
  length (y_ext y (length (as_rows p))) = length (as_rows p) /\
  (width (as_rows p) = length (np_unique y) \/ width (as_rows p) = 1%nat \/ as_rows p = []) /\
  classes_ (ao_base s) = Some (np_unique y) /\ probabilistic (ao_base s) = true /\
  ao_adjuster s = assign_adjuster N fuel dist y (ao_adjuster s0) (map (fun c => option_map (broadcast (length (np_unique y)))
    (class_mean (width (as_rows p)) c (y_ext y (length (as_rows p))) (as_rows p))) (np_unique y)).
Proof.
  intros H F. destruct (PAC_calls_inv A inv N cvx fuel dist _ H) as (H1 & H2 & H3 & H4). unfold PAC_object_fit, UC_fit in F. cbv zeta in F.
  cbn [with_classes estimator_train estimator_test needs_predictions_train probabilistic] in F. rewrite H1, H2, H3, H4 in F. cbn in F.
  destruct (Nat.eqb_spec (length (y_ext y (length (as_rows p)))) (length (as_rows p))) as [EL|]; [|discriminate]. cbn [negb] in F.
  destruct ((width (as_rows p) =? length (np_unique y))%nat || (width (as_rows p) =? 1)%nat || (length (as_rows p) =? 0)%nat) eqn:EO; [|discriminate].
  injection F as <- <-. split; [exact EL|]. split; [|cbn; auto].
  apply orb_true_iff in EO. destruct EO as [EO|EO]; [|right; right; apply length_zero_iff_nil; now apply Nat.eqb_eq].
  apply orb_true_iff in EO. destruct EO as [EO|EO]; apply Nat.eqb_eq in EO; auto.
Qed.

Lemma PAC_after s y a cm t rows w : classes_ (ao_base s) = Some (np_unique y) -> probabilistic (ao_base s) = true -> y <> [] ->
  ao_adjuster s = assign_adjuster N fuel dist y a cm -> length cm = length (np_unique y) ->
  Forall (fun r => length r = length (np_unique y)) rows ->
  snd (PAC_object_predict A inv N cvx dist t (Some (Matrix rows)) s w) =
  snd (qc_predict (PAC_class inv N cvx fuel dist) rows (assign_adjuster N fuel dist y a cm)).
Proof.
  intros HC HP HY HA HL HR. unfold PAC_object_predict, UC_predict. cbv zeta. rewrite HP. cbn [with_test classes_ predictions_test_]. rewrite HC, HA.
  assert (CP : cm_problem (length (np_unique y)) (aj_cm (assign_adjuster N fuel dist y a cm)) = None).
  { cbn [assign_adjuster aj_cm]. unfold cm_problem. destruct cm; [|rewrite HL, Nat.eqb_refl; reflexivity]. exfalso. destruct y as [|z y]; [easy|].
    assert (I : In z (np_unique (z :: y))) by (apply L_Num.np_unique_in; now left). destruct (np_unique (z :: y)); [destruct I|discriminate]. }
  rewrite CP. cbn [as_rows].
  assert (W : (width rows =? length (np_unique y))%nat || (length rows =? 0)%nat = true).
  { destruct rows as [|r rows]; [apply orb_true_r|]. inversion HR as [|? ? L _]; subst. unfold width. cbn [hd]. rewrite L, Nat.eqb_refl. reflexivity. }
  rewrite W. cbn [PAC_class qc_predict]. cbn [assign_adjuster aj_cm aj_l2 aj_problem].
  match goal with |- context [adjuster_predict ?a ?b ?c ?d ?e ?f] => destruct (adjuster_predict a b c d e f) as [a1 r1] eqn:E1 end. cbn [snd].
  unfold assign_adjuster. rewrite E1. reflexivity.
Qed.

(** After a fit that returned, whatever calls came before: the class of C62 fitted with the predictions. *)
Theorem PAC_fit_returns s0 x y P w s w1 : PAC_calls A inv N cvx fuel dist s0 -> y <> [] ->
  Forall (fun r => length r = length (np_unique y)) P ->
  PAC_object_fit A N fuel dist x y (Some (Matrix P)) s0 w = (Val tt, s, w1) ->
  exists cm a, PAC_fit y P = Val cm /\ forall t rows w2, Forall (fun r => length r = length (np_unique y)) rows ->
    snd (PAC_object_predict A inv N cvx dist t (Some (Matrix rows)) s w2) =
    snd (qc_predict (PAC_class inv N cvx fuel dist) rows (assign_adjuster N fuel dist y a cm)).
Proof.
  intros H HY HP F. destruct (PAC_returned _ _ _ _ _ _ _ H F) as (E1 & E2 & E3 & E4 & E5). cbn [as_rows] in *.
  set (cm := map (fun c => class_mean (length (np_unique y)) c (y_ext y (length P)) P) (np_unique y)).
  assert (EC : map (fun c => option_map (broadcast (length (np_unique y))) (class_mean (width P) c (y_ext y (length P)) P)) (np_unique y) = cm).
  { apply map_ext. intros c. unfold class_mean. destruct (select c (y_ext y (length P)) P) as [|r rs] eqn:ES; [reflexivity|].
    assert (W : width P = length (np_unique y)).
    { destruct P as [|r0 P]; [|inversion HP as [|? ? L _]; subst; exact L].
      destruct (y_ext y (length (@nil (list R)))); discriminate. }
    rewrite W. cbn [option_map]. f_equal. destruct (length (np_unique y)) as [|[|n]]; reflexivity. }
  exists cm, (ao_adjuster s0). split.
  - unfold PAC_fit. rewrite E1, Nat.eqb_refl. reflexivity.
  - intros t rows w2 HR. apply (PAC_after s y (ao_adjuster s0) cm); auto; [now rewrite E5, EC|unfold cm; apply map_length].
Qed.

(** One column of predictions of the second class is enough for two classes. *)
Theorem PAC_scores_suffice s0 s0' x x' y l w w' s s' w1 w1' : PAC_calls A inv N cvx fuel dist s0 -> PAC_calls A inv N cvx fuel dist s0' ->
  length (np_unique y) = 2%nat ->
  PAC_object_fit A N fuel dist x y (Some (Scores l)) s0 w = (Val tt, s, w1) ->
  PAC_object_fit A N fuel dist x' y (Some (Matrix (map (fun v => [1 - v; v]) l))) s0' w' = (Val tt, s', w1') ->
  forall t t' rows w2 w2', Forall (fun r => length r = 2%nat) rows ->
  snd (PAC_object_predict A inv N cvx dist t (Some (Matrix rows)) s w2) =
  snd (PAC_object_predict A inv N cvx dist t' (Some (Matrix rows)) s' w2').
Proof.
  intros H H' H2 F F' t t' rows w2 w2' HR.
  destruct (PAC_returned _ _ _ _ _ _ _ H F) as (E1 & E2 & E3 & E4 & E5). destruct (PAC_returned _ _ _ _ _ _ _ H' F') as (E1' & E2' & E3' & E4' & E5').
  assert (HY : y <> []) by (intros ->; discriminate).
  set (cm := map (fun c => option_map (broadcast (length (np_unique y))) (class_mean (width (as_rows (Scores l))) c
      (y_ext y (length (as_rows (Scores l)))) (as_rows (Scores l)))) (np_unique y)) in *.
  set (cm' := map (fun c => option_map (broadcast (length (np_unique y))) (class_mean (width (as_rows (Matrix (map (fun v => [1 - v; v]) l)))) c
      (y_ext y (length (as_rows (Matrix (map (fun v => [1 - v; v]) l))))) (as_rows (Matrix (map (fun v => [1 - v; v]) l))))) (np_unique y)) in *.
  rewrite (PAC_after s y (ao_adjuster s0) cm), (PAC_after s' y (ao_adjuster s0') cm'); auto; try (unfold cm, cm'; apply map_length); try (now rewrite H2).
  cbn [PAC_class qc_predict]. unfold adjuster_predict. cbn [assign_adjuster aj_classes aj_cm]. rewrite H2.
  destruct (mean_rows 2 rows) as [p0| |]; [|reflexivity..]. cbn [Nat.eqb snd]. f_equal.
  destruct (np_unique y) as [|a [|b [|]]] eqn:Hy; try discriminate. subst cm cm'. cbn [map length as_rows]. rewrite !map_length.
  assert (G : forall c ye, match class_mean (width (map (fun v : R => [v]) l)) c ye (map (fun v : R => [v]) l),
                    class_mean (width (map (fun v => [1 - v; v]) l)) c ye (map (fun v => [1 - v; v]) l) with
             | Some r, Some r' => nth 1 (broadcast 2 r) 0 = nth 1 (broadcast 2 r') 0
             | None, None => True
             | _, _ => False end).
  { intros c ye. unfold class_mean.
    assert (S1 : forall (f : R -> list R), select c ye (map f l) = map f (select c ye l)).
    { intros f. clear. revert l. unfold select. induction ye as [|z ye IH]; intros [|v l]; try reflexivity. cbn. specialize (IH l).
      destruct (Z.eqb z c); cbn; [f_equal|]; exact IH. }
    rewrite !S1. destruct (select c ye l) as [|v vs] eqn:ES; [exact I|]. cbn [map].
    destruct l as [|v0 l0]; [destruct ye; discriminate|]. cbn [map]. unfold width. cbn [hd length].
    unfold col_means. cbn [seq map broadcast repeat nth]. f_equal. unfold col. cbn [map nth]. f_equal. rewrite !map_map. reflexivity. }
  unfold binary_adjust. pose proof (G a (y_ext y (length l))) as Ga. pose proof (G b (y_ext y (length l))) as Gb.
  destruct (class_mean (width (map (fun v : R => [v]) l)) a _ _) as [ra|], (class_mean (width (map (fun v => [1 - v; v]) l)) a _ _) as [ra'|]; try (exfalso; exact Ga); [|reflexivity].
  destruct (class_mean (width (map (fun v : R => [v]) l)) b _ _) as [rb|], (class_mean (width (map (fun v => [1 - v; v]) l)) b _ _) as [rb'|]; try (exfalso; exact Gb); [|reflexivity].
  cbn [option_map]. rewrite Ga, Gb. reflexivity.
Qed.

(** Labels count as numbers. *)
Theorem PAC_labels_are_scores s0 x y l w : PAC_calls A inv N cvx fuel dist s0 ->
  let fit p := PAC_object_fit A N fuel dist x y (Some p) s0 w in
  fst (fst (fit (Labels l))) = fst (fst (fit (Scores (map IZR l)))) /\
  ao_adjuster (snd (fst (fit (Labels l)))) = ao_adjuster (snd (fst (fit (Scores (map IZR l))))).
Proof.
  intros H. cbv zeta. destruct (PAC_calls_inv A inv N cvx fuel dist _ H) as (H1 & H2 & H3 & H4). unfold PAC_object_fit, UC_fit. cbv zeta.
  cbn [with_classes estimator_train estimator_test needs_predictions_train probabilistic]. rewrite H1, H2, H3, H4. cbn. rewrite !map_map, !map_length.
  match goal with |- context [negb ?b] => destruct (negb b) end; [split; reflexivity|].
  match goal with |- context [if ?b then _ else _] => destruct b end; split; reflexivity.
Qed.
End PAC.
End Base.
