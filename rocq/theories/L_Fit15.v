(** * Proofs about SORDy after failing fits (C136). *)

From Coq Require Import Reals List ZArith Bool Lia Lra Permutation.
From Verif Require Import Num Spec M_Baselines M_Base M_Estimators M_Search Spec_Search M_Optim M_Fit M_Fit2 M_Fit8 Spec_Fit Spec_Fit4 Spec_Fit8
  L_Num L_Estimators L_Baselines L_Sord L_Search L_Search3 L_Fit3 L_Fit6 L_Fit11.
Import ListNotations.
Open Scope R_scope.

Lemma y_ext_le : forall y n, (length (y_ext y n) <= n)%nat.
Proof.
  intros y n. unfold y_ext. destruct (Nat.eqb_spec (length y) n) as [<-|_]; [lia|].
  assert (E : forall k, length (concat (repeat y k)) = (k * length y)%nat) by (induction k; simpl; rewrite ?app_length; lia).
  rewrite E. destruct (length y) as [|m]; [lia|]. pose proof (Nat.mul_div_le n (Datatypes.S m)). lia.
Qed.

Lemma y_ext_sub : forall y n c, In c (y_ext y n) -> In c y.
Proof.
  intros y n c. unfold y_ext. destruct (Nat.eqb _ _); auto. intros H. apply in_concat in H. destruct H as (l & Hl & Hc).
  apply repeat_spec in Hl. subst. exact Hc.
Qed.

Section Sorting.
Context (argsort : list R -> list nat) (SO : sorts argsort pick).

Lemma checked_ok : forall {B} (l : list B) u, (length u <= length l)%nat -> pick_checked l (argsort u) = Val (pick l (argsort u)).
Proof.
  intros B l u H. unfold pick_checked. destruct (SO u) as [P _]. apply perm_range in P. rewrite Forall_forall in P.
  replace (forallb _ _) with true; auto. symmetry. apply forallb_forall. intros i Hi. apply Nat.ltb_lt. specialize (P i Hi). lia.
Qed.

Lemma checked_bad : forall {B} (l : list B) u, (length l < length u)%nat -> pick_checked l (argsort u) = Err IndexError.
Proof.
  intros B l u H. unfold pick_checked. destruct (SO u) as [P _]. destruct (forallb _ _) eqn:E; auto. exfalso.
  rewrite forallb_forall in E. assert (I : In (length l) (argsort u)).
  { apply (Permutation_in _ (Permutation_sym P)). apply in_seq. lia. }
  specialize (E _ I). apply Nat.ltb_lt in E. lia.
Qed.

Lemma picked_length : forall {B} (l : list B) u, (length u <= length l)%nat -> length (pick l (argsort u)) = length u.
Proof.
  intros B l u H. destruct (SO u) as [P _]. rewrite pick_length.
  - apply Permutation_length in P. rewrite P, seq_length. reflexivity.
  - apply perm_range in P. revert P. apply Forall_impl. intros. lia.
Qed.

Lemma picked_in : forall {B} (l : list B) idx (v : B), In v (pick l idx) -> In v l.
Proof.
  intros B l idx v H. unfold pick in H. apply in_flat_map in H. destruct H as (i & _ & Hi).
  destruct (nth_error l i) eqn:E; [|destruct Hi]. destruct Hi as [<-|[]]. eapply nth_error_In; eauto.
Qed.

Lemma golden_flat : forall k k' tol a b,
  omap snd (golden_section_search (fun _ => k) tol a b) = omap snd (golden_section_search (fun _ => k') tol a b).
Proof.
  intros k k' tol a b. unfold golden_section_search. destruct (Req_EM_T _ _); auto. destruct (Rle_dec _ _); auto. cbn [omap]. apply (f_equal (@Val R)).
  set (same := fun s s' : golden_state => g_a s = g_a s' /\ g_b s = g_b s' /\ g_c s = g_c s' /\ g_d s = g_d s' /\ g_h s = g_h s' /\
    g_fc s = k /\ g_fd s = k /\ g_fc s' = k' /\ g_fd s' = k').
  assert (L : forall j s s', same s s' -> same (golden_loop (fun _ => k) j s) (golden_loop (fun _ => k') j s')).
  { induction j as [|j IHn]; intros s s' H; unfold same in H; destruct H as (H1 & H2 & H3 & H4 & H5 & H6 & H7 & H8 & H9); cbn [golden_loop]; [repeat split; auto|].
    apply IHn. unfold golden_step. rewrite H6, H7, H8, H9. destruct (Rlt_dec k k); [lra|]. destruct (Rlt_dec k' k'); [lra|].
    unfold same. cbn. rewrite H2, H3, H4, H5. repeat split. }
  destruct (L (Z.to_nat (golden_steps tol (b - a) - 1)) (golden_start (fun _ => k) a b) (golden_start (fun _ => k') a b)) as
    (H1 & H2 & H3 & H4 & H5 & H6 & H7 & H8 & H9); [unfold same; cbn; repeat split|].
  unfold golden_end. rewrite H6, H7, H8, H9. destruct (Rlt_dec k k); [lra|]. destruct (Rlt_dec k' k'); [lra|]. cbn [snd]. rewrite H2, H3. reflexivity.
Qed.

Lemma golden_ext : forall f g tol a b, (forall p, f p = g p) -> golden_section_search f tol a b = golden_section_search g tol a b.
Proof.
  intros f g tol a b E. unfold golden_section_search. destruct (Req_EM_T _ _); auto. destruct (Rle_dec _ _); auto. do 2 f_equal.
  assert (S1 : golden_start f a b = golden_start g a b) by (unfold golden_start; now rewrite !E).
  rewrite S1. generalize (golden_start g a b). induction (Z.to_nat _); intros st; cbn [golden_loop]; auto.
  replace (golden_step f st) with (golden_step g st); auto. unfold golden_step. rewrite !E. reflexivity.
Qed.

(** Weights with two classes. *)
Lemma weights_two : forall p l c0 c1, c0 <> c1 -> sord_weights_of p l [c0; c1] = sord_weights p l c0 c1.
Proof.
  intros p l c0 c1 N. unfold sord_weights_of, sord_weights. apply map_ext. intros c. destruct (Z.eqb c (zmax l)); auto.
  cbn [existsb]. destruct (Z.eqb_spec c c0) as [->|H0].
  - destruct (Z.eqb_spec c0 c1); [contradiction|]. reflexivity.
  - destruct (Z.eqb_spec c c1) as [->|H1]; reflexivity.
Qed.

Lemma omap_pair : forall o : out (R * R), omap (fun r => [1 - snd r; snd r]) o = as_pair (omap snd o).
Proof. intros [[a b]|e|]; reflexivity. Qed.

Lemma answer_two : forall tol f test c0 c1, b_classes f = [c0; c1] -> c0 <> c1 -> length (b_scores f) = length (b_labels f) ->
  SORDy_answer argsort tol [c0; c1] (b_scores f) (b_labels f) test = as_pair (SORDy_predict argsort tol f test).
Proof.
  intros tol f test c0 c1 EC N L. unfold SORDy_answer, SORDy_predict. rewrite checked_ok by (rewrite !app_length, repeat_length; lia).
  rewrite omap_pair. do 2 f_equal. apply golden_ext. intros p. unfold SORDy_loss, sord_union. rewrite EC. cbn [nth].
  now rewrite weights_two.
Qed.

(** No label of the training set is among the classes. *)
Lemma answer_blind : forall tol classes scores labels test test', (forall z, In z labels -> ~ In z classes) ->
  SORDy_answer argsort tol classes scores labels test = SORDy_answer argsort tol classes scores labels test'.
Proof.
  intros tol classes scores labels test test' D. unfold SORDy_answer.
  destruct (le_lt_dec (length scores) (length labels)) as [L|L].
  - rewrite !checked_ok by (rewrite !app_length, repeat_length; lia). rewrite !omap_pair. f_equal.
    assert (K : forall (u : list R) (idx : list nat) (bag : list R), exists k, forall p, sord (sord_weights_of p (pick (labels ++ repeat (zmax classes + 1)%Z (length bag)) idx) classes) u = k).
    { intros u idx bag. set (l := pick _ idx). exists (sord (sord_weights_of 0 l classes) u). intros p. f_equal. unfold sord_weights_of. apply map_ext_in.
      intros c Hc. destruct (Z.eqb c (zmax l)); auto. destruct classes as [|c0 cs]; auto.
      assert (NI : ~ In c (c0 :: cs)).
      { apply picked_in in Hc. apply in_app_or in Hc. destruct Hc as [Hc|Hc]; [auto|]. apply repeat_spec in Hc. subst c.
        intros HI. apply zmax_ge in HI. lia. }
      destruct (Z.eqb_spec c c0) as [->|_]; [exfalso; apply NI; left; reflexivity|].
      destruct (existsb (Z.eqb c) cs) eqn:E; auto. exfalso. apply existsb_exists in E. destruct E as (z & Hz & E). apply Z.eqb_eq in E. subst z.
      apply NI. right. exact Hz. }
    destruct (K (pick (scores ++ test) (argsort (scores ++ test))) (argsort (scores ++ test)) test) as [k Hk].
    destruct (K (pick (scores ++ test') (argsort (scores ++ test'))) (argsort (scores ++ test')) test') as [k' Hk'].
    rewrite (golden_ext _ (fun _ => k)) by exact Hk. rewrite (golden_ext _ (fun _ => k') tol 0 1 Hk'). apply golden_flat.
  - rewrite !checked_bad by (rewrite !app_length, repeat_length; lia). reflexivity.
Qed.

Lemma zcount_pick : forall l u (c : Z), length l = length u -> zcount c (pick l (argsort u)) = zcount c l.
Proof.
  intros l u c H. assert (P : Permutation (pick l (argsort u)) l) by (apply pick_perm; rewrite H; apply SO).
  apply zcount_perm. exact P.
Qed.


Lemma zcount_tail : forall c l t n, c <> t -> zcount c (l ++ repeat t n) = zcount c l.
Proof.
  intros c l t n H. unfold zcount. rewrite count_occ_app. replace (count_occ Z.eq_dec (repeat t n) c) with O; [lia|].
  symmetry. apply count_occ_not_In. intros I. apply repeat_spec in I. auto.
Qed.

Lemma zmax_tail : forall l t n u, (0 < n)%nat -> (forall z, In z l -> (z < t)%Z) -> length (l ++ repeat t n) = length u ->
  zmax (pick (l ++ repeat t n) (argsort u)) = t.
Proof.
  intros l t n u Hn D E. assert (P : Permutation (pick (l ++ repeat t n) (argsort u)) (l ++ repeat t n)) by (apply pick_perm; rewrite E; apply SO).
  apply zmax_unique.
  - apply (Permutation_in _ (Permutation_sym P)). apply in_or_app. right. destruct n; [lia|]. left. reflexivity.
  - intros c Hc. apply (Permutation_in _ P) in Hc. apply in_app_or in Hc. destruct Hc as [Hc|Hc]; [specialize (D c Hc); lia|].
    apply repeat_spec in Hc. lia.
Qed.

(** Larger classes that no training example has do not matter. *)
Lemma answer_more : forall tol c0 c1 rest scores labels test, (c0 < c1)%Z -> length scores = length labels ->
  (forall z, In z labels -> z = c0 \/ z = c1) ->
  SORDy_answer argsort tol (c0 :: c1 :: rest) scores labels test = SORDy_answer argsort tol [c0; c1] scores labels test.
Proof.
  intros tol c0 c1 rest scores labels test O L D. unfold SORDy_answer.
  rewrite !checked_ok by (rewrite !app_length, repeat_length; lia). f_equal. apply golden_ext. intros p. f_equal.
  set (u := scores ++ test). set (t := (zmax (c0 :: c1 :: rest) + 1)%Z). set (t' := (zmax [c0; c1] + 1)%Z).
  assert (T : (c1 < t)%Z) by (assert (c1 <= zmax (c0 :: c1 :: rest))%Z by (apply zmax_ge; right; left; reflexivity); unfold t; lia).
  assert (T' : (c1 < t')%Z) by (assert (c1 <= zmax [c0; c1])%Z by (apply zmax_ge; right; left; reflexivity); unfold t'; lia).
  assert (EL : forall v, length (labels ++ repeat v (length test)) = length u) by (intros v; unfold u; rewrite !app_length, repeat_length; lia).
  assert (B : forall v, (c1 < v)%Z -> forall z, In z labels -> (z < v)%Z) by (intros v Hv z Hz; destruct (D z Hz); lia).
  unfold sord_weights_of. rewrite !zcount_pick by apply EL. rewrite <- !L_Sord.pick_map, !map_app. f_equal.
  destruct (Nat.eq_dec (length test) 0) as [Z0|NZ].
  - rewrite Z0 in *. cbn [repeat map]. rewrite !app_nil_r. apply map_ext_in. intros c Hc. destruct (Z.eqb _ _); auto.
    rewrite (zcount_pick labels u c) by (specialize (EL 0%Z); cbn [repeat] in EL; rewrite app_nil_r in EL; exact EL).
    destruct (D c Hc) as [->| ->].
    + rewrite Z.eqb_refl. reflexivity.
    + destruct (Z.eqb_spec c1 c0); [lia|]. cbn [existsb]. rewrite Z.eqb_refl. reflexivity.
  - rewrite (zmax_tail labels t), (zmax_tail labels t') by (try apply EL; auto; lia). f_equal.
    + apply map_ext_in. intros c Hc. rewrite !zcount_pick by apply EL.
      assert (c < t /\ c < t')%Z as [Ht Ht'] by (split; [apply (B t)|apply (B t')]; auto).
      destruct (Z.eqb_spec c t); [lia|]. destruct (Z.eqb_spec c t'); [lia|]. rewrite !zcount_tail by lia.
      destruct (D c Hc) as [->| ->].
      * rewrite Z.eqb_refl. reflexivity.
      * destruct (Z.eqb_spec c1 c0); [lia|]. cbn [existsb]. rewrite Z.eqb_refl. reflexivity.
    +
      assert (CT : forall v, (c1 < v)%Z -> zcount v (labels ++ repeat v (length test)) = length test).
      { intros v Hv. unfold zcount. rewrite count_occ_app. rewrite (proj1 (count_occ_not_In Z.eq_dec labels v)).
        - cbn. apply count_occ_repeat_eq. reflexivity.
        - intros I. specialize (B v Hv v I). lia. }
      assert (MR : forall (h : Z -> R) v n, map h (repeat v n) = repeat (h v) n) by (intros h v n; induction n; cbn; congruence).
      rewrite !MR, !Z.eqb_refl, !CT by assumption. reflexivity.
Qed.
End Sorting.

Section Object.
Context {X M : Type} (A : nat -> algorithm X M) (argsort : list R -> list nat) (tol : R).
Notation calls := (SORDy_calls A argsort tol).
Notation after := (SORDy_after_fit A argsort tol).
Notation fit := (SORDy_object_fit A argsort).
Notation predict := (SORDy_object_predict A argsort tol).

Lemma so_predict_base s x given w : fst (predict x given s w) = so_with_base (snd (UC_predict A (so_base s) w x given)) s.
Proof. unfold SORDy_object_predict. destruct (UC_predict A (so_base s) w x given) as [[[]| |] q]; reflexivity. Qed.

Lemma so_fit_base x y given s w r s' w' : fit x y given s w = (r, s', w') -> exists r0, UC_fit A (so_base s) w x y given = (r0, so_base s', w').
Proof.
  unfold SORDy_object_fit. destruct (UC_fit A (so_base s) w x y given) as [[r0 q] w0]. intros H. exists r0.
  destruct r0 as [[]| |]; [|injection H as <- <- <-; reflexivity..].
  destruct (Nat.ltb _ _); [injection H as <- <- <-; reflexivity|]. destruct (predictions_train_ q) as [p|]; [|injection H as <- <- <-; reflexivity].
  destruct (has_second_column p); [|injection H as <- <- <-; reflexivity]. cbv zeta in H.
  destruct (pick_checked _ _); injection H as <- <- <-; reflexivity.
Qed.

Lemma so_flags s : calls s -> probabilistic (so_base s) = true /\ needs_predictions_train (so_base s) = true.
Proof.
  intros C. induction C as [et es|s x y given w r s' w' _ [I1 I2] F|s x given w _ [I1 I2]]; [split; reflexivity| |].
  - destruct (so_fit_base _ _ _ _ _ _ _ _ F) as [r0 U]. destruct (UC_fit_keeps A _ _ _ _ _ _ _ _ U) as (_ & _ & K3 & K4 & _). split; congruence.
  - rewrite so_predict_base. cbn [so_with_base so_base]. destruct (UC_predict A (so_base s) w x given) as [r q] eqn:U.
    destruct (UC_predict_keeps A _ _ _ _ _ _ U) as (_ & _ & K3 & K4 & _). cbn [snd]. split; congruence.
Qed.

Lemma so_after_calls y s : after y s -> calls s.
Proof. intros H. induction H; [eapply SORDy_calls_fit; eassumption|now apply SORDy_calls_predict]. Qed.

Lemma so_given_train s x y p w q w' : calls s -> UC_fit A (so_base s) w x y (Some p) = (Val tt, q, w') -> predictions_train_ q = Some p.
Proof.
  intros C U. destruct (so_flags _ C) as [HP HN]. unfold UC_fit in U. cbv zeta in U.
  cbn [with_classes needs_predictions_train estimator_train estimator_test probabilistic] in U. rewrite HN, HP in U.
  destruct (estimator_train (so_base s)); cbn [andb] in U;
    destruct (ensure_fitted A w _ x y) as [wa| |]; try discriminate; destruct (ensure_fitted A wa _ x y); try discriminate; injection U as <- <-; reflexivity.
Qed.

(** What predict gives, from the state. *)
Lemma so_predict_val s t p w : probabilistic (so_base s) = true ->
  snd (predict t (Some p) s w) = if has_second_column p then
    match classes_ (so_base s), so_scores s, so_labels s with
    | Some classes, Some scores, Some labels => SORDy_answer argsort tol classes scores labels (col 1 (as_rows p))
    | _, _, _ => Err TypeError
    end else Err IndexError.
Proof. intros HP. unfold SORDy_object_predict, UC_predict. rewrite HP. cbn. reflexivity. Qed.

(** Two objects whose answers for every array agree. *)
Lemma so_predict_same s1 s2 : estimator_test (so_base s1) = estimator_test (so_base s2) ->
  probabilistic (so_base s1) = true -> probabilistic (so_base s2) = true ->
  (forall test, match classes_ (so_base s1), so_scores s1, so_labels s1 with
    | Some classes, Some scores, Some labels => SORDy_answer argsort tol classes scores labels test | _, _, _ => Err TypeError end =
   match classes_ (so_base s2), so_scores s2, so_labels s2 with
    | Some classes, Some scores, Some labels => SORDy_answer argsort tol classes scores labels test | _, _, _ => Err TypeError end) ->
  forall t p w, snd (predict t p s1 w) = snd (predict t p s2 w).
Proof.
  intros H1 H2 H3 E t p w. unfold SORDy_object_predict.
  destruct (UC_predict_prob A (so_base s1) (so_base s2) w t p H1 H2 H3) as [(v & -> & ->)|[(e & -> & ->)|[-> ->]]]; try reflexivity.
  cbn [snd with_test predictions_test_ classes_]. destruct (has_second_column v); [apply E|reflexivity].
Qed.

Section Sorts.
Context (SO : sorts argsort pick).

(** A fit that raises keeps the labels; unless it raises IndexError, it keeps the scores too. *)
Lemma so_fit_raises x y given s w r s' w' : fit x y given s w = (r, s', w') -> raises r ->
  so_labels s' = so_labels s /\ (r <> Err IndexError -> so_scores s' = so_scores s).
Proof.
  unfold SORDy_object_fit. destruct (UC_fit A (so_base s) w x y given) as [[r0 q] w0]. intros H HR.
  destruct r0 as [[]| |]; [|injection H as <- <- <-; split; reflexivity..].
  destruct (Nat.ltb _ _); [injection H as <- <- <-; split; reflexivity|].
  destruct (predictions_train_ q) as [p|]; [|injection H as <- <- <-; split; reflexivity].
  destruct (has_second_column p); [|injection H as <- <- <-; split; reflexivity]. cbv zeta in H.
  unfold pick_checked in H. destruct (forallb _ _); injection H as <- <- <-; [exfalso; exact (HR tt eq_refl)|].
  split; [reflexivity|]. intros N. contradiction.
Qed.

(** A fit that returns. *)
Lemma so_fit_val x y given s w s' w' : fit x y given s w = (Val tt, s', w') -> (length (np_unique y) <= 2)%nat /\
  exists p, predictions_train_ (so_base s') = Some p /\ has_second_column p = true /\
    length (y_ext y (length (as_rows p))) = length (as_rows p) /\
    so_scores s' = Some (pick (col 1 (as_rows p)) (argsort (col 1 (as_rows p)))) /\
    so_labels s' = Some (pick (y_ext y (length (as_rows p))) (argsort (col 1 (as_rows p)))).
Proof.
  unfold SORDy_object_fit. destruct (UC_fit A (so_base s) w x y given) as [[r0 q] w0]. intros H.
  destruct r0 as [[]| |]; [|discriminate..]. destruct (Nat.ltb_spec 2 (length (np_unique y))) as [L|L]; [discriminate|]. split; [lia|].
  destruct (predictions_train_ q) as [p|] eqn:EP; [|discriminate]. destruct (has_second_column p) eqn:ES; [|discriminate]. cbv zeta in H.
  assert (LC : length (col 1 (as_rows p)) = length (as_rows p)) by apply map_length. rewrite LC in H.
  destruct (le_lt_dec (length (as_rows p)) (length (y_ext y (length (as_rows p))))) as [L1|L1].
  - rewrite (checked_ok argsort SO) in H by lia. injection H as <- <-. exists p. cbn. pose proof (y_ext_le y (length (as_rows p))).
    repeat split; auto. lia.
  - rewrite (checked_bad argsort SO) in H by lia. discriminate.
Qed.

Lemma so_after_settled y0 s : after y0 s -> classes_ (so_base s) = Some (np_unique y0) /\ exists S L, so_scores s = Some S /\ so_labels s = Some L /\
  length S = length L /\ forall z, In z L -> In z y0.
Proof.
  intros H. induction H as [s0 x given w s w' C F|s x given w _ [I1 I2]].
  - split. { destruct (so_fit_base _ _ _ _ _ _ _ _ F) as [r0 U]. apply (UC_fit_keeps A _ _ _ _ _ _ _ _ U). }
    destruct (so_fit_val _ _ _ _ _ _ _ F) as (_ & p & _ & _ & LE & ES & EL). eexists. eexists. split; [exact ES|]. split; [exact EL|].
    assert (LC : length (col 1 (as_rows p)) = length (as_rows p)) by apply map_length. split.
    + rewrite !(picked_length argsort SO) by lia. reflexivity.
    + intros z Hz. apply picked_in in Hz. now apply y_ext_sub in Hz.
  - rewrite so_predict_base. cbn [so_with_base so_base so_scores so_labels]. split; [|exact I2].
    destruct (UC_predict A (so_base s) w x given) as [r q] eqn:U. destruct (UC_predict_keeps A _ _ _ _ _ _ U) as (_ & _ & _ & _ & K). cbn [snd]. congruence.
Qed.

Lemma second_matrix : forall k rows, (2 <= k)%nat -> Spec_Fit4.columns k rows -> has_second_column (Matrix rows) = true.
Proof.
  intros k [|r rows] H C; [reflexivity|]. unfold has_second_column, width. cbn [hd]. inversion C; subst. apply Nat.leb_le. assumption.
Qed.

Lemma so_fit_returns x y rows s w s' w' c0 c1 f : calls s -> fit x y (Some (Matrix rows)) s w = (Val tt, s', w') ->
  np_unique y = [c0; c1] -> sorted_fit argsort (np_unique y) (y_ext y (length rows)) (col 1 rows) = Val f ->
  forall t k bag w2, (2 <= k)%nat -> Spec_Fit4.columns k bag ->
    snd (predict t (Some (Matrix bag)) s' w2) = as_pair (SORDy_predict argsort tol f (col 1 bag)).
Proof.
  intros C F U E t k bag w2 HK HC. assert (C' : calls s') by (eapply SORDy_calls_fit; [exact C|exact F]).
  destruct (so_fit_base _ _ _ _ _ _ _ _ F) as [r0 UF]. destruct (UC_fit_keeps A _ _ _ _ _ _ _ _ UF) as (_ & _ & _ & _ & K5).
  destruct (so_fit_val _ _ _ _ _ _ _ F) as (_ & p & EP & _ & LE & ES & EL).
  assert (p = Matrix rows) as ->.
  { assert (R0 : r0 = Val tt).
    { unfold SORDy_object_fit in F. rewrite UF in F. destruct r0 as [[]| |]; [reflexivity|discriminate..]. }
    subst r0. pose proof (so_given_train _ _ _ _ _ _ _ C UF). congruence. }
  cbn [as_rows] in *. rewrite so_predict_val by apply so_flags, C'. rewrite (second_matrix k bag HK HC), K5, ES, EL, U. cbn [as_rows].
  unfold sorted_fit in E. rewrite U in E. cbn in E. injection E as <-.
  assert (LC : length (col 1 rows) = length rows) by apply map_length.
  apply (answer_two argsort SO tol {| b_classes := [c0; c1]; b_scores := pick (col 1 rows) (argsort (col 1 rows));
     b_labels := pick (y_ext y (length rows)) (argsort (col 1 rows)) |} (col 1 bag) c0 c1); [reflexivity| |].
  - apply (two_classes y c0 c1 U).
  - cbn. rewrite !(picked_length argsort SO) by lia. reflexivity.
Qed.

Lemma so_returns x y k rows s w : calls s -> estimator_train (so_base s) = None -> estimator_test (so_base s) = None ->
  Spec_Fit4.columns k rows -> rows <> [] ->
  ((exists s' w', fit x y (Some (Matrix rows)) s w = (Val tt, s', w')) <->
   (length (np_unique y) <= 2)%nat /\ (2 <= k)%nat /\ ~ wrong_number y rows).
Proof.
  intros C E1 E2 HC HN. destruct (so_flags _ C) as [HP HNe]. unfold wrong_number. split.
  - intros (s' & w' & F). destruct (so_fit_val _ _ _ _ _ _ _ F) as (L & p & EP & H2 & LE & _). split; [exact L|].
    destruct (so_fit_base _ _ _ _ _ _ _ _ F) as [r0 UF].
    assert (R0 : r0 = Val tt). { unfold SORDy_object_fit in F. rewrite UF in F. destruct r0 as [[]| |]; [reflexivity|discriminate..]. }
    subst r0. pose proof (so_given_train _ _ _ _ _ _ _ C UF) as EQ. rewrite EQ in EP. injection EP as <-. cbn [as_rows] in LE. split; [|intros W; exact (W LE)].
    destruct rows as [|r rows]; [congruence|]. unfold has_second_column, width in H2. cbn [hd] in H2. inversion HC; subst. now apply Nat.leb_le.
  - intros (L & HK & W). unfold SORDy_object_fit, UC_fit. cbv zeta.
    cbn [with_classes needs_predictions_train estimator_train estimator_test probabilistic]. rewrite HNe, HP, E1, E2. cbn [andb ensure_fitted with_train predictions_train_].
    destruct (Nat.ltb_spec 2 (length (np_unique y))); [lia|]. rewrite (second_matrix k rows HK HC). cbn [as_rows].
    assert (LC : length (col 1 rows) = length rows) by apply map_length. rewrite LC.
    assert (LE : length (y_ext y (length rows)) = length rows) by (destruct (Nat.eq_dec (length (y_ext y (length rows))) (length rows)); [assumption|contradiction]).
    rewrite (checked_ok argsort SO) by lia. eexists. eexists. reflexivity.
Qed.

Lemma so_never_fitted s : SORDy_only_failed A argsort tol s -> forall t p w, raises (snd (predict t p s w)).
Proof.
  intros H t p w. assert (N : so_labels s = None).
  { clear - H. induction H as [et es|s x y given w r s' w' _ I F HR|s x given w _ I]; [reflexivity| |].
    - destruct (so_fit_raises _ _ _ _ _ _ _ _ F HR). congruence.
    - rewrite so_predict_base. exact I. }
  unfold SORDy_object_predict. destruct (UC_predict A (so_base s) w t p) as [[[]| |] q]; cbn; intros v; try discriminate.
  destruct (predictions_test_ q); [|discriminate]. destruct (has_second_column p0); [|discriminate]. rewrite N.
  destruct (classes_ q), (so_scores s); discriminate.
Qed.

Lemma so_after_failed y0 s x y given w r s' w' : after y0 s -> fit x y given s w = (r, s', w') ->
  estimator_test (so_base s') = estimator_test (so_base s) /\ probabilistic (so_base s') = true /\ probabilistic (so_base s) = true /\
  classes_ (so_base s') = Some (np_unique y).
Proof.
  intros HA F. destruct (so_flags _ (so_after_calls _ _ HA)) as [HP _]. destruct (so_fit_base _ _ _ _ _ _ _ _ F) as [r0 UF].
  destruct (UC_fit_keeps A _ _ _ _ _ _ _ _ UF) as (_ & K2 & K3 & _ & K5). repeat split; congruence.
Qed.

Lemma so_keeps y0 c0 c1 rest s x y given w r s' w' : after y0 s -> np_unique y0 = [c0; c1] ->
  fit x y given s w = (r, s', w') -> raises r -> r <> Err IndexError -> np_unique y = c0 :: c1 :: rest ->
  forall t p w2, snd (predict t p s' w2) = snd (predict t p s w2).
Proof.
  intros HA U F HR NI UY. destruct (so_after_failed _ _ _ _ _ _ _ _ _ HA F) as (K1 & K2 & K3 & K4).
  destruct (so_after_settled _ _ HA) as (EC & S & L & ES & EL & LL & LI). destruct (so_fit_raises _ _ _ _ _ _ _ _ F HR) as [R1 R2]. specialize (R2 NI).
  apply so_predict_same; auto. intros test. rewrite K4, EC, R1, R2, ES, EL, U, UY.
  destruct (two_classes y0 c0 c1 U) as (_ & T & _).
  apply (answer_more argsort SO); auto.
  - pose proof (np_unique_sorted y0) as SS. rewrite U in SS. inversion SS as [|? ? _ FA]. inversion FA. assumption.
  - intros z Hz. apply T. auto.
Qed.

Lemma so_blind y0 s x y given w r s' w' : after y0 s -> fit x y given s w = (r, s', w') -> raises r -> (forall z, In z y0 -> ~ In z y) ->
  forall t t' k k' bag bag' w2 w3, (2 <= k)%nat -> Spec_Fit4.columns k bag -> (2 <= k')%nat -> Spec_Fit4.columns k' bag' ->
    snd (predict t (Some (Matrix bag)) s' w2) = snd (predict t' (Some (Matrix bag')) s' w3).
Proof.
  intros HA F HR D t t' k k' bag bag' w2 w3 HK HC HK' HC'. destruct (so_after_failed _ _ _ _ _ _ _ _ _ HA F) as (_ & K2 & _ & K4).
  destruct (so_after_settled _ _ HA) as (_ & S & L & _ & EL & _ & LI). destruct (so_fit_raises _ _ _ _ _ _ _ _ F HR) as [R1 _].
  rewrite !so_predict_val by exact K2. rewrite (second_matrix k bag HK HC), (second_matrix k' bag' HK' HC'), K4, R1, EL.
  destruct (so_scores s') as [S'|]; [|reflexivity]. apply (answer_blind argsort SO). intros z Hz HI. apply (proj1 (np_unique_in z y)) in HI. exact (D z (LI z Hz) HI).
Qed.

Lemma so_mixes y0 rows0 s0 x0 w0 s w0' c0 c1 f x y k0 rows w : calls s0 -> fit x0 y0 (Some (Matrix rows0)) s0 w0 = (Val tt, s, w0') ->
  np_unique y0 = [c0; c1] -> sorted_fit argsort (np_unique y0) (y_ext y0 (length rows0)) (col 1 rows0) = Val f ->
  estimator_train (so_base s) = None -> estimator_test (so_base s) = None ->
  np_unique y = [c0; c1] -> wrong_number y rows -> (2 <= k0)%nat -> Spec_Fit4.columns k0 rows -> length rows = length rows0 ->
  exists s', fit x y (Some (Matrix rows)) s w = (Err IndexError, s', w) /\
  forall t k bag w2, (2 <= k)%nat -> Spec_Fit4.columns k bag ->
    snd (predict t (Some (Matrix bag)) s' w2) =
    as_pair (SORDy_predict argsort tol {| b_classes := [c0; c1]; b_scores := pick (col 1 rows) (argsort (col 1 rows)); b_labels := b_labels f |} (col 1 bag)).
Proof.
  intros C F0 U E E1 E2 UY W HK0 HC0 LR. assert (C' : calls s) by (eapply SORDy_calls_fit; [exact C|exact F0]).
  destruct (so_fit_base _ _ _ _ _ _ _ _ F0) as [r0 UF]. 
  destruct (so_fit_val _ _ _ _ _ _ _ F0) as (_ & p & EP & _ & LE & ES & EL).
  assert (p = Matrix rows0) as ->.
  { assert (R0 : r0 = Val tt).
    { unfold SORDy_object_fit in F0. rewrite UF in F0. destruct r0 as [[]| |]; [reflexivity|discriminate..]. }
    subst r0. pose proof (so_given_train _ _ _ _ _ _ _ C UF). congruence. }
  cbn [as_rows] in *. destruct (so_flags _ C') as [HP HNe].
  assert (LC : length (col 1 rows) = length rows) by apply map_length. assert (LC0 : length (col 1 rows0) = length rows0) by apply map_length.
  assert (LS : (length (y_ext y (length rows)) < length rows)%nat) by (pose proof (y_ext_le y (length rows)); unfold wrong_number in W; lia).
  set (s' := snd (fst (fit x y (Some (Matrix rows)) s w))).
  assert (F : fit x y (Some (Matrix rows)) s w = (Err IndexError, s', w) /\ so_scores s' = Some (pick (col 1 rows) (argsort (col 1 rows))) /\ so_labels s' = so_labels s).
  { unfold s'. unfold SORDy_object_fit, UC_fit. cbv zeta.
    cbn [with_classes needs_predictions_train estimator_train estimator_test probabilistic]. rewrite HNe, HP, E1, E2. cbn [andb ensure_fitted with_train predictions_train_].
    rewrite !UY. cbn [length Nat.ltb Nat.leb]. rewrite (second_matrix k0 rows HK0 HC0). cbn [as_rows]. rewrite LC, (checked_bad argsort SO) by lia. cbn [fst snd so_scores so_labels]. repeat split. }
  destruct F as (F & FS & FL). exists s'. split; [exact F|]. intros t k bag w2 HK HC.
  destruct (so_fit_base _ _ _ _ _ _ _ _ F) as [r1 UF1]. destruct (UC_fit_keeps A _ _ _ _ _ _ _ _ UF1) as (_ & _ & K3 & _ & K5).
  rewrite so_predict_val by congruence. rewrite (second_matrix k bag HK HC), K5, FS, FL, EL, UY. cbn [as_rows].
  unfold sorted_fit in E. rewrite U in E. cbn in E. injection E as <-. cbn [b_labels].
  apply (answer_two argsort SO tol {| b_classes := [c0; c1]; b_scores := pick (col 1 rows) (argsort (col 1 rows));
     b_labels := pick (y_ext y0 (length rows0)) (argsort (col 1 rows0)) |} (col 1 bag) c0 c1); [reflexivity| |].
  - apply (two_classes y c0 c1 UY).
  - cbn. rewrite !(picked_length argsort SO) by lia. lia.
Qed.
End Sorts.
End Object.

(** The object that a failing fit blinds. *)
Lemma so_keeps_refuted : forall argsort tol, sorts argsort pick -> 0 < tol < 1 ->
  let fit := SORDy_object_fit no_algorithm argsort [] in
  let ask s bag := snd (SORDy_object_predict no_algorithm argsort tol [] (Some (Matrix bag)) s nobody) in
  exists s s', fit [0; 1]%Z (Some (Matrix [[1; 0]; [0; 1]])) (SORDy_new None None) nobody = (Val tt, s, nobody) /\
    fit [5; 6]%Z None s nobody = (Err ValueError, s', nobody) /\
    ask s [[1; 0]] <> ask s [[0; 1]] /\ ask s' [[1; 0]] = ask s' [[0; 1]].
Proof.
  intros argsort tol SO HT fit ask.
  assert (C2 : Spec_Fit4.columns 2 [[1; 0]] /\ Spec_Fit4.columns 2 [[0; 1]]) by (split; repeat constructor).
  destruct C2 as [Ca Cb].
  set (s := snd (fst (fit [0; 1]%Z (Some (Matrix [[1; 0]; [0; 1]])) (SORDy_new None None) nobody))).
  set (s' := snd (fst (fit [5; 6]%Z None s nobody))).
  assert (F : fit [0; 1]%Z (Some (Matrix [[1; 0]; [0; 1]])) (SORDy_new None None) nobody = (Val tt, s, nobody)).
  { unfold s, fit, SORDy_object_fit. cbn -[pick_checked]. rewrite (checked_ok argsort SO) by (cbn; lia). reflexivity. }
  assert (F' : fit [5; 6]%Z None s nobody = (Err ValueError, s', nobody)).
  { assert (B : so_base s = with_train (with_classes (so_base (SORDy_new None None)) [0; 1]%Z) (Matrix [[1; 0]; [0; 1]]) (Some [0; 1]%Z)).
    { unfold s, fit, SORDy_object_fit. cbn -[pick_checked]. rewrite (checked_ok argsort SO) by (cbn; lia). reflexivity. }
    unfold s', fit, SORDy_object_fit. rewrite B. reflexivity. }
  exists s, s'. split; [exact F|]. split; [exact F'|].
  assert (HA : SORDy_after_fit no_algorithm argsort tol [0; 1]%Z s) by (eapply SORDy_after_now; [apply (SORDy_calls_new _ _ _ None None)|exact F]).
  split.
  - set (f := {| b_classes := [0; 1]%Z; b_scores := pick [0; 1] (argsort [0; 1]); b_labels := pick [0; 1]%Z (argsort [0; 1]) |}).
    assert (G : forall bag, Spec_Fit4.columns 2 bag -> ask s bag = as_pair (SORDy_predict argsort tol f (col 1 bag))).
    { intros bag HC. unfold ask. apply (so_fit_returns no_algorithm argsort tol SO [] [0; 1]%Z [[1; 0]; [0; 1]] (SORDy_new None None) nobody s nobody 0 1 f
        (SORDy_calls_new _ _ _ None None) F eq_refl eq_refl [] 2 bag nobody); [lia|exact HC]. }
    rewrite !G by assumption.
    assert (SEP : exists v, fraction_upto (select 0 [0; 1]%Z [0; 1]) v <> fraction_upto (select 1 [0; 1]%Z [0; 1]) v).
    { exists (1/2). unfold fraction_upto, select. simpl. destruct (Rle_dec 0 (1/2)), (Rle_dec 1 (1/2)); lra. }
    destruct (sordy_consistent argsort tol [0; 1]%Z [0; 1] [0] 0 1 f 0 SO) as (p & Ep & Hp); try assumption; try reflexivity; try lra; try discriminate.
    { intros v. unfold mixed_fraction_upto, fraction_upto, select. simpl. destruct (Rle_dec 0 v), (Rle_dec 1 v); lra. }
    destruct (sordy_consistent argsort tol [0; 1]%Z [0; 1] [1] 0 1 f 1 SO) as (p' & Ep' & Hp'); try assumption; try reflexivity; try lra; try discriminate.
    { intros v. unfold mixed_fraction_upto, fraction_upto, select. simpl. destruct (Rle_dec 0 v), (Rle_dec 1 v); lra. }
    change (col 1 [[1; 0]]) with [0]. change (col 1 [[0; 1]]) with [1]. rewrite Ep, Ep'. cbn. intros H. injection H as H _.
    unfold Rabs in Hp, Hp'. destruct (Rcase_abs _), (Rcase_abs _); lra.
  - unfold ask. eapply (so_blind no_algorithm argsort tol SO [0; 1]%Z s [] [5; 6]%Z None nobody _ s' nobody HA F') with (k := 2%nat) (k' := 2%nat); auto.
    + intros v. discriminate.
    + intros z Hz. simpl in *. lia.
Qed.
