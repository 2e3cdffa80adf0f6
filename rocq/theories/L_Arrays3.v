(** * Proofs about the objects that keep arrays of the caller. *)

From Coq Require Import Reals List ZArith Lia Lra Bool.
From Verif Require Import Num Spec M_Baselines M_Base M_Metrics M_Ordinal M_Estimators M_Optim M_Search M_Bags M_Arrays
  Spec_Arrays Spec_Rename L_Num L_Estimators L_Rename2 L_Rename3 L_Arrays L_Arrays2.
Import ListNotations.
Open Scope R_scope.

Lemma changes_self : forall h0 h1, caller_changes h0 h1 h1.
Proof. intros. split; auto. Qed.

Lemma keep_program_ok : forall h ya pa y preds, nth_error h ya = Some (Ints y) -> nth_error h pa = Some (Table preds) ->
  exists s h1 new, keep_program ya pa h = Some (s, h1) /\ h1 = h ++ new /\ k_classes s = np_unique y /\ k_predictions s = pa /\
    nth_error h1 (k_labels s) = Some (Ints (y_ext y (length preds))) /\
    (length y = length preds -> k_labels s = ya).
Proof.
  intros h ya pa y preds Hy Hp. unfold keep_program. rewrite (bind_val _ _ _ _ _ _ _ (ints_ok _ _ _ Hy)).
  rewrite (bind_val _ _ _ _ _ _ _ (table_ok _ _ _ Hp)). destruct (Nat.eqb_spec (length y) (length preds)) as [E|E].
  - eexists _, _, []. split; [reflexivity|]. rewrite app_nil_r. cbn. repeat split; auto.
    unfold y_ext. rewrite E, Nat.eqb_refl. auto.
  - eexists _, _, [Ints (y_ext y (length preds))]. split; [reflexivity|]. cbn. repeat split; auto.
    + apply nth_error_new.
    + intros E'. contradiction.
Qed.

(** ** EDy *)

Lemma new_tables : forall (f : Z -> list (list R)) cs acc h,
  for_each cs acc (fun c l => a <- new (Table (f c));; ret (l ++ [a])) h =
  Some (acc ++ seq (length h) (length cs), h ++ map (fun c => Table (f c)) cs).
Proof.
  intros f. induction cs as [|c cs IH]; intros acc h.
  - cbn. now rewrite !app_nil_r.
  - cbn [for_each]. erewrite bind_val by reflexivity. rewrite IH, app_length. cbn [length]. rewrite Nat.add_1_r, <- !app_assoc. reflexivity.
Qed.

Lemma read_tables : forall addrs rows acc h, Forall2 (fun a r => nth_error h a = Some (Table r)) addrs rows ->
  for_each addrs acc (fun a l => r <- table a;; ret (l ++ [r])) h = Some (acc ++ rows, h).
Proof.
  induction addrs as [|a addrs IH]; intros rows acc h F; inversion F; subst.
  - cbn. now rewrite app_nil_r.
  - cbn [for_each]. erewrite bind_val.
    2:{ rewrite (bind_val _ _ _ _ _ _ _ (table_ok _ _ _ H1)). reflexivity. }
    rewrite (IH l'); auto. now rewrite <- app_assoc.
Qed.

Lemma nth_error_map : forall (A B : Type) (f : A -> B) l i, nth_error (map f l) i = option_map f (nth_error l i).
Proof. induction l; intros [|i]; simpl; auto. Qed.

Lemma Forall2_tables : forall (f : Z -> list (list R)) cs n (h : heap),
  (forall i c, nth_error cs i = Some c -> nth_error h (n + i) = Some (Table (f c))) ->
  Forall2 (fun a r => nth_error h a = Some (Table r)) (seq n (length cs)) (map f cs).
Proof.
  intros f. induction cs as [|c cs IH]; intros n h H; [constructor|]. cbn [length seq map]. constructor.
  - specialize (H 0%nat c eq_refl). now rewrite Nat.add_0_r in H.
  - apply IH. intros i d E. specialize (H (S i) d E). now rewrite Nat.add_succ_r in H.
Qed.

Lemma ED_predict_ext : forall N (f : @ed_fitted (list R)) train test, reads_dimensions N -> ed_classes f <> [] ->
  (forall i, (i < length (ed_classes f))%nat -> train i = ed_train f i) ->
  ED_predict N {| ed_classes := ed_classes f; ed_train := train; ed_sizes := ed_sizes f;
                  ed_dist := ed_dist f; ed_Kmat := ed_Kmat f; ed_Gmat := ed_Gmat f; ed_Cmat := ed_Cmat f;
                  ed_bvec := ed_bvec f |} test = ED_predict N f test.
Proof.
  intros N f train test RN Ne T. unfold ED_predict, ed_defined. cbn [ed_classes ed_train ed_sizes ed_dist ed_Kmat ed_Gmat ed_Cmat ed_bvec].
  set (n := length (ed_classes f)) in *. assert (Hn : (0 < n)%nat) by (unfold n; destruct (ed_classes f); [congruence|simpl; lia]).
  rewrite (forallb_seq_ext n (fun i => negb (Nat.eqb (length (train i)) 0)) (fun i => negb (Nat.eqb (length (ed_train f i)) 0))).
  2:{ intros i Hi. now rewrite T. }
  destruct (_ && _); auto. unfold solve_ed.
  rewrite (reads_qp N RN (n - 1) n (ed_Gmat f) (ed_Gmat f) _
    (compute_ed_param_test n (ed_dist f) (ed_train f) test (ed_Kmat f) (ed_sizes f)) (ed_Cmat f) (ed_bvec f) 0); auto.
  intros i Hi. unfold compute_ed_param_test. now rewrite !T by lia.
Qed.

Lemma EDy_snapshot : forall N fuel dist h0 ya pa y preds f, reads_dimensions N -> y <> [] ->
  nth_error h0 ya = Some (Ints y) -> nth_error h0 pa = Some (Table preds) ->
  ED_fit N fuel dist (np_unique y) (y_ext y (length preds)) preds = Some f ->
  exists o h1, EDy_fit_program N fuel dist ya pa h0 = Some (o, h1) /\ untouched h0 h1 /\
  forall h2, caller_changes h0 h1 h2 -> forall test, value (EDy_answer N o test) h2 = Some (ED_predict N f test).
Proof.
  intros N fuel dist h0 ya pa y preds f RN Ny Hy Hp Ef. unfold EDy_fit_program.
  destruct (keep_program_ok h0 ya pa y preds Hy Hp) as [s [h1 [nw [E [-> [Ec [Ep [El _]]]]]]]].
  rewrite (bind_val _ _ _ _ _ _ _ E). rewrite Ep, Ec.
  rewrite (bind_val _ _ _ _ _ preds (h0 ++ nw)) by (apply table_ok, untouched_app; auto).
  rewrite (bind_val _ _ _ _ _ _ _ (ints_ok _ _ _ El)). set (ye := y_ext y (length preds)) in *.
  rewrite (bind_val _ _ _ _ _ _ _ (new_tables (fun c => select c ye preds) (np_unique y) [] (h0 ++ nw))). rewrite Ef.
  eexists _, _. split; [reflexivity|]. split; [rewrite <- app_assoc; apply untouched_app|].
  intros h2 [L Hc] test. unfold EDy_answer, value. cbn [eo_train eo_fitted app].
  assert (F : Forall2 (fun a r => nth_error h2 a = Some (Table r)) (seq (length (h0 ++ nw)) (length (np_unique y)))
                (map (fun c => select c ye preds) (np_unique y))).
  { apply Forall2_tables. intros i c Hi. assert (Li := some_lt _ _ _ _ Hi). rewrite Hc.
    - rewrite nth_error_app2 by lia. replace (length (h0 ++ nw) + i - length (h0 ++ nw))%nat with i by lia.
      now rewrite nth_error_map, Hi.
    - rewrite !app_length, map_length. lia. }
  rewrite (bind_val _ _ _ _ _ _ _ (read_tables _ _ [] h2 F)). cbn [app]. unfold ret. cbn [option_map fst]. f_equal.
  assert (Cf : ed_classes f = np_unique y /\ forall i, ed_train f i = select (nth i (np_unique y) 0%Z) ye preds).
  { unfold ED_fit, compute_ed_param_train in Ef. cbv zeta in Ef. destruct (ensure_pd _ _ _ _); [|discriminate].
    injection Ef as <-. split; reflexivity. }
  destruct Cf as [C1 C2]. apply ED_predict_ext; auto.
  - rewrite C1. destruct y as [|z y]; [congruence|]. intros C. assert (I : In z (np_unique (z :: y))) by (apply np_unique_in; now left).
    rewrite C in I. destruct I.
  - rewrite C1. intros i Hi. rewrite C2.
    rewrite (nth_indep _ [] (select 0%Z ye preds)) by now rewrite map_length. apply (map_nth (fun c => select c ye preds)).
Qed.

(** ** SORDy and QUANTy *)

Lemma sorted_snapshot : forall argsort h0 ya pa y preds f,
  nth_error h0 ya = Some (Ints y) -> nth_error h0 pa = Some (Table preds) ->
  sorted_fit argsort (np_unique y) (y_ext y (length preds)) (col 1 preds) = Val f ->
  exists o h1, sorted_fit_program argsort ya pa h0 = Some (o, h1) /\ untouched h0 h1 /\
  forall h2, caller_changes h0 h1 h2 -> sorted_state o h2 = Some (f, h2).
Proof.
  intros argsort h0 ya pa y preds f Hy Hp Ef. unfold sorted_fit_program.
  destruct (keep_program_ok h0 ya pa y preds Hy Hp) as [s [h1 [nw [E [-> [Ec [Ep [El _]]]]]]]].
  rewrite (bind_val _ _ _ _ _ _ _ E). rewrite Ec. unfold sorted_fit in Ef.
  destruct (Nat.ltb 2 (length (np_unique y))); [discriminate|]. injection Ef as <-. rewrite Ep.
  rewrite (bind_val _ _ _ _ _ preds (h0 ++ nw)) by (apply table_ok, untouched_app; auto).
  rewrite (bind_val _ _ _ _ _ _ _ (ints_ok _ _ _ El)). cbv zeta.
  set (sc := pick (col 1 preds) (argsort (col 1 preds))). set (lb := pick (y_ext y (length preds)) (argsort (col 1 preds))).
  erewrite bind_val by reflexivity. erewrite bind_val by reflexivity.
  eexists _, _. split; [reflexivity|]. split; [rewrite <- !app_assoc; apply untouched_app|].
  intros h2 [L Hc]. unfold sorted_state. cbn [so_kept so_scores so_labels]. rewrite Ec.
  assert (A1 : nth_error h2 (length (h0 ++ nw)) = Some (Floats sc)).
  { rewrite Hc by (rewrite !app_length; cbn [length]; lia). rewrite nth_error_app1; [apply nth_error_new|].
    rewrite (app_length (h0 ++ nw)). cbn [length]. lia. }
  assert (A2 : nth_error h2 (length ((h0 ++ nw) ++ [Floats sc])) = Some (Ints lb)).
  { rewrite Hc by (rewrite !app_length; cbn [length]; lia). apply nth_error_new. }
  rewrite (bind_val _ _ _ _ _ _ _ (floats_ok _ _ _ A1)). rewrite (bind_val _ _ _ _ _ _ _ (ints_ok _ _ _ A2)). reflexivity.
Qed.

Lemma SORDy_snapshot : forall argsort tol h0 ya pa y preds f,
  nth_error h0 ya = Some (Ints y) -> nth_error h0 pa = Some (Table preds) ->
  sorted_fit argsort (np_unique y) (y_ext y (length preds)) (col 1 preds) = Val f ->
  exists o h1, sorted_fit_program argsort ya pa h0 = Some (o, h1) /\ untouched h0 h1 /\
  forall h2, caller_changes h0 h1 h2 -> forall test, value (SORDy_answer argsort tol o test) h2 = Some (SORDy_predict argsort tol f test).
Proof.
  intros argsort tol h0 ya pa y preds f Hy Hp Ef. destruct (sorted_snapshot _ _ _ _ _ _ _ Hy Hp Ef) as [o [h1 [A [B C]]]].
  exists o, h1. split; auto. split; auto. intros h2 Hc test. unfold value, SORDy_answer.
  rewrite (bind_val _ _ _ _ _ _ _ (C h2 Hc)). reflexivity.
Qed.

Lemma QUANTy_snapshot : forall argsort q distance tol h0 ya pa y preds f,
  nth_error h0 ya = Some (Ints y) -> nth_error h0 pa = Some (Table preds) ->
  sorted_fit argsort (np_unique y) (y_ext y (length preds)) (col 1 preds) = Val f ->
  exists o h1, sorted_fit_program argsort ya pa h0 = Some (o, h1) /\ untouched h0 h1 /\
  forall h2, caller_changes h0 h1 h2 -> forall test,
    value (QUANTy_answer argsort q distance tol o test) h2 = Some (omap snd (QUANTy_predict argsort q distance tol f None test)).
Proof.
  intros argsort q distance tol h0 ya pa y preds f Hy Hp Ef. destruct (sorted_snapshot _ _ _ _ _ _ _ Hy Hp Ef) as [o [h1 [A [B C]]]].
  exists o, h1. split; auto. split; auto. intros h2 Hc test. unfold value, QUANTy_answer.
  rewrite (bind_val _ _ _ _ _ _ _ (C h2 Hc)). reflexivity.
Qed.

(** ** CvMy *)

Lemma CvMy_reads : forall h0 ya pa y preds, nth_error h0 ya = Some (Ints y) -> nth_error h0 pa = Some (Table preds) ->
  length y = length preds ->
  exists o, CvMy_fit_program ya pa h0 = Some (o, h0) /\
  forall N fuel dist k h2 y2 preds2, nth_error h2 ya = Some (Ints y2) -> nth_error h2 pa = Some (Table preds2) ->
  forall test, value (CvMy_answer N fuel dist k o test) h2 = CvMy_predict N fuel dist (np_unique y) y2 k preds2 test.
Proof.
  intros h0 ya pa y preds Hy Hp L. unfold CvMy_fit_program, keep_program. rewrite (bind_val _ _ _ _ _ _ _ (ints_ok _ _ _ Hy)).
  rewrite (bind_val _ _ _ _ _ _ _ (table_ok _ _ _ Hp)), L, Nat.eqb_refl. eexists. split; [reflexivity|].
  intros N fuel dist k h2 y2 preds2 Hy2 Hp2 test. unfold value, CvMy_answer. cbn [k_predictions k_labels k_classes].
  rewrite (bind_val _ _ _ _ _ _ _ (table_ok _ _ _ Hp2)). rewrite (bind_val _ _ _ _ _ _ _ (ints_ok _ _ _ Hy2)).
  destruct (CvMy_predict _ _ _ _ _ _ _ _); reflexivity.
Qed.

(** ** PWK *)

Lemma PWK_reads : forall h0 ya y, nth_error h0 ya = Some (Ints y) ->
  exists o h1, PWK_fit_program ya h0 = Some (o, h1) /\ untouched h0 h1 /\
  forall h2 y2, caller_changes h0 h1 h2 -> nth_error h2 ya = Some (Ints y2) -> forall all,
  value (PWK_answer o all) h2 =
  Some (map (fun neighbours => weighted_mode y2 (PWK_weights y) neighbours (np_unique (map (fun i => nth i y2 0%Z) (concat all))) 0 0) all).
Proof.
  intros h0 ya y Hy. unfold PWK_fit_program. rewrite (bind_val _ _ _ _ _ _ _ (ints_ok _ _ _ Hy)).
  destruct (pwk_weights_program_ok h0 ya y Hy) as [h' [E ->]]. rewrite (bind_val _ _ _ _ _ _ _ E).
  eexists _, _. split; [reflexivity|]. split; [apply untouched_app|].
  intros h2 y2 [L Hc] Hy2 all. unfold value, PWK_answer. cbn [po_y po_weights].
  rewrite (bind_val _ _ _ _ _ _ _ (ints_ok _ _ _ Hy2)).
  assert (A : nth_error h2 (length h0) = Some (Floats (PWK_weights y))).
  { rewrite Hc by (rewrite app_length; cbn [length]; lia). apply nth_error_new. }
  rewrite (bind_val _ _ _ _ _ _ _ (floats_ok _ _ _ A)). reflexivity.
Qed.

(** ** CV_estimator *)

Lemma CV_reads : forall {M} (A : learner (list R) M) h0 xa ya x y folds,
  nth_error h0 xa = Some (Table x) -> nth_error h0 ya = Some (Ints y) ->
  exists o, CV_fit_program A xa ya folds h0 = Some (o, h0) /\
  forall h2 x2 y2, nth_error h2 xa = Some (Table x2) -> nth_error h2 ya = Some (Ints y2) ->
  forall eqX averaged folds1 folds2 z,
  value (CV_answer A eqX averaged o folds1 folds2 z) h2 =
  Some (CV_predict_proba A eqX averaged
          {| cv_X := x2; cv_y := y2; cv_classes := np_unique y; cv_estimators := cv_estimators (CV_fit A x y folds) |} folds1 folds2 z).
Proof.
  intros M A h0 xa ya x y folds Hx Hy. unfold CV_fit_program. rewrite (bind_val _ _ _ _ _ _ _ (table_ok _ _ _ Hx)).
  rewrite (bind_val _ _ _ _ _ _ _ (ints_ok _ _ _ Hy)). eexists. split; [reflexivity|].
  intros h2 x2 y2 Hx2 Hy2 eqX averaged folds1 folds2 z. unfold value, CV_answer. cbn [co_X co_y co_classes co_estimators].
  rewrite (bind_val _ _ _ _ _ _ _ (table_ok _ _ _ Hx2)). rewrite (bind_val _ _ _ _ _ _ _ (ints_ok _ _ _ Hy2)). reflexivity.
Qed.

(** ** Bag generators *)

Lemma generate_shares : forall draw h0, exists a h1 s,
  generate_program draw None h0 = Some ((a, s), h1) /\ untouched h0 h1 /\ nth_error h1 a = Some (Drawn draw) /\
  forall draw' h2, generate_program draw' s h2 = Some ((a, s), h2).
Proof.
  intros draw h0. exists (length h0), (h0 ++ [Drawn draw]), (Some (length h0)).
  split; [reflexivity|]. split; [apply untouched_app|]. split; [apply nth_error_new|]. reflexivity.
Qed.

(** ** Refutations *)

(** Two training examples, whose labels are exchanged by the caller after fit. *)
Lemma PWK_copies_refuted : ~ forall ya all, keeps_copies (PWK_fit_program ya) (fun o => PWK_answer o all).
Proof.
  intros H. specialize (H 0%nat [[0%nat]]). unfold keeps_copies in H.
  destruct (PWK_reads [Ints [1; 2]%Z] 0 [1; 2]%Z eq_refl) as [o [h1 [E [U R]]]].
  assert (Eh : h1 = [Ints [1; 2]%Z; Floats (PWK_weights [1; 2]%Z)]).
  { unfold PWK_fit_program in E. rewrite (bind_val _ _ _ _ _ _ _ (ints_ok 0 [Ints [1; 2]%Z] [1; 2]%Z eq_refl)) in E.
    destruct (pwk_weights_program_ok [Ints [1; 2]%Z] 0 [1; 2]%Z eq_refl) as [h' [E' ->]].
    rewrite (bind_val _ _ _ _ _ _ _ E') in E. injection E as _ <-. reflexivity. }
  subst h1. set (w := PWK_weights [1; 2]%Z) in *.
  specialize (H _ o _ [Ints [2; 1]%Z; Floats w] E).
  assert (C : caller_changes [Ints [1; 2]%Z] [Ints [1; 2]%Z; Floats w] [Ints [2; 1]%Z; Floats w]).
  { split; [simpl; lia|]. intros [|[|a]] Ha; simpl in Ha; try lia. reflexivity. }
  specialize (H C). rewrite (R _ [2; 1]%Z C eq_refl), (R _ [1; 2]%Z (changes_self _ _) eq_refl) in H.
  assert (P : 0 < class_weight [2; 1]%Z w [0%nat] 2 /\ 0 < class_weight [1; 2]%Z w [0%nat] 1).
  { unfold w, class_weight, PWK_weights. cbn. unfold zcount. cbn. split; lra. }
  destruct P as [P1 P2]. cbn [map concat app nth np_unique fold_right zinsert weighted_mode] in H.
  destruct (Rlt_dec 0 (class_weight [2; 1]%Z w [0%nat] 2)); [|contradiction].
  destruct (Rlt_dec 0 (class_weight [1; 2]%Z w [0%nat] 1)); [|contradiction].
  discriminate.
Qed.
