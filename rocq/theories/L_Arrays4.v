(** * Arrays kept by objects: refutations with computed examples. *)

From Coq Require Import Reals List ZArith Lia Lra Bool.
From Verif Require Import Num Spec M_Baselines M_Base M_Metrics M_Ordinal M_Estimators M_Optim M_Search M_Bags M_Arrays
  Spec_Arrays Spec_Rename L_Num L_Estimators L_Rename2 L_Rename3 L_Arrays L_Arrays2 L_Arrays3.
Import ListNotations.
Open Scope R_scope.

Definition line_distance (a b : list R) : R := Rabs (hd 0 a - hd 0 b).

Lemma ED_line : forall a b c, a <> b ->
  option_map (fun m => ED_predict one_variable m [[c]])
    (ED_fit one_variable 1 line_distance [2; 5]%Z [2; 5]%Z [[a]; [b]]) =
  Some (Val [clip01 (2 * (- Rabs (a - c) + Rabs (a - b) + Rabs (b - c)) / (4 * Rabs (a - b)));
             1 - (clip01 (2 * (- Rabs (a - c) + Rabs (a - b) + Rabs (b - c)) / (4 * Rabs (a - b))) + 0)]).
Proof.
  intros a b c Hab. rewrite ED_unfold. cbv zeta. cbn [length Nat.sub].
  set (tr := fun i => select (nth i [2; 5]%Z 0%Z) [2; 5]%Z [[a]; [b]]).
  set (K := ed_K _ _ _).
  assert (T0 : tr 0%nat = [[a]]) by reflexivity. assert (T1 : tr 1%nat = [[b]]) by reflexivity.
  assert (P : 0 < Rabs (a - b)) by (apply Rabs_pos_lt; lra).
  assert (Z1 : Rabs (a - a) = 0) by (rewrite Rminus_diag_eq, Rabs_R0; auto).
  assert (Z2 : Rabs (b - b) = 0) by (rewrite Rminus_diag_eq, Rabs_R0; auto).
  assert (K00 : K 0%nat 0%nat = 0).
  { unfold K, ed_K. cbn [Nat.leb]. change (select _ _ _) with (tr 0%nat). rewrite T0. unfold pair_sum, line_distance. simpl. rewrite Z1. lra. }
  assert (K01 : K 0%nat 1%nat = Rabs (a - b)).
  { unfold K, ed_K. cbn [Nat.leb]. rewrite T0, T1. unfold pair_sum, line_distance. simpl. lra. }
  assert (K11 : K 1%nat 1%nat = 0).
  { unfold K, ed_K. cbn [Nat.leb]. rewrite T1. unfold pair_sum, line_distance. simpl. rewrite Z2. lra. }
  assert (G00 : 2 * ed_B 2 K 0%nat 0%nat = 4 * Rabs (a - b)). { unfold ed_B. simpl. rewrite K00, K01, K11. lra. }
  assert (Pd : is_pd 1 (fun i j => 2 * ed_B 2 K i j) = true).
  { unfold is_pd, dpofa. cbn [dpofa_from dpofa_column seq fold_left]. rewrite G00. destruct (Rle_dec (4 * Rabs (a - b) - 0) 0); [lra|reflexivity]. }
  unfold ensure_pd. rewrite Pd. cbn [option_map].
  match goal with |- context [if ?b then _ else NotANumber] => change b with true end. cbv iota.
  unfold solve_ed. cbn [solve_qp one_variable Nat.sub Nat.eqb]. rewrite G00.
  assert (Ea : compute_ed_param_test 2 line_distance tr [[c]] K (fun i => INR (length (tr i))) 0%nat =
               2 * (- Rabs (a - c) + Rabs (a - b) + Rabs (b - c))).
  { unfold compute_ed_param_test. cbn [Nat.sub]. rewrite T0, T1, K01, K11. unfold pair_sum, line_distance. simpl. lra. }
  match goal with |- context [clip01 (?e / _)] => change e with
    (compute_ed_param_test 2 line_distance tr [[c]] K (fun i => INR (length (tr i))) 0%nat) end.
  rewrite Ea. reflexivity.
Qed.

Lemma ranks_1 : rank_columns 1 [[0]; [1]; [0]] = [[3/2]; [3]; [3/2]].
Proof.
  unfold rank_columns, tabulate, rankdata, count_below, count_equal. cbn.
  repeat match goal with |- context [Rlt_dec ?x ?y] => destruct (Rlt_dec x y); try lra end.
  repeat match goal with |- context [Req_EM_T ?x ?y] => destruct (Req_EM_T x y); try lra end.
  cbn. repeat (apply f_equal2; [apply f_equal2; [lra|reflexivity]|]). reflexivity.
Qed.

Lemma ranks_2 : rank_columns 1 [[1]; [0]; [0]] = [[3]; [3/2]; [3/2]].
Proof.
  unfold rank_columns, tabulate, rankdata, count_below, count_equal. cbn.
  repeat match goal with |- context [Rlt_dec ?x ?y] => destruct (Rlt_dec x y); try lra end.
  repeat match goal with |- context [Req_EM_T ?x ?y] => destruct (Req_EM_T x y); try lra end.
  cbn. repeat (apply f_equal2; [apply f_equal2; [lra|reflexivity]|]). reflexivity.
Qed.

Lemma CvMy_as_ED : forall N fuel dist classes y k tr te,
  CvMy_predict N fuel dist classes y k tr te =
  option_map (fun f => ED_predict N f (skipn (length tr) (rank_columns k (tr ++ te))))
    (ED_fit N fuel dist classes y (firstn (length tr) (rank_columns k (tr ++ te)))).
Proof. intros. unfold CvMy_predict. destruct (ED_fit _ _ _ _ _ _); reflexivity. Qed.

Lemma CvMy_value_1 : exists p, CvMy_predict one_variable 1 line_distance [2; 5]%Z [2; 5]%Z 1 [[0]; [1]] [[0]] = Some (Val p) /\ hd 0 p = 1.
Proof.
  rewrite CvMy_as_ED. cbn [app length]. rewrite ranks_1. cbn [firstn skipn]. rewrite (ED_line (3/2) 3 (3/2)) by lra.
  eexists. split; [reflexivity|]. cbn [hd].
  assert (A1 : Rabs (3/2 - 3/2) = 0) by (rewrite Rabs_right; lra).
  assert (A2 : Rabs (3/2 - 3) = 3/2) by (rewrite Rabs_left; lra).
  assert (A3 : Rabs (3 - 3/2) = 3/2) by (rewrite Rabs_right; lra). rewrite A1, A2, A3.
  unfold clip01. replace (2 * (- 0 + 3 / 2 + 3 / 2) / (4 * (3 / 2))) with 1 by lra.
  rewrite Rmax_left, Rmin_left; lra.
Qed.

Lemma CvMy_value_2 : exists p, CvMy_predict one_variable 1 line_distance [2; 5]%Z [2; 5]%Z 1 [[1]; [0]] [[0]] = Some (Val p) /\ hd 0 p = 0.
Proof.
  rewrite CvMy_as_ED. cbn [app length]. rewrite ranks_2. cbn [firstn skipn]. rewrite (ED_line 3 (3/2) (3/2)) by lra.
  eexists. split; [reflexivity|]. cbn [hd].
  assert (A1 : Rabs (3/2 - 3/2) = 0) by (rewrite Rabs_right; lra).
  assert (A3 : Rabs (3 - 3/2) = 3/2) by (rewrite Rabs_right; lra). rewrite A1, A3.
  unfold clip01. replace (2 * (- (3 / 2) + 3 / 2 + 0) / (4 * (3 / 2))) with 0 by lra.
  rewrite Rmax_left, Rmin_left; lra.
Qed.

(** The caller reuses the array of predictions after fit. *)
Lemma CvMy_copies_refuted : ~ forall N fuel dist k ya pa test,
  keeps_copies (CvMy_fit_program ya pa) (fun o => CvMy_answer N fuel dist k o test).
Proof.
  intros H. specialize (H one_variable 1%nat line_distance 1%nat 0%nat 1%nat [[0]]).
  destruct (CvMy_reads [Ints [2; 5]%Z; Table [[0]; [1]]] 0 1 [2; 5]%Z [[0]; [1]] eq_refl eq_refl eq_refl) as [o [E R]].
  specialize (H _ o _ [Ints [2; 5]%Z; Table [[1]; [0]]] E).
  cbv beta in H.
  rewrite (R one_variable 1%nat line_distance 1%nat [Ints [2; 5]%Z; Table [[1]; [0]]] [2; 5]%Z [[1]; [0]] eq_refl eq_refl) in H.
  rewrite (R one_variable 1%nat line_distance 1%nat [Ints [2; 5]%Z; Table [[0]; [1]]] [2; 5]%Z [[0]; [1]] eq_refl eq_refl) in H.
  destruct CvMy_value_1 as [p [E1 P1]]. destruct CvMy_value_2 as [q [E2 P2]].
  change (np_unique [2; 5]%Z) with [2; 5]%Z in H. rewrite E1, E2 in H.
  assert (C : q = p). { assert (X : Some (Val q) = Some (Val p)); [apply H|now injection X]. 
    split; [simpl; lia|]. intros a Ha. simpl in Ha. lia. }
  subst q. lra.
Qed.

(** ** CV_estimator *)

(** np.array_equal of two matrices given by their rows. *)
Definition equal_rows (a b : list (list R)) : bool := if list_eq_dec (list_eq_dec Req_EM_T) a b then true else false.

(** A learner that remembers the first entry of its first example and answers it. *)
Definition first_entry : learner (list R) R := {| p_learn := fun x _ => hd 0 (hd [] x); p_row := fun m _ => [m] |}.

Definition two_folds : list fold_t := [([0%nat], [1%nat]); ([1%nat], [0%nat])].

(** The training set [[0], [8]] is overwritten by the caller with [[1], [2]]; then the answers for [[1], [2]] are those of
    the models of the folds and not the average of the models. *)
Lemma CV_copies_refuted : ~ forall (M : Type) (A : learner (list R) M) averaged xa ya folds z,
  keeps_copies (CV_fit_program A xa ya folds) (fun o => CV_answer A equal_rows averaged o folds folds z).
Proof.
  intros H. specialize (H R first_entry true 0%nat 1%nat two_folds [[1]; [2]]).
  destruct (CV_reads first_entry [Table [[0]; [8]]; Ints [3; 3]%Z] 0 1 [[0]; [8]] [3; 3]%Z two_folds eq_refl eq_refl) as [o [E Rd]].
  specialize (H _ o _ [Table [[1]; [2]]; Ints [3; 3]%Z] E).
  cbv beta in H.
  rewrite (Rd [Table [[1]; [2]]; Ints [3; 3]%Z] [[1]; [2]] [3; 3]%Z eq_refl eq_refl) in H.
  rewrite (Rd [Table [[0]; [8]]; Ints [3; 3]%Z] [[0]; [8]] [3; 3]%Z eq_refl eq_refl) in H.
  assert (C : caller_changes [Table [[0]; [8]]; Ints [3; 3]%Z] [Table [[0]; [8]]; Ints [3; 3]%Z] [Table [[1]; [2]]; Ints [3; 3]%Z]).
  { split; [simpl; lia|]. intros a Ha. simpl in Ha. lia. }
  specialize (H C). clear - H. unfold CV_predict_proba, CV_raw in H. cbn [cv_estimators CV_fit cv_X cv_classes two_folds map pick flat_map nth_error app first_entry p_learn hd fst] in H.
  unfold equal_rows in H.
  destruct (list_eq_dec (list_eq_dec Req_EM_T) [[1]; [2]] [[1]; [2]]) as [_|N]; [|congruence].
  destruct (list_eq_dec (list_eq_dec Req_EM_T) [[1]; [2]] [[0]; [8]]) as [Y|_]; [injection Y; intros; lra|].
  cbn in H. injection H as H1 _. unfold rmean in H1. cbn in H1. lra.
Qed.

(** ** The correction and the nodes of the DDAG *)

Lemma correct_program_new_refuted : ~ forall h a p, nth_error h a = Some (Floats p) ->
  returns_new (correct_program a) h (Floats (correct_asc p)).
Proof.
  intros H. destruct (H [Floats [0; 1]] 0%nat [0; 1] eq_refl) as [r [h' [E [_ [_ N]]]]].
  rewrite (correct_program_same [Floats [0; 1]] 0 [0; 1] eq_refl) in E.
  - injection E as <- _. discriminate.
  - simpl. destruct (Rle_dec 0 1); auto. lra.
Qed.

Lemma winner_node_untouched_refuted : ~ forall h a ps h', nth_error h a = Some (Table (pairs ps)) ->
  winner_node_program a h = Some (tt, h') -> untouched h h'.
Proof.
  intros H. set (ps := [(1/4, 3/4)]).
  assert (E := winner_node_program_ok [Table (pairs ps)] 0 ps 0 2 eq_refl ltac:(simpl; lia)).
  specialize (H [Table (pairs ps)] 0%nat ps _ eq_refl E 0%nat _ eq_refl). cbn in H.
  destruct (Rlt_dec (1/4) (1/2)); [|lra]. injection H as H1 _. lra.
Qed.

Lemma correct_program_example :
  let h := [Ints [4; 7]%Z; Floats [1/10; 6/10; 4/10; 9/10]] in
  returns_new (correct_program 1%nat) h (Floats [1/10; 5/10; 5/10; 9/10]).
Proof.
  cbv zeta. set (p := [1/10; 6/10; 4/10; 9/10]).
  assert (A : is_ascending p = false).
  { unfold p. simpl. destruct (Rle_dec (1/10) (6/10)); [|lra]. destruct (Rle_dec (6/10) (4/10)); [lra|reflexivity]. }
  assert (E : correct_asc p = [1/10; 5/10; 5/10; 9/10]).
  { unfold correct_asc. rewrite A. unfold p. simpl.
    repeat match goal with |- context [Rlt_dec ?x ?y] => destruct (Rlt_dec x y); try lra end.
    simpl. repeat (apply f_equal2; [lra|]). reflexivity. }
  rewrite <- E. apply correct_program_ok; auto.
Qed.

Lemma threshold_program_example : let h := [Floats [1/2; 1/5; 9/10]] in returns_new (threshold_program 0%nat) h (Ints [1; 0; 1]%Z).
Proof.
  cbv zeta. assert (E : threshold [1/2; 1/5; 9/10] = [1; 0; 1]%Z).
  { unfold threshold. simpl. repeat match goal with |- context [Rle_dec ?x ?y] => destruct (Rle_dec x y); try lra end. reflexivity. }
  rewrite <- E. apply threshold_program_ok. reflexivity.
Qed.

Lemma quantiles_program_example :
  let h := [Floats [1/5; 3/5; 4/5]; Floats [1; 1; 1]] in
  returns_new (quantiles_program 2 0%nat 1%nat) h (Floats (quantiles_of 2 [1/5; 3/5; 4/5] [1; 1; 1])) /\
  quantiles_of 2 [1/5; 3/5; 4/5] [1; 1; 1] = [1/3; 11/15].
Proof.
  cbv zeta. split; [apply quantiles_program_ok; auto|].
  unfold quantiles_of. cbn [length combine fold_left].
  assert (C0 : cutpoint 2 3 0 = 3/2) by (unfold cutpoint; simpl; lra).
  assert (C1 : cutpoint 2 3 1 = 3) by (unfold cutpoint; simpl; lra).
  unfold quantile_step at 3. rewrite C0. destruct (Rle_dec (0 + 1) (3/2)); [|lra].
  unfold quantile_step at 2. rewrite C0. destruct (Rle_dec (0 + 1 + 1) (3/2)); [lra|].
  cbn [spread]. destruct (Rlt_dec (1/10000) (0 + 1 + 1 - 3/2)); [|lra]. cbn [Nat.ltb Nat.leb Nat.sub Nat.add].
  rewrite C0, C1. rewrite (Rmin_left (0 + 1 + 1 - 3/2) (3 - 3/2)) by lra.
  destruct (Rlt_dec (1 / 10000) (0 + 1 + 1 - 3 / 2 - (0 + 1 + 1 - 3 / 2))); [lra|].
  unfold quantile_step. rewrite C1. destruct (Rle_dec (0 + 1 + 1 + 1) 3); [|lra].
  cbn [repeat add_nth vdiv map]. apply f_equal2; [lra|]. apply f_equal2; [lra|reflexivity].
Qed.

Lemma arrays_example :
  let h0 := [Ints [2; 5]%Z; Table [[0]; [1]]] in
  (exists f, ED_fit one_variable 1 line_distance (np_unique [2; 5]%Z) (y_ext [2; 5]%Z 2) [[0]; [1]] = Some f) /\
  reads_dimensions one_variable /\ caller_changes h0 h0 [Ints [2; 5]%Z; Table [[1]; [0]]].
Proof.
  cbv zeta. split; [|split].
  - change (np_unique [2; 5]%Z) with [2; 5]%Z. change (y_ext [2; 5]%Z 2) with [2; 5]%Z.
    assert (E := ED_line 0 1 0 ltac:(lra)). destruct (ED_fit _ _ _ _ _ _) as [f|]; [now exists f|discriminate].
  - apply one_variable_reads.
  - split; [simpl; lia|]. intros a Ha. simpl in Ha. lia.
Qed.
