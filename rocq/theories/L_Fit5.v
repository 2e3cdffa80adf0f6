(** * Proofs about fitting: what a fitted FrankAndHallClassifier answers; the bags of an ensemble. *)

From Coq Require Import Reals List ZArith Bool Lia Lra Permutation.
From Verif Require Import Num Spec M_Baselines M_Base M_Ordinal M_Estimators M_Optim M_History M_Fit Spec_Ordinal Spec_Fit
  L_Num L_Ordinal2 L_Ordinal4 L_Fit L_Fit2 L_Fit3.
Import ListNotations.
Open Scope R_scope.

Section Answers.
Context {X Pm Ob : Type} (E : estimator_class X Pm Ob) (accepted : list X -> list Z -> bool).

Lemma left_column_inv store estimators x i c : left_column E store estimators x i = Val c ->
  exists r m rows, nth_error estimators i = Some (Some r) /\ nth_error store r = Some m /\ ec_proba E m x = Val rows /\
    Forall (fun row => (2 <= length row)%nat) rows /\ c = map (fun row => nth 1 row 0) rows.
Proof using.
  unfold left_column. destruct (nth_error estimators i) as [[r|]|]; try discriminate.
  destruct (nth_error store r) as [m|] eqn:Hm; try discriminate.
  destruct (ec_proba E m x) as [rows|e|] eqn:Hp; try discriminate. cbn [obind].
  destruct (forallb _ rows) eqn:F; [|discriminate]. intros [= <-]. exists r, m, rows. repeat (split; [auto; fail|]).
  split; [|reflexivity]. apply Forall_forall. intros row Hrow. rewrite forallb_forall in F. now apply Nat.leb_le, F.
Qed.

Lemma left_column_intro store estimators x i r m rows : nth_error estimators i = Some (Some r) -> nth_error store r = Some m ->
  ec_proba E m x = Val rows -> Forall (fun row => (2 <= length row)%nat) rows ->
  left_column E store estimators x i = Val (map (fun row => nth 1 row 0) rows).
Proof using.
  intros H1 H2 H3 H4. unfold left_column. rewrite H1, H2, H3. cbn [obind].
  replace (forallb _ rows) with true; [reflexivity|]. symmetry. apply forallb_forall. intros row Hrow.
  apply Nat.leb_le. rewrite Forall_forall in H4. now apply H4.
Qed.

(** The answers of the members for [x]: an array with at least two columns and one row per example. *)
Lemma binary_proba_intro store s classes refs members answers n x : fh_classes s = Some classes -> fh_estimators s = Some (map Some refs) ->
  length refs = (length classes - 1)%nat -> (0 < length refs)%nat -> Forall2 (fun r m => nth_error store r = Some m) refs members ->
  Forall2 (fun m rows => ec_proba E m x = Val rows /\ length rows = n /\ Forall (fun row => (2 <= length row)%nat) rows) members answers ->
  FH_binary_proba E store s x = Val (map (fun e => map (fun rows => nth 1 (nth e rows []) 0) answers) (seq 0 n)).
Proof using.
  intros Hc He L P A B. pose proof (Forall2_len _ _ _ A) as LA. pose proof (Forall2_len _ _ _ B) as LB.
  assert (C : forall i, (i < length refs)%nat -> left_column E store (map Some refs) x i = Val (map (fun row => nth 1 row 0) (nth i answers []))).
  { intros i Hi. destruct (nth_error refs i) as [r|] eqn:Hr; [|apply nth_error_None in Hr; lia].
    destruct (Forall2_nth_error _ _ _ A _ _ Hr) as (m & Hm & Sm). destruct (Forall2_nth_error _ _ _ B _ _ Hm) as (rows & Hrows & Hp & _ & W).
    rewrite (nth_error_nth _ _ _ Hrows). apply (left_column_intro _ _ _ _ r m); auto. rewrite nth_error_map, Hr. reflexivity. }
  unfold FH_binary_proba. rewrite Hc, He, (C O) by lia. cbn [obind].
  destruct (Nat.eqb_spec (length classes - 1) 0) as [Z|_]; [lia|].
  set (g := map (fun row : list R => nth 1 row 0)).
  rewrite (collect_map_val _ (seq 1 (length classes - 2)) (map g (tl answers))).
  2: { apply Forall2_of_nth with (l := seq 1 (length classes - 2)).
       - rewrite seq_length, map_length. destruct answers; cbn in *; lia.
       - intros k a Ha. assert (Hk : (k < length classes - 2)%nat) by (rewrite <- (seq_length (length classes - 2) 1); apply nth_error_Some; congruence).
         apply nth_error_nth with (d := O) in Ha. rewrite seq_nth in Ha by lia. subst a. rewrite C by lia.
         rewrite nth_error_map. destruct (nth_error (tl answers) k) as [rows|] eqn:Hr; [|apply nth_error_None in Hr; destruct answers; cbn in *; lia].
         exists (g rows). split; [reflexivity|]. f_equal.
         unfold g. f_equal. destruct answers as [|a0 answers]; [destruct k; discriminate|]. cbn [tl] in Hr. cbn [nth plus]. now apply nth_error_nth. }
  cbn [obind]. assert (LN : forall rows, In rows answers -> length rows = n).
  { intros rows Hin. apply In_nth_error in Hin. destruct Hin as (k & Hk). clear - B Hk. revert k Hk. induction B as [|m rows' ms as' (_ & W & _) _ IH]; intros [|k] Hk; try discriminate.
    - injection Hk as <-. exact W.
    - now apply (IH k). }
  destruct answers as [|first others]; [cbn in *; lia|]. cbn [nth tl].
  replace (forallb _ _) with true.
  2: { symmetry. apply forallb_forall. intros c Hin. apply in_map_iff in Hin. destruct Hin as (rows & <- & Hin). apply Nat.eqb_eq.
       unfold g. rewrite !map_length. rewrite (LN first) by now left. apply LN. now right. }
  unfold g at 3. rewrite map_length, (LN first) by now left. f_equal. apply map_ext_in. intros e He'. apply in_seq in He'.
  change (g first :: map g others) with (map g (first :: others)). rewrite map_map. apply map_ext_in. intros rows Hin. unfold g.
  exact (map_nth (fun row : list R => nth 1 row 0) rows [] e).
Qed.

Lemma binary_proba_inv store s classes refs left x : fh_classes s = Some classes -> fh_estimators s = Some (map Some refs) ->
  length refs = (length classes - 1)%nat -> FH_binary_proba E store s x = Val left ->
  (0 < length refs)%nat /\ exists members answers, Forall2 (fun r m => nth_error store r = Some m) refs members /\
    Forall2 (fun m rows => ec_proba E m x = Val rows) members answers /\
    forall i, (i < length refs)%nat -> col i left = map (fun row => nth 1 row 0) (nth i answers []).
Proof using.
  intros Hc He L. unfold FH_binary_proba. rewrite Hc, He.
  destruct (left_column E store (map Some refs) x 0) as [first|e|] eqn:F; [|discriminate..]. cbn [obind].
  destruct (Nat.eqb_spec (length classes - 1) 0) as [Z|NZ]; [discriminate|].
  destruct (collect _) as [others|e|] eqn:C; [|discriminate..]. cbn [obind].
  destruct (forallb _ others) eqn:W; [|discriminate]. intros [= <-]. split; [lia|].
  assert (V : Forall2 (fun i c => left_column E store (map Some refs) x i = Val c) (seq 0 (length refs)) (first :: others)).
  { replace (length refs) with (S (length classes - 2)) by lia. cbn [seq]. constructor; [exact F|].
    apply collect_inv in C. clear - C. revert others C. generalize (seq 1 (length classes - 2)). intros l. induction l as [|a l IH]; intros [|c others] C; try discriminate; [constructor|].
    injection C as C1 C2. constructor; auto. }
  assert (Q : exists rr : list (nat * Ob * list (list R)), Forall2 (fun i p => nth_error (map Some refs) i = Some (Some (fst (fst p))) /\ nth_error store (fst (fst p)) = Some (snd (fst p)) /\
      ec_proba E (snd (fst p)) x = Val (snd p)) (seq 0 (length refs)) rr /\ map (fun p => map (fun row => nth 1 row 0) (snd p)) rr = first :: others).
  { clear - V. induction V as [|i c l l' H _ IH]; [exists []; split; [constructor|reflexivity]|].
    destruct IH as (rr & I1 & I2). destruct (left_column_inv _ _ _ _ _ H) as (r & m & rows & H1 & H2 & H3 & _ & ->).
    exists ((r, m, rows) :: rr). split; [constructor; auto|]. cbn [map snd]. now rewrite I2. }
  destruct Q as (rr & Q1 & Q2). exists (map (fun p => snd (fst p)) rr), (map snd rr).
  pose proof (Forall2_len _ _ _ Q1) as LR. rewrite seq_length in LR.
  assert (Q3 : forall k p, nth_error rr k = Some p -> nth_error refs k = Some (fst (fst p)) /\ nth_error store (fst (fst p)) = Some (snd (fst p)) /\ ec_proba E (snd (fst p)) x = Val (snd p)).
  { intros k p Hp. assert (Hk : (k < length refs)%nat) by (rewrite LR; apply nth_error_Some; congruence).
    destruct (Forall2_nth_error _ _ _ Q1 k k) as (p' & Hp' & A1 & A2 & A3).
    { rewrite (nth_error_nth' _ O) by (rewrite seq_length; lia). rewrite seq_nth by lia. reflexivity. }
    rewrite Hp in Hp'. injection Hp' as <-. rewrite nth_error_map in A1. destruct (nth_error refs k); [|discriminate]. injection A1 as ->. auto. }
  split; [|split].
  - apply Forall2_of_nth; [now rewrite map_length|]. intros k a Ha. assert (Hk : (k < length refs)%nat) by (apply nth_error_Some; congruence).
    destruct (nth_error rr k) as [p|] eqn:Hp; [|apply nth_error_None in Hp; lia]. exists (snd (fst p)).
    rewrite nth_error_map, Hp. split; [reflexivity|]. destruct (Q3 k p Hp) as (A1 & A2 & _). congruence.
  - apply Forall2_of_nth; [now rewrite !map_length|]. intros k a Ha. rewrite nth_error_map in Ha.
    destruct (nth_error rr k) as [p|] eqn:Hp; [|discriminate]. injection Ha as <-. exists (snd p). rewrite nth_error_map, Hp. split; [reflexivity|]. now apply (Q3 k p Hp).
  - intros i Hi. unfold col. rewrite map_map.
    assert (G : nth i (first :: others) [] = map (fun row => nth 1 row 0) (nth i (map snd rr) [])).
    { rewrite <- Q2. rewrite <- (map_map snd (map (fun row => nth 1 row 0))).
      rewrite (nth_indep _ [] (map (fun row => nth 1 row 0) [])) by (rewrite !map_length; lia). apply map_nth. }
    rewrite <- G.
    assert (LG : length (nth i (first :: others) []) = length first).
    { destruct i as [|i]; [reflexivity|]. cbn [nth]. rewrite forallb_forall in W. apply Nat.eqb_eq, W, nth_In.
      apply (f_equal (@length (list R))) in Q2. rewrite map_length in Q2. cbn in Q2. lia. }
    apply nth_ext with (d := 0) (d' := 0); [rewrite map_length, seq_length; auto|].
    intros e He'. rewrite map_length, seq_length in He'.
    set (h := fun e : nat => nth i (map (fun column : list R => nth e column 0) (first :: others)) 0). transitivity (h e).
    { transitivity (nth e (map h (seq 0 (length first))) (h O)); [apply nth_indep; rewrite map_length, seq_length; auto|].
      rewrite map_nth, seq_nth by auto. reflexivity. }
    unfold h. rewrite (nth_indep (map _ _) 0 ((fun column => nth e column 0) [])) by (rewrite map_length; apply (f_equal (@length (list R))) in Q2; rewrite map_length in Q2; lia).
    apply (map_nth (fun column => nth e column 0)).
Qed.

(** What a classifier answers after a fit: from the answers of the new members. *)
Theorem FH_answers order x y s store store' s' e original : fh_estimator s = Some e -> nth_error store e = Some original ->
  schedule (n_problems y) order -> (0 < n_problems y)%nat ->
  FH_fit E accepted order x y s store = (store', s', Val tt) ->
  exists members, length members = n_problems y /\
    (forall i c, (i < n_problems y)%nat -> nth_error (np_unique y) i = Some c ->
       exists t, nth_error members i = Some t /\ trained_on E (fh_params s) i original x (up_to c y) t) /\
    forall t answers, Forall2 (fun m rows => ec_proba E m t = Val rows /\ length rows = length t /\
                                 Forall (fun row => (2 <= length row)%nat) rows) members answers ->
      exists probs labels, FH_object_proba E store' s' t = Val probs /\ FH_object_predict E store' s' t = Val labels /\
        length probs = length t /\ length labels = length t /\
        forall k, (k < length t)%nat ->
          let q := fun i => nth 1 (nth k (nth i answers []) []) 0 in
          let p := nth k probs [] in
          length p = length (np_unique y) /\
          nth 0 p 0 = q O /\ nth (n_problems y) p 0 = 1 - q (n_problems y - 1)%nat /\
          (forall i, (0 < i < n_problems y)%nat -> nth i p 0 = 1 - q (i - 1)%nat * q i) /\
          exists b, (b < length p)%nat /\ nth k labels 0%Z = nth b (np_unique y) 0%Z /\
            (forall i, (i < length p)%nat -> nth i p 0 <= nth b p 0) /\ (forall i, (i < b)%nat -> nth i p 0 < nth b p 0).
Proof using.
  intros He Ho Sc P F.
  destruct (FH_fit_result E accepted order x y s store store' s' e original He Ho Sc F) as (more & refs & _ & _ & _ & C & Es & L & _ & _ & G).
  assert (M : exists members, Forall2 (fun r m => nth_error store' r = Some m) refs members).
  { apply Forall2_exists. intros r Hr. apply In_nth_error in Hr. destruct Hr as (i & Hi).
    assert (Hi' : (i < n_problems y)%nat) by (rewrite <- L; apply nth_error_Some; congruence).
    destruct (nth_error (np_unique y) i) as [c|] eqn:Hc; [|apply nth_error_None in Hc; unfold n_problems in Hi'; lia].
    destruct (G i c Hi' Hc) as (t & Ht & _). exists t. rewrite (nth_error_nth _ _ _ Hi) in Ht. exact Ht. }
  destruct M as (members & M). pose proof (Forall2_len _ _ _ M) as LM. exists members. split; [lia|]. split.
  { intros i c Hi Hc. destruct (G i c Hi Hc) as (t & Ht & T). exists t. split; [|exact T].
    destruct (nth_error refs i) as [r|] eqn:Hr; [|apply nth_error_None in Hr; lia].
    destruct (Forall2_nth_error _ _ _ M _ _ Hr) as (m & Hm & Sm). rewrite (nth_error_nth _ _ _ Hr) in Ht. congruence. }
  intros t answers A. pose proof (Forall2_len _ _ _ A) as LA.
  pose proof (binary_proba_intro store' s' (np_unique y) refs members answers (length t) t C Es L ltac:(lia) M A) as B.
  set (qs := fun k => map (fun rows : list (list R) => nth 1 (nth k rows []) 0) answers) in B.
  exists (map FH_row (map qs (seq 0 (length t)))), (map (predict_label (np_unique y)) (map FH_row (map qs (seq 0 (length t))))).
  unfold FH_object_predict, FH_object_proba. rewrite C, B. split; [reflexivity|]. split; [reflexivity|].
  rewrite !map_length, seq_length. split; [reflexivity|]. split; [reflexivity|]. intros k Hk.
  set (q := fun i => nth 1 (nth k (nth i answers []) []) 0). set (p := nth k (map FH_row (map qs (seq 0 (length t)))) []).
  change (length p = length (np_unique y) /\ nth 0 p 0 = q O /\ nth (n_problems y) p 0 = 1 - q (n_problems y - 1)%nat /\
    (forall i, (0 < i < n_problems y)%nat -> nth i p 0 = 1 - q (i - 1)%nat * q i) /\
    exists b, (b < length p)%nat /\ nth k (map (predict_label (np_unique y)) (map FH_row (map qs (seq 0 (length t))))) 0%Z = nth b (np_unique y) 0%Z /\
      (forall i, (i < length p)%nat -> nth i p 0 <= nth b p 0) /\ (forall i, (i < b)%nat -> nth i p 0 < nth b p 0)).
  assert (Lq : length (qs k) = n_problems y) by (unfold qs; rewrite map_length; lia).
  assert (Np : p = FH_row (qs k)).
  { unfold p. rewrite map_map, (nth_indep _ _ ((fun k => FH_row (qs k)) O)) by (rewrite map_length, seq_length; auto).
    rewrite (map_nth (fun k => FH_row (qs k))), seq_nth by auto. reflexivity. }
  assert (NE : qs k <> []) by (intros Z; rewrite Z in Lq; cbn in Lq; lia).
  assert (Q : forall i, (i < n_problems y)%nat -> nth i (qs k) 0 = q i).
  { intros i Hi. unfold qs, q. set (h := fun rows : list (list R) => nth 1 (nth k rows []) 0).
    rewrite (nth_indep _ _ (h [])) by (rewrite map_length; lia). now rewrite map_nth. }
  assert (Lp : length p = length (np_unique y)) by (rewrite Np, FH_row_length, Lq; auto; unfold n_problems in *; lia).
  split; [exact Lp|]. split; [rewrite Np, FH_row_first, Q; auto|].
  split; [rewrite Np, <- Lq, FH_row_last, Q; auto; rewrite ?Lq; auto; lia|].
  split; [intros i Hi; rewrite Np, FH_row_middle, !Q; auto; lia|].
  destruct (predict_label_spec (np_unique y) p Lp) as (b & B1 & B2 & B3 & B4).
  { intros Z. rewrite Z in Lp. cbn in Lp. unfold n_problems in P. rewrite Z in P. cbn in P. lia. }
  exists b. rewrite Lp. split; [exact B1|]. split; [|split; auto].
  rewrite <- B2. unfold p. rewrite (nth_indep _ _ (predict_label (np_unique y) [])) by (rewrite !map_length, seq_length; auto).
  now rewrite (map_nth (predict_label (np_unique y))).
Qed.

Context (measure : R -> R -> R).

Theorem FHT_scores order x y s store store' s' e original : fh_estimator (ft_base s) = Some e -> nth_error store e = Some original ->
  schedule (n_problems y) order ->
  FHT_object_fit E measure accepted order x y s store = (store', s', Val tt) ->
  FH_fit E accepted order x y (ft_base s) store = (store', ft_base s', Val tt) /\
  exists members answers tree scores, length members = n_problems y /\
    (forall i c, (i < n_problems y)%nat -> nth_error (np_unique y) i = Some c ->
       exists t, nth_error members i = Some t /\ trained_on E (fh_params (ft_base s)) i original x (up_to c y) t) /\
    Forall2 (fun m rows => ec_proba E m x = Val rows) members answers /\
    ft_tree s' = Some tree /\ in_order tree = seq 0 (n_problems y) /\ length scores = n_problems y /\ best_first scores tree /\
    forall i c, (i < n_problems y)%nat -> nth_error (np_unique y) i = Some c ->
      nth i scores 0 = measure (1 - rmean (map IZR (up_to c y))) (rmean (map (fun row => nth 1 row 0) (nth i answers []))).
Proof using.
  intros He Ho Sc F. destruct (FHT_fit_result E measure accepted _ _ _ _ _ _ _ F) as (F1 & left & tree & B & T1 & T2 & scores & S1 & S2 & S3).
  split; [exact F1|].
  destruct (FH_fit_result E accepted order x y (ft_base s) store store' (ft_base s') e original He Ho Sc F1) as (more & refs & _ & _ & _ & C & Es & L & _ & _ & G).
  destruct (binary_proba_inv store' (ft_base s') (np_unique y) refs left x C Es L B) as (P & members & answers & M & A & Cs).
  pose proof (Forall2_len _ _ _ M) as LM.
  exists members, answers, tree, scores. split; [lia|]. split.
  { intros i c Hi Hc. destruct (G i c Hi Hc) as (t & Ht & T). exists t. split; [|exact T].
    destruct (nth_error refs i) as [r|] eqn:Hr; [|apply nth_error_None in Hr; lia].
    destruct (Forall2_nth_error _ _ _ M _ _ Hr) as (m & Hm & Sm). rewrite (nth_error_nth _ _ _ Hr) in Ht. congruence. }
  repeat (split; [assumption|]). intros i c Hi Hc. rewrite (S3 i c Hi Hc). rewrite Cs by lia. reflexivity.
Qed.

End Answers.
