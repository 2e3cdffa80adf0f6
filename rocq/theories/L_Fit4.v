(** * Proofs about fitting: fits refused by check_X_y, and examples. *)

From Coq Require Import Reals List ZArith Bool Lia Lra Permutation.
From Verif Require Import Num Spec M_Baselines M_Base M_Ordinal M_Estimators M_Optim M_History M_Fit Spec_Ordinal Spec_Fit
  L_Num L_Ordinal2 L_Fit L_Fit2 L_Fit3.
Import ListNotations.
Open Scope R_scope.

Local Hint Resolve raises_err raises_nan : core.

Theorem FH_relabels {X Pm Ob : Type} (E : estimator_class X Pm Ob) accepted order x y s store classes :
  fh_estimator s <> None -> y <> [] -> length (np_unique y) <> 2%nat -> accepted x y = false ->
  fh_classes s = Some classes -> length classes = length (np_unique y) ->
  exists s', FH_fit E accepted order x y s store = (store, s', Err ValueError) /\
    forall st t, FH_object_proba E st s' t = FH_object_proba E st s t /\
      FH_object_predict E st s' t = omap (map (predict_label (np_unique y))) (FH_object_proba E st s t).
Proof.
  intros He Hy H2 Ha Hc L. eexists. split; [apply (FH_fit_early E accepted order x y s store); assumption|].
  intros st t. assert (B : FH_object_proba E st (Build_fh_object (fh_estimator s) (fh_params s) (Some (np_unique y)) (fh_estimators s)) t = FH_object_proba E st s t).
  { unfold FH_object_proba, FH_binary_proba. cbn [fh_classes fh_estimators]. rewrite Hc, L. reflexivity. }
  split; [exact B|]. unfold FH_object_predict at 1. cbn [fh_classes]. now rewrite B.
Qed.

(** An estimator like those of scikit-learn: refuses training labels of a single class, and answers with the frequency of
    label 1, or the smallest label, of its training set.  Its parameter is kept but not used. *)
Definition demo_object := (nat * option (list Z))%type.
Definition demo : estimator_class nat nat demo_object := {|
  ec_set_params := fun p o => Val (p, snd o);
  ec_fit := fun _ y o => if Nat.leb 2 (length (np_unique y)) then ((fst o, Some y), Val tt) else (o, Err ValueError);
  ec_predict := fun o t => match snd o with None => Err NotFittedError | Some y => Val (map (fun _ => hd 0%Z (np_unique y)) t) end;
  ec_proba := fun o t => match snd o with
                         | None => Err NotFittedError
                         | Some y => Val (map (fun _ => [1 - fraction 1 y; fraction 1 y]) t)
                         end |}.
Definition same_lengths (x : list nat) (y : list Z) : bool := Nat.eqb (length x) (length y).

Lemma demo_schedule : schedule (n_problems [4; 2; 9; 2]%Z) [1; 0]%nat.
Proof. unfold schedule. change (n_problems [4; 2; 9; 2]%Z) with 2%nat. apply perm_swap. Qed.

Lemma demo_binarize : exists m, FH_binarize (np_unique [4; 2; 9; 2]%Z) [4; 2; 9; 2]%Z = Val m.
Proof. apply binarize_cases. discriminate. Qed.

Lemma demo_fits : exists store' s',
  FH_fit demo same_lengths [1; 0]%nat [10; 20; 30; 40]%nat [4; 2; 9; 2]%Z (FH_new (Some 0%nat) (Some [7; 8]%nat)) [(0%nat, None)] = (store', s', Val tt) /\
  nth_error store' 0 = Some (0%nat, None).
Proof.
  destruct (proj2 (FH_fit_when demo same_lengths [1; 0]%nat [10; 20; 30; 40]%nat [4; 2; 9; 2]%Z (FH_new (Some 0%nat) (Some [7; 8]%nat)) [(0%nat, None)]
    0 (0%nat, None) eq_refl eq_refl demo_schedule)) as (store' & s' & H).
  - split; [discriminate|]. split; [discriminate|]. split; [reflexivity|].
    change (n_problems [4; 2; 9; 2]%Z) with 2%nat. intros [|[|i]] c Hi Hc; [| |lia]; injection Hc as <-.
    + exists (7%nat, Some [0; 1; 0; 1]%Z), (7%nat, None). split; [|reflexivity]. exists 7%nat. split; reflexivity.
    + exists (8%nat, Some [1; 1; 0; 1]%Z), (8%nat, None). split; [|reflexivity]. exists 8%nat. split; reflexivity.
  - exists store', s'. split; [exact H|]. destruct (FH_fit_extends _ _ _ _ _ _ _ _ _ _ H) as (more & ->). reflexivity.
Qed.

Lemma demo_only_failed : exists s, only_failed_fits demo same_lengths s /\ fh_classes s = Some [2; 4; 9]%Z.
Proof.
  exists (Build_fh_object (Some 0%nat) None (Some [2; 4; 9]%Z) None). split; [|reflexivity].
  eapply failed_again with (s := FH_new (Some 0%nat) None) (order := [0; 1]%nat) (x := [10]%nat) (y := [4; 2; 9; 2]%Z) (store := [(0%nat, None)]).
  - constructor.
  - apply (FH_fit_early demo same_lengths); try discriminate. reflexivity.
  - auto.
Qed.

(** An ensemble whose second bag has examples of one class only: fit raises; another fit then returns, but predict always raises. *)
Lemma EoC_retry_example : exists store1 s1 store2 s2,
  EoC_object_fit demo same_lengths false [0; 1]%nat [10; 20; 30]%nat [4; 2; 4]%Z [[0; 1]; [0; 2]]%nat (EoC_new (Some 0%nat)) [(0%nat, None)]
    = (store1, s1, Err ValueError) /\
  EoC_object_fit demo same_lengths false [0; 1]%nat [10; 20; 30]%nat [4; 2; 4]%Z [[0; 1]; [1; 2]]%nat s1 store1 = (store2, s2, Val tt) /\
  EoC_predict demo store2 s2 [10]%nat = Err AttributeError /\
  exists store3 s3, EoC_object_fit demo same_lengths false [0; 1]%nat [10; 20; 30]%nat [4; 2; 4]%Z [[0; 1]; [1; 2]]%nat (EoC_new (Some 0%nat)) [(0%nat, None)]
    = (store3, s3, Val tt) /\ EoC_predict demo store3 s3 [10]%nat = Val [[2; 2]]%Z.
Proof. repeat eexists. Qed.

Lemma EoC_same_process_example : exists store' s',
  EoC_object_fit demo same_lengths true [0; 1]%nat [10; 20; 30]%nat [4; 2; 9]%Z [[0; 1]; [0; 2]]%nat (EoC_new (Some 0%nat)) [(0%nat, None)]
    = (store', s', Val tt) /\ EoC_predict demo store' s' [10]%nat = Val [[4; 4]]%Z.
Proof. repeat eexists. Qed.

Lemma EoC_other_processes_example : exists store' s',
  EoC_object_fit demo same_lengths false [1; 0]%nat [10; 20; 30]%nat [4; 2; 9]%Z [[0; 1]; [0; 2]]%nat (EoC_new (Some 0%nat)) [(0%nat, None)]
    = (store', s', Val tt) /\ EoC_predict demo store' s' [10; 10]%nat = Val [[2; 4]; [2; 4]]%Z.
Proof. repeat eexists. Qed.

Lemma tree_example : exists store' s',
  FHT_object_fit demo (fun a b => Rabs (a - b)) same_lengths [1; 0]%nat [10; 20; 30; 40]%nat [4; 2; 9; 2]%Z
    (Build_fht_object (FH_new (Some 0%nat) None) None) [(0%nat, None)] = (store', s', Val tt).
Proof.
  destruct (FH_fit demo same_lengths [1; 0]%nat [10; 20; 30; 40]%nat [4; 2; 9; 2]%Z (FH_new (Some 0%nat) None) [(0%nat, None)]) as [[st base] r] eqn:F.
  assert (T : exists store' s', FH_fit demo same_lengths [1; 0]%nat [10; 20; 30; 40]%nat [4; 2; 9; 2]%Z (FH_new (Some 0%nat) None) [(0%nat, None)] = (store', s', Val tt)).
  { apply (FH_fit_when demo same_lengths [1; 0]%nat [10; 20; 30; 40]%nat [4; 2; 9; 2]%Z (FH_new (Some 0%nat) None) [(0%nat, None)] 0 (0%nat, None) eq_refl eq_refl demo_schedule).
    split; [discriminate|]. split; [discriminate|]. split; [reflexivity|].
    change (n_problems [4; 2; 9; 2]%Z) with 2%nat. intros [|[|i]] c Hi Hc; [| |lia]; injection Hc as <-.
    + exists (0%nat, Some [0; 1; 0; 1]%Z), (0%nat, None). split; reflexivity.
    + exists (0%nat, Some [1; 1; 0; 1]%Z), (0%nat, None). split; reflexivity. }
  destruct T as (st' & s' & T). rewrite T in F. injection F as <- <- <-.
  destruct (FH_fit_result demo same_lengths [1; 0]%nat [10; 20; 30; 40]%nat [4; 2; 9; 2]%Z (FH_new (Some 0%nat) None) [(0%nat, None)] st' s' 0 (0%nat, None) eq_refl eq_refl demo_schedule T)
    as (more & refs & _ & _ & _ & C & Es & L & _ & _ & G).
  change (n_problems [4; 2; 9; 2]%Z) with 2%nat in L, G. destruct refs as [|r0 [|r1 [|r2 refs]]]; try discriminate.
  destruct (G 0%nat 2%Z ltac:(lia) eq_refl) as (t0 & N0 & (rd0 & R0 & F0)).
  destruct (G 1%nat 4%Z ltac:(lia) eq_refl) as (t1 & N1 & (rd1 & R1 & F1)).
  cbn in R0, R1. subst rd0 rd1. cbn in F0, F1. injection F0 as <-. injection F1 as <-. cbn [nth] in N0, N1.
  unfold FHT_object_fit. cbn [ft_base]. rewrite T.
  assert (C0 : exists a, left_column demo st' [Some r0; Some r1] [10; 20; 30; 40]%nat 0 = Val [a; a; a; a]).
  { unfold left_column. cbn [nth_error]. rewrite N0. eexists. reflexivity. }
  assert (C1 : exists a, left_column demo st' [Some r0; Some r1] [10; 20; 30; 40]%nat 1 = Val [a; a; a; a]).
  { unfold left_column. cbn [nth_error]. rewrite N1. eexists. reflexivity. }
  destruct C0 as (a0 & C0), C1 as (a1 & C1).
  assert (B : FH_binary_proba demo st' s' [10; 20; 30; 40]%nat = Val (repeat [a0; a1] 4)).
  { unfold FH_binary_proba. rewrite C, Es. cbn [map]. rewrite C0. change (length (np_unique [4; 2; 9; 2]%Z)) with 3%nat.
    cbn [obind Nat.sub Nat.eqb seq map]. rewrite C1. reflexivity. }
  rewrite B. cbn [obind]. unfold FHT_fit, tree_scores. destruct demo_binarize as (m & Hm). rewrite Hm. cbn [obind omap]. eauto.
Qed.

Definition demo_world : world nat nat := {| models := fun _ => None; fits := [] |}.
Lemma AC_never_example : AC_only_failed no_algorithm (fun _ _ => None) L_History2.no_numerics (fun _ _ _ => None) 0 HD
  {| ao_base := {| estimator_train := None; estimator_test := None; needs_predictions_train := true;
                   probabilistic := false; predictions_train_ := None; predictions_test_ := None;
                   classes_ := Some [5; 7]%Z; y_ext_ := None |}; ao_adjuster := unfitted_adjuster |}.
Proof.
  eapply AC_failed_again with (s := AC_new None None) (x := [0; 1]%nat) (y := [5; 7]%Z) (given := None) (w := demo_world);
    [constructor|reflexivity|auto].
Qed.
