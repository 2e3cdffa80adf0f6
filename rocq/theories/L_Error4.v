(** * Concrete cases for the error properties. *)

From Coq Require Import Reals List ZArith Lia Lra Permutation Bool.
From Verif Require Import Num Spec M_Baselines L_Num L_Baselines M_Ordinal Spec_Ordinal Spec_Error L_Error.
Import ListNotations.
Open Scope R_scope.

(** A perfect classifier in training that sees half of the negatives of the bag as positives. *)
Lemma drift_witness_binary :
  let tr := [(0, fun _ => 0); (1, fun _ => 1)]%Z in
  let ytest := [0; 0; 1; 1]%Z in let ptest := [0; 1; 1; 1]%Z in
  let trained := fun c d => rate c d (repeated_labels 1 tr) (predictions_of 1 tr) in
  np_unique (labels_of tr) = [0; 1]%Z /\
  (forall x, In x (predictions_of 1 tr) -> In x [0; 1]%Z) /\
  (exists cm, AC_fit (labels_of tr) (predictions_of 1 tr) = Val cm) /\
  length ytest = length ptest /\ (forall x, In x ytest -> In x [0; 1]%Z) /\
  1/1000 < Rabs (trained 1%Z 1%Z - trained 0%Z 1%Z) /\
  (forall c, In c ytest -> Rabs (rate c 1%Z ytest ptest - trained c 1%Z) <= 1/2).
Proof.
  intros. split; [reflexivity|]. split; [simpl; intuition|]. split; [eexists; reflexivity|].
  split; [reflexivity|]. split; [simpl; intuition|].
  assert (T1 : trained 1%Z 1%Z = 1) by (unfold trained, rate, fraction, zcount; simpl; field).
  assert (T0 : trained 0%Z 1%Z = 0) by (unfold trained, rate, fraction, zcount; simpl; field).
  assert (R1 : rate 1%Z 1%Z ytest ptest = 1) by (unfold rate, fraction, zcount; simpl; field).
  assert (R0 : rate 0%Z 1%Z ytest ptest = 1/2) by (unfold rate, fraction, zcount; simpl; field).
  split; [rewrite T1, T0, Rabs_pos_eq; lra|].
  intros c Hc. simpl in Hc. assert (D : c = 0%Z \/ c = 1%Z) by intuition.
  destruct D as [-> | ->]; [rewrite R0, T0|rewrite R1, T1]; rewrite Rabs_pos_eq; lra.
Qed.

(** Three classes, two of them always exchanged in training, not always in the bag. *)
Lemma drift_witness_multi :
  let S := involution_solver in
  let tr := [(0, fun _ => 0); (1, fun _ => 2); (2, fun _ => 1); (2, fun _ => 1)]%Z in
  let ytest := [2; 2; 0; 1; 2]%Z in let ptest := [1; 1; 0; 2; 2]%Z in
  let classes := np_unique (labels_of tr) in
  let trained := fun c d => rate c d (repeated_labels 1 tr) (predictions_of 1 tr) in
  (forall n A M, inv S n A = Some M -> inverse_of n A M) /\
  classes = [0; 1; 2]%Z /\
  (forall x, In x (predictions_of 1 tr) -> In x classes) /\
  (exists cm, AC_fit (labels_of tr) (predictions_of 1 tr) = Val cm) /\
  length ytest = length ptest /\ (forall x, In x ytest -> In x classes) /\ (forall x, In x ptest -> In x classes) /\
  (forall A, (forall i j, (i < 3)%nat -> (j < 3)%nat ->
        A i j = trained (nth j classes 0%Z) (nth i classes 0%Z)) -> inv S 3 A <> None) /\
  (forall M, inverse_of 3 (fun i j => trained (nth j classes 0%Z) (nth i classes 0%Z)) M ->
     forall j, (j < 3)%nat -> sumn 3 (fun i => Rabs (M i j)) <= 1) /\
  (forall c, In c ytest -> rsum (map (fun d => Rabs (rate c d ytest ptest - trained c d)) classes) <= 2/3).
Proof.
  intros. pose proof three_class_witness as W. cbv zeta in W.
  split; [exact involution_inverts|]. split; [reflexivity|]. split; [simpl; intuition|].
  split; [eexists; reflexivity|]. split; [reflexivity|]. split; [simpl; intuition|]. split; [simpl; intuition|].
  split; [apply W|].
  assert (T : forall c d, In c [0; 1; 2]%Z -> In d [0; 1; 2]%Z ->
     trained c d = if Z.eqb d (if Z.eqb c 0 then 0 else if Z.eqb c 1 then 2 else 1)%Z then 1 else 0).
  { intros c d Hc Hd. simpl in Hc, Hd. unfold trained, rate, fraction, zcount. intuition subst; simpl; field. }
  split.
  - intros M HM j Hj.
    assert (E : forall i, (i < 3)%nat -> sumn 3 (fun k => trained (nth k classes 0%Z) (nth i classes 0%Z) * M k j) = delta i j).
    { intros i Hi. apply HM; auto. }
    change classes with [0; 1; 2]%Z in E.
    pose proof (E 0%nat ltac:(lia)) as E0. pose proof (E 1%nat ltac:(lia)) as E1. pose proof (E 2%nat ltac:(lia)) as E2.
    cbn [sumn nth] in E0, E1, E2. rewrite !T in E0, E1, E2 by (simpl; auto). cbn in E0, E1, E2.
    cbn [sumn].
    assert (Z0 : M 0%nat j = delta 0 j) by lra. assert (Z1 : M 1%nat j = delta 2 j) by lra.
    assert (Z2 : M 2%nat j = delta 1 j) by lra. rewrite Z0, Z1, Z2.
    destruct j as [|[|[|]]]; try lia; unfold delta; cbn; rewrite ?Rabs_R0, ?Rabs_R1; lra.
  - intros c Hc. change classes with [0; 1; 2]%Z. cbn [map rsum].
    assert (D : c = 0%Z \/ c = 1%Z \/ c = 2%Z) by (simpl in Hc; intuition).
    rewrite !T by (simpl; intuition).
    destruct D as [-> | [-> | ->]]; unfold rate, fraction, zcount; simpl;
      unfold Rabs; repeat destruct (Rcase_abs _); lra.
Qed.

(** Posteriors that move by 1/10 between training and the bag. *)
Lemma drift_witness_pac :
  let tr := [(0%Z, fun _ => [3/4; 1/4]); (1%Z, fun _ => [1/4; 3/4])] in
  let ytest := [0; 1]%Z in let ptest := [[13/20; 7/20]; [1/4; 3/4]] in
  let trained := fun c => rmean (col 1 (select c (repeated_labels 1 tr) (predictions_of 1 tr))) in
  np_unique (labels_of tr) = [0; 1]%Z /\
  (exists cm, PAC_fit (labels_of tr) (predictions_of 1 tr) = Val cm) /\
  length ytest = length ptest /\ (forall x, In x ytest -> In x [0; 1]%Z) /\
  1/1000 < Rabs (trained 1%Z - trained 0%Z) /\
  (forall c, In c ytest -> Rabs (rmean (col 1 (select c ytest ptest)) - trained c) <= 1/10).
Proof.
  intros. split; [reflexivity|]. split; [eexists; reflexivity|].
  split; [reflexivity|]. split; [simpl; intuition|].
  assert (T1 : trained 1%Z = 3/4) by (unfold trained, rmean, col; simpl; field).
  assert (T0 : trained 0%Z = 1/4) by (unfold trained, rmean, col; simpl; field).
  split; [rewrite T1, T0, Rabs_pos_eq; lra|].
  intros c Hc. simpl in Hc. assert (D : c = 0%Z \/ c = 1%Z) by intuition.
  destruct D as [-> | ->]; [rewrite T0|rewrite T1]; unfold rmean, col; simpl; unfold Rabs; destruct (Rcase_abs _); lra.
Qed.

Lemma drift_witness_pac_multi :
  let S := involution_solver in
  let tr := [(0%Z, fun _ => [1; 0; 0]); (1%Z, fun _ => [0; 0; 1]); (2%Z, fun _ => [0; 1; 0])] in
  let ytest := [2; 0; 1]%Z in let ptest := [[0; 9/10; 1/10]; [1; 0; 0]; [0; 0; 1]] in
  let classes := np_unique (labels_of tr) in
  let trained := fun c j => rmean (col j (select c (repeated_labels 1 tr) (predictions_of 1 tr))) in
  classes = [0; 1; 2]%Z /\
  distributions 3 (predictions_of 1 tr) /\ distributions 3 ptest /\
  (exists cm, PAC_fit (labels_of tr) (predictions_of 1 tr) = Val cm) /\
  length ytest = length ptest /\ (forall x, In x ytest -> In x classes) /\
  (forall A, (forall i j, (i < 3)%nat -> (j < 3)%nat -> A i j = trained (nth j classes 0%Z) i) -> inv S 3 A <> None) /\
  (forall M, inverse_of 3 (fun i j => trained (nth j classes 0%Z) i) M ->
     forall j, (j < 3)%nat -> sumn 3 (fun i => Rabs (M i j)) <= 1) /\
  (forall c, In c ytest -> sumn 3 (fun j => Rabs (rmean (col j (select c ytest ptest)) - trained c j)) <= 1/5).
Proof.
  intros. split; [reflexivity|].
  split; [repeat (apply Forall_cons; [split; [reflexivity|split; [repeat (apply Forall_cons; [lra|]); apply Forall_nil|simpl; lra]]|]); apply Forall_nil|].
  split; [repeat (apply Forall_cons; [split; [reflexivity|split; [repeat (apply Forall_cons; [lra|]); apply Forall_nil|simpl; lra]]|]); apply Forall_nil|].
  split; [eexists; reflexivity|]. split; [reflexivity|]. split; [simpl; intuition|].
  assert (T : forall c j, In c [0; 1; 2]%Z -> (j < 3)%nat ->
     trained c j = if Nat.eqb j (if Z.eqb c 0 then 0 else if Z.eqb c 1 then 2 else 1)%nat then 1 else 0).
  { intros c j Hc Hj. simpl in Hc. unfold trained, rmean, col.
    assert (D : j = 0%nat \/ j = 1%nat \/ j = 2%nat) by lia. intuition subst; simpl; field. }
  change classes with [0; 1; 2]%Z. split; [|split].
  - intros A HA H. simpl in H.
    assert (HB : forall i j, (i < 3)%nat -> (j < 3)%nat -> A i j = if Nat.eqb i (match j with 0 => 0 | 1 => 2 | _ => 1 end)%nat then 1 else 0).
    { intros i j Hi Hj. rewrite HA by auto. destruct j as [|[|[|]]]; try lia; cbn [nth]; rewrite T by (simpl; auto); reflexivity. }
    destruct (involution 3 A) eqn:E; [discriminate|]. clear H. assert (involution 3 A = true); [|congruence].
    unfold involution. apply forallb_forall. intros i Hi. rewrite in_seq in Hi. apply forallb_forall. intros j Hj. rewrite in_seq in Hj.
    destruct (Req_EM_T _ _) as [|C]; auto. exfalso. apply C. cbn [sumn].
    assert (Di : i = 0%nat \/ i = 1%nat \/ i = 2%nat) by lia. assert (Dj : j = 0%nat \/ j = 1%nat \/ j = 2%nat) by lia.
    destruct Di as [-> | [-> | ->]], Dj as [-> | [-> | ->]]; rewrite !HB by lia; cbn; unfold delta; cbn; lra.
  - intros M HM j Hj.
    assert (E : forall i, (i < 3)%nat -> sumn 3 (fun k => trained (nth k [0; 1; 2]%Z 0%Z) i * M k j) = delta i j).
    { intros i Hi. apply HM; auto. }
    pose proof (E 0%nat ltac:(lia)) as E0. pose proof (E 1%nat ltac:(lia)) as E1. pose proof (E 2%nat ltac:(lia)) as E2.
    cbn [sumn nth] in E0, E1, E2. rewrite !T in E0, E1, E2 by (try lia; simpl; auto). cbn in E0, E1, E2.
    cbn [sumn].
    assert (Z0 : M 0%nat j = delta 0 j) by lra. assert (Z1 : M 1%nat j = delta 2 j) by lra.
    assert (Z2 : M 2%nat j = delta 1 j) by lra. rewrite Z0, Z1, Z2.
    destruct j as [|[|[|]]]; try lia; unfold delta; cbn; rewrite ?Rabs_R0, ?Rabs_R1; lra.
  - intros c Hc. cbn [sumn].
    assert (D : c = 0%Z \/ c = 1%Z \/ c = 2%Z) by (simpl in Hc; intuition).
    rewrite !T by (try lia; simpl; intuition).
    destruct D as [-> | [-> | ->]]; unfold rmean, col; simpl;
      unfold Rabs; repeat destruct (Rcase_abs _); lra.
Qed.
