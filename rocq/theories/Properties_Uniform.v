(** * C105: which prevalences the uniform method draws, and how often. *)

From Coq Require Import Reals List ZArith Lra Lia Arith.
From Verif Require Import Num Spec M_Bags Spec_Bags Spec_Uniform L_Bags L_Bags3 L_Uniform.
Import ListNotations.
Open Scope R_scope.

(** randint(low, high, k) has (high - low)^k equally likely answers ... *)
Theorem C105_number_of_draws : forall low high k, (low <= high)%Z ->
  exactly (Nat.pow (Z.to_nat (high - low)) k) (possible_draw low high k).
Proof. exact all_draws. Qed.
Print Assumptions C105_number_of_draws.

(** ... and without min_prevalence, of the size^(n-1) draws the number that give a bag with [nth i counts 0] examples
    of class i is (n-1)! divided by the factorials of the multiplicities of the cut points. *)
Theorem C105_draws : forall (G : Type) (RG : rng G) (g0 : G) y size counts,
  (0 < size)%nat -> length counts = length (np_unique y) -> list_sum counts = size -> (0 < last counts 0)%nat ->
  exists k,
    exactly k (fun d => possible_draw 0 (Z.of_nat size) (length counts - 1) d /\
                        draw_gives RG 0 (Z.of_nat size) y size MPNone d (prevalences_of counts size)) /\
    (k * repetitions (cut_points counts) = fact (length counts - 1))%nat.
Proof. exact @none_draws. Qed.
Print Assumptions C105_draws.

(** Uniform over the bags in which every class but the first and the last one appears ... *)
Theorem C105_all_classes : forall (G : Type) (RG : rng G) (g0 : G) y size counts,
  (0 < size)%nat -> length counts = length (np_unique y) -> list_sum counts = size -> (0 < last counts 0)%nat ->
  middle_at_least 1 counts ->
  exactly (fact (length counts - 1))
    (fun d => possible_draw 0 (Z.of_nat size) (length counts - 1) d /\
              draw_gives RG 0 (Z.of_nat size) y size MPNone d (prevalences_of counts size)).
Proof. exact @none_middle. Qed.
Print Assumptions C105_all_classes.

(** ... at most half as likely when one of the classes in the middle is empty ... *)
Theorem C105_empty_class : forall (G : Type) (RG : rng G) (g0 : G) y size counts,
  (0 < size)%nat -> length counts = length (np_unique y) -> list_sum counts = size -> (0 < last counts 0)%nat ->
  ~ middle_at_least 1 counts ->
  exists k,
    exactly k (fun d => possible_draw 0 (Z.of_nat size) (length counts - 1) d /\
                        draw_gives RG 0 (Z.of_nat size) y size MPNone d (prevalences_of counts size)) /\
    (2 * k <= fact (length counts - 1))%nat.
Proof. exact @none_empty_middle. Qed.
Print Assumptions C105_empty_class.

(** ... and never a bag without examples of the last class. *)
Theorem C105_last_class : forall (G : Type) (RG : rng G) (g0 : G) y size counts,
  (0 < size)%nat -> length counts = length (np_unique y) -> list_sum counts = size -> last counts 0%nat = 0%nat ->
  exactly 0
    (fun d => possible_draw 0 (Z.of_nat size) (length counts - 1) d /\
              draw_gives RG 0 (Z.of_nat size) y size MPNone d (prevalences_of counts size)).
Proof. exact @none_impossible. Qed.
Print Assumptions C105_last_class.

(** So the prevalences are not uniform: three classes and bags of two examples. *)
Theorem C105_uniform_refuted : forall (G : Type) (RG : rng G) (g0 : G),
  let gives counts d := possible_draw 0 2 2 d /\ draw_gives RG 0 2 [0; 1; 2]%Z 2 MPNone d (prevalences_of counts 2) in
  exactly 4 (possible_draw 0 2 2) /\ exactly 2 (gives [0; 1; 1]%nat) /\
  exactly 1 (gives [0; 0; 2]%nat) /\ exactly 1 (gives [1; 0; 1]%nat) /\
  exactly 0 (gives [1; 1; 0]%nat) /\ exactly 0 (gives [0; 2; 0]%nat) /\ exactly 0 (gives [2; 0; 0]%nat).
Proof. exact @not_uniform. Qed.
Print Assumptions C105_uniform_refuted.

(** Two classes: one draw for each prevalence between the limits, so the prevalences are uniform. *)
Theorem C105_two_classes : forall (G : Type) (RG : rng G) (g0 : G) y size mp a b,
  check_min_prevalence mp = Val tt -> one_per_class mp 2 -> length (np_unique y) = 2%nat -> (0 < size)%nat ->
  (a + b = size)%nat ->
  (round_even (INR size * minimum_for mp 0) <= Z.of_nat a < trunc (INR size * (1 - minimum_for mp 1)))%Z ->
  exactly 1 (fun d =>
    possible_draw (round_even (INR size * minimum_for mp 0)) (trunc (INR size * (1 - minimum_for mp 1))) 1 d /\
    draw_gives RG (round_even (INR size * minimum_for mp 0)) (trunc (INR size * (1 - minimum_for mp 1)))
      y size mp d (prevalences_of [a; b] size)).
Proof. exact @two_classes. Qed.
Print Assumptions C105_two_classes.

(** Three or more classes and min_prevalence: the draws that give each bag that has the minimum of every class, and more
    than the minimum of the last one; ... *)
Theorem C105_minimum_draws : forall (G : Type) (RG : rng G) (g0 : G) y size mp counts,
  let minimum i := round_even (minimum_for mp i * INR size) in
  let low := minimum 0%nat in
  let high := (Z.of_nat size - minimum (length counts - 1)%nat)%Z in
  check_min_prevalence mp = Val tt -> mp <> MPNone -> one_per_class mp (length counts) ->
  (3 <= length counts)%nat -> (0 < size)%nat -> length counts = length (np_unique y) -> list_sum counts = size ->
  (low < high)%Z ->
  (forall i, (S i < length counts)%nat -> (minimum i <= Z.of_nat (nth i counts 0%nat))%Z) ->
  (minimum (length counts - 1)%nat < Z.of_nat (last counts 0%nat))%Z ->
  exists k,
    exactly k (fun d => possible_draw low high (length counts - 1) d /\
                        draw_gives RG low high y size mp d (prevalences_of counts size)) /\
    (k * repetitions (cut_points counts) = fact (length counts - 1))%nat.
Proof. exact @many_draws. Qed.
Print Assumptions C105_minimum_draws.

(** ... these bags are equally likely when at least one example is asked for the classes in the middle; ... *)
Theorem C105_minimum_uniform : forall (G : Type) (RG : rng G) (g0 : G) y size mp counts,
  let minimum i := round_even (minimum_for mp i * INR size) in
  let low := minimum 0%nat in
  let high := (Z.of_nat size - minimum (length counts - 1)%nat)%Z in
  check_min_prevalence mp = Val tt -> mp <> MPNone -> one_per_class mp (length counts) ->
  (3 <= length counts)%nat -> (0 < size)%nat -> length counts = length (np_unique y) -> list_sum counts = size ->
  (low < high)%Z ->
  (forall i, (S i < length counts)%nat -> (minimum i <= Z.of_nat (nth i counts 0%nat))%Z) ->
  (minimum (length counts - 1)%nat < Z.of_nat (last counts 0%nat))%Z ->
  (forall i, (0 < i)%nat -> (S i < length counts)%nat -> (1 <= minimum i)%Z) ->
  exactly (fact (length counts - 1))
    (fun d => possible_draw low high (length counts - 1) d /\
              draw_gives RG low high y size mp d (prevalences_of counts size)).
Proof. exact @many_uniform. Qed.
Print Assumptions C105_minimum_uniform.

(** ... and no draw gives any other bag. *)
Theorem C105_minimum_impossible : forall (G : Type) (RG : rng G) (g0 : G) y size mp counts,
  let minimum i := round_even (minimum_for mp i * INR size) in
  let low := minimum 0%nat in
  let high := (Z.of_nat size - minimum (length counts - 1)%nat)%Z in
  check_min_prevalence mp = Val tt -> mp <> MPNone -> one_per_class mp (length counts) ->
  (3 <= length counts)%nat -> (0 < size)%nat -> length counts = length (np_unique y) -> list_sum counts = size ->
  (low < high)%Z ->
  (exists i, (S i < length counts)%nat /\ (Z.of_nat (nth i counts 0%nat) < minimum i)%Z) \/
  (Z.of_nat (last counts 0%nat) <= minimum (length counts - 1)%nat)%Z ->
  exactly 0
    (fun d => possible_draw low high (length counts - 1) d /\
              draw_gives RG low high y size mp d (prevalences_of counts size)).
Proof. exact @many_impossible. Qed.
Print Assumptions C105_minimum_impossible.

Example C105_hypotheses : length [3; 4; 3]%nat = length (np_unique [0; 1; 2]%Z) /\ list_sum [3; 4; 3]%nat = 10%nat /\
  (0 < last [3; 4; 3]%nat 0)%nat /\ middle_at_least 1 [3; 4; 3]%nat /\ ~ middle_at_least 1 [5; 0; 5]%nat.
Proof.
  repeat split; simpl; try lia.
  - intros [|[|[|i]]] H0 H1; simpl in *; lia.
  - intros H. specialize (H 1%nat ltac:(lia) ltac:(simpl; lia)). simpl in H. lia.
Qed.

(** min_prevalence = 0.2 with bags of ten examples: two examples of every class. *)
Example C105_hypotheses_minimum : check_min_prevalence (MPScalar (1/5)) = Val tt /\
  (forall i, round_even (minimum_for (MPScalar (1/5)) i * INR 10) = 2%Z) /\ (2 < Z.of_nat 10 - 2)%Z /\
  (2 < Z.of_nat (last [3; 4; 3]%nat 0%nat))%Z /\
  (round_even (INR 10 * minimum_for (MPScalar (1/5)) 0) <= Z.of_nat 4 < trunc (INR 10 * (1 - minimum_for (MPScalar (1/5)) 1)))%Z.
Proof.
  assert (E : round_even (1 / 5 * INR 10) = 2%Z).
  { apply round_even_unique. simpl INR. replace (1 / 5 * (1 + 1 + 1 + 1 + 1 + 1 + 1 + 1 + 1 + 1) - 2) with 0 by lra.
    rewrite Rabs_R0. lra. }
  split; [|split; [|split; [|split]]].
  - unfold check_min_prevalence. destruct (Rlt_dec 1 (1/5)); [lra|]. destruct (Rlt_dec (1/5) 0); [lra|]. reflexivity.
  - intros i. exact E.
  - lia.
  - simpl. lia.
  - cbn [minimum_for]. rewrite (Rmult_comm (INR 10) (1/5)), E.
    replace (INR 10 * (1 - 1/5)) with (INR 8) by (simpl; lra). rewrite trunc_nat. lia.
Qed.
