(** * Property theorems: the bag generators (C32-C37, C73-C75). *)

From Coq Require Import Reals List ZArith Lia Lra Bool.
From Verif Require Import Num Spec M_Bags Spec_Bags L_Num L_Bags L_Bags2 L_Bags3 L_Bags4.
Import ListNotations.
Open Scope R_scope.

(** numpy's generator is a parameter; what is assumed of it can be met. *)
Example rng_hypotheses : rng_ok lowest_rng /\ rng_ok multiples_rng /\ rng_ok two_state_rng.
Proof. exact (conj lowest_rng_ok (conj multiples_rng_ok two_state_rng_ok)). Qed.

(** C32: a fresh generator. *)
Theorem C32_prior_shift_bags : forall (G : Type) (RG : rng G) fuel s y global bags s' global',
  rng_ok RG -> y <> [] -> ps_bags s = None -> (0 < bag_size_of s y)%nat ->
  one_per_class (ps_min s) (length (np_unique y)) ->
  PS_generate RG fuel s y global = Some (Val bags, s', global') ->
  length bags = ps_n_bags s /\ Forall (honest_bag y (bag_size_of s y)) bags.
Proof. exact @PS_honest. Qed.
Print Assumptions C32_prior_shift_bags.

Example C32_hypotheses_uniform : exists bags s',
  PS_generate lowest_rng 1 (example_ps 1 (Some 14%nat) Uniform ANone (MPScalar (1/10)) (Seed 0)) [0; 1]%Z tt
  = Some (Val bags, s', tt).
Proof. destruct example_tenth as [s' H]. eauto. Qed.
Example C32_hypotheses_dirichlet : exists bags s',
  PS_generate two_state_rng 0 (example_ps 1 (Some 1%nat) Dirichlet (AScalar 1) MPNone (Seed 7)) [0; 1]%Z true
  = Some (Val bags, s', true).
Proof. destruct example_dirichlet as [[s' H] _]. eauto. Qed.

(** C33 *)
Theorem C33_min_prevalence : forall (G : Type) (RG : rng G) fuel s y global bags s' global',
  rng_ok RG -> y <> [] -> ps_bags s = None -> (0 < bag_size_of s y)%nat ->
  one_per_class (ps_min s) (length (np_unique y)) -> ps_method s = Uniform ->
  PS_generate RG fuel s y global = Some (Val bags, s', global') ->
  Forall (fun b => forall i, (i < length (np_unique y))%nat ->
    (round_even (INR (bag_size_of s y) * minimum_for (ps_min s) i) <= Z.of_nat (class_size y i b))%Z /\
    minimum_for (ps_min s) i - 1 / (2 * INR (bag_size_of s y)) <= nth i (fst b) 0) bags.
Proof. exact @PS_minimum_prevalence. Qed.
Print Assumptions C33_min_prevalence.

(** [round_even] is rounding to a nearest integer. *)
Theorem C33_rounding : forall x, Rabs (IZR (round_even x) - x) <= 1 / 2.
Proof. exact round_even_near. Qed.
Print Assumptions C33_rounding.

(** The exact bound can be missed by a fraction of an example: 14 examples, 0.1 asked, 1/14 given. *)
Theorem C33_exact_bound_refuted : exists bags s' b,
  PS_generate lowest_rng 1 (example_ps 1 (Some 14%nat) Uniform ANone (MPScalar (1/10)) (Seed 0)) [0; 1]%Z tt
  = Some (Val bags, s', tt) /\ In b bags /\ nth 0 (fst b) 0 < 1 / 10.
Proof. exact exact_bound_refuted. Qed.
Print Assumptions C33_exact_bound_refuted.

(** C34: with a scalar min_prevalence v and three or more classes, if the examples reserved for the classes,
    n * round(v * size), are not fewer than the size of the bag, generate_bags never returns, whatever the generator
    draws ... *)
Theorem C34_never_returns : forall (G : Type) (RG : rng G) s y v global, rng_ok RG -> y <> [] -> ps_bags s = None ->
  ps_method s = Uniform -> ps_min s = MPScalar v -> 0 <= v <= 1 -> get_random RG (ps_random s) <> None ->
  (0 < ps_n_bags s)%nat -> (3 <= length (np_unique y))%nat ->
  (2 * round_even (v * INR (bag_size_of s y)) < Z.of_nat (bag_size_of s y))%Z ->
  (Z.of_nat (bag_size_of s y) <= Z.of_nat (length (np_unique y)) * round_even (v * INR (bag_size_of s y)))%Z ->
  forall fuel, PS_generate RG fuel s y global = None.
Proof. exact @PS_never. Qed.
Print Assumptions C34_never_returns.

(** ... and otherwise some generator makes it return with one draw per bag. *)
Theorem C34_can_return : forall s y v global, y <> [] -> ps_bags s = None ->
  ps_method s = Uniform -> ps_min s = MPScalar v -> 0 <= v <= 1 -> get_random multiples_rng (ps_random s) <> None ->
  (3 <= length (np_unique y))%nat ->
  (Z.of_nat (length (np_unique y)) * round_even (v * INR (bag_size_of s y)) < Z.of_nat (bag_size_of s y))%Z ->
  exists bags s', PS_generate multiples_rng (ps_n_bags s) s y global = Some (Val bags, s', global).
Proof. exact PS_possible. Qed.
Print Assumptions C34_can_return.

(** The remaining case raises ValueError. *)
Theorem C34_no_room : forall (G : Type) (RG : rng G) s y v global fuel, y <> [] -> ps_bags s = None ->
  ps_method s = Uniform -> ps_min s = MPScalar v -> 0 <= v <= 1 -> get_random RG (ps_random s) <> None ->
  (0 < ps_n_bags s)%nat -> (3 <= length (np_unique y))%nat -> (0 < fuel)%nat ->
  (Z.of_nat (bag_size_of s y) <= 2 * round_even (v * INR (bag_size_of s y)))%Z ->
  exists s', PS_generate RG fuel s y global = Some (Err ValueError, s', global).
Proof. exact PS_no_room. Qed.
Print Assumptions C34_no_room.

(** Without min_prevalence, one draw per bag is enough whatever is drawn. *)
Theorem C34_terminates_without_minimum : forall (G : Type) (RG : rng G) s y fuel global, ps_bags s = None ->
  ps_method s = Uniform -> ps_min s = MPNone -> get_random RG (ps_random s) <> None -> (0 < bag_size_of s y)%nat ->
  (ps_n_bags s <= fuel)%nat ->
  exists bags s', PS_generate RG fuel s y global = Some (Val bags, s', global).
Proof. exact @PS_terminates. Qed.
Print Assumptions C34_terminates_without_minimum.

(** Two accepted values that hang: 0.4 with three classes, and 1/4 with four classes and bags of 100. *)
Theorem C34_termination_refuted : forall (G : Type) (RG : rng G) fuel seed global, rng_ok RG ->
  PS_generate RG fuel (example_ps 1 (Some 10%nat) Uniform ANone (MPScalar (2/5)) (Seed seed)) [0; 1; 2]%Z global = None /\
  PS_generate RG fuel (example_ps 1 (Some 100%nat) Uniform ANone (MPScalar (1/4)) (Seed seed)) [0; 1; 2; 3]%Z global = None.
Proof. exact @termination_refuted. Qed.
Print Assumptions C34_termination_refuted.

(** C35 *)
Theorem C35_covariate_bags : forall (G : Type) (RG : rng G) s X y bags s', rng_ok RG ->
  cs_bags s = None -> (0 < cs_size_of s y)%nat -> CS_generate RG s X y = (Val bags, s') ->
  length bags = cs_n_bags s /\ Forall (honest_bag y (cs_size_of s y)) bags.
Proof. exact @CS_honest. Qed.
Print Assumptions C35_covariate_bags.

Theorem C35_always_returns : forall (G : Type) (RG : rng G) s X y, cs_bags s = None ->
  get_random RG (cs_random s) <> None -> length X = length y -> X <> [] ->
  exists bags s', CS_generate RG s X y = (Val bags, s').
Proof. exact @CS_total. Qed.
Print Assumptions C35_always_returns.

(** Every example can be drawn, and examples closer to the centre are more likely. *)
Theorem C35_probabilities : forall X c, X <> [] ->
  distribution_over (length X) (similarity_probs X c) /\ Forall (fun p => 0 < p) (similarity_probs X c).
Proof. exact similarity_distribution. Qed.
Print Assumptions C35_probabilities.

Theorem C35_closer_is_likelier : forall X c i j, (0 < length c)%nat -> Forall (fun x => length x = length c) X ->
  (i < length X)%nat -> (j < length X)%nat ->
  sq_distance c (nth i X []) < sq_distance c (nth j X []) ->
  nth j (similarity_probs X c) 0 < nth i (similarity_probs X c) 0.
Proof. exact similarity_order. Qed.
Print Assumptions C35_closer_is_likelier.

Example C35_hypotheses : [[1; 2]; [4; 6]] <> [] /\ Forall (fun x => length x = length [1; 2]) [[1; 2]; [4; 6]] /\
  sq_distance [1; 2] (nth 0 [[1; 2]; [4; 6]] []) < sq_distance [1; 2] (nth 1 [[1; 2]; [4; 6]] []).
Proof. split; [congruence|]. split; [repeat constructor|]. unfold sq_distance; simpl; lra. Qed.

(** C36 *)
Theorem C36_mixed_bags : forall (G : Type) (RG : rng G) fuel s X y global bags s' global' size, rng_ok RG ->
  ms_bags s = None -> ms_bag_size s = Some size -> (0 < size)%nat -> one_per_class (ms_min s) (length (np_unique y)) ->
  MS_generate RG fuel s X y global = Some (Val bags, s', global') ->
  length bags = ms_n_bags s /\ Forall (honest_bag y size) bags /\
  exists prior covariate, bags = prior ++ covariate /\ length prior = (ms_n_bags s / 2)%nat /\
    (exists prior_obj, PS_generate RG fuel
       {| ps_n_bags := ms_n_bags s / 2; ps_bag_size := Some size; ps_method := ms_method s; ps_alphas := ms_alphas s;
          ps_min := ms_min s; ps_random := ms_random s; ps_bags := None |} y global = Some (Val prior, prior_obj, global')) /\
    (exists cov_obj rs, (forall z, ms_random s = Seed z -> rs = Seed z) /\ CS_generate RG
       {| cs_n_bags := ms_n_bags s - ms_n_bags s / 2; cs_bag_size := Some size; cs_random := rs; cs_bags := None |} X y
       = (Val covariate, cov_obj)).
Proof. exact @MS_honest. Qed.
Print Assumptions C36_mixed_bags.

Example C36_hypotheses : exists bags s',
  MS_generate lowest_rng 5 {| ms_n_bags := 3; ms_bag_size := Some 4%nat; ms_method := Uniform; ms_alphas := ANone;
     ms_min := MPNone; ms_random := Seed 1; ms_bags := None |} [[0]; [1]] [0; 1]%Z tt = Some (Val bags, s', tt).
Proof. exact mixed_example. Qed.

(** The documented default, bag_size=None, raises TypeError. *)
Theorem C36_default_bag_size_refuted : forall (G : Type) (RG : rng G) fuel s X y global,
  ms_bags s = None -> ms_bag_size s = None -> MS_generate RG fuel s X y global = Some (Err TypeError, s, global).
Proof. exact @MS_default_fails. Qed.
Print Assumptions C36_default_bag_size_refuted.

(** C37: after a successful call, any history of calls and assignments terminates, and the next call
    returns the same bags. *)
Theorem C37_prior_shift_write_once : forall (G : Type) (RG : rng G) fuel s y global b s1 global1,
  PS_generate RG fuel s y global = Some (Val b, s1, global1) ->
  forall evs, exists s2, ps_history RG evs s1 global1 = Some (s2, global1) /\
  forall fuel' y', PS_generate RG fuel' s2 y' global1 = Some (Val b, s2, global1).
Proof. exact @PS_once. Qed.
Print Assumptions C37_prior_shift_write_once.

Theorem C37_covariate_shift_write_once : forall (G : Type) (RG : rng G) s X y b s1,
  CS_generate RG s X y = (Val b, s1) ->
  forall evs X' y', CS_generate RG (cs_history RG evs s1) X' y' = (Val b, cs_history RG evs s1).
Proof. exact @CS_once. Qed.
Print Assumptions C37_covariate_shift_write_once.

Theorem C37_mixed_shift_write_once : forall (G : Type) (RG : rng G) fuel s X y global b s1 global1,
  MS_generate RG fuel s X y global = Some (Val b, s1, global1) ->
  forall evs, exists s2, ms_history RG evs s1 global1 = Some (s2, global1) /\
  forall fuel' X' y', MS_generate RG fuel' s2 X' y' global1 = Some (Val b, s2, global1).
Proof. exact @MS_once. Qed.
Print Assumptions C37_mixed_shift_write_once.

(** C73: after a ValueError in the uniform method the next call returns bags of zeros. *)
Theorem C73_failed_call_leaves_zeros : forall (G : Type) (RG : rng G) fuel s y global e s' global', ps_bags s = None ->
  ps_method s = Uniform -> check_min_prevalence (ps_min s) = Val tt -> get_random RG (ps_random s) <> None ->
  PS_generate RG fuel s y global = Some (Err e, s', global') ->
  forall fuel2 y2 global2, PS_generate RG fuel2 s' y2 global2 =
    Some (Val (repeat (repeat 0 (length (np_unique y)), repeat O (bag_size_of s y)) (ps_n_bags s)), s', global2).
Proof. exact @PS_failed_then_zeros. Qed.
Print Assumptions C73_failed_call_leaves_zeros.

Theorem C73_retry_refuted :
  let s := example_ps 2 (Some 10%nat) Uniform ANone (MPScalar (1/2)) (Seed 0) in
  exists s' bags, PS_generate lowest_rng 5 s [0; 1]%Z tt = Some (Err ValueError, s', tt) /\
    PS_generate lowest_rng 5 s' [0; 1]%Z tt = Some (Val bags, s', tt) /\
    bags <> [] /\ Forall (fun b => ~ honest_bag [0; 1]%Z 10 b) bags.
Proof. exact retry_refuted. Qed.
Print Assumptions C73_retry_refuted.

(** C74: the bags of the uniform method depend on the parameters, the labels and random_state only ... *)
Theorem C74_uniform_reproducible : forall (G : Type) (RG : rng G) fuel s y global1 global2 b s' gl, ps_method s = Uniform ->
  PS_generate RG fuel s y global1 = Some (b, s', gl) ->
  gl = global1 /\ PS_generate RG fuel s y global2 = Some (b, s', global2).
Proof. exact @PS_uniform_reproducible. Qed.
Print Assumptions C74_uniform_reproducible.

(** ... a seed does the same as a generator made from it ... *)
Theorem C74_seed_or_generator : forall (G : Type) (RG : rng G) fuel n size m al mp k y global,
  let s rs := {| ps_n_bags := n; ps_bag_size := size; ps_method := m; ps_alphas := al; ps_min := mp; ps_random := rs; ps_bags := None |} in
  PS_generate RG fuel (s (Seed k)) y global = PS_generate RG fuel (s (State (r_seed RG k))) y global.
Proof. exact @PS_seed_or_generator. Qed.
Print Assumptions C74_seed_or_generator.

Theorem C74_covariate_seed_or_generator : forall (G : Type) (RG : rng G) n size k X y,
  let s rs := {| cs_n_bags := n; cs_bag_size := size; cs_random := rs; cs_bags := None |} in
  CS_generate RG (s (Seed k)) X y = CS_generate RG (s (State (r_seed RG k))) X y.
Proof. exact @CS_seed_or_generator. Qed.
Print Assumptions C74_covariate_seed_or_generator.

(** ... and a call that returns stores the bags, the generator and the size used, and leaves the other parameters alone, ... *)
Theorem C74_stored : forall (G : Type) (RG : rng G) fuel s y global b s' global', ps_bags s = None ->
  PS_generate RG fuel s y global = Some (Val b, s', global') ->
  ps_bag_size s' = Some (bag_size_of s y) /\ ps_bags s' = Some b /\ (exists g, ps_random s' = State g) /\
  ps_n_bags s' = ps_n_bags s /\ ps_method s' = ps_method s /\ ps_alphas s' = ps_alphas s /\ ps_min s' = ps_min s.
Proof. exact @PS_keeps_size. Qed.
Print Assumptions C74_stored.

(** ... but those of the Dirichlet method depend on numpy's global generator. *)
Theorem C74_dirichlet_reproducible_refuted : exists (s : prior_shift bool) y b1 b2 s1 s2,
  rng_ok two_state_rng /\ ps_random s = Seed 7 /\ ps_method s = Dirichlet /\
  PS_generate two_state_rng 0 s y true = Some (Val b1, s1, true) /\
  PS_generate two_state_rng 0 s y false = Some (Val b2, s2, false) /\ b1 <> b2.
Proof. exact dirichlet_refuted. Qed.
Print Assumptions C74_dirichlet_reproducible_refuted.

(** C75: the uniform method never draws a bag without the last class (randint excludes its upper bound);
    with two classes, the reported prevalence of the last class is therefore never 0. *)
Theorem C75_last_class_present : forall (G : Type) (RG : rng G) fuel s y global bags s' global',
  rng_ok RG -> y <> [] -> ps_bags s = None -> (0 < bag_size_of s y)%nat ->
  one_per_class (ps_min s) (length (np_unique y)) -> ps_method s = Uniform -> (2 <= length (np_unique y))%nat ->
  PS_generate RG fuel s y global = Some (Val bags, s', global') ->
  Forall (fun b => 0 < nth (length (np_unique y) - 1) (fst b) 0) bags.
Proof. exact @PS_last_class. Qed.
Print Assumptions C75_last_class_present.

(** Every other class can be absent from all the bags. *)
Theorem C75_other_classes_can_be_absent : forall s y global, y <> [] -> ps_bags s = None -> (0 < bag_size_of s y)%nat ->
  ps_method s = Uniform -> ps_min s = MPNone -> get_random lowest_rng (ps_random s) <> None ->
  exists bags s', PS_generate lowest_rng (ps_n_bags s) s y global = Some (Val bags, s', global) /\
    length bags = ps_n_bags s /\
    Forall (fun b => forall i, (i < length (np_unique y) - 1)%nat -> nth i (fst b) 0 = 0) bags.
Proof. exact others_absent. Qed.
Print Assumptions C75_other_classes_can_be_absent.
