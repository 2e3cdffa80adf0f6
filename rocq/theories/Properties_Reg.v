(** * Properties of the regression quantifiers REGX and REGy (C63, C83-C88).

    [w : world] holds the objects that quantifiers can share: the bag generator and the regression
    estimator of the user ([None]: the default GLM).  fit returns the quantifier and the new world;
    predict gets the present state of the user's estimator. *)

From Coq Require Import Reals List ZArith Lra Lia Permutation.
From Verif Require Import Num Spec L_Num M_Bags Spec_Bags L_Bags2 L_Bags3 M_Match Spec_Match L_Match10 M_Reg Spec_Reg
  L_Reg3 L_Reg4 L_Reg5 L_Reg6 L_Reg7.
Import ListNotations.
Open Scope R_scope.

(** ** C63 *)

(** Every result is a distribution over the training classes. *)
Theorem C63_REGX_distribution : forall S M (B : bag_source S) (Q : regression M) ppf nb strat X y w q w' user T r,
  REGX_fit B Q ppf nb strat X y w = Some (Val q, w') -> REGX_predict Q q user T = Val r ->
  distribution_over (length (np_unique y)) r.
Proof. intros S M. exact REGX_distribution. Qed.
Print Assumptions C63_REGX_distribution.

Theorem C63_REGy_distribution : forall S M (B : bag_source S) (Q : regression M) ppf nb strat y r preds w q w' user test p,
  y <> [] -> (0 < r)%nat -> length preds = (r * length y)%nat ->
  REGy_fit B Q ppf nb strat y preds w = Some (Val q, w') ->
  REGy_predict Q q user test = Val p -> distribution_over (length (np_unique y)) p.
Proof. intros S M. exact REGy_distribution. Qed.
Print Assumptions C63_REGy_distribution.

(** Two classes: always [1 - p, p], where p is the output of the estimator, clipped. *)
Theorem C63_REGX_two : forall S M (B : bag_source S) (Q : regression M) ppf nb strat k X y w q w' m m1 rows,
  length (np_unique y) = 2%nat ->
  REGX_fit B Q ppf nb strat (Table k X) y w = Some (Val q, w') -> w_regressor w = Some m ->
  always_predicts Q -> ro_dataX q <> [] -> rows <> [] ->
  exists row p, bin_counts nb (ro_cuts q) (length rows) rows row /\ rg_predict Q m1 row = Val p /\
    REGX_predict Q q (Some m1) (Table k rows) = Val [1 - clip01 p; clip01 p].
Proof. intros S M. exact REGX_two. Qed.
Print Assumptions C63_REGX_two.

Theorem C63_REGy_two : forall S M (B : bag_source S) (Q : regression M) ppf nb strat y r preds w q w' m m1 test,
  length (np_unique y) = 2%nat -> (0 < r)%nat ->
  length preds = (r * length y)%nat -> Forall (fun p => length p = 2%nat) preds ->
  REGy_fit B Q ppf nb strat y preds w = Some (Val q, w') -> w_regressor w = Some m ->
  always_predicts Q -> ro_dataX q <> [] -> test <> [] -> Forall (fun p => length p = 2%nat) test ->
  exists row p, bin_counts nb (ro_cuts q) (length test) test row /\ rg_predict Q m1 row = Val p /\
    REGy_predict Q q (Some m1) test = Val [1 - clip01 p; clip01 p].
Proof. intros S M. exact REGy_two. Qed.
Print Assumptions C63_REGy_two.

(** Another number of classes: one estimator per class, trained with the prevalences of that class; the
    clipped outputs divided by their sum when one of them is positive, NaN when none is. *)
Theorem C63_REGX_many : forall S M (B : bag_source S) (Q : regression M) ppf nb strat k X y w q w' m user rows,
  length (np_unique y) <> 2%nat ->
  REGX_fit B Q ppf nb strat (Table k X) y w = Some (Val q, w') -> w_regressor w = Some m ->
  always_predicts Q -> ro_dataX q <> [] -> rows <> [] ->
  exists row ps, bin_counts nb (ro_cuts q) (length rows) rows row /\ length ps = length (np_unique y) /\
    (forall c, (c < length ps)%nat -> exists mc,
       rg_fit Q m (ro_dataX q) (col c (ro_dataY q)) = Val mc /\ rg_predict Q mc row = Val (nth c ps 0)) /\
    (Exists (fun p => 0 < p) ps ->
       REGX_predict Q q user (Table k rows) = Val (vdiv (map clip01 ps) (rsum (map clip01 ps)))) /\
    (Forall (fun p => p <= 0) ps -> REGX_predict Q q user (Table k rows) = NotANumber).
Proof. intros S M. exact REGX_many. Qed.
Print Assumptions C63_REGX_many.

Theorem C63_REGy_many : forall S M (B : bag_source S) (Q : regression M) ppf nb strat y r preds w q w' m user test,
  length (np_unique y) <> 2%nat -> y <> [] -> (0 < r)%nat ->
  length preds = (r * length y)%nat -> Forall (fun p => length p = length (np_unique y)) preds ->
  REGy_fit B Q ppf nb strat y preds w = Some (Val q, w') -> w_regressor w = Some m ->
  always_predicts Q -> ro_dataX q <> [] -> test <> [] -> Forall (fun p => length p = length (np_unique y)) test ->
  exists row ps, bin_counts nb (ro_cuts q) (length test) test row /\ length ps = length (np_unique y) /\
    (forall c, (c < length ps)%nat -> exists mc,
       rg_fit Q m (ro_dataX q) (col c (ro_dataY q)) = Val mc /\ rg_predict Q mc row = Val (nth c ps 0)) /\
    (Exists (fun p => 0 < p) ps ->
       REGy_predict Q q user test = Val (vdiv (map clip01 ps) (rsum (map clip01 ps)))) /\
    (Forall (fun p => p <= 0) ps -> REGy_predict Q q user test = NotANumber).
Proof. intros S M. exact REGy_many. Qed.
Print Assumptions C63_REGy_many.

(** The default estimator always answers, and gives every class a positive prevalence. *)
Theorem C63_REGX_default : forall S M (B : bag_source S) (Q : regression M) ppf nb strat k X y w q w' user rows, y <> [] ->
  REGX_fit B Q ppf nb strat (Table k X) y w = Some (Val q, w') -> w_regressor w = None ->
  one_coefficient_each Q -> ro_dataX q <> [] -> rows <> [] ->
  exists r, REGX_predict Q q user (Table k rows) = Val r /\ distribution_over (length (np_unique y)) r /\
    Forall (fun p => 0 < p) r.
Proof. intros S M. exact REGX_glm. Qed.
Print Assumptions C63_REGX_default.

Theorem C63_REGy_default : forall S M (B : bag_source S) (Q : regression M) ppf nb strat y r preds w q w' user test,
  y <> [] -> (0 < r)%nat ->
  length preds = (r * length y)%nat -> Forall (fun p => length p = length (np_unique y)) preds ->
  REGy_fit B Q ppf nb strat y preds w = Some (Val q, w') -> w_regressor w = None ->
  one_coefficient_each Q -> ro_dataX q <> [] ->
  test <> [] -> Forall (fun p => length p = length (np_unique y)) test ->
  exists p, REGy_predict Q q user test = Val p /\ distribution_over (length (np_unique y)) p /\
    Forall (fun v => 0 < v) p.
Proof. intros S M. exact REGy_glm. Qed.
Print Assumptions C63_REGy_default.

(** With three classes an estimator that always predicts can still give NaN. *)
Theorem C63_many_always_refuted : forall ppf, exists q w',
  REGX_fit (fixed_source three_bags) (constant_regressor (-1)) ppf 2 EqualWidth (Table 1 three_X) three_labels
    (world_of (Some tt)) = Some (Val q, w') /\ always_predicts (constant_regressor (-1)) /\
  REGX_predict (constant_regressor (-1)) q (w_regressor w') (Table 1 three_X) = NotANumber.
Proof. exact negative_outputs. Qed.
Print Assumptions C63_many_always_refuted.

Example C63_fits : forall ppf,
  (exists q m', REGX_fit (fixed_source good_bags) memory_regressor ppf 2 EqualWidth (Table 1 unit_X) ex_labels
     (world_of (Some [])) = Some (Val q, world_of (Some m')) /\ ro_dataX q <> []) /\
  (exists q, REGX_fit (fixed_source good_bags) memory_regressor ppf 2 EqualWidth (Table 1 unit_X) ex_labels
     (world_of None) = Some (Val q, world_of None) /\ ro_dataX q <> []) /\
  (exists q, REGX_fit (fixed_source three_bags) mean_regressor ppf 2 EqualWidth (Table 1 three_X) three_labels
     (world_of (Some [0])) = Some (Val q, world_of (Some [0])) /\ ro_dataX q <> [] /\
     ro_models q = Copies [[1/3]; [1/3]; [1/3]]) /\
  always_predicts memory_regressor /\ one_coefficient_each memory_regressor.
Proof.
  intros ppf. split; [eexists; eexists; split; [apply good_fit|discriminate]|].
  split; [eexists; split; [apply good_glm|discriminate]|]. split; [apply mean_three|].
  split; [apply memory_predicts|apply memory_glm].
Qed.

(** ** C83 *)

(** Training pairs: for each bag, the bin counts of its examples and the prevalences of its labels. *)
Theorem C83_REGX_pairs : forall S M (B : bag_source S) (Q : regression M) ppf nb strat k X y w q w' size,
  REGX_fit B Q ppf nb strat (Table k X) y w = Some (Val q, w') ->
  honest_source B (w_generator w) X y size ->
  length (ro_dataX q) = bs_n_bags B (w_generator w') /\ length (ro_dataY q) = length (ro_dataX q) /\
  forall j, (j < length (ro_dataX q))%nat ->
    exists idx, training_pair nb (ro_cuts q) X y size (nth j (ro_dataX q) []) (nth j (ro_dataY q) []) idx.
Proof. intros S M. exact REGX_pairs. Qed.
Print Assumptions C83_REGX_pairs.

Theorem C83_REGy_pairs : forall S M (B : bag_source S) (Q : regression M) ppf nb strat y r preds w q w' size,
  y <> [] -> (0 < r)%nat ->
  length preds = (r * length y)%nat -> Forall (fun p => length p = length (np_unique y)) preds ->
  REGy_fit B Q ppf nb strat y preds w = Some (Val q, w') ->
  honest_source B (w_generator w) (if Nat.eqb (length (np_unique y)) 2 then map (fun r => [nth 0 r 0]) preds else preds)
    (concat (repeat y r)) size ->
  length (ro_dataX q) = bs_n_bags B (w_generator w') /\ length (ro_dataY q) = length (ro_dataX q) /\
  forall j, (j < length (ro_dataX q))%nat ->
    exists idx, training_pair nb (ro_cuts q) preds (concat (repeat y r)) size
                  (nth j (ro_dataX q) []) (nth j (ro_dataY q) []) idx.
Proof. intros S M. exact REGy_pairs. Qed.
Print Assumptions C83_REGy_pairs.

(** The generators of the library are honest the first time they are used. *)
Theorem C83_generators_honest : forall (G : Type) (RG : rng G), rng_ok RG ->
  (forall fuel s global X y, y <> [] -> ps_bags s = None -> (0 < bag_size_of s y)%nat ->
     one_per_class (ps_min s) (length (np_unique y)) ->
     honest_source (prior_source RG fuel) (s, global) X y (bag_size_of s y)) /\
  (forall s X y, cs_bags s = None -> (0 < cs_size_of s y)%nat ->
     honest_source (covariate_source RG) s X y (cs_size_of s y)) /\
  (forall fuel s global X y size, ms_bags s = None -> ms_bag_size s = Some size -> (0 < size)%nat ->
     one_per_class (ms_min s) (length (np_unique y)) ->
     honest_source (mixed_source RG fuel) (s, global) X y size).
Proof.
  intros G RG HR. split; [|split].
  - intros. now apply prior_honest.
  - intros. now apply covariate_honest.
  - intros. now apply mixed_honest.
Qed.
Print Assumptions C83_generators_honest.

(** The row of a test bag holds the bin fractions of its own examples. *)
Theorem C83_REGX_test : forall S M (B : bag_source S) (Q : regression M) ppf nb strat k X y w q w' user rows,
  REGX_fit B Q ppf nb strat (Table k X) y w = Some (Val q, w') -> ro_dataX q <> [] -> rows <> [] ->
  exists row, bin_counts nb (ro_cuts q) (length rows) rows row /\
    REGX_predict Q q user (Table k rows) = predict_bag Q q user row.
Proof. intros S M. exact REGX_asks. Qed.
Print Assumptions C83_REGX_test.

Theorem C83_REGy_test : forall S M (B : bag_source S) (Q : regression M) ppf nb strat y r preds w q w' user test,
  y <> [] -> (0 < r)%nat ->
  length preds = (r * length y)%nat -> Forall (fun p => length p = length (np_unique y)) preds ->
  REGy_fit B Q ppf nb strat y preds w = Some (Val q, w') -> ro_dataX q <> [] ->
  test <> [] -> Forall (fun p => length p = length (np_unique y)) test ->
  exists row, bin_counts nb (ro_cuts q) (length test) test row /\
    REGy_predict Q q user test = predict_bag Q q user row.
Proof. intros S M. exact REGy_asks. Qed.
Print Assumptions C83_REGy_test.

(** Bags as large as the training set (the default): a training bag given to predict is asked with its own
    training row. *)
Theorem C83_same_scale : forall S M (B : bag_source S) (Q : regression M) ppf nb strat k X y w q w' user j,
  REGX_fit B Q ppf nb strat (Table k X) y w = Some (Val q, w') ->
  honest_source B (w_generator w) X y (length X) -> (j < length (ro_dataX q))%nat ->
  exists idx, training_pair nb (ro_cuts q) X y (length X) (nth j (ro_dataX q) []) (nth j (ro_dataY q) []) idx /\
    REGX_predict Q q user (Table k (examples X idx)) = predict_bag Q q user (nth j (ro_dataX q) []).
Proof. intros S M. exact REGX_same_scale. Qed.
Print Assumptions C83_same_scale.

(** Bags of another size: no training row is the row of any test bag; each block of a training row adds up
    to bag_size/n, each block of a test row to 1. *)
Theorem C83_other_scale : forall S M (B : bag_source S) (Q : regression M) ppf nb strat k X y w q w' size,
  strat = EqualWidth \/ strat = EqualCount ->
  REGX_fit B Q ppf nb strat (Table k X) y w = Some (Val q, w') -> (0 < k)%nat ->
  honest_source B (w_generator w) X y size -> size <> length X ->
  forall j rows r, (j < length (ro_dataX q))%nat -> rows <> [] ->
    bin_counts nb (ro_cuts q) (length rows) rows r -> nth j (ro_dataX q) [] <> r.
Proof. intros S M B Q ppf nb strat k X y. exact (REG_other_scale B Q ppf nb strat None (length (np_unique y)) k X y). Qed.
Print Assumptions C83_other_scale.

Theorem C83_mass : forall S M (B : bag_source S) (Q : regression M) ppf nb strat k X y w q w' size,
  strat = EqualWidth \/ strat = EqualCount ->
  REGX_fit B Q ppf nb strat (Table k X) y w = Some (Val q, w') ->
  honest_source B (w_generator w) X y size ->
  (forall j b, (j < length (ro_dataX q))%nat -> (b < k)%nat ->
     sumn nb (fun i => nth (b * nb + i) (nth j (ro_dataX q) []) 0) = INR size / INR (length X)) /\
  (forall rows r b, rows <> [] -> ro_dataX q <> [] -> bin_counts nb (ro_cuts q) (length rows) rows r -> (b < k)%nat ->
     sumn nb (fun i => nth (b * nb + i) r 0) = 1).
Proof. intros S M B Q ppf nb strat k X y. exact (REG_mass B Q ppf nb strat None (length (np_unique y)) k X y). Qed.
Print Assumptions C83_mass.

(** The default estimator: the linear predictor of a training bag is multiplied by n/bag_size. *)
Theorem C83_default_distorted : forall S M (B : bag_source S) (Q : regression M) ppf nb strat k X y w q w' user size j,
  length (np_unique y) = 2%nat ->
  REGX_fit B Q ppf nb strat (Table k X) y w = Some (Val q, w') -> w_regressor w = None ->
  one_coefficient_each Q -> honest_source B (w_generator w) X y size -> (0 < size)%nat ->
  (j < length (ro_dataX q))%nat ->
  exists idx params t,
    training_pair nb (ro_cuts q) X y size (nth j (ro_dataX q) []) (nth j (ro_dataY q) []) idx /\
    glm_fit Q (ro_dataX q) (col 1 (ro_dataY q)) = Val params /\
    glm_predict params (nth j (ro_dataX q) []) = Val (logistic t) /\
    REGX_predict Q q user (Table k (examples X idx)) =
      Val [1 - logistic (INR (length X) / INR size * t); logistic (INR (length X) / INR size * t)].
Proof. intros S M. exact REGX_glm_scale. Qed.
Print Assumptions C83_default_distorted.

Theorem C83_any_size_refuted : forall ppf, exists q w' m',
  REGX_fit (fixed_source small_bags) memory_regressor ppf 2 EqualWidth (Table 1 unit_X) ex_labels
    (world_of (Some [])) = Some (Val q, w') /\ w_regressor w' = Some m' /\
  honest_source (fixed_source small_bags) tt unit_X ex_labels 1 /\
  interpolates memory_regressor m' (ro_dataX q) (col 1 (ro_dataY q)) /\
  training_pair 2 (ro_cuts q) unit_X ex_labels 1 (nth 0 (ro_dataX q) []) (nth 0 (ro_dataY q) []) [1%nat] /\
  map (fun c => fraction c (bag_labels ex_labels [1%nat])) (np_unique ex_labels) = [0; 1] /\
  REGX_predict memory_regressor q (w_regressor w') (Table 1 (examples unit_X [1%nat])) = Val [1; 0].
Proof. exact small_wrong. Qed.
Print Assumptions C83_any_size_refuted.

(** The bags of the examples are honest: two of the size of the training set, one smaller. *)
Example C83_honest : honest_source (fixed_source good_bags) tt unit_X ex_labels (length unit_X) /\
  honest_source (fixed_source small_bags) tt unit_X ex_labels 1.
Proof. split; [exact good_honest|exact small_honest]. Qed.

(** ** C84 *)

(** fit leaves the user's estimator as it was, except with two classes: then it is the object that is
    fitted. *)
Theorem C84_REGX_user : forall S M (B : bag_source S) (Q : regression M) ppf nb strat k X y w q w' m,
  REGX_fit B Q ppf nb strat (Table k X) y w = Some (Val q, w') -> w_regressor w = Some m ->
  (length (np_unique y) <> 2%nat -> w_regressor w' = Some m) /\
  (length (np_unique y) = 2%nat ->
   exists m', rg_fit Q m (ro_dataX q) (col 1 (ro_dataY q)) = Val m' /\ w_regressor w' = Some m').
Proof. intros S M. exact REGX_user. Qed.
Print Assumptions C84_REGX_user.

Theorem C84_REGy_user : forall S M (B : bag_source S) (Q : regression M) ppf nb strat y r preds w q w' m,
  y <> [] -> (0 < r)%nat ->
  length preds = (r * length y)%nat -> Forall (fun p => length p = length (np_unique y)) preds ->
  REGy_fit B Q ppf nb strat y preds w = Some (Val q, w') -> w_regressor w = Some m ->
  (length (np_unique y) <> 2%nat -> w_regressor w' = Some m) /\
  (length (np_unique y) = 2%nat ->
   exists m', rg_fit Q m (ro_dataX q) (col 1 (ro_dataY q)) = Val m' /\ w_regressor w' = Some m').
Proof. intros S M. exact REGy_user. Qed.
Print Assumptions C84_REGy_user.

(** Whatever happens later to the estimator and the generator, the predictions stay the same. *)
Theorem C84_REGX_independent : forall S M (B : bag_source S) (Q : regression M) ppf nb strat X y w q w' evs w2 T,
  REGX_fit B Q ppf nb strat X y w = Some (Val q, w') ->
  length (np_unique y) <> 2%nat \/ w_regressor w = None ->
  reg_history B Q ppf evs w' = Some w2 ->
  REGX_predict Q q (w_regressor w2) T = REGX_predict Q q (w_regressor w') T.
Proof. intros S M. exact REGX_independent. Qed.
Print Assumptions C84_REGX_independent.

Theorem C84_REGy_independent : forall S M (B : bag_source S) (Q : regression M) ppf nb strat y r preds w q w' evs w2 test,
  y <> [] -> (0 < r)%nat ->
  length preds = (r * length y)%nat -> Forall (fun p => length p = length (np_unique y)) preds ->
  REGy_fit B Q ppf nb strat y preds w = Some (Val q, w') ->
  length (np_unique y) <> 2%nat \/ w_regressor w = None ->
  reg_history B Q ppf evs w' = Some w2 ->
  REGy_predict Q q (w_regressor w2) test = REGy_predict Q q (w_regressor w') test.
Proof. intros S M. exact REGy_independent. Qed.
Print Assumptions C84_REGy_independent.

(** Two classes: a second fit with the same estimator changes the predictions of the first quantifier. *)
Theorem C84_two_classes_refuted : forall ppf, exists q1 w1 q2 w2,
  REGX_fit (fixed_source last_bags) memory_regressor ppf 2 EqualWidth (Table 1 unit_X) ex_labels
    (world_of (Some [])) = Some (Val q1, w1) /\
  REGX_fit (fixed_source last_bags) memory_regressor ppf 2 EqualWidth (Table 1 [[1]; [0]]) ex_labels w1 = Some (Val q2, w2) /\
  REGX_predict memory_regressor q1 (w_regressor w1) (Table 1 [[1]; [1]]) = Val [0; 1] /\
  REGX_predict memory_regressor q1 (w_regressor w2) (Table 1 [[1]; [1]]) = Val [1; 0].
Proof. exact shared_changes. Qed.
Print Assumptions C84_two_classes_refuted.

(** A history: the estimator of the three-class quantifier is fitted with something else. *)
Example C84_history : forall ppf,
  reg_history (fixed_source three_bags) mean_regressor ppf [Refit [[0]] [1]; Generate [] []] (world_of (Some [0])) =
  Some (world_of (Some [1])).
Proof. reflexivity. Qed.

(** ** C85 *)

Theorem C85_generators_write_once : forall (G : Type) (RG : rng G) fuel,
  write_once (prior_source RG fuel) /\ write_once (covariate_source RG) /\ write_once (mixed_source RG fuel).
Proof.
  intros G RG fuel. split; [apply prior_write_once|]. split; [apply covariate_write_once|apply mixed_write_once].
Qed.
Print Assumptions C85_generators_write_once.

(** Every later fit with the same generator is trained with the targets, and the example indexes, of the
    first one. *)
Theorem C85_REGX_reused : forall S M (B : bag_source S) (Q : regression M) ppf nb strat k X y w q w' evs w2
    nb2 strat2 k2 X2 y2 q2 w3,
  write_once B -> REGX_fit B Q ppf nb strat (Table k X) y w = Some (Val q, w') ->
  reg_history B Q ppf evs w' = Some w2 ->
  REGX_fit B Q ppf nb2 strat2 (Table k2 X2) y2 w2 = Some (Val q2, w3) ->
  ro_dataY q2 = ro_dataY q /\ length (ro_dataX q2) = length (ro_dataX q) /\
  forall j, (j < length (ro_dataX q))%nat -> exists idx,
    bin_counts nb (ro_cuts q) (length X) (examples X idx) (nth j (ro_dataX q) []) /\
    bin_counts nb2 (ro_cuts q2) (length X2) (examples X2 idx) (nth j (ro_dataX q2) []).
Proof. intros S M B Q ppf nb strat k X y w q w' evs w2 nb2 strat2 k2 X2 y2 q2 w3. apply shared_bags. Qed.
Print Assumptions C85_REGX_reused.

Theorem C85_REGy_reused : forall S M (B : bag_source S) (Q : regression M) ppf nb strat y r preds w q w' evs w2
    nb2 strat2 y2 r2 preds2 q2 w3,
  y <> [] -> (0 < r)%nat -> length preds = (r * length y)%nat ->
  Forall (fun p => length p = length (np_unique y)) preds ->
  y2 <> [] -> (0 < r2)%nat -> length preds2 = (r2 * length y2)%nat ->
  Forall (fun p => length p = length (np_unique y2)) preds2 ->
  write_once B -> REGy_fit B Q ppf nb strat y preds w = Some (Val q, w') ->
  reg_history B Q ppf evs w' = Some w2 ->
  REGy_fit B Q ppf nb2 strat2 y2 preds2 w2 = Some (Val q2, w3) ->
  ro_dataY q2 = ro_dataY q.
Proof. intros S M. exact REGy_shared_bags. Qed.
Print Assumptions C85_REGy_reused.

(** With PriorShift_BagGenerator: the second quantifier learns prevalences that no bag of its data with
    that row has. *)
Theorem C85_own_data_refuted : forall ppf, exists q1 w1 q2 w2,
  REGX_fit (prior_source lowest_rng 1) memory_regressor ppf 2 EqualWidth (Table 1 unit_X) ex_labels
    {| w_generator := (lazy_ps, tt); w_regressor := None |} = Some (Val q1, w1) /\
  REGX_fit (prior_source lowest_rng 1) memory_regressor ppf 2 EqualWidth (Table 1 unit_X) [1; 0]%Z w1 = Some (Val q2, w2) /\
  ro_dataX q2 = [[0; 1]] /\ ro_dataY q2 = [[0; 1]] /\
  forall idx, ~ training_pair 2 (ro_cuts q2) unit_X [1; 0]%Z 2 [0; 1] [0; 1] idx.
Proof. exact shared_generator_wrong. Qed.
Print Assumptions C85_own_data_refuted.

(** ** C86 *)

Theorem C86_REGX_same_bag : forall S M (B : bag_source S) (Q : regression M) ppf nb strat k X y w q w' user rows rows',
  REGX_fit B Q ppf nb strat (Table k X) y w = Some (Val q, w') -> ro_dataX q <> [] -> rows <> [] ->
  Permutation rows rows' \/ (exists t, (0 < t)%nat /\ rows' = repeated t rows) ->
  REGX_predict Q q user (Table k rows') = REGX_predict Q q user (Table k rows).
Proof. intros S M. exact REGX_same_bag. Qed.
Print Assumptions C86_REGX_same_bag.

Theorem C86_REGy_same_bag : forall S M (B : bag_source S) (Q : regression M) ppf nb strat y r preds w q w' user test test',
  y <> [] -> (0 < r)%nat ->
  length preds = (r * length y)%nat -> Forall (fun p => length p = length (np_unique y)) preds ->
  REGy_fit B Q ppf nb strat y preds w = Some (Val q, w') -> ro_dataX q <> [] ->
  test <> [] -> Forall (fun p => length p = length (np_unique y)) test ->
  Permutation test test' \/ (exists t, (0 < t)%nat /\ test' = repeated t test) ->
  REGy_predict Q q user test' = REGy_predict Q q user test.
Proof. intros S M. exact REGy_same_bag. Qed.
Print Assumptions C86_REGy_same_bag.

Example C86_bags : Permutation [[0]; [1]] [[1]; [0]] /\ repeated 2 [[0]; [1]] = [[0]; [0]; [1]; [1]].
Proof. split; [apply perm_swap|reflexivity]. Qed.

(** ** C87 *)

(** An estimator without training error recovers the prevalences of every training bag when the bags are
    as large as the training set. *)
Theorem C87_two_classes : forall S M (B : bag_source S) (Q : regression M) ppf nb strat k X y w q w' m m' j,
  length (np_unique y) = 2%nat ->
  REGX_fit B Q ppf nb strat (Table k X) y w = Some (Val q, w') ->
  honest_source B (w_generator w) X y (length X) -> w_regressor w = Some m -> w_regressor w' = Some m' ->
  interpolates Q m' (ro_dataX q) (col 1 (ro_dataY q)) -> (j < length (ro_dataX q))%nat ->
  exists idx, training_pair nb (ro_cuts q) X y (length X) (nth j (ro_dataX q) []) (nth j (ro_dataY q) []) idx /\
    REGX_predict Q q (w_regressor w') (Table k (examples X idx)) =
    Val (map (fun c => fraction c (bag_labels y idx)) (np_unique y)).
Proof. intros S M. exact REGX_recovers_two. Qed.
Print Assumptions C87_two_classes.

Theorem C87_many_classes : forall S M (B : bag_source S) (Q : regression M) ppf nb strat k X y w q w' m j,
  length (np_unique y) <> 2%nat ->
  REGX_fit B Q ppf nb strat (Table k X) y w = Some (Val q, w') ->
  honest_source B (w_generator w) X y (length X) -> w_regressor w = Some m -> always_predicts Q ->
  (forall c mc, (c < length (np_unique y))%nat -> rg_fit Q m (ro_dataX q) (col c (ro_dataY q)) = Val mc ->
     interpolates Q mc (ro_dataX q) (col c (ro_dataY q))) -> (j < length (ro_dataX q))%nat ->
  exists idx, training_pair nb (ro_cuts q) X y (length X) (nth j (ro_dataX q) []) (nth j (ro_dataY q) []) idx /\
    REGX_predict Q q (w_regressor w') (Table k (examples X idx)) =
    Val (map (fun c => fraction c (bag_labels y idx)) (np_unique y)).
Proof. intros S M. exact REGX_recovers_many. Qed.
Print Assumptions C87_many_classes.

Example C87_interpolates : forall ppf, exists q m',
  REGX_fit (fixed_source good_bags) memory_regressor ppf 2 EqualWidth (Table 1 unit_X) ex_labels (world_of (Some [])) =
    Some (Val q, world_of (Some m')) /\
  interpolates memory_regressor m' (ro_dataX q) (col 1 (ro_dataY q)) /\ length (ro_dataX q) = 2%nat.
Proof. intros ppf. eexists. eexists. split; [apply good_fit|]. split; [apply good_interpolates|reflexivity]. Qed.

(** ** C88 *)

(** The branch for arrays of one dimension always fails, without touching the shared objects. *)
Theorem C88_flat_fails : forall S M (B : bag_source S) (Q : regression M) ppf nb strat x y w q user,
  REGX_fit B Q ppf nb strat (Flat x) y w = Some (Err IndexError, w) /\
  REGX_predict Q q user (Flat x) = Err IndexError.
Proof. intros. split; reflexivity. Qed.
Print Assumptions C88_flat_fails.

Theorem C88_more_attributes : forall S M (B : bag_source S) (Q : regression M) ppf nb strat k X y w q w' user k' rows,
  REGX_fit B Q ppf nb strat (Table k X) y w = Some (Val q, w') -> ro_dataX q <> [] -> (k < k')%nat ->
  REGX_predict Q q user (Table k' rows) = Err IndexError.
Proof. intros S M. exact REGX_more_attributes. Qed.
Print Assumptions C88_more_attributes.
