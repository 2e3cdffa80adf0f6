(** * Properties of the energy distance with the default distances of EDy, CvMy and EDX
    (C101, C102). *)

From Coq Require Import Reals List ZArith Permutation.
From Coquelicot Require Import Hierarchy RInt.
From Verif Require Import Num Spec Spec_Optim Spec_Energy M_Optim L_Optim5 L_Energy L_Energy2 L_Energy3.
Import ListNotations.
Open Scope R_scope.

(** C101: with the Manhattan distance, the energy distance of two weighted samples of the same total
    weight is twice the sum over the columns of the integral of the squared difference of the
    cumulative distributions of the column. *)
Theorem C101_energy_area : forall k P Q a b, within k a b P -> within k a b Q ->
  total_weight P = total_weight Q ->
  (forall j, (j < k)%nat ->
     ex_RInt (fun t => (weight_upto P j t - weight_upto Q j t) ^ 2) a b) /\
  energy (manhattan k) P Q =
  2 * sumn k (fun j => RInt (fun t => (weight_upto P j t - weight_upto Q j t) ^ 2) a b).
Proof. exact manhattan_area. Qed.
Print Assumptions C101_energy_area.

(** C101: so it is never negative, and it is zero exactly when each column has the same cumulative
    distribution in both samples. *)
Theorem C101_energy_zero : forall k P Q, total_weight P = total_weight Q ->
  0 <= energy (manhattan k) P Q /\
  (energy (manhattan k) P Q = 0 <->
   forall j t, (j < k)%nat -> weight_upto P j t = weight_upto Q j t).
Proof. intros k P Q H. exact (conj (manhattan_nonneg k P Q H) (manhattan_zero k P Q H)). Qed.
Print Assumptions C101_energy_zero.

(** C101: EDy with its default distance minimises the energy distance to the bag whenever different
    prevalences never give the same cumulative distributions of all the columns. *)
Theorem C101_edy_minimises : forall N fuel k (classes y : list Z) rows f bag p,
  classes <> [] -> exact_qp (solve_qp N) ->
  identifiable_columns (length classes) k (class_samples classes y rows) ->
  ED_fit N fuel (manhattan k) classes y rows = Some f -> ED_predict N f bag = Val p ->
  best_distribution (length classes)
    (fun p => energy (manhattan k) (class_mixture p (class_samples classes y rows))
                (spread_over 1 bag)) p.
Proof. exact EDy_best. Qed.
Print Assumptions C101_edy_minimises.

(** C101: and then a bag made of [k_c] copies of the training examples of each class [c] gets exactly
    its own prevalences. *)
Theorem C101_edy_consistent : forall N fuel k (classes y : list Z) rows f ks bag p,
  exact_qp (solve_qp N) ->
  (forall c, In c classes -> In c y) -> length y = length rows ->
  identifiable_columns (length classes) k (class_samples classes y rows) ->
  length ks = length classes -> bag <> [] ->
  Permutation bag (concat (map (fun kc => repeated (fst kc) (snd kc))
                               (combine ks (class_samples classes y rows)))) ->
  ED_fit N fuel (manhattan k) classes y rows = Some f -> ED_predict N f bag = Val p ->
  p = map (fun kc => INR (fst kc * length (snd kc)) / INR (length bag))
          (combine ks (class_samples classes y rows)).
Proof. exact EDy_consistent. Qed.
Print Assumptions C101_edy_consistent.

(** C101: whatever the classes, with exact numerical routines the energy distance of a prediction of
    EDy exceeds the minimum by at most half a spacing of the norm of the matrix of the problem. *)
Theorem C101_edy_nearly_minimises : forall N fuel k (classes y : list Z) rows f bag p,
  let train := fun i => select (nth i classes 0%Z) y rows in
  let n := (length classes - 1)%nat in
  let M := fun i j => 2 * ed_B (length classes)
        (ed_K (manhattan k) train (fun i => INR (length (train i)))) i j in
  (1 <= fuel)%nat -> classes <> [] -> exact_qp (solve_qp N) ->
  (forall v, 0 < spacing N v) ->
  ((0 < n)%nat ->
   (forall B, agree n B M -> singular_values n B (fst (svd N n B)) (snd (svd N n B))) /\
   (forall B, agree n B M -> smallest_eigenvalue n B (min_eigenvalue N n B))) ->
  ED_fit N fuel (manhattan k) classes y rows = Some f -> ED_predict N f bag = Val p ->
  nearly_best_distribution (length classes) (spacing N (frobenius n M) / 2)
    (fun p => energy (manhattan k) (class_mixture p (class_samples classes y rows))
                (spread_over 1 bag)) p.
Proof. exact EDy_nearly_best. Qed.
Print Assumptions C101_edy_nearly_minimises.

(** C101: two classes are identifiable as soon as one column has different cumulative distributions. *)
Theorem C101_two_classes : forall k (A B : list (list R)),
  (exists j t, (j < k)%nat /\ row_fraction_upto j t A <> row_fraction_upto j t B) ->
  identifiable_columns 2 k [A; B].
Proof. exact binary_columns. Qed.
Print Assumptions C101_two_classes.

(** C101: CvMy with its default distance, on the ranks of the predictions. *)
Theorem C101_cvmy_minimises : forall N fuel classes y k tr te p,
  classes <> [] -> exact_qp (solve_qp N) ->
  let train := class_samples classes y (rank_rows k (tr ++ te) tr) in
  identifiable_columns (length classes) k train ->
  CvMy_predict N fuel (manhattan k) classes y k tr te = Some (Val p) ->
  best_distribution (length classes)
    (fun p => energy (manhattan k) (class_mixture p train)
                (spread_over 1 (rank_rows k (tr ++ te) te))) p.
Proof. exact CvMy_default. Qed.
Print Assumptions C101_cvmy_minimises.

(** C101: different samples, without a single row in common, can have a null energy distance. *)
Theorem C101_sees_rows_refuted : ~ forall (A B : list (list R)),
  Forall (fun r => length r = 2%nat) A -> Forall (fun r => length r = 2%nat) B ->
  A <> [] -> (forall x, In x A -> ~ In x B) ->
  energy (manhattan 2) (spread_over 1 A) (spread_over 1 B) <> 0.
Proof. exact manhattan_blind_refuted. Qed.
Print Assumptions C101_sees_rows_refuted.

(** C102: with the Euclidean distance, the energy distance of two weighted samples of the same total
    weight is never negative, and it is zero exactly when every row has the same weight in both. *)
Theorem C102_energy_zero : forall k P Q, rows_of k P -> rows_of k Q ->
  total_weight P = total_weight Q ->
  0 <= energy (euclidean k) P Q /\
  (energy (euclidean k) P Q = 0 <-> forall x, weight_at P x = weight_at Q x).
Proof.
  intros k P Q HP HQ H. exact (conj (euclidean_nonneg k P Q HP HQ H) (euclidean_zero k P Q HP HQ H)).
Qed.
Print Assumptions C102_energy_zero.

(** C102: EDX with its default distance minimises the energy distance to the bag whenever different
    prevalences never give the same frequencies of all the rows. *)
Theorem C102_edx_minimises : forall N fuel k (classes y : list Z) rows f bag p,
  classes <> [] -> exact_qp (solve_qp N) -> Forall (fun r => length r = k) rows ->
  identifiable_rows (length classes) (class_samples classes y rows) ->
  ED_fit N fuel (euclidean k) classes y rows = Some f -> ED_predict N f bag = Val p ->
  best_distribution (length classes)
    (fun p => energy (euclidean k) (class_mixture p (class_samples classes y rows))
                (spread_over 1 bag)) p.
Proof. exact EDX_best. Qed.
Print Assumptions C102_edx_minimises.

(** C102: and then a bag made of [k_c] copies of the training examples of each class [c] gets exactly
    its own prevalences. *)
Theorem C102_edx_consistent : forall N fuel k (classes y : list Z) rows f ks bag p,
  exact_qp (solve_qp N) -> Forall (fun r => length r = k) rows ->
  (forall c, In c classes -> In c y) -> length y = length rows ->
  identifiable_rows (length classes) (class_samples classes y rows) ->
  length ks = length classes -> bag <> [] ->
  Permutation bag (concat (map (fun kc => repeated (fst kc) (snd kc))
                               (combine ks (class_samples classes y rows)))) ->
  ED_fit N fuel (euclidean k) classes y rows = Some f -> ED_predict N f bag = Val p ->
  p = map (fun kc => INR (fst kc * length (snd kc)) / INR (length bag))
          (combine ks (class_samples classes y rows)).
Proof. exact EDX_consistent. Qed.
Print Assumptions C102_edx_consistent.

(** C102: in particular when every class has a training example that no other class has. *)
Theorem C102_own_examples : forall n samples, own_examples n samples -> identifiable_rows n samples.
Proof. exact own_examples_identify. Qed.
Print Assumptions C102_own_examples.

(** C102: whatever the classes, with exact numerical routines the energy distance of a prediction of
    EDX exceeds the minimum by at most half a spacing of the norm of the matrix of the problem. *)
Theorem C102_edx_nearly_minimises : forall N fuel k (classes y : list Z) rows f bag p,
  let train := fun i => select (nth i classes 0%Z) y rows in
  let n := (length classes - 1)%nat in
  let M := fun i j => 2 * ed_B (length classes)
        (ed_K (euclidean k) train (fun i => INR (length (train i)))) i j in
  (1 <= fuel)%nat -> classes <> [] -> exact_qp (solve_qp N) ->
  (forall v, 0 < spacing N v) ->
  ((0 < n)%nat ->
   (forall B, agree n B M -> singular_values n B (fst (svd N n B)) (snd (svd N n B))) /\
   (forall B, agree n B M -> smallest_eigenvalue n B (min_eigenvalue N n B))) ->
  Forall (fun r => length r = k) rows ->
  ED_fit N fuel (euclidean k) classes y rows = Some f -> ED_predict N f bag = Val p ->
  nearly_best_distribution (length classes) (spacing N (frobenius n M) / 2)
    (fun p => energy (euclidean k) (class_mixture p (class_samples classes y rows))
                (spread_over 1 bag)) p.
Proof. exact EDX_nearly_best. Qed.
Print Assumptions C102_edx_nearly_minimises.

(** Three classes of points of the plane, two of which share a row, meet all the hypotheses. *)
Example C102_hypotheses :
  Forall (fun r => length r = 2%nat) plane_rows /\
  (forall c, In c plane_classes -> In c plane_y) /\
  identifiable_columns 3 2 (class_samples plane_classes plane_y plane_rows) /\
  own_examples 3 (class_samples plane_classes plane_y plane_rows) /\
  exact_qp (solve_qp example_numerics) /\
  Permutation plane_bag (concat (map (fun kc => repeated (fst kc) (snd kc))
     (combine [2; 0; 1]%nat (class_samples plane_classes plane_y plane_rows)))) /\
  (exists f p, ED_fit example_numerics 1 (manhattan 2) plane_classes plane_y plane_rows = Some f /\
    ED_predict example_numerics f plane_bag = Val p) /\
  (exists f p, ED_fit example_numerics 1 (euclidean 2) plane_classes plane_y plane_rows = Some f /\
    ED_predict example_numerics f plane_bag = Val p).
Proof. exact plane_example. Qed.

(** And for the energy distance itself and CvMy. *)
Example C101_hypotheses :
  within 2 0 1 (spread_over 1 [[0; 0]; [1; 1]]) /\ within 2 0 1 (spread_over 1 [[0; 1]; [1; 0]]) /\
  total_weight (spread_over 1 [[0; 0]; [1; 1]]) = total_weight (spread_over 1 [[0; 1]; [1; 0]]) /\
  identifiable_columns 2 1
    (class_samples [0; 1]%Z [0; 1]%Z (rank_rows 1 ([[0]; [1]] ++ [[0]; [1]]) [[0]; [1]])) /\
  exists p, CvMy_predict example_numerics 1 (manhattan 1) [0; 1]%Z [0; 1]%Z 1 [[0]; [1]] [[0]; [1]]
            = Some (Val p).
Proof. exact rank_example. Qed.
