(** * Property theorems: the optimisation problems and the energy-distance quantifiers
    (C48-C50, C57, C66, C76, C77). *)

From Coq Require Import Reals List ZArith Lia Lra Bool Permutation.
From Verif Require Import Num Spec M_Baselines M_Metrics M_Optim Spec_Optim L_Num L_Optim L_Optim2
  L_Optim3 L_Optim4 L_Optim5.
Import ListNotations.
Open Scope R_scope.

(** C48: the prediction is a distribution, whatever the training distributions. *)
Theorem C48_distribution : forall N fuel d n T t G C b p,
  exact_qp (solve_qp N) ->
  compute_l2_param_train N fuel d n T = Some (G, C, b) -> solve_l2 N d n T t G C b = Val p ->
  distribution_over n p.
Proof. intros. eapply l2_any; eauto. Qed.
Print Assumptions C48_distribution.

(** C48: when no class distribution is a combination of the others, the prediction minimises the L2
    distance between the mixture and the test distribution. *)
Theorem C48_least_squares : forall N fuel d n T t G C b p,
  exact_qp (solve_qp N) -> independent_columns d n T ->
  compute_l2_param_train N fuel d n T = Some (G, C, b) -> solve_l2 N d n T t G C b = Val p ->
  best_distribution n (squared_l2 d n T t) p.
Proof. intros N fuel d n T t G C b p HQ HI. exact (l2_best N fuel d n T t G C b p HQ (gram2_pd d n T HI)). Qed.
Print Assumptions C48_least_squares.

(** C48: in that case a test distribution that is a mixture of the classes is recovered exactly. *)
Theorem C48_exact_fit : forall N fuel d n T t G C b p q,
  exact_qp (solve_qp N) -> independent_columns d n T ->
  distribution_over n q -> (forall r, (r < d)%nat -> nth r t 0 = mixture_at n T q r) ->
  compute_l2_param_train N fuel d n T = Some (G, C, b) -> solve_l2 N d n T t G C b = Val p ->
  p = q.
Proof. exact l2_exact. Qed.
Print Assumptions C48_exact_fit.

(** C48: for any class distributions, with exact singular values and eigenvalues, the distance of the
    prediction exceeds the minimum by at most half a spacing. *)
Theorem C48_dependent_classes : forall N fuel d n T t G C b p,
  (1 <= fuel)%nat -> exact_qp (solve_qp N) ->
  0 < spacing N (frobenius n (gram2 d T)) ->
  (forall B, agree n B (gram2 d T) -> singular_values n B (fst (svd N n B)) (snd (svd N n B))) ->
  (forall M, agree n M (gram2 d T) -> smallest_eigenvalue n M (min_eigenvalue N n M)) ->
  compute_l2_param_train N fuel d n T = Some (G, C, b) -> solve_l2 N d n T t G C b = Val p ->
  nearly_best_distribution n (spacing N (frobenius n (gram2 d T)) / 2) (squared_l2 d n T t) p.
Proof. exact l2_nearly_best. Qed.
Print Assumptions C48_dependent_classes.

Example C48_hypotheses :
  exact_qp (solve_qp example_numerics) /\ independent_columns 2 2 example_T /\
  (exists G C b p, compute_l2_param_train example_numerics 1 2 2 example_T = Some (G, C, b) /\
     solve_l2 example_numerics 2 2 example_T [1/2; 1/2] G C b = Val p) /\
  distribution_over 2 [1/2; 1/2] /\
  (forall r, (r < 2)%nat -> nth r [1/2; 1/2] 0 = mixture_at 2 example_T [1/2; 1/2] r).
Proof.
  split; [exact ideal_qp_exact|]. split; [exact example_T_independent|].
  split; [exact example_l2|]. split.
  - split; [reflexivity|]. split; [|simpl; lra].
    repeat (apply Forall_cons; [lra|]). apply Forall_nil.
  - intros [|[|r]] H; [| |lia]; unfold mixture_at, example_T, of_rows; simpl; lra.
Qed.

(** Two classes with the same distribution: the Gram matrix is singular. *)
Example C48_hypotheses_dependent :
  0 < spacing example_numerics0 (frobenius 2 (gram2 2 example_same)) /\
  (forall B, agree 2 B (gram2 2 example_same) ->
     singular_values 2 B (fst (svd example_numerics0 2 B)) (snd (svd example_numerics0 2 B))) /\
  (forall M, agree 2 M (gram2 2 example_same) ->
     smallest_eigenvalue 2 M (min_eigenvalue example_numerics0 2 M)) /\
  exists G C b, compute_l2_param_train example_numerics0 1 2 2 example_same = Some (G, C, b).
Proof.
  split; [simpl; lra|]. split; [intros; now apply ones_singular|].
  split; [intros; now apply ones_smallest|].
  destruct example_same_param as (G & C & b & H & _). eauto.
Qed.

(** C49: for symmetric matrices is_pd decides positive definiteness. *)
Theorem C49_decides : forall n A, symmetric n A -> (is_pd n A = true <-> positive_definite n A).
Proof. exact is_pd_sym. Qed.
Print Assumptions C49_decides.

(** C49: for any matrix is_pd decides positive definiteness of the symmetric matrix with its upper
    triangle; the entries below the diagonal are not read. *)
Theorem C49_upper_triangle : forall n A,
  is_pd n A = true <-> positive_definite n (from_upper_triangle A).
Proof. exact is_pd_upper. Qed.
Print Assumptions C49_upper_triangle.

(** C49: the upper triangle [R] computed by dpofa satisfies [R^T R = A] and has a positive diagonal. *)
Theorem C49_factor : forall n A, symmetric n A -> positive_definite n A ->
  let r := upper_part (snd (dpofa n A)) in
  (forall i j, (i < n)%nat -> (j < n)%nat -> sumn n (fun l => r l i * r l j) = A i j) /\
  (forall i, (i < n)%nat -> 0 < r i i).
Proof. exact factor_of_pd. Qed.
Print Assumptions C49_factor.

(** C49: otherwise the value reported by dpofa is the order of the first leading minor that is not
    positive definite. *)
Theorem C49_info : forall n A e, symmetric n A -> fst (dpofa n A) = S e ->
  (e < n)%nat /\ positive_definite e A /\ ~ positive_definite (S e) A.
Proof. exact dpofa_info. Qed.
Print Assumptions C49_info.

(** C49: a matrix that is not symmetric can be accepted although its quadratic form is not
    positive. *)
Theorem C49_not_symmetric_refuted : ~ forall n A, is_pd n A = true -> positive_definite n A.
Proof. exact is_pd_not_symmetric. Qed.
Print Assumptions C49_not_symmetric_refuted.

Example C49_hypotheses :
  (symmetric 2 (of_rows [[2; 1]; [1; 2]]) /\ positive_definite 2 (of_rows [[2; 1]; [1; 2]])) /\
  (symmetric 2 (of_rows [[1; 2]; [2; 1]]) /\ fst (dpofa 2 (of_rows [[1; 2]; [2; 1]])) = 2%nat).
Proof. split; [split; [apply sym2|apply pd2; lra]|split; [apply sym2|exact dpofa_example]]. Qed.

(** C66: whatever the numerical routines return, a result of nearest_pd is symmetric and positive
    definite. *)
Theorem C66_positive_definite : forall N fuel n A P, nearest_pd N fuel n A = Some P ->
  symmetric n P /\ positive_definite n P.
Proof. exact nearest_pd_pd. Qed.
Print Assumptions C66_positive_definite.

(** C66: quadprog receives a symmetric positive-definite matrix from solve_l2. *)
Theorem C66_l2_parameters : forall N fuel d n T G C b,
  compute_l2_param_train N fuel d n T = Some (G, C, b) ->
  symmetric n G /\ positive_definite n G /\
  (independent_columns d n T ->
   forall i j, G i j = 2 * sumn d (fun r => T r i * T r j)).
Proof. exact l2_parameters. Qed.
Print Assumptions C66_l2_parameters.

(** C66: the loop of nearest_pd stops at its first iteration when the eigenvalue routine is wrong by
    less than the spacing. *)
Theorem C66_terminates : forall N fuel n A err,
  (1 <= fuel)%nat -> err < spacing N (frobenius n A) ->
  (forall M, symmetric n M -> eigenvalue_bound n M (min_eigenvalue N n M - err)) ->
  exists P, nearest_pd N fuel n A = Some P.
Proof. exact nearest_pd_terminates. Qed.
Print Assumptions C66_terminates.

(** C66: a positive-semidefinite matrix that is not positive definite only has its diagonal moved, by
    one spacing, when the numerical routines are exact. *)
Theorem C66_semidefinite : forall N fuel n A,
  (1 <= fuel)%nat ->
  symmetric n A -> positive_semidefinite n A -> ~ positive_definite n A ->
  0 < spacing N (frobenius n A) ->
  (forall B, agree n B A -> singular_values n B (fst (svd N n B)) (snd (svd N n B))) ->
  (forall M, agree n M A -> smallest_eigenvalue n M (min_eigenvalue N n M)) ->
  exists P, nearest_pd N fuel n A = Some P /\
    forall i j, (i < n)%nat -> (j < n)%nat ->
      P i j = A i j + delta i j * spacing N (frobenius n A).
Proof. exact nearest_pd_psd. Qed.
Print Assumptions C66_semidefinite.

Example C66_hypotheses :
  (0 < spacing example_numerics (frobenius 2 (of_rows [[1; 2]; [2; 1]])) /\
   (forall M, symmetric 2 M -> eigenvalue_bound 2 M (min_eigenvalue example_numerics 2 M - 0)) /\
   ~ positive_definite 2 (of_rows [[1; 2]; [2; 1]])) /\
  (symmetric 2 (gram2 2 example_same) /\ positive_semidefinite 2 (gram2 2 example_same) /\
   ~ positive_definite 2 (gram2 2 example_same)).
Proof.
  split; [|split; [apply gram2_sym|split; [apply gram2_psd|exact example_same_not_pd]]].
  split; [simpl; lra|]. split.
  - intros M _. rewrite Rminus_0_r. apply row_bound_ok.
  - intros P. assert (H : is_pd 2 (of_rows [[1; 2]; [2; 1]]) = true) by (apply is_pd_sym; auto; apply sym2).
    unfold is_pd in H. rewrite dpofa_example in H. discriminate.
Qed.

(** C50: a prediction of EDy / EDX is a distribution. *)
Theorem C50_distribution : forall A N fuel dist (classes y : list Z) (rows : list A) f bag p,
  (forall u v, dist u v = dist v u) -> classes <> [] -> exact_qp (solve_qp N) ->
  ED_fit N fuel dist classes y rows = Some f -> ED_predict N f bag = Val p ->
  distribution_over (length classes) p.
Proof. exact @ED_distribution. Qed.
Print Assumptions C50_distribution.

(** C50: when the energy distance separates the mixtures of the classes, the prediction of EDy / EDX
    minimises the energy distance to the bag. *)
Theorem C50_minimises_energy : forall A N fuel dist (classes y : list Z) (rows : list A) f bag p,
  (forall u v, dist u v = dist v u) -> classes <> [] -> exact_qp (solve_qp N) ->
  (forall p q, distribution_over (length classes) p -> distribution_over (length classes) q ->
     p <> q ->
     0 < energy dist (class_mixture p (class_samples classes y rows))
                     (class_mixture q (class_samples classes y rows))) ->
  ED_fit N fuel dist classes y rows = Some f -> ED_predict N f bag = Val p ->
  best_distribution (length classes)
    (fun p => energy dist (class_mixture p (class_samples classes y rows)) (spread_over 1 bag)) p.
Proof. exact @ED_best. Qed.
Print Assumptions C50_minimises_energy.

(** C50: when the energy distance is only non-negative, and the numerical routines are exact on the
    matrix [M] of the quadratic problem, the energy distance exceeds the minimum by at most half a
    spacing of the norm of [M]. *)
Theorem C50_nearly_minimises : forall A N fuel dist (classes y : list Z) (rows : list A) f bag p,
  let train := fun i => select (nth i classes 0%Z) y rows in
  let n := (length classes - 1)%nat in
  let M := fun i j => 2 * ed_B (length classes)
        (ed_K dist train (fun i => INR (length (train i)))) i j in
  (1 <= fuel)%nat ->
  (forall u v, dist u v = dist v u) -> classes <> [] -> exact_qp (solve_qp N) ->
  (forall v, 0 < spacing N v) ->
  ((0 < n)%nat ->
   (forall B, agree n B M -> singular_values n B (fst (svd N n B)) (snd (svd N n B))) /\
   (forall B, agree n B M -> smallest_eigenvalue n B (min_eigenvalue N n B))) ->
  (forall p q, distribution_over (length classes) p -> distribution_over (length classes) q ->
     0 <= energy dist (class_mixture p (class_samples classes y rows))
                     (class_mixture q (class_samples classes y rows))) ->
  ED_fit N fuel dist classes y rows = Some f -> ED_predict N f bag = Val p ->
  nearly_best_distribution (length classes) (spacing N (frobenius n M) / 2)
    (fun p => energy dist (class_mixture p (class_samples classes y rows)) (spread_over 1 bag)) p.
Proof. exact @ED_nearly_best_spacing. Qed.
Print Assumptions C50_nearly_minimises.

(** C50: a bag made of [k_c] copies of the training examples of each class [c], in any order, gets
    exactly its own prevalences. *)
Theorem C50_consistent : forall A N fuel dist (classes y : list Z) (rows : list A) f ks bag p,
  (forall u v, dist u v = dist v u) -> exact_qp (solve_qp N) ->
  (forall c, In c classes -> In c y) -> length y = length rows ->
  (forall p q, distribution_over (length classes) p -> distribution_over (length classes) q ->
     p <> q ->
     0 < energy dist (class_mixture p (class_samples classes y rows))
                     (class_mixture q (class_samples classes y rows))) ->
  length ks = length classes -> bag <> [] ->
  Permutation bag (concat (map (fun kc => repeated (fst kc) (snd kc))
                               (combine ks (class_samples classes y rows)))) ->
  ED_fit N fuel dist classes y rows = Some f -> ED_predict N f bag = Val p ->
  p = map (fun kc => INR (fst kc * length (snd kc)) / INR (length bag))
          (combine ks (class_samples classes y rows)).
Proof. exact @ED_consistent. Qed.
Print Assumptions C50_consistent.

(** C50: CvMy minimises the energy distance of the ranks of the scores, taken column by column in the
    union of the training predictions and the bag. *)
Theorem C50_CvMy_minimises : forall N fuel dist classes y k tr te p,
  (forall u v, dist u v = dist v u) -> classes <> [] -> exact_qp (solve_qp N) ->
  let train := class_samples classes y (rank_rows k (tr ++ te) tr) in
  let bag := rank_rows k (tr ++ te) te in
  (forall p q, distribution_over (length classes) p -> distribution_over (length classes) q ->
     p <> q -> 0 < energy dist (class_mixture p train) (class_mixture q train)) ->
  CvMy_predict N fuel dist classes y k tr te = Some (Val p) ->
  best_distribution (length classes)
    (fun p => energy dist (class_mixture p train) (spread_over 1 bag)) p.
Proof. exact CvMy_best. Qed.
Print Assumptions C50_CvMy_minimises.

Example C50_hypotheses :
  (forall u v, abs_dist u v = abs_dist v u) /\ exact_qp (solve_qp example_numerics) /\
  (forall p q, distribution_over (length ex_classes) p -> distribution_over (length ex_classes) q ->
     p <> q ->
     0 < energy abs_dist (class_mixture p (class_samples ex_classes ex_y ex_rows))
                         (class_mixture q (class_samples ex_classes ex_y ex_rows))) /\
  Permutation ex_bag (concat (map (fun kc => repeated (fst kc) (snd kc))
                               (combine [1; 3]%nat (class_samples ex_classes ex_y ex_rows)))) /\
  exists f p, ED_fit example_numerics 1 abs_dist ex_classes ex_y ex_rows = Some f /\
    ED_predict example_numerics f ex_bag = Val p.
Proof.
  split; [exact abs_dist_sym|]. split; [exact ideal_qp_exact|]. split; [exact ex_energy_sep|].
  split; [apply Permutation_refl|exact ex_ed].
Qed.

(** C57: the identity between the objective of solve_hd and the Hellinger distance. *)
Theorem C57_identity : forall d n T t p, length t = d ->
  (forall r j, (r < d)%nat -> (j < n)%nat -> 0 <= T r j) ->
  Forall (fun x => 0 <= x) t -> Forall (fun x => 0 <= x) p ->
  squared_hellinger d n T t p =
  2 * hd_objective d n T t p - 2 + sumn d (mixture_at n T p) + rsum t.
Proof. exact hellinger_identity. Qed.
Print Assumptions C57_identity.

(** C57: the hd metric of the library on the test distribution and the mixture is its square root. *)
Theorem C57_metric : forall d n T t p, length t = d -> (0 < d)%nat ->
  (forall r j, (r < d)%nat -> (j < n)%nat -> 0 <= T r j) ->
  Forall (fun x => 0 <= x) t -> Forall (fun x => 0 <= x) p ->
  hdist (vec t) (vec (tabulate d (mixture_at n T p))) = Val (sqrt (squared_hellinger d n T t p)).
Proof. exact hd_metric. Qed.
Print Assumptions C57_metric.

(** C57: so the answer of an exact solver minimises the Hellinger distance when all classes have the
    same mass. *)
Theorem C57_minimises : forall cvx d n T t P x c, exact_cvx cvx -> length t = d ->
  (forall r j, (r < d)%nat -> (j < n)%nat -> 0 <= T r j) ->
  (forall j, (j < n)%nat -> sumn d (fun r => T r j) = c) ->
  solve_hd cvx d n T t None = Val (P, x) ->
  best_distribution n (squared_hellinger d n T t) x.
Proof. exact solve_hd_best. Qed.
Print Assumptions C57_minimises.

(** C57: with the feasibility tolerance 10^6 that solve_hd asks for, the solver's contract does not
    make the answer a distribution. *)
Theorem C57_tolerance_refuted : ~ forall cvx d n T t P x, feasible_within (10 ^ 6) cvx ->
  solve_hd cvx d n T t None = Val (P, x) -> distribution_over n x.
Proof. exact tolerance_refuted. Qed.
Print Assumptions C57_tolerance_refuted.

Example C57_hypotheses :
  exact_cvx ideal_cvx /\
  (forall r j, (r < 2)%nat -> (j < 2)%nat -> 0 <= example_T r j) /\
  (forall j, (j < 2)%nat -> sumn 2 (fun r => example_T r j) = 1) /\
  exists P x, solve_hd ideal_cvx 2 2 example_T [1/2; 1/2] None = Val (P, x).
Proof. exact example_hd. Qed.

(** C76: AC with distance HD, when the correction matrix is not inverted, minimises the Hellinger
    distance between the observed class frequencies and the frequencies expected from the correction
    matrix; [entry rows j i] is the rate of predictions [i] among the examples of class [j]. *)
Theorem C76_AC_HD : forall inv N cvx fuel classes rows preds p,
  exact_cvx cvx -> length classes <> 2%nat -> preds <> [] ->
  length rows = length classes -> distributions (length classes) rows ->
  inv (length classes) (fun i j => entry rows j i) = None ->
  AC_predict (library_solvers inv N cvx fuel) HD classes (map Some rows) preds = Val p ->
  best_distribution (length classes)
    (squared_hellinger (length classes) (length classes) (fun i j => entry rows j i)
       (map (fun c => fraction c preds) classes)) p.
Proof. intros inv N cvx fuel classes rows preds p Hc. exact (AC_fallback inv N cvx fuel HD classes rows preds p Hc (or_introl eq_refl)). Qed.
Print Assumptions C76_AC_HD.

(** C76: the same with distance L1. *)
Theorem C76_AC_L1 : forall inv N cvx fuel classes rows preds p,
  exact_cvx cvx -> length classes <> 2%nat -> preds <> [] ->
  length rows = length classes -> distributions (length classes) rows ->
  inv (length classes) (fun i j => entry rows j i) = None ->
  AC_predict (library_solvers inv N cvx fuel) L1 classes (map Some rows) preds = Val p ->
  best_distribution (length classes)
    (l1_distance (length classes) (length classes) (fun i j => entry rows j i)
       (map (fun c => fraction c preds) classes)) p.
Proof. intros inv N cvx fuel classes rows preds p Hc. exact (AC_fallback inv N cvx fuel L1 classes rows preds p Hc (or_intror eq_refl)). Qed.
Print Assumptions C76_AC_L1.

(** C76: and with distance L2, up to half a spacing, with exact numerical routines. *)
Theorem C76_AC_L2 : forall inv N cvx fuel classes rows preds p,
  let n := length classes in
  let T := fun i j => entry rows j i in
  (1 <= fuel)%nat -> exact_qp (solve_qp N) -> (forall v, 0 < spacing N v) ->
  (forall B, agree n B (gram2 n T) -> singular_values n B (fst (svd N n B)) (snd (svd N n B))) ->
  (forall M, agree n M (gram2 n T) -> smallest_eigenvalue n M (min_eigenvalue N n M)) ->
  length classes <> 2%nat -> preds <> [] ->
  inv n T = None ->
  AC_predict (library_solvers inv N cvx fuel) L2 classes (map Some rows) preds = Val p ->
  nearly_best_distribution n (spacing N (frobenius n (gram2 n T)) / 2)
    (squared_l2 n n T (map (fun c => fraction c preds) classes)) p.
Proof. exact AC_fallback_l2. Qed.
Print Assumptions C76_AC_L2.

(** C76: PAC with distance HD, on the averages of the predicted probabilities. *)
Theorem C76_PAC_HD : forall inv N cvx fuel classes rows preds p,
  exact_cvx cvx -> length classes <> 2%nat -> preds <> [] ->
  length rows = length classes -> distributions (length classes) rows ->
  inv (length classes) (fun i j => entry rows j i) = None ->
  PAC_predict (library_solvers inv N cvx fuel) HD classes (map Some rows) preds = Val p ->
  best_distribution (length classes)
    (squared_hellinger (length classes) (length classes) (fun i j => entry rows j i)
       (col_means (length classes) preds)) p.
Proof. intros inv N cvx fuel classes rows preds p Hc. exact (PAC_fallback inv N cvx fuel HD classes rows preds p Hc (or_introl eq_refl)). Qed.
Print Assumptions C76_PAC_HD.

(** C76: PAC with distance L1. *)
Theorem C76_PAC_L1 : forall inv N cvx fuel classes rows preds p,
  exact_cvx cvx -> length classes <> 2%nat -> preds <> [] ->
  length rows = length classes -> distributions (length classes) rows ->
  inv (length classes) (fun i j => entry rows j i) = None ->
  PAC_predict (library_solvers inv N cvx fuel) L1 classes (map Some rows) preds = Val p ->
  best_distribution (length classes)
    (l1_distance (length classes) (length classes) (fun i j => entry rows j i)
       (col_means (length classes) preds)) p.
Proof. intros inv N cvx fuel classes rows preds p Hc. exact (PAC_fallback inv N cvx fuel L1 classes rows preds p Hc (or_intror eq_refl)). Qed.
Print Assumptions C76_PAC_L1.

(** C76: PWKQuantifier with more than two classes minimises the L1 distance. *)
Theorem C76_PWKQ_L1 : forall inv N cvx fuel classes rows preds p,
  exact_cvx cvx -> length classes <> 2%nat -> preds <> [] ->
  length rows = length classes -> distributions (length classes) rows ->
  PWKQ_predict (library_solvers inv N cvx fuel) classes (map Some rows) preds = Val p ->
  best_distribution (length classes)
    (l1_distance (length classes) (length classes) (fun i j => entry rows j i)
       (map (fun c => fraction c preds) classes)) p.
Proof. exact PWKQ_l1. Qed.
Print Assumptions C76_PWKQ_L1.

(** A classifier that always answers uniformly at random: the correction matrix is singular. *)
Example C76_hypotheses :
  let rows := [[1/3; 1/3; 1/3]; [1/3; 1/3; 1/3]; [1/3; 1/3; 1/3]] in
  let classes := [0; 1; 2]%Z in
  let preds := [0; 1; 2]%Z in
  let S := library_solvers (fun _ _ => None) example_numerics ideal_cvx 1 in
  exact_cvx ideal_cvx /\ distributions 3 rows /\
  (exists p, AC_predict S L1 classes (map Some rows) preds = Val p) /\
  (exists p, AC_predict S HD classes (map Some rows) preds = Val p) /\
  (exists p, PWKQ_predict S classes (map Some rows) preds = Val p).
Proof. exact example_fallback. Qed.

(** C77: a strictly increasing change of the scale of the scores of each class, the same for training
    predictions and bag, does not change the prediction of CvMy. *)
Theorem C77_CvMy_scale_free : forall N fuel dist classes y k tr te g,
  (forall j, strictly_increasing (g j)) ->
  Forall (fun r => length r = k) tr -> Forall (fun r => length r = k) te ->
  CvMy_predict N fuel dist classes y k (map (transform_row g) tr) (map (transform_row g) te) =
  CvMy_predict N fuel dist classes y k tr te.
Proof. exact CvMy_invariant. Qed.
Print Assumptions C77_CvMy_scale_free.

Example C77_hypotheses : (forall j : nat, strictly_increasing (fun x => exp x + INR j)) /\
  Forall (fun r : list R => length r = 2%nat) [[1/5; 4/5]; [7/10; 3/10]].
Proof.
  split; [intros j x y H; pose proof (exp_increasing x y H); lra|].
  repeat (apply Forall_cons; [reflexivity|]). apply Forall_nil.
Qed.
