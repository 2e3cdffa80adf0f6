(** * Property theorems: EDy, EDX, CvMy, SORDy and QUANTy see samples as distributions (C103, C104). *)

From Coq Require Import Reals List ZArith Lra Lia Permutation.
From Verif Require Import Num Spec Spec_Optim Spec_Energy Spec_Search Spec_Invariance M_Estimators M_Search
  M_Optim L_Optim5 L_Energy3 L_Search3 L_Invariance L_Invariance2.
Import ListNotations.
Open Scope R_scope.

(** C103, EDy and EDX: reordering or replicating the bag does not change the answer; any distance, any
    solver, exceptions and NaN included. *)
Theorem C103_ED_bag : forall A N (f : @ed_fitted A) y rows fuel dist classes bag bag',
  ED_fit N fuel dist classes y rows = Some f -> same_proportions bag bag' ->
  ED_predict N f bag' = ED_predict N f bag.
Proof. intros A. exact ED_bag. Qed.
Print Assumptions C103_ED_bag.

(** C103: nor does reordering or replicating the training examples, each with its label. *)
Theorem C103_ED_training : forall A N fuel dist classes (tr tr' : list (Z * A)) bag,
  same_proportions tr tr' ->
  option_map (fun f => ED_predict N f bag) (ED_fit N fuel dist classes (map fst tr') (map snd tr')) =
  option_map (fun f => ED_predict N f bag) (ED_fit N fuel dist classes (map fst tr) (map snd tr)).
Proof. intros A. exact ED_training. Qed.
Print Assumptions C103_ED_training.

(** C103: two exact solvers give the same answer. *)
Theorem C103_EDy_solver : forall N N' fuel fuel' (classes y : list Z) k rows f f' bag p p',
  classes <> [] -> exact_qp (solve_qp N) -> exact_qp (solve_qp N') ->
  identifiable_columns (length classes) k (class_samples classes y rows) ->
  ED_fit N fuel (manhattan k) classes y rows = Some f -> ED_predict N f bag = Val p ->
  ED_fit N' fuel' (manhattan k) classes y rows = Some f' -> ED_predict N' f' bag = Val p' -> p = p'.
Proof. exact EDy_solver. Qed.
Print Assumptions C103_EDy_solver.

Theorem C103_EDX_solver : forall N N' fuel fuel' (classes y : list Z) k rows f f' bag p p',
  classes <> [] -> exact_qp (solve_qp N) -> exact_qp (solve_qp N') ->
  Forall (fun r => length r = k) rows ->
  identifiable_rows (length classes) (class_samples classes y rows) ->
  ED_fit N fuel (euclidean k) classes y rows = Some f -> ED_predict N f bag = Val p ->
  ED_fit N' fuel' (euclidean k) classes y rows = Some f' -> ED_predict N' f' bag = Val p' -> p = p'.
Proof. exact EDX_solver. Qed.
Print Assumptions C103_EDX_solver.

(** C103, CvMy: the order of the training examples and of the bag does not matter. *)
Theorem C103_CvMy_order : forall N fuel dist classes k (tr tr' : list (Z * list R)) te te',
  Permutation tr tr' -> Permutation te te' ->
  CvMy_predict N fuel dist classes (map fst tr') k (map snd tr') te' =
  CvMy_predict N fuel dist classes (map fst tr) k (map snd tr) te.
Proof. exact CvMy_order. Qed.
Print Assumptions C103_CvMy_order.

(** C103, CvMy: replicating the training examples and the bag the same number of times does not change
    the answer. *)
Theorem C103_CvMy_joint : forall N N' fuel fuel' classes k (tr : list (Z * list R)) te m p p',
  classes <> [] -> (0 < m)%nat -> exact_qp (solve_qp N) -> exact_qp (solve_qp N') ->
  identifiable_columns (length classes) k
    (class_samples classes (map fst tr) (rank_rows k (map snd tr ++ te) (map snd tr))) ->
  CvMy_predict N fuel (manhattan k) classes (map fst tr) k (map snd tr) te = Some (Val p) ->
  CvMy_predict N' fuel' (manhattan k) classes (map fst (repeated m tr)) k (map snd (repeated m tr))
    (repeated m te) = Some (Val p') -> p = p'.
Proof. exact CvMy_joint. Qed.
Print Assumptions C103_CvMy_joint.

(** C103, CvMy: replicating only the bag does change it, because the bag takes part in the ranks. *)
Theorem C103_CvMy_replication_refuted : ~ forall N fuel classes y k tr te m, (0 < m)%nat ->
  exact_qp (solve_qp N) ->
  CvMy_predict N fuel (manhattan k) classes y k tr (repeated m te) =
  CvMy_predict N fuel (manhattan k) classes y k tr te.
Proof. exact CvMy_replication_refuted. Qed.
Print Assumptions C103_CvMy_replication_refuted.

(** The witness: with training scores 0 and 2 for the two classes, the bag of scores 0, 1 is 70% of the
    first class, and the bag 0, 0, 1, 1 is 68.75%. *)
Theorem C103_CvMy_replication_witness :
  CvMy_predict example_numerics 1 (manhattan 1) [0; 1]%Z [0; 1]%Z 1 [[0]; [2]] [[0]; [1]] =
    Some (Val [7/10; 1 - 7/10]) /\
  CvMy_predict example_numerics 1 (manhattan 1) [0; 1]%Z [0; 1]%Z 1 [[0]; [2]] [[0]; [0]; [1]; [1]] =
    Some (Val [11/16; 1 - 11/16]).
Proof. exact CvMy_replication. Qed.
Print Assumptions C103_CvMy_replication_witness.

(** A bag, a reordering of its double, and a fitted EDy that answers; CvMy answers before and after
    doubling both samples. *)
Example C103_hypotheses :
  same_proportions [[3/2]; [3]] [[3]; [3/2]; [3]; [3/2]] /\
  identifiable_columns 2 1 (class_samples [0; 1]%Z [0; 1]%Z [[3/2]; [4]]) /\
  (exists f, ED_fit example_numerics 1 (manhattan 1) [0; 1]%Z [0; 1]%Z [[3/2]; [4]] = Some f /\
     ED_predict example_numerics f [[3/2]; [3]] = Val [7/10; 1 - 7/10]) /\
  identifiable_columns 2 1 (class_samples [0; 1]%Z [0; 1]%Z
    (rank_rows 1 ([[0]; [2]] ++ [[0]; [1]]) [[0]; [2]])) /\
  CvMy_predict example_numerics 1 (manhattan 1) [0; 1]%Z (map fst (repeated 2 [(0%Z, [0]); (1%Z, [2])])) 1
    (map snd (repeated 2 [(0%Z, [0]); (1%Z, [2])])) (repeated 2 [[0]; [1]]) = Some (Val [7/10; 1 - 7/10]).
Proof.
  split; [|split; [|split; [|split; [rewrite ranks_one_tr; apply two_points; lra|exact joint_example]]]].
  - exists 2%nat, 1%nat. split; [lia|]. split; [lia|]. rewrite repeated_one. unfold repeated. simpl.
    apply perm_trans with [[3]; [3/2]; [3/2]; [3]].
    + symmetry. apply (Permutation_middle [[3/2]; [3/2]] [[3]] [3]).
    + apply perm_skip, perm_skip, perm_swap.
  - apply two_points. lra.
  - apply (two_answer (3/2) 4 [[3/2]; [3]] 5 (7/10) (3/10)); try lra; try discriminate. exact energy_one.
Qed.

(** C104, SORDy: reordering or replicating the training examples or the bag, or another order of ties in
    the sorting algorithm, does not change the answer. *)
Theorem C104_SORDy : forall argsort argsort' tol (tr tr' : list (Z * R)) test test' c0 c1 s s',
  sorts argsort pick -> sorts argsort' pick -> np_unique (map fst tr) = [c0; c1] -> test <> [] ->
  same_proportions tr tr' -> same_proportions test test' ->
  sorted_fit argsort (np_unique (map fst tr)) (map fst tr) (map snd tr) = Val s ->
  sorted_fit argsort' (np_unique (map fst tr')) (map fst tr') (map snd tr') = Val s' ->
  SORDy_predict argsort' tol s' test' = SORDy_predict argsort tol s test.
Proof. exact SORDy_same. Qed.
Print Assumptions C104_SORDy.

(** C104, SORDy: only the cumulative distributions of the scores of each class and of the bag matter. *)
Theorem C104_SORDy_cumulative : forall argsort argsort' tol y y' scores scores' test test' c0 c1 s s',
  sorts argsort pick -> sorts argsort' pick -> length y = length scores -> length y' = length scores' ->
  np_unique y = [c0; c1] -> np_unique y' = [c0; c1] -> test <> [] -> test' <> [] ->
  (forall x, fraction_upto (select c0 y scores) x = fraction_upto (select c0 y' scores') x) ->
  (forall x, fraction_upto (select c1 y scores) x = fraction_upto (select c1 y' scores') x) ->
  (forall x, fraction_upto test x = fraction_upto test' x) ->
  sorted_fit argsort (np_unique y) y scores = Val s ->
  sorted_fit argsort' (np_unique y') y' scores' = Val s' ->
  SORDy_predict argsort' tol s' test' = SORDy_predict argsort tol s test.
Proof. exact SORDy_cdf. Qed.
Print Assumptions C104_SORDy_cumulative.

(** C104, SORDy: the scores can be shifted and rescaled. *)
Theorem C104_SORDy_affine : forall argsort argsort' tol y scores test c0 c1 s s' u v,
  sorts argsort pick -> sorts argsort' pick -> length y = length scores ->
  np_unique y = [c0; c1] -> test <> [] -> 0 < u ->
  sorted_fit argsort (np_unique y) y scores = Val s ->
  sorted_fit argsort' (np_unique y) y (map (fun t => u * t + v) scores) = Val s' ->
  SORDy_predict argsort' tol s' (map (fun t => u * t + v) test) = SORDy_predict argsort tol s test.
Proof. exact SORDy_affine. Qed.
Print Assumptions C104_SORDy_affine.

(** C104, QUANTy: the order of the bag does not matter, and with fewer than 10000 quantiles neither does
    replicating it. *)
Theorem C104_QUANTy_order : forall argsort argsort' q distance tol s mixtures test test',
  sorts argsort pick -> sorts argsort' pick -> Permutation test test' ->
  QUANTy_predict argsort' q distance tol s mixtures test' = QUANTy_predict argsort q distance tol s mixtures test.
Proof. exact QUANTy_order. Qed.
Print Assumptions C104_QUANTy_order.

Theorem C104_QUANTy_bag : forall argsort argsort' q distance tol s mixtures test test',
  sorts argsort pick -> sorts argsort' pick -> (0 < q)%nat -> INR q < 10000 -> same_proportions test test' ->
  QUANTy_predict argsort' q distance tol s mixtures test' = QUANTy_predict argsort q distance tol s mixtures test.
Proof. exact QUANTy_same. Qed.
Print Assumptions C104_QUANTy_bag.

(** C104, fit of QUANTy and SORDy: the order of the training examples does not matter if examples with
    the same score have the same label. *)
Theorem C104_fit_order : forall argsort argsort' classes (tr tr' : list (Z * R)),
  sorts argsort pick -> sorts argsort' pick -> Permutation tr tr' ->
  (forall e e', In e tr -> In e' tr -> snd e = snd e' -> fst e = fst e') ->
  sorted_fit argsort' classes (map fst tr') (map snd tr') = sorted_fit argsort classes (map fst tr) (map snd tr).
Proof. exact fit_order. Qed.
Print Assumptions C104_fit_order.

Example C104_hypotheses :
  let tr := [(0%Z, 1/4); (1%Z, 3/4); (0%Z, 1/4)] in
  let tr' := [(1%Z, 3/4); (0%Z, 1/4); (0%Z, 1/4)] in
  sorts some_argsort pick /\ np_unique (map fst tr) = [0; 1]%Z /\ Permutation tr tr' /\
  same_proportions tr tr' /\ same_proportions [1/4; 3/4] [1/4; 1/4; 3/4; 3/4] /\
  (forall e e', In e tr -> In e' tr -> snd e = snd e' -> fst e = fst e') /\
  (exists s, sorted_fit some_argsort (np_unique (map fst tr)) (map fst tr) (map snd tr) = Val s) /\
  (exists s', sorted_fit some_argsort (np_unique (map fst tr')) (map fst tr') (map snd tr') = Val s').
Proof.
  intros tr tr'. assert (P : Permutation tr tr') by apply perm_swap.
  split; [exact some_argsort_sorts|]. split; [reflexivity|]. split; [exact P|]. split; [now apply same_perm|].
  split; [apply (same_repeated 2 [1/4; 3/4]); lia|]. split; [|split; eexists; reflexivity].
  intros e e' He He' E. simpl in He, He'.
  destruct He as [<-|[<-|[<-|[]]]]; destruct He' as [<-|[<-|[<-|[]]]]; simpl in *; auto; lra.
Qed.
