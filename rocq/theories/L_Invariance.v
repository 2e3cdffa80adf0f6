(** * EDy, EDX and CvMy see samples as distributions. *)

From Coq Require Import Reals List ZArith Lra Lia Permutation FunctionalExtensionality Bool.
From Verif Require Import Num Spec Spec_Optim Spec_Energy Spec_Invariance M_Optim L_Num L_Baselines
  L_Match7 L_Optim L_Optim2 L_Optim3 L_Optim4 L_Optim5 L_Energy L_Energy2 L_Energy3.
Import ListNotations.
Open Scope R_scope.

(** ** Samples with the same proportions *)

Lemma repeated_one : forall {A} (a : list A), repeated 1 a = a.
Proof. intros A a. unfold repeated. induction a; simpl; [auto|f_equal; auto]. Qed.

Lemma same_refl : forall {A} (a : list A), same_proportions a a.
Proof. intros A a. exists 1%nat, 1%nat. repeat split; auto. Qed.

Lemma same_sym : forall {A} (a b : list A), same_proportions a b -> same_proportions b a.
Proof. intros A a b (j & k & Hj & Hk & HP). exists k, j. repeat split; auto. now symmetry. Qed.

Lemma same_perm : forall {A} (a b : list A), Permutation a b -> same_proportions a b.
Proof. intros A a b HP. exists 1%nat, 1%nat. rewrite !repeated_one. repeat split; auto. Qed.

Lemma same_repeated : forall {A} k (a : list A), (0 < k)%nat -> same_proportions a (repeated k a).
Proof. intros A k a Hk. exists k, 1%nat. rewrite repeated_one. repeat split; auto. Qed.

Lemma same_nil : forall {A} (a b : list A), same_proportions a b -> (length a = 0%nat <-> length b = 0%nat).
Proof.
  intros A a b (j & k & Hj & Hk & HP). apply Permutation_length in HP. rewrite !repeated_length in HP.
  split; intros E; rewrite E in HP; nia.
Qed.

Lemma same_length : forall {A} (a b : list A), same_proportions a b ->
  Nat.eqb (length a) 0 = Nat.eqb (length b) 0.
Proof.
  intros A a b HS. apply same_nil in HS. destruct (Nat.eqb_spec (length a) 0), (Nat.eqb_spec (length b) 0); auto; tauto.
Qed.

Lemma same_mean : forall {A} (g : A -> R) a b, same_proportions a b ->
  rsum (map g a) / INR (length a) = rsum (map g b) / INR (length b).
Proof.
  intros A g a b HS. pose proof (same_nil a b HS) as HN. destruct HS as (j & k & Hj & Hk & HP).
  destruct a as [|x a].
  { destruct b; [auto|]. exfalso. assert (H : length (a :: b) = 0%nat) by (apply HN; auto). discriminate. }
  destruct b as [|y b].
  { exfalso. assert (H : length (x :: a) = 0%nat) by (apply HN; auto). discriminate. }
  pose proof (Permutation_length HP) as HL. rewrite !repeated_length in HL.
  pose proof (rsum_map_perm g _ _ HP) as HR. rewrite !rsum_map_repeated in HR.
  apply (f_equal INR) in HL. rewrite !mult_INR in HL.
  assert (0 < INR j) by (apply lt_0_INR; lia). assert (0 < INR k) by (apply lt_0_INR; lia).
  assert (0 < INR (length (x :: a))) by (apply lt_0_INR; simpl; lia).
  assert (0 < INR (length (y :: b))) by (apply lt_0_INR; simpl; lia).
  set (sa := rsum (map g (x :: a))) in *. set (sb := rsum (map g (y :: b))) in *.
  set (la := INR (length (x :: a))) in *. set (lb := INR (length (y :: b))) in *.
  apply (Rmult_eq_reg_l (INR j)); [|lra].
  replace (INR j * (sa / la)) with ((INR j * sa) / la) by (field; lra). rewrite HR.
  replace la with (INR k * lb / INR j) by (rewrite <- HL; field; lra). field. lra.
Qed.

Lemma perm_map_filter : forall {A} (f : A -> bool) a b, Permutation a b -> Permutation (filter f a) (filter f b).
Proof.
  intros A f a b H. induction H; simpl; auto.
  - destruct (f x); auto.
  - destruct (f x), (f y); auto using perm_swap.
  - etransitivity; eauto.
Qed.

Lemma filter_repeated_list : forall {A} (f : A -> bool) k a, filter f (repeated k a) = repeated k (filter f a).
Proof.
  intros A f k a. unfold repeated. induction a as [|x a IH]; simpl; auto.
  rewrite filter_app, IH. destruct (f x) eqn:E; simpl; auto.
  - f_equal. clear IH. induction k; simpl; auto. rewrite E. now f_equal.
  - rewrite <- (app_nil_l (concat _)) at 2. f_equal. clear IH. induction k; simpl; auto. now rewrite E.
Qed.

Lemma same_filter : forall {A} (f : A -> bool) a b, same_proportions a b ->
  same_proportions (filter f a) (filter f b).
Proof.
  intros A f a b (j & k & Hj & Hk & HP). exists j, k. repeat split; auto.
  rewrite <- !filter_repeated_list. now apply perm_map_filter.
Qed.

Lemma same_map : forall {A B} (f : A -> B) a b, same_proportions a b -> same_proportions (map f a) (map f b).
Proof.
  intros A B f a b (j & k & Hj & Hk & HP). exists j, k. repeat split; auto.
  rewrite <- !map_repeated. now apply Permutation_map.
Qed.

Lemma combine_pairs : forall {A B} (tr : list (A * B)), combine (map fst tr) (map snd tr) = tr.
Proof. intros A B tr. induction tr as [|[a b] tr IH]; simpl; [auto|now rewrite IH]. Qed.

Lemma select_pairs : forall {A} c (tr : list (Z * A)),
  select c (map fst tr) (map snd tr) = map snd (filter (fun p => Z.eqb (fst p) c) tr).
Proof. intros A c tr. unfold select. now rewrite combine_pairs. Qed.

Lemma same_select : forall {A} c (tr tr' : list (Z * A)), same_proportions tr tr' ->
  same_proportions (select c (map fst tr) (map snd tr)) (select c (map fst tr') (map snd tr')).
Proof. intros A c tr tr' HS. rewrite !select_pairs. now apply same_map, same_filter. Qed.

(** ** EDy and EDX *)

Lemma mean_pairs : forall {A} (d : A -> A -> R) X Y,
  pair_sum d X Y / (INR (length X) * INR (length Y)) =
  rsum (map (fun x => rsum (map (d x) Y) / INR (length Y)) X) / INR (length X).
Proof.
  intros A d X Y. unfold pair_sum, Rdiv. rewrite Rinv_mult.
  rewrite (rsum_map_ext (fun x => rsum (map (d x) Y) * / INR (length Y))
             (fun x => / INR (length Y) * rsum (map (d x) Y))) by (intros; ring).
  rewrite rsum_map_scal. ring.
Qed.

Lemma same_pairs : forall {A} (d : A -> A -> R) X Y X' Y', same_proportions X X' -> same_proportions Y Y' ->
  pair_sum d X Y / (INR (length X) * INR (length Y)) =
  pair_sum d X' Y' / (INR (length X') * INR (length Y')).
Proof.
  intros A d X Y X' Y' HX HY. rewrite !mean_pairs.
  rewrite (same_mean _ X X' HX). f_equal. apply rsum_map_ext. intros x _. now apply same_mean.
Qed.

Lemma ED_bag : forall {A} N (f : @ed_fitted A) y rows fuel dist classes bag bag',
  ED_fit N fuel dist classes y rows = Some f -> same_proportions bag bag' ->
  ED_predict N f bag' = ED_predict N f bag.
Proof.
  intros A N f y rows fuel dist classes bag bag' HF HS. unfold ED_fit in HF.
  destruct (compute_ed_param_train N fuel (length classes) dist
              (fun i : nat => select (nth i classes 0%Z) y rows)
              (fun i : nat => INR (length (select (nth i classes 0%Z) y rows)))) as [[[[K G] C] b]|];
    [|discriminate].
  injection HF as <-. unfold ED_predict, ed_defined. simpl.
  rewrite (same_length _ _ HS). destruct (_ && _); auto. f_equal. unfold compute_ed_param_test.
  apply functional_extensionality. intros i.
  rewrite !(fun i => same_pairs dist _ _ _ _ (same_refl (select (nth i classes 0%Z) y rows)) HS). auto.
Qed.

Lemma ED_fit_samples : forall {A} N fuel dist classes (train : nat -> list A) y rows,
  (forall i, train i = select (nth i classes 0%Z) y rows) ->
  ED_fit N fuel dist classes y rows =
  let sizes := fun i => INR (length (train i)) in
  let K := ed_K dist train sizes in
  match ensure_pd N fuel (length classes - 1) (fun i j => 2 * ed_B (length classes) K i j) with
  | None => None
  | Some G => Some {| ed_classes := classes; ed_train := train; ed_sizes := sizes; ed_dist := dist;
                      ed_Kmat := K; ed_Gmat := G; ed_Cmat := ed_C; ed_bvec := ed_b |}
  end.
Proof.
  intros A N fuel dist classes train y rows HT.
  assert (E : train = fun i => select (nth i classes 0%Z) y rows)
    by (apply functional_extensionality; auto).
  rewrite E. unfold ED_fit, compute_ed_param_train. cbv zeta. destruct (ensure_pd _ _ _ _); auto.
Qed.

Lemma ED_training : forall {A} N fuel dist classes (tr tr' : list (Z * A)) bag,
  same_proportions tr tr' ->
  option_map (fun f => ED_predict N f bag) (ED_fit N fuel dist classes (map fst tr') (map snd tr')) =
  option_map (fun f => ED_predict N f bag) (ED_fit N fuel dist classes (map fst tr) (map snd tr)).
Proof.
  intros A N fuel dist classes tr tr' bag HS.
  pose (train := fun i => select (nth i classes 0%Z) (map fst tr) (map snd tr)).
  pose (train' := fun i => select (nth i classes 0%Z) (map fst tr') (map snd tr')).
  assert (ST : forall i, same_proportions (train i) (train' i)) by (intros i; now apply same_select).
  assert (EK : ed_K dist train (fun i => INR (length (train i))) =
               ed_K dist train' (fun i => INR (length (train' i)))).
  { apply functional_extensionality. intros i. apply functional_extensionality. intros j.
    unfold ed_K. destruct (Nat.leb i j).
    - now apply same_pairs.
    - rewrite (Rmult_comm (INR (length (train i)))), (Rmult_comm (INR (length (train' i)))).
      now apply same_pairs. }
  rewrite (ED_fit_samples N fuel dist classes train (map fst tr) (map snd tr)) by auto.
  rewrite (ED_fit_samples N fuel dist classes train' (map fst tr') (map snd tr')) by auto.
  cbv zeta. rewrite <- EK.
  destruct (ensure_pd _ _ _ _) as [G|]; simpl; auto. f_equal.
  unfold ED_predict, ed_defined. simpl.
  replace (forallb (fun i => negb (Nat.eqb (length (train' i)) 0)) (seq 0 (length classes)))
    with (forallb (fun i => negb (Nat.eqb (length (train i)) 0)) (seq 0 (length classes))).
  2:{ f_equal. apply functional_extensionality. intros i. now rewrite (same_length _ _ (ST i)). }
  destruct (_ && _); auto. f_equal. unfold compute_ed_param_test.
  apply functional_extensionality. intros i.
  rewrite !(fun i => same_pairs dist _ _ _ _ (ST i) (same_refl bag)). auto.
Qed.

(** ** CvMy *)

Lemma average_rank_perm : forall x l l', Permutation l l' -> average_rank x l = average_rank x l'.
Proof. intros x l l' H. unfold average_rank. f_equal. now apply rsum_map_perm. Qed.

Lemma rank_rows_perm : forall k all all' rows, Permutation all all' -> rank_rows k all rows = rank_rows k all' rows.
Proof.
  intros k all all' rows H. unfold rank_rows. apply map_ext. intros r. unfold tabulate.
  apply map_ext. intros j. apply average_rank_perm. unfold col. now apply Permutation_map.
Qed.

Lemma CvMy_order : forall N fuel dist classes k (tr tr' : list (Z * list R)) te te',
  Permutation tr tr' -> Permutation te te' ->
  CvMy_predict N fuel dist classes (map fst tr') k (map snd tr') te' =
  CvMy_predict N fuel dist classes (map fst tr) k (map snd tr) te.
Proof.
  intros N fuel dist classes k tr tr' te te' HT HE. unfold CvMy_predict.
  destruct (rank_rows_split k (map snd tr) te) as [E1 E2].
  destruct (rank_rows_split k (map snd tr') te') as [E1' E2'].
  rewrite E1, E2, E1', E2'. clear E1 E2 E1' E2'.
  rewrite (rank_rows_perm k (map snd tr' ++ te') (map snd tr ++ te) (map snd tr')),
          (rank_rows_perm k (map snd tr' ++ te') (map snd tr ++ te) te')
    by (apply Permutation_app; [apply Permutation_map|]; now symmetry).
  set (all := map snd tr ++ te).
  pose (g := fun e : Z * list R =>
    (fst e, tabulate k (fun j => average_rank (nth j (snd e) 0) (col j all)))).
  assert (Ef : forall t, map fst t = map fst (map g t)) by (intros t; rewrite map_map; auto).
  assert (Es : forall t, rank_rows k all (map snd t) = map snd (map g t))
    by (intros t; unfold rank_rows; rewrite !map_map; auto).
  rewrite (Ef tr), (Ef tr'), (Es tr), (Es tr').
  assert (HS : same_proportions (map g tr) (map g tr')) by (apply same_perm; now apply Permutation_map).
  assert (HB : same_proportions (rank_rows k all te) (rank_rows k all te'))
    by (apply same_perm; unfold rank_rows; now apply Permutation_map).
  pose proof (ED_training N fuel dist classes _ _ (rank_rows k all te') HS) as H1.
  destruct (ED_fit N fuel dist classes (map fst (map g tr)) (map snd (map g tr))) as [f|] eqn:F1;
  destruct (ED_fit N fuel dist classes (map fst (map g tr')) (map snd (map g tr'))) as [f'|] eqn:F2;
    simpl in H1; try discriminate; auto.
  injection H1 as H1. f_equal. rewrite H1. eapply ED_bag; eauto.
Qed.

(** ** Replicating the bag changes the answer of CvMy *)

Lemma ideal_ED_best : forall dist (classes y : list Z) (rows : list (list R)) q bag,
  (forall u v, dist u v = dist v u) -> classes <> [] ->
  (forall c, In c classes -> In c y) -> length y = length rows ->
  (forall p q, distribution_over (length classes) p -> distribution_over (length classes) q ->
     p <> q ->
     0 < energy dist (class_mixture p (class_samples classes y rows))
                     (class_mixture q (class_samples classes y rows))) ->
  bag <> [] ->
  best_distribution (length classes)
    (fun p => energy dist (class_mixture p (class_samples classes y rows)) (spread_over 1 bag)) q ->
  exists f p, ED_fit example_numerics 1 dist classes y rows = Some f /\
    ED_predict example_numerics f bag = Val p.
Proof.
  intros dist classes y rows q bag Hd Hc Hin Hly Hsep Hb [Dq HQ].
  destruct (length classes) as [|l] eqn:Lc; [destruct classes; [congruence|discriminate]|].
  set (cs := class_samples classes y rows) in *.
  assert (Lcs : length cs = S l) by (unfold cs; rewrite samples_length; auto).
  assert (Ncs : forall c, In c classes -> select c y rows <> []) by (intros; apply select_nonempty; auto).
  pose (train := fun i => select (nth i classes 0%Z) y rows).
  pose (sizes := fun i => INR (length (train i))).
  pose (K := ed_K dist train sizes).
  pose (M := fun i j => 2 * ed_B (S l) K i j).
  assert (PM : positive_definite l M) by (apply (ed_pd dist classes y rows l); auto).
  assert (SM : symmetric l M) by (apply ed_gram_sym; auto).
  pose (a := compute_ed_param_test (S l) dist train bag K sizes).
  destruct (split_last l q Dq) as (x0 & L0 & E0).
  destruct (ideal_qp_answers l (S l) M a ed_C ed_b 0) as (x & Hx).
  { exists x0. split.
    - apply ed_constraints; auto. rewrite <- E0. auto.
    - intros z Hz. assert (Lz : length z = l) by apply Hz.
      apply ed_constraints in Hz; auto. unfold M, a, K, sizes.
      rewrite !ed_objective by auto. unfold train.
      rewrite (train_classes classes y rows (S l) Lc). fold (class_samples classes y rows). fold cs.
      rewrite <- E0. apply Rplus_le_compat_r. apply HQ. auto. }
  assert (E : ED_fit example_numerics 1 dist classes y rows =
    Some {| ed_classes := classes; ed_train := train; ed_sizes := sizes; ed_dist := dist;
            ed_Kmat := K; ed_Gmat := M; ed_Cmat := ed_C; ed_bvec := ed_b |}).
  { unfold ED_fit, compute_ed_param_train. rewrite Lc. replace (S l - 1)%nat with l by lia.
    change (fun i j => 2 * ed_B (S l) _ i j) with M.
    rewrite (ensure_pd_same example_numerics 1 l M SM PM). reflexivity. }
  eexists. exists (x ++ [1 - rsum x]). split; [exact E|].
  unfold ED_predict. cbn [ed_classes ed_dist ed_train ed_sizes ed_Kmat ed_Gmat ed_Cmat ed_bvec].
  assert (ED : ed_defined {| ed_classes := classes; ed_train := train; ed_sizes := sizes; ed_dist := dist;
            ed_Kmat := K; ed_Gmat := M; ed_Cmat := ed_C; ed_bvec := ed_b |} bag = true).
  { unfold ed_defined. apply andb_true_iff. split.
    - apply forallb_forall. intros i Hi. apply in_seq in Hi. cbn [ed_classes ed_train] in *.
      apply negb_true_iff, Nat.eqb_neq. unfold train. intros H.
      apply length_zero_iff_nil in H. revert H. apply Ncs. apply nth_In. lia.
    - apply negb_true_iff, Nat.eqb_neq. destruct bag; [congruence|discriminate]. }
  rewrite ED, Lc. unfold solve_ed. replace (S l - 1)%nat with l by lia.
  unfold a in Hx. cbn [solve_qp example_numerics]. rewrite Hx. reflexivity.
Qed.

Ltac decide_ranks :=
  unfold rank_rows, average_rank, col, tabulate; simpl;
  repeat match goal with
    | |- context [Rlt_dec ?a ?b] => destruct (Rlt_dec a b); try lra
    end;
  repeat match goal with
    | |- context [Req_EM_T ?a ?b] => destruct (Req_EM_T a b); try lra
    end;
  repeat (apply f_equal2; [apply f_equal2; [lra|reflexivity]|]); reflexivity.

Lemma ranks_one_tr : rank_rows 1 ([[0]; [2]] ++ [[0]; [1]]) [[0]; [2]] = [[3/2]; [4]].
Proof. decide_ranks. Qed.
Lemma ranks_one_te : rank_rows 1 ([[0]; [2]] ++ [[0]; [1]]) [[0]; [1]] = [[3/2]; [3]].
Proof. decide_ranks. Qed.
Lemma ranks_two_tr : rank_rows 1 ([[0]; [2]] ++ [[0]; [0]; [1]; [1]]) [[0]; [2]] = [[2]; [6]].
Proof. decide_ranks. Qed.
Lemma ranks_two_te :
  rank_rows 1 ([[0]; [2]] ++ [[0]; [0]; [1]; [1]]) [[0]; [0]; [1]; [1]] = [[2]; [2]; [9/2]; [9/2]].
Proof. decide_ranks. Qed.

Ltac energies :=
  unfold energy, expected, class_mixture, spread_over, manhattan, sumn; simpl;
  repeat match goal with
    | |- context [Rabs ?a] =>
        first [ replace (Rabs a) with 0 by (symmetry; replace a with 0 by lra; apply Rabs_R0)
              | rewrite (Rabs_right a) by lra
              | rewrite (Rabs_left a) by lra ]
    end; field.

Lemma energy_one : forall x,
  energy (manhattan 1) (class_mixture [x; 1 - x] [[[3/2]]; [[4]]]) (spread_over 1 [[3/2]; [3]]) =
  5 * (x - 7/10)^2 + 3/10.
Proof. intros x. energies. Qed.

Lemma energy_two : forall x,
  energy (manhattan 1) (class_mixture [x; 1 - x] [[[2]]; [[6]]])
    (spread_over 1 [[2]; [2]; [9/2]; [9/2]]) = 8 * (x - 11/16)^2 + 15/32.
Proof. intros x. energies. Qed.

Lemma two_points : forall a b : R, a < b ->
  identifiable_columns 2 1 (class_samples [0; 1]%Z [0; 1]%Z [[a]; [b]]).
Proof.
  intros a b H. change (class_samples [0; 1]%Z [0; 1]%Z [[a]; [b]]) with [[[a]]; [[b]]].
  apply binary_columns. exists O, a. split; [lia|]. unfold row_fraction_upto. simpl.
  destruct (Rle_dec a a), (Rle_dec b a); simpl; lra.
Qed.

Lemma two_answer : forall a b (bag : list (list R)) c w z, a < b -> 0 < c -> 0 <= w <= 1 -> bag <> [] ->
  (forall x, energy (manhattan 1) (class_mixture [x; 1 - x] [[[a]]; [[b]]]) (spread_over 1 bag) =
             c * (x - w)^2 + z) ->
  exists f, ED_fit example_numerics 1 (manhattan 1) [0; 1]%Z [0; 1]%Z [[a]; [b]] = Some f /\
    ED_predict example_numerics f bag = Val [w; 1 - w].
Proof.
  intros a b bag c w z Hab Hc Hw Hb HE.
  pose proof (two_points a b Hab) as HI.
  assert (Hsep : forall p q, distribution_over 2 p -> distribution_over 2 q -> p <> q ->
     0 < energy (manhattan 1) (class_mixture p (class_samples [0; 1]%Z [0; 1]%Z [[a]; [b]]))
                     (class_mixture q (class_samples [0; 1]%Z [0; 1]%Z [[a]; [b]]))).
  { apply (manhattan_separates 2); auto. intros [|[|i]] Hi; try lia; discriminate. }
  assert (D2 : forall q, distribution_over 2 q -> exists x, q = [x; 1 - x]).
  { intros q (Lq & _ & Sq). destruct q as [|x [|y [|? ?]]]; try discriminate. exists x.
    simpl in Sq. apply f_equal2; auto. apply f_equal2; auto. lra. }
  assert (B : best_distribution 2 (fun p => energy (manhattan 1)
     (class_mixture p (class_samples [0; 1]%Z [0; 1]%Z [[a]; [b]])) (spread_over 1 bag)) [w; 1 - w]).
  { split.
    - split; [auto|split]; [|simpl; lra]. repeat (apply Forall_cons; [lra|]). apply Forall_nil.
    - intros q Dq. destruct (D2 q Dq) as [x ->].
      change (class_samples [0; 1]%Z [0; 1]%Z [[a]; [b]]) with [[[a]]; [[b]]].
      rewrite !HE. pose proof (pow2_ge_0 (x - w)). nra. }
  destruct (ideal_ED_best (manhattan 1) [0; 1]%Z [0; 1]%Z [[a]; [b]] [w; 1 - w] bag)
    as (f & p & HF & HP); auto using manhattan_sym; try discriminate.
  exists f. split; auto. rewrite HP. f_equal.
  pose proof (ED_best example_numerics 1 (manhattan 1) [0; 1]%Z [0; 1]%Z [[a]; [b]] f bag p) as BP.
  destruct BP as [Dp Mp]; auto using manhattan_sym, ideal_qp_exact; try discriminate.
  destruct (D2 p Dp) as [x ->]. specialize (Mp [w; 1 - w] (proj1 B)).
  change (class_samples [0; 1]%Z [0; 1]%Z [[a]; [b]]) with [[[a]]; [[b]]] in Mp.
  cbv beta in Mp. rewrite !HE in Mp.
  assert (Z : (x - w)^2 = 0) by (pose proof (pow2_ge_0 (x - w)); nra).
  assert (x = w) by nra. subst. reflexivity.
Qed.

Lemma CvMy_replication :
  CvMy_predict example_numerics 1 (manhattan 1) [0; 1]%Z [0; 1]%Z 1 [[0]; [2]] [[0]; [1]] =
    Some (Val [7/10; 1 - 7/10]) /\
  CvMy_predict example_numerics 1 (manhattan 1) [0; 1]%Z [0; 1]%Z 1 [[0]; [2]] [[0]; [0]; [1]; [1]] =
    Some (Val [11/16; 1 - 11/16]).
Proof.
  split; unfold CvMy_predict.
  - destruct (rank_rows_split 1 [[0]; [2]] [[0]; [1]]) as [E1 E2].
    rewrite E1, E2, ranks_one_tr, ranks_one_te.
    destruct (two_answer (3/2) 4 [[3/2]; [3]] 5 (7/10) (3/10)) as (f & HF & HP); try lra; try discriminate.
    { exact energy_one. }
    rewrite HF, HP. reflexivity.
  - destruct (rank_rows_split 1 [[0]; [2]] [[0]; [0]; [1]; [1]]) as [E1 E2].
    rewrite E1, E2, ranks_two_tr, ranks_two_te.
    destruct (two_answer 2 6 [[2]; [2]; [9/2]; [9/2]] 8 (11/16) (15/32)) as (f & HF & HP); try lra; try discriminate.
    { exact energy_two. }
    rewrite HF, HP. reflexivity.
Qed.

Lemma CvMy_replication_refuted : ~ forall N fuel classes y k tr te m, (0 < m)%nat ->
  exact_qp (solve_qp N) ->
  CvMy_predict N fuel (manhattan k) classes y k tr (repeated m te) =
  CvMy_predict N fuel (manhattan k) classes y k tr te.
Proof.
  intros H. destruct CvMy_replication as [E1 E2].
  specialize (H example_numerics 1%nat [0; 1]%Z [0; 1]%Z 1%nat [[0]; [2]] [[0]; [1]] 2%nat
                ltac:(lia) ideal_qp_exact).
  change (repeated 2 [[0]; [1]]) with [[0]; [0]; [1]; [1]] in H.
  rewrite E1, E2 in H. injection H as H _. lra.
Qed.

(** ** The answer does not depend on the solver *)

Lemma nth_tabulate : forall n (f : nat -> R) i, (i < n)%nat -> nth i (tabulate n f) 0 = f i.
Proof.
  intros n f i Hi. unfold tabulate. rewrite (nth_indep _ 0 (f O)) by (rewrite map_length, seq_length; auto).
  rewrite map_nth, seq_nth; auto.
Qed.

Lemma mixture_midpoint : forall {A} n (dist : A -> A -> R) p q m cs bag,
  (forall x y, dist x y = dist y x) -> length p = n -> length q = n -> length m = n -> length cs = n ->
  (forall i, nth i m 0 = (nth i p 0 + nth i q 0) / 2) ->
  energy dist (class_mixture m cs) (spread_over 1 bag) =
  (energy dist (class_mixture p cs) (spread_over 1 bag) +
   energy dist (class_mixture q cs) (spread_over 1 bag)) / 2 -
  energy dist (class_mixture p cs) (class_mixture q cs) / 4.
Proof.
  intros A n dist p q m cs bag Hd Lp Lq Lm Lc Hm. unfold energy.
  rewrite !(expected_mixture_bag n), !(expected_mixtures n) by auto.
  set (b := fun i => mean_dist dist (nth i cs []) bag).
  set (K := fun i j => mean_dist dist (nth i cs []) (nth j cs [])).
  assert (E1 : sumn n (fun i => nth i m 0 * b i) =
    / 2 * sumn n (fun i => nth i p 0 * b i) + / 2 * sumn n (fun i => nth i q 0 * b i)).
  { rewrite <- !sumn_scal, <- sumn_plus. apply sumn_ext. intros i _. rewrite Hm. field. }
  pose (Q := fun u v : list R => sumn n (fun i => sumn n (fun j => nth i u 0 * nth j v 0 * K i j))).
  assert (E2 : Q m m = / 4 * Q p p + / 4 * Q p q + / 4 * Q q p + / 4 * Q q q).
  { unfold Q. rewrite <- !sumn_scal, <- !sumn_plus. apply sumn_ext. intros i _.
    rewrite <- !sumn_scal, <- !sumn_plus. apply sumn_ext. intros j _. rewrite !Hm. field. }
  assert (E3 : Q q p = Q p q).
  { unfold Q. rewrite sumn_swap. apply sumn_ext. intros i _. apply sumn_ext. intros j _.
    unfold K, mean_dist. rewrite (pair_sum_sym dist (nth j cs []) (nth i cs [])) by auto.
    rewrite (Rmult_comm (INR (length (nth j cs [])))). unfold Rdiv. ring. }
  rewrite E3 in E2. unfold Q in E2. fold (Q p p) (Q p q) (Q q q) (Q m m) in *.
  unfold b, K in E1, E2. rewrite E1.
  change (sumn n (fun i => sumn n (fun j => nth i m 0 * nth j m 0 *
            mean_dist dist (nth i cs []) (nth j cs [])))) with (Q m m).
  change (sumn n (fun i => sumn n (fun j => nth i p 0 * nth j q 0 *
            mean_dist dist (nth i cs []) (nth j cs [])))) with (Q p q).
  change (sumn n (fun i => sumn n (fun j => nth i p 0 * nth j p 0 *
            mean_dist dist (nth i cs []) (nth j cs [])))) with (Q p p).
  change (sumn n (fun i => sumn n (fun j => nth i q 0 * nth j q 0 *
            mean_dist dist (nth i cs []) (nth j cs [])))) with (Q q q).
  rewrite E2. field.
Qed.

Lemma best_unique : forall {A} n (dist : A -> A -> R) cs bag p q,
  (forall x y, dist x y = dist y x) -> length cs = n ->
  (forall p q, distribution_over n p -> distribution_over n q -> p <> q ->
     0 < energy dist (class_mixture p cs) (class_mixture q cs)) ->
  best_distribution n (fun p => energy dist (class_mixture p cs) (spread_over 1 bag)) p ->
  best_distribution n (fun p => energy dist (class_mixture p cs) (spread_over 1 bag)) q -> p = q.
Proof.
  intros A n dist cs bag p q Hd Lc Hsep [Dp Mp] [Dq Mq].
  destruct (list_eq_dec Req_EM_T p q) as [|Ne]; auto. exfalso.
  pose (m := tabulate n (fun i => (nth i p 0 + nth i q 0) / 2)).
  destruct (Dp) as (Lp & Np & Sp). destruct (Dq) as (Lq & Nq & Sq).
  assert (Lm : length m = n) by (unfold m, tabulate; now rewrite map_length, seq_length).
  assert (Hm : forall i, nth i m 0 = (nth i p 0 + nth i q 0) / 2).
  { intros i. destruct (Nat.lt_ge_cases i n).
    - unfold m. rewrite nth_tabulate; auto.
    - rewrite !nth_overflow by lia. lra. }
  assert (Dm : distribution_over n m).
  { split; [auto|split].
    - apply Forall_forall. intros x Hx. unfold m, tabulate in Hx. apply in_map_iff in Hx.
      destruct Hx as (i & <- & Hi). apply in_seq in Hi.
      rewrite Forall_forall in Np, Nq.
      assert (0 <= nth i p 0) by (apply Np, nth_In; lia).
      assert (0 <= nth i q 0) by (apply Nq, nth_In; lia). lra.
    - unfold m, tabulate. rewrite sumn_seq. unfold Rdiv. rewrite sumn_scal_r, sumn_plus.
      rewrite (sumn_list n p Lp), (sumn_list n q Lq), Sp, Sq. lra. }
  pose proof (mixture_midpoint n dist p q m cs bag Hd Lp Lq Lm Lc Hm) as E.
  pose proof (Hsep p q Dp Dq Ne). pose proof (Mp m Dm). pose proof (Mq m Dm). cbv beta in *. lra.
Qed.

Lemma ED_solver : forall {A} N N' fuel fuel' dist (classes y : list Z) (rows : list A) f f' bag p p',
  (forall x y, dist x y = dist y x) -> classes <> [] ->
  exact_qp (solve_qp N) -> exact_qp (solve_qp N') ->
  (forall p q, distribution_over (length classes) p -> distribution_over (length classes) q ->
     p <> q ->
     0 < energy dist (class_mixture p (class_samples classes y rows))
                     (class_mixture q (class_samples classes y rows))) ->
  ED_fit N fuel dist classes y rows = Some f -> ED_predict N f bag = Val p ->
  ED_fit N' fuel' dist classes y rows = Some f' -> ED_predict N' f' bag = Val p' -> p = p'.
Proof.
  intros A N N' fuel fuel' dist classes y rows f f' bag p p' Hd Hc HQ HQ' Hsep F P F' P'.
  apply (best_unique (length classes) dist (class_samples classes y rows) bag); auto.
  - unfold class_samples. now rewrite map_length.
  - exact (ED_best N fuel dist classes y rows f bag p Hd Hc HQ Hsep F P).
  - exact (ED_best N' fuel' dist classes y rows f' bag p' Hd Hc HQ' Hsep F' P').
Qed.

Lemma EDy_solver : forall N N' fuel fuel' (classes y : list Z) k rows f f' bag p p',
  classes <> [] -> exact_qp (solve_qp N) -> exact_qp (solve_qp N') ->
  identifiable_columns (length classes) k (class_samples classes y rows) ->
  ED_fit N fuel (manhattan k) classes y rows = Some f -> ED_predict N f bag = Val p ->
  ED_fit N' fuel' (manhattan k) classes y rows = Some f' -> ED_predict N' f' bag = Val p' -> p = p'.
Proof.
  intros N N' fuel fuel' classes y k rows f f' bag p p' Hc HQ HQ' HI F P F' P'.
  refine (ED_solver N N' fuel fuel' (manhattan k) classes y rows f f' bag p p' (manhattan_sym k) Hc HQ HQ' _ F P F' P').
  intros u v Du Dv Nuv. apply (manhattan_separates (length classes)); auto using samples_length.
  intros i Hi. exact (predicted_nonempty N fuel _ classes y _ f _ p F P i Hi).
Qed.

Lemma EDX_solver : forall N N' fuel fuel' (classes y : list Z) k rows f f' bag p p',
  classes <> [] -> exact_qp (solve_qp N) -> exact_qp (solve_qp N') ->
  Forall (fun r => length r = k) rows ->
  identifiable_rows (length classes) (class_samples classes y rows) ->
  ED_fit N fuel (euclidean k) classes y rows = Some f -> ED_predict N f bag = Val p ->
  ED_fit N' fuel' (euclidean k) classes y rows = Some f' -> ED_predict N' f' bag = Val p' -> p = p'.
Proof.
  intros N N' fuel fuel' classes y k rows f f' bag p p' Hc HQ HQ' HR HI F P F' P'.
  refine (ED_solver N N' fuel fuel' (euclidean k) classes y rows f f' bag p p' (euclidean_sym k) Hc HQ HQ' _ F P F' P').
  intros u v Du Dv Nuv. apply (euclidean_separates (length classes)); auto using samples_length.
  - intros i Hi. exact (predicted_nonempty N fuel _ classes y _ f _ p F P i Hi).
  - now apply samples_rows.
Qed.

(** ** CvMy: replicating the training set and the bag together *)

Lemma repeated_app : forall {A} m (a b : list A), repeated m (a ++ b) = repeated m a ++ repeated m b.
Proof. intros. unfold repeated. now rewrite map_app, concat_app. Qed.

Lemma average_rank_repeated : forall x m l,
  average_rank x (repeated m l) = / 2 + INR m * (average_rank x l - / 2).
Proof. intros x m l. unfold average_rank. rewrite rsum_map_repeated. ring. Qed.

Lemma manhattan_ranks : forall k m (all : list (list R)) u v,
  let g := fun r => tabulate k (fun j => average_rank (nth j r 0) (col j all)) in
  let h := fun r => tabulate k (fun j => average_rank (nth j r 0) (col j (repeated m all))) in
  manhattan k (h u) (h v) = INR m * manhattan k (g u) (g v).
Proof.
  intros k m all u v g h. unfold manhattan. rewrite <- sumn_scal. apply sumn_ext. intros j Hj.
  unfold g, h. rewrite !nth_tabulate by auto. unfold col. rewrite map_repeated, !average_rank_repeated.
  rewrite <- (Rabs_pos_eq (INR m)) at 3 by apply pos_INR. rewrite <- Rabs_mult. f_equal. ring.
Qed.

Definition pushed {A B} (h : A -> B) (P : weighted A) : weighted B := map (fun p => (fst p, h (snd p))) P.

Lemma expected_pushed : forall {A B} (d : B -> B -> R) (h : A -> B) P Q,
  expected d (pushed h P) (pushed h Q) = expected (fun u v => d (h u) (h v)) P Q.
Proof.
  intros. unfold expected, pushed. rewrite map_map. apply rsum_map_ext. intros p _.
  rewrite map_map. reflexivity.
Qed.

Lemma spread_pushed : forall {A B} (h : A -> B) w s, spread_over w (map h s) = pushed h (spread_over w s).
Proof. intros. unfold spread_over, pushed. rewrite !map_map, map_length. reflexivity. Qed.

Lemma class_mixture_pushed : forall {A B} (h : A -> B) p cs,
  class_mixture p (map (map h) cs) = pushed h (class_mixture p cs).
Proof.
  intros A B h p cs. unfold class_mixture. revert cs. induction p as [|w p IH]; intros [|s cs]; simpl; auto.
  rewrite IH, spread_pushed. unfold pushed. now rewrite map_app.
Qed.

Lemma select_map : forall {A B} (h : A -> B) c y rows, select c y (map h rows) = map h (select c y rows).
Proof.
  intros A B h c y. unfold select. induction y as [|a y IH]; intros [|r rows]; simpl; auto.
  destruct (Z.eqb a c); simpl; rewrite IH; auto.
Qed.

Lemma samples_map : forall {A B} (h : A -> B) classes y rows,
  class_samples classes y (map h rows) = map (map h) (class_samples classes y rows).
Proof. intros. unfold class_samples. rewrite map_map. apply map_ext. intros c. apply select_map. Qed.

Lemma energy_scaled : forall {A} (d e : A -> A -> R) s P Q, (forall u v, d u v = s * e u v) ->
  energy d P Q = s * energy e P Q.
Proof.
  intros A d e s P Q H. unfold energy.
  assert (E : forall P Q, expected d P Q = s * expected e P Q).
  { intros P' Q'. unfold expected. rewrite <- rsum_map_scal. apply rsum_map_ext. intros p _.
    rewrite <- rsum_map_scal. apply rsum_map_ext. intros q _. rewrite H. ring. }
  rewrite !E. ring.
Qed.

Lemma CvMy_joint : forall N N' fuel fuel' classes k (tr : list (Z * list R)) te m p p',
  classes <> [] -> (0 < m)%nat -> exact_qp (solve_qp N) -> exact_qp (solve_qp N') ->
  identifiable_columns (length classes) k
    (class_samples classes (map fst tr) (rank_rows k (map snd tr ++ te) (map snd tr))) ->
  CvMy_predict N fuel (manhattan k) classes (map fst tr) k (map snd tr) te = Some (Val p) ->
  CvMy_predict N' fuel' (manhattan k) classes (map fst (repeated m tr)) k (map snd (repeated m tr))
    (repeated m te) = Some (Val p') -> p = p'.
Proof.
  intros N N' fuel fuel' classes k tr te m p p' Hc Hm HQ HQ' HI H H'.
  assert (0 < INR m) by (apply lt_0_INR; lia).
  assert (NE : forall i, (i < length classes)%nat ->
     nth i (class_samples classes (map fst tr) (rank_rows k (map snd tr ++ te) (map snd tr))) [] <> []).
  { unfold CvMy_predict in H. destruct (rank_rows_split k (map snd tr) te) as [E1 E2]. rewrite E1, E2 in H.
    destruct (ED_fit N fuel (manhattan k) classes (map fst tr) (rank_rows k (map snd tr ++ te) (map snd tr)))
      as [f|] eqn:EF; [|discriminate].
    injection H as H. intros i Hi. exact (predicted_nonempty N fuel _ classes _ _ f _ p EF H i Hi). }
  pose proof (CvMy_default N fuel classes (map fst tr) k (map snd tr) te p Hc HQ HI H) as B.
  set (all := map snd tr ++ te) in *.
  pose (g := fun r : list R => tabulate k (fun j => average_rank (nth j r 0) (col j all))).
  pose (h := fun r : list R => tabulate k (fun j => average_rank (nth j r 0) (col j (repeated m all)))).
  assert (Hgh : forall u v, manhattan k (h u) (h v) = INR m * manhattan k (g u) (g v))
    by (intros; apply manhattan_ranks).
  unfold CvMy_predict in H'.
  destruct (rank_rows_split k (map snd (repeated m tr)) (repeated m te)) as [E1 E2]. rewrite E1, E2 in H'.
  rewrite (map_repeated snd), <- repeated_app in H'. fold all in H'.
  change (rank_rows k (repeated m all)) with (map h) in H'.
  change (rank_rows k all) with (map g) in *.
  set (hh := fun e : Z * list R => (fst e, h (snd e))).
  assert (F1 : map fst (repeated m tr) = map fst (map hh (repeated m tr))) by (rewrite map_map; auto).
  assert (F2 : map h (repeated m (map snd tr)) = map snd (map hh (repeated m tr)))
    by (rewrite <- map_repeated, !map_map; auto).
  rewrite F1, F2 in H'. clear F1 F2 E1 E2.
  assert (HS : same_proportions (map hh tr) (map hh (repeated m tr))) by (apply same_map, same_repeated; auto).
  pose proof (ED_training N' fuel' (manhattan k) classes _ _ (map h (repeated m te)) HS) as HT.
  destruct (ED_fit N' fuel' (manhattan k) classes (map fst (map hh (repeated m tr)))
     (map snd (map hh (repeated m tr)))) as [f2|]; [|discriminate].
  destruct (ED_fit N' fuel' (manhattan k) classes (map fst (map hh tr)) (map snd (map hh tr)))
    as [f1|] eqn:EF; simpl in HT; [|discriminate].
  injection HT as HT. injection H' as H'. rewrite HT in H'.
  assert (HB : same_proportions (map h te) (map h (repeated m te))) by (apply same_map, same_repeated; auto).
  rewrite (ED_bag N' f1 _ _ _ _ _ _ _ EF HB) in H'.
  replace (map fst (map hh tr)) with (map fst tr) in EF by (rewrite map_map; auto).
  replace (map snd (map hh tr)) with (map h (map snd tr)) in EF by (rewrite !map_map; auto).
  assert (SC : forall u (Q : weighted (list R)),
    energy (manhattan k) (class_mixture u (class_samples classes (map fst tr) (map h (map snd tr)))) (pushed h Q) =
    INR m * energy (manhattan k) (class_mixture u (class_samples classes (map fst tr) (map g (map snd tr)))) (pushed g Q)).
  { intros u Q. rewrite (samples_map h), (samples_map g), !class_mixture_pushed.
    rewrite <- (energy_scaled (fun x y => INR m * manhattan k x y) (manhattan k)) by auto.
    unfold energy. rewrite !expected_pushed. 
    assert (X : forall P Q, expected (fun u v => manhattan k (h u) (h v)) P Q =
                            expected (fun u v => INR m * manhattan k (g u) (g v)) P Q)
      by (intros; apply expected_ext; auto).
    now rewrite !X. }
  assert (B' : best_distribution (length classes)
    (fun p => energy (manhattan k) (class_mixture p (class_samples classes (map fst tr) (map h (map snd tr))))
        (spread_over 1 (map h te))) p').
  { eapply ED_best; eauto using manhattan_sym. intros u v Du Dv Nuv.
    rewrite (samples_map h) at 2. rewrite class_mixture_pushed, SC, <- class_mixture_pushed, <- samples_map.
    apply Rmult_lt_0_compat; auto. apply (manhattan_separates (length classes)); auto using samples_length. }
  apply (best_unique (length classes) (manhattan k)
           (class_samples classes (map fst tr) (map g (map snd tr))) (map g te));
    auto using samples_length, manhattan_sym.
  - intros u v Du Dv Nuv. apply (manhattan_separates (length classes)); auto using samples_length.
  - destruct B' as [D M]. split; auto. intros q Dq. specialize (M q Dq). cbv beta in *.
    rewrite !spread_pushed, !SC in M. rewrite !spread_pushed. apply Rmult_le_reg_l in M; auto.
Qed.

Lemma joint_example :
  CvMy_predict example_numerics 1 (manhattan 1) [0; 1]%Z (map fst (repeated 2 [(0%Z, [0]); (1%Z, [2])])) 1
    (map snd (repeated 2 [(0%Z, [0]); (1%Z, [2])])) (repeated 2 [[0]; [1]]) = Some (Val [7/10; 1 - 7/10]).
Proof.
  set (tr := map snd (repeated 2 [(0%Z, [0]); (1%Z, [2])])). set (te := repeated 2 [[0]; [1]]).
  assert (E1 : rank_rows 1 (tr ++ te) tr = [[5/2]; [5/2]; [15/2]; [15/2]]) by (unfold tr, te; decide_ranks).
  assert (E2 : rank_rows 1 (tr ++ te) te = [[5/2]; [5/2]; [11/2]; [11/2]]) by (unfold tr, te; decide_ranks).
  unfold CvMy_predict. destruct (rank_rows_split 1 tr te) as [F1 F2]. rewrite F1, F2, E1, E2.
  pose proof (ED_training example_numerics 1 (manhattan 1) [0; 1]%Z [(0%Z, [5/2]); (1%Z, [15/2])]
    (repeated 2 [(0%Z, [5/2]); (1%Z, [15/2])]) [[5/2]; [5/2]; [11/2]; [11/2]]
    (same_repeated 2 _ ltac:(lia))) as H.
  destruct (two_answer (5/2) (15/2) [[5/2]; [5/2]; [11/2]; [11/2]] 10 (7/10) (3/5)) as (f & HF & HP);
    try lra; try discriminate.
  { intros x. energies. }
  change (map fst (repeated 2 [(0%Z, [5/2]); (1%Z, [15/2])])) with (map fst (repeated 2 [(0%Z, [0]); (1%Z, [2])])) in H.
  change (map snd (repeated 2 [(0%Z, [5/2]); (1%Z, [15/2])])) with [[5/2]; [5/2]; [15/2]; [15/2]] in H.
  cbn [map fst snd] in H. rewrite HF in H. simpl option_map in H at 2. rewrite HP in H.
  exact H.
Qed.
