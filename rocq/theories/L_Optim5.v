(** * More proofs about the optimisation programs, and concrete instances. *)

From Coq Require Import Reals List ZArith Lia Lra Bool Arith Permutation ClassicalEpsilon.
From Verif Require Import Num Spec L_Num M_Baselines L_Baselines M_Metrics L_Metrics M_Optim Spec_Optim
  L_Optim L_Optim2 L_Optim3 L_Optim4.
Import ListNotations.
Open Scope R_scope.

(** ** Exact fit *)

Lemma squared_l2_nonneg : forall d n T t p, 0 <= squared_l2 d n T t p.
Proof. intros. unfold squared_l2. apply sumn_nonneg. intros. apply pow2_ge_0. Qed.

Lemma squared_l2_zero : forall d n T t p, squared_l2 d n T t p = 0 ->
  forall r, (r < d)%nat -> mixture_at n T p r = nth r t 0.
Proof.
  intros d n T t p H r Hr. unfold squared_l2 in H.
  pose proof (sumn_zero_all d (fun r => (mixture_at n T p r - nth r t 0) ^ 2)
    (fun i _ => pow2_ge_0 _) H r Hr) as Z. cbv beta in Z.
  assert ((mixture_at n T p r - nth r t 0) = 0) by nra. lra.
Qed.

Lemma independent_mixtures : forall d n T p q, independent_columns d n T ->
  length p = n -> length q = n ->
  (forall r, (r < d)%nat -> mixture_at n T p r = mixture_at n T q r) -> p = q.
Proof.
  intros d n T p q HI Lp Lq H.
  apply (nth_ext p q 0 0); [lia|]. intros i Hi.
  destruct (Req_EM_T (nth i p 0) (nth i q 0)) as [E|Ne]; [exact E|exfalso].
  destruct (HI (fun j => nth j p 0 - nth j q 0)) as (r & Hr & Hx).
  { exists i. split; [lia|]. lra. }
  apply Hx. rewrite (sumn_ext n _ (fun j => T r j * nth j p 0 - T r j * nth j q 0))
    by (intros; ring).
  rewrite sumn_minus. specialize (H r Hr). unfold mixture_at in H. lra.
Qed.

Lemma l2_exact : forall N fuel d n T t G C b p q,
  exact_qp (solve_qp N) -> independent_columns d n T ->
  distribution_over n q -> (forall r, (r < d)%nat -> nth r t 0 = mixture_at n T q r) ->
  compute_l2_param_train N fuel d n T = Some (G, C, b) ->
  solve_l2 N d n T t G C b = Val p ->
  p = q.
Proof.
  intros N fuel d n T t G C b p q HQ HI Dq Ht HT HS.
  destruct (l2_best N fuel d n T t G C b p HQ (gram2_pd d n T HI) HT HS) as [D O].
  specialize (O q Dq).
  assert (Z : squared_l2 d n T t q = 0).
  { unfold squared_l2. apply sumn_0. intros r Hr. rewrite Ht by auto. ring. }
  pose proof (squared_l2_nonneg d n T t p).
  apply (independent_mixtures d n T); auto; try apply D; try apply Dq.
  intros r Hr. rewrite <- Ht by auto. apply (squared_l2_zero d n T t p); auto. lra.
Qed.

(** ** Ranks *)

Lemma rank_value : forall x l,
  INR (count_below x l) + (INR (count_equal x l) + 1) / 2 = average_rank x l.
Proof.
  intros x l. unfold average_rank.
  assert (E : INR (count_below x l) + INR (count_equal x l) / 2 =
    rsum (map (fun y => if Rlt_dec y x then 1 else if Req_EM_T y x then / 2 else 0) l)).
  { induction l as [|y l IH]; [unfold count_below, count_equal; simpl; lra|].
    unfold count_below, count_equal in *. cbn [filter map rsum]. rewrite <- IH.
    destruct (Rlt_dec y x) as [H|H], (Req_EM_T y x) as [H'|H']; [lra| | |];
      cbn [length]; rewrite ?S_INR; lra. }
  lra.
Qed.

Lemma rankdata_nth : forall l i, (i < length l)%nat ->
  nth i (rankdata l) 0 = average_rank (nth i l 0) l.
Proof.
  intros l i Hi. unfold rankdata.
  rewrite (nth_indep _ 0 (INR (count_below 0 l) + (INR (count_equal 0 l) + 1) / 2))
    by (now rewrite map_length).
  rewrite (map_nth (fun x => INR (count_below x l) + (INR (count_equal x l) + 1) / 2)).
  apply rank_value.
Qed.

Lemma rank_columns_rows : forall k rows, rank_columns k rows = rank_rows k rows rows.
Proof.
  intros k rows. unfold rank_columns, rank_rows.
  apply (nth_ext _ _ [] []); [unfold tabulate; now rewrite !map_length, seq_length|].
  intros i Hi. unfold tabulate at 1 in Hi. rewrite map_length, seq_length in Hi.
  rewrite tabulate_nth by auto.
  rewrite (nth_indep (map _ rows) [] (tabulate k (fun j => average_rank (nth j [] 0) (col j rows))))
    by (now rewrite map_length).
  rewrite (map_nth (fun r => tabulate k (fun j => average_rank (nth j r 0) (col j rows)))).
  unfold tabulate. apply map_ext_in. intros j Hj. apply in_seq in Hj.
  rewrite rankdata_nth by (unfold col; now rewrite map_length).
  f_equal. unfold col. rewrite (nth_indep _ 0 (nth j [] 0)) by (now rewrite map_length).
  rewrite (map_nth (fun r => nth j r 0)). reflexivity.
Qed.

Lemma rank_rows_split : forall k tr te,
  firstn (length tr) (rank_columns k (tr ++ te)) = rank_rows k (tr ++ te) tr /\
  skipn (length tr) (rank_columns k (tr ++ te)) = rank_rows k (tr ++ te) te.
Proof.
  intros k tr te. rewrite rank_columns_rows.
  assert (E : rank_rows k (tr ++ te) (tr ++ te) =
    rank_rows k (tr ++ te) tr ++ rank_rows k (tr ++ te) te) by (unfold rank_rows; apply map_app).
  rewrite E.
  assert (L : length (rank_rows k (tr ++ te) tr) = length tr)
    by (unfold rank_rows; apply map_length).
  generalize dependent (rank_rows k (tr ++ te) tr). intros l1 _ <-.
  rewrite firstn_app, skipn_app, Nat.sub_diag, firstn_all, skipn_all. simpl.
  rewrite app_nil_r. auto.
Qed.

Lemma CvMy_best : forall N fuel dist classes y k tr te p,
  (forall u v, dist u v = dist v u) -> classes <> [] ->
  exact_qp (solve_qp N) ->
  (forall p q, distribution_over (length classes) p -> distribution_over (length classes) q ->
     p <> q ->
     0 < energy dist (class_mixture p (class_samples classes y (rank_rows k (tr ++ te) tr)))
                     (class_mixture q (class_samples classes y (rank_rows k (tr ++ te) tr)))) ->
  CvMy_predict N fuel dist classes y k tr te = Some (Val p) ->
  best_distribution (length classes)
    (fun p => energy dist (class_mixture p (class_samples classes y (rank_rows k (tr ++ te) tr)))
                (spread_over 1 (rank_rows k (tr ++ te) te))) p.
Proof.
  intros N fuel dist classes y k tr te p Hd Hc HQ Hsep H. unfold CvMy_predict in H.
  destruct (rank_rows_split k tr te) as [E1 E2]. rewrite E1, E2 in H.
  destruct (ED_fit N fuel dist classes y (rank_rows k (tr ++ te) tr)) as [f|] eqn:EF;
    [|discriminate].
  inversion H as [HP]. eapply ED_best; eauto.
Qed.

(** ** AC, PAC and PWKQuantifier *)

Lemma frequencies_fraction : forall classes preds, preds <> [] ->
  class_frequencies classes preds = Val (map (fun c => fraction c preds) classes).
Proof. intros. unfold class_frequencies. destruct preds; [congruence|reflexivity]. Qed.

Lemma AC_fallback : forall inv N cvx fuel dist classes rows preds p,
  exact_cvx cvx -> dist = HD \/ dist = L1 ->
  length classes <> 2%nat -> preds <> [] ->
  length rows = length classes -> distributions (length classes) rows ->
  inv (length classes) (fun i j => entry rows j i) = None ->
  AC_predict (library_solvers inv N cvx fuel) dist classes (map Some rows) preds = Val p ->
  best_distribution (length classes)
    (fallback_loss dist (length classes) (fun i j => entry rows j i)
       (map (fun c => fraction c preds) classes)) p.
Proof.
  intros inv N cvx fuel dist classes rows preds p Hc Hd H2 Hp Lr Hr Hi H.
  unfold AC_predict in H. rewrite frequencies_fraction in H by auto. cbn [obind] in H.
  rewrite (proj2 (Nat.eqb_neq _ _) H2) in H.
  apply multi_adjust_fallback in H; [|destruct Hd; subst; discriminate|exact Hi].
  eapply library_solve_best; eauto. now rewrite map_length.
Qed.

Lemma PAC_fallback : forall inv N cvx fuel dist classes rows preds p,
  exact_cvx cvx -> dist = HD \/ dist = L1 ->
  length classes <> 2%nat -> preds <> [] ->
  length rows = length classes -> distributions (length classes) rows ->
  inv (length classes) (fun i j => entry rows j i) = None ->
  PAC_predict (library_solvers inv N cvx fuel) dist classes (map Some rows) preds = Val p ->
  best_distribution (length classes)
    (fallback_loss dist (length classes) (fun i j => entry rows j i)
       (col_means (length classes) preds)) p.
Proof.
  intros inv N cvx fuel dist classes rows preds p Hc Hd H2 Hp Lr Hr Hi H.
  unfold PAC_predict, mean_rows in H. destruct preds as [|r0 preds]; [congruence|].
  cbn [obind] in H.
  rewrite (proj2 (Nat.eqb_neq _ _) H2) in H.
  apply multi_adjust_fallback in H; [|destruct Hd; subst; discriminate|exact Hi].
  eapply library_solve_best; eauto. unfold col_means. now rewrite map_length, seq_length.
Qed.

Lemma AC_fallback_l2 : forall inv N cvx fuel classes rows preds p,
  (1 <= fuel)%nat -> exact_qp (solve_qp N) ->
  (forall v, 0 < spacing N v) ->
  (forall B, agree (length classes) B (gram2 (length classes) (fun i j => entry rows j i)) ->
     singular_values (length classes) B (fst (svd N (length classes) B))
       (snd (svd N (length classes) B))) ->
  (forall M, agree (length classes) M (gram2 (length classes) (fun i j => entry rows j i)) ->
     smallest_eigenvalue (length classes) M (min_eigenvalue N (length classes) M)) ->
  length classes <> 2%nat -> preds <> [] ->
  inv (length classes) (fun i j => entry rows j i) = None ->
  AC_predict (library_solvers inv N cvx fuel) L2 classes (map Some rows) preds = Val p ->
  nearly_best_distribution (length classes)
    (spacing N (frobenius (length classes) (gram2 (length classes) (fun i j => entry rows j i))) / 2)
    (squared_l2 (length classes) (length classes) (fun i j => entry rows j i)
       (map (fun c => fraction c preds) classes)) p.
Proof.
  intros inv N cvx fuel classes rows preds p Hf HQ Hsp Hsvd Heig H2 Hp Hi H.
  unfold AC_predict in H. rewrite frequencies_fraction in H by auto. cbn [obind] in H.
  rewrite (proj2 (Nat.eqb_neq _ _) H2) in H.
  apply multi_adjust_fallback in H; [|discriminate|exact Hi].
  apply (library_solve_l2 inv N cvx fuel); auto.
Qed.

Lemma PWKQ_l1 : forall inv N cvx fuel classes rows preds p,
  exact_cvx cvx ->
  length classes <> 2%nat -> preds <> [] ->
  length rows = length classes -> distributions (length classes) rows ->
  PWKQ_predict (library_solvers inv N cvx fuel) classes (map Some rows) preds = Val p ->
  best_distribution (length classes)
    (l1_distance (length classes) (length classes) (fun i j => entry rows j i)
       (map (fun c => fraction c preds) classes)) p.
Proof.
  intros inv N cvx fuel classes rows preds p Hc H2 Hp Lr Hr H.
  unfold PWKQ_predict in H. rewrite frequencies_fraction in H by auto. cbn [obind] in H.
  rewrite (proj2 (Nat.eqb_neq _ _) H2), all_some_map in H.
  apply (library_solve_best inv N cvx fuel L1); auto. now rewrite map_length.
Qed.

(** ** Ideal external routines, to show that the hypotheses can be met *)

Definition ideal_qp (n m : nat) (G : matrix) (a : nat -> R) (C : matrix) (b : nat -> R) (meq : nat)
  : option (list R) :=
  match excluded_middle_informative (exists x, qp_feasible n m C b meq x /\
    forall y, qp_feasible n m C b meq y -> qp_objective n G a x <= qp_objective n G a y) with
  | left H => Some (proj1_sig (constructive_indefinite_description _ H))
  | right _ => None
  end.

Lemma ideal_qp_exact : exact_qp ideal_qp.
Proof.
  intros n m G a C b meq x _ _ H. unfold ideal_qp in H.
  destruct (excluded_middle_informative _) as [E|E]; [|discriminate]. inversion H; subst x.
  exact (proj2_sig (constructive_indefinite_description _ E)).
Qed.

Lemma ideal_qp_answers : forall n m G a C b meq, (exists x, qp_feasible n m C b meq x /\
    forall y, qp_feasible n m C b meq y -> qp_objective n G a x <= qp_objective n G a y) ->
  exists x, ideal_qp n m G a C b meq = Some x.
Proof.
  intros. unfold ideal_qp. destruct (excluded_middle_informative _); [eauto|contradiction].
Qed.

Definition ideal_cvx (warm : option (list R)) (n : nat) (f : list R -> R) : option (list R) :=
  match excluded_middle_informative (exists x, best_distribution n f x) with
  | left H => Some (proj1_sig (constructive_indefinite_description _ H))
  | right _ => None
  end.

Lemma ideal_cvx_exact : exact_cvx ideal_cvx.
Proof.
  intros warm n f x H. unfold ideal_cvx in H.
  destruct (excluded_middle_informative _) as [E|E]; [|discriminate]. inversion H; subst x.
  exact (proj2_sig (constructive_indefinite_description _ E)).
Qed.

Lemma ideal_cvx_answers : forall warm n f x, best_distribution n f x ->
  exists x, ideal_cvx warm n f = Some x.
Proof.
  intros. unfold ideal_cvx. destruct (excluded_middle_informative _) as [E|E]; [eauto|].
  exfalso. eauto.
Qed.

(** A lower bound of the smallest eigenvalue. *)
Definition row_bound (n : nat) (M : matrix) : R :=
  - sumn n (fun i => sumn n (fun j => Rabs (M i j))).

Lemma row_bound_ok : forall n M, eigenvalue_bound n M (row_bound n M).
Proof.
  intros n M x. set (q := sumn n (fun i => x i * x i)).
  assert (Hq : forall i j, (i < n)%nat -> (j < n)%nat -> Rabs (x i * x j) <= q).
  { intros i j Hi Hj.
    assert (x i * x i <= q).
    { apply (sumn_ge_term n (fun i => x i * x i) i); auto. intros; apply Rle_0_sqr. }
    assert (x j * x j <= q).
    { apply (sumn_ge_term n (fun i => x i * x i) j); auto. intros; apply Rle_0_sqr. }
    apply Rabs_le. pose proof (Rle_0_sqr (x i - x j)). pose proof (Rle_0_sqr (x i + x j)).
    unfold Rsqr in *. split; nra. }
  unfold row_bound, quad. rewrite Ropp_mult_distr_l_reverse.
  assert (- quad n M x <= sumn n (fun i => sumn n (fun j => Rabs (M i j))) * q).
  { apply Rle_trans with (Rabs (quad n M x)).
    - rewrite <- Rabs_Ropp. apply Rle_abs.
    - unfold quad. eapply Rle_trans; [apply sumn_Rabs_le|]. rewrite <- sumn_scal_r.
      apply sumn_le. intros i Hi. eapply Rle_trans; [apply sumn_Rabs_le|]. rewrite <- sumn_scal_r.
      apply sumn_le. intros j Hj.
      replace (x i * M i j * x j) with (M i j * (x i * x j)) by ring. rewrite Rabs_mult.
      apply Rmult_le_compat_l; [apply Rabs_pos|auto]. }
  unfold quad in H. lra.
Qed.

(** Numerical routines used in the examples: an exact quadratic-program solver, the singular
    values of the 2 x 2 matrix of ones, a lower bound of the eigenvalues. *)
Definition ones_svd (n : nat) (B : matrix) : (nat -> R) * matrix :=
  (fun l => match l with O => 2 | _ => 0 end,
   fun l j => match l, j with O, _ => / sqrt 2 | _, O => / sqrt 2 | _, _ => - / sqrt 2 end).

Definition example_numerics : numerics :=
  {| svd := ones_svd; min_eigenvalue := row_bound; spacing := fun _ => / 1000;
     solve_qp := ideal_qp |}.

Definition example_numerics0 : numerics :=
  {| svd := ones_svd; min_eigenvalue := fun _ _ => 0; spacing := fun _ => / 1000;
     solve_qp := ideal_qp |}.

Definition of_rows (rows : list (list R)) : matrix := fun i j => nth j (nth i rows []) 0.

Lemma pd2 : forall a b c, 0 < a -> 0 < a * c - b * b ->
  positive_definite 2 (of_rows [[a; b]; [b; c]]).
Proof.
  intros a b c Ha Hd x (i & Hi & Hx). unfold quad, of_rows. simpl.
  set (u := x 0%nat) in *. set (v := x 1%nat) in *.
  replace (0 + (0 + u * a * u + u * b * v) + (0 + v * b * u + v * c * v))
    with (/ a * ((a * u + b * v) * (a * u + b * v) + (a * c - b * b) * (v * v)))
    by (field; lra).
  apply Rmult_lt_0_compat; [now apply Rinv_0_lt_compat|].
  destruct (Req_EM_T v 0) as [E|E].
  - rewrite E. assert (u <> 0).
    { destruct i as [|[|i]]; [exact Hx|exfalso; apply Hx; exact E|lia]. }
    assert (0 < u * u) by (apply Rlt_0_sqr; auto).
    replace ((a * u + b * 0) * (a * u + b * 0) + (a * c - b * b) * (0 * 0))
      with (a * a * (u * u)) by ring.
    apply Rmult_lt_0_compat; nra.
  - assert (0 < v * v) by (apply Rlt_0_sqr; auto).
    pose proof (Rle_0_sqr (a * u + b * v)) as Q. unfold Rsqr in Q. nra.
Qed.

Lemma sym2 : forall a b c, symmetric 2 (of_rows [[a; b]; [b; c]]).
Proof.
  intros a b c i j Hi Hj. unfold of_rows.
  destruct i as [|[|i]], j as [|[|j]]; try lia; reflexivity.
Qed.

(** L2 with two independent classes. *)
Definition example_T : matrix := of_rows [[4/5; 1/5]; [1/5; 4/5]].

Lemma example_T_independent : independent_columns 2 2 example_T.
Proof.
  intros x (i & Hi & Hx). unfold example_T, of_rows.
  destruct (Req_EM_T (4/5 * x 0%nat + 1/5 * x 1%nat) 0) as [E|E].
  - exists 1%nat. split; [lia|]. simpl. intros F.
    assert (x 0%nat = 0) by lra. assert (x 1%nat = 0) by lra.
    destruct i as [|[|i]]; [contradiction|contradiction|lia].
  - exists 0%nat. split; [lia|]. simpl. lra.
Qed.

Lemma example_l2 : exists G C b p,
  compute_l2_param_train example_numerics 1 2 2 example_T = Some (G, C, b) /\
  solve_l2 example_numerics 2 2 example_T [1/2; 1/2] G C b = Val p.
Proof.
  unfold compute_l2_param_train.
  rewrite ensure_pd_same by (apply gram2_sym || apply gram2_pd, example_T_independent).
  exists (gram2 2 example_T), l2_C, l2_b. unfold solve_l2.
  pose (a := fun i => 2 * sumn 2 (fun r => example_T r i * nth r [1/2; 1/2] 0)).
  destruct (ideal_qp_answers 2 3 (gram2 2 example_T) a l2_C l2_b 1) as (x & Hx).
  - exists [1/2; 1/2]. split.
    + apply (l2_constraints 2). split; [reflexivity|]. split.
      * repeat (apply Forall_cons; [lra|]). apply Forall_nil.
      * simpl. lra.
    + intros y Hy. unfold a. rewrite !l2_objective.
      assert (squared_l2 2 2 example_T [1/2; 1/2] [1/2; 1/2] = 0).
      { unfold squared_l2, mixture_at, example_T, of_rows. simpl. field. }
      pose proof (squared_l2_nonneg 2 2 example_T [1/2; 1/2] y). lra.
  - exists x. split; [reflexivity|]. cbn [length Nat.eqb]. unfold a in Hx.
    cbn [solve_qp example_numerics]. rewrite Hx. reflexivity.
Qed.

(** L2 with two classes that cannot be told apart. *)
Definition example_same : matrix := fun _ _ => 1/2.

Lemma example_same_gram : forall i j, gram2 2 example_same i j = 1.
Proof. intros. unfold gram2, example_same. simpl. field. Qed.

Lemma inv_sqrt2 : / sqrt 2 * / sqrt 2 = / 2.
Proof. rewrite <- Rinv_mult. now rewrite sqrt_sqrt by lra. Qed.

Lemma ones_orthogonal : orthogonal 2 (snd (ones_svd 2 example_same)).
Proof.
  pose proof inv_sqrt2 as E. intros i j Hi Hj. unfold ones_svd, delta. simpl.
  destruct i as [|[|i]], j as [|[|j]]; try lia; simpl;
    split; ring_simplify; simpl;
    try (replace (/ sqrt 2 * (/ sqrt 2 * 1)) with (/ sqrt 2 * / sqrt 2) by ring; rewrite E); lra.
Qed.

Lemma ones_singular : forall n B, n = 2%nat -> agree n B (gram2 2 example_same) ->
  singular_values n B (fst (ones_svd n B)) (snd (ones_svd n B)).
Proof.
  intros n B -> HB. split; [|split].
  - intros l Hl. simpl. destruct l; lra.
  - apply ones_orthogonal.
  - exists (transpose (snd (ones_svd 2 example_same))). split.
    + intros i j Hi Hj. unfold transpose. destruct (ones_orthogonal i j Hi Hj). split; auto.
    + intros i j Hi Hj. rewrite (HB i j Hi Hj), example_same_gram. unfold transpose, ones_svd. simpl.
      pose proof inv_sqrt2 as E.
      destruct i as [|[|i]], j as [|[|j]]; try lia; nra.
Qed.

Lemma ones_smallest : forall n B, n = 2%nat -> agree n B (gram2 2 example_same) ->
  smallest_eigenvalue n B 0.
Proof.
  intros n B -> HB. split.
  - intros x. rewrite (quad_ext 2 B (gram2 2 example_same) x x) by auto.
    rewrite Rmult_0_l. apply gram2_psd.
  - exists (fun i => match i with O => 1 | _ => - (1) end). split.
    + exists O. split; [lia|]. lra.
    + intros i Hi. simpl. rewrite !HB by lia. rewrite !example_same_gram. lra.
Qed.

Lemma example_same_param : exists G C b,
  compute_l2_param_train example_numerics0 1 2 2 example_same = Some (G, C, b) /\
  agree 2 G (unit_shift (gram2 2 example_same) (/ 1000)) /\ C = l2_C /\ b = l2_b.
Proof.
  assert (NP : ~ positive_definite 2 (gram2 2 example_same)).
  { intros P. specialize (P (fun i => match i with O => 1 | _ => - (1) end)).
    assert (0 < quad 2 (gram2 2 example_same) (fun i => match i with O => 1 | _ => - (1) end)).
    { apply P. exists O. split; [lia|]. lra. }
    unfold quad in H. simpl in H. rewrite !example_same_gram in H. lra. }
  destruct (nearest_pd_psd example_numerics0 1 2 (gram2 2 example_same)) as (P & HP & EP); auto.
  - apply gram2_sym.
  - apply gram2_psd.
  - simpl. lra.
  - intros B HB. simpl svd. apply ones_singular; auto.
  - intros B HB. simpl min_eigenvalue. apply ones_smallest; auto.
  - exists P, l2_C, l2_b. unfold compute_l2_param_train, ensure_pd.
    destruct (is_pd 2 (gram2 2 example_same)) eqn:E.
    + exfalso. apply NP. apply is_pd_sym; auto. apply gram2_sym.
    + rewrite HP. auto.
Qed.

(** Energy distance of two classes with one example each. *)
Definition abs_dist (x y : R) : R := Rabs (x - y).

Lemma abs_dist_sym : forall x y, abs_dist x y = abs_dist y x.
Proof. intros. apply Rabs_minus_sym. Qed.

Definition ex_classes : list Z := [0; 1]%Z.
Definition ex_y : list Z := [0; 1]%Z.
Definition ex_rows : list R := [0; 1].
Definition ex_bag : list R := [0; 1; 1; 1].

Lemma ex_samples : class_samples ex_classes ex_y ex_rows = [[0]; [1]].
Proof. reflexivity. Qed.

Lemma dist2_of : forall n p, n = 2%nat -> distribution_over n p ->
  exists x, 0 <= x <= 1 /\ p = [x; 1 - x].
Proof.
  intros n p -> (L & Hn & Hs). destruct p as [|a [|b [|c p]]]; try discriminate.
  simpl in Hs. exists a. pose proof (Forall_inv Hn). pose proof (Forall_inv (Forall_inv_tail Hn)).
  split; [lra|]. repeat f_equal. lra.
Qed.

Lemma abs_vals : abs_dist 0 0 = 0 /\ abs_dist 1 1 = 0 /\ abs_dist 0 1 = 1 /\ abs_dist 1 0 = 1.
Proof.
  unfold abs_dist. repeat split.
  - replace (0 - 0) with 0 by ring. apply Rabs_R0.
  - replace (1 - 1) with 0 by ring. apply Rabs_R0.
  - replace (0 - 1) with (- (1)) by ring. rewrite Rabs_Ropp. apply Rabs_R1.
  - replace (1 - 0) with 1 by ring. apply Rabs_R1.
Qed.

Lemma ex_energy_sep : forall p q,
  distribution_over (length ex_classes) p -> distribution_over (length ex_classes) q -> p <> q ->
  0 < energy abs_dist (class_mixture p (class_samples ex_classes ex_y ex_rows))
                      (class_mixture q (class_samples ex_classes ex_y ex_rows)).
Proof.
  intros p q Hp Hq Hne. rewrite ex_samples.
  destruct (dist2_of _ p eq_refl Hp) as (x & Hx & ->).
  destruct (dist2_of _ q eq_refl Hq) as (z & Hz & ->).
  rewrite (energy_mixtures 2) by (auto using abs_dist_sym). simpl.
  unfold mean_dist, pair_sum. simpl. destruct abs_vals as (-> & -> & -> & ->).
  assert (x <> z) by (intros ->; congruence).
  assert (0 < (x - z) * (x - z)) by (apply Rlt_0_sqr; lra). lra.
Qed.

Lemma ex_ed : exists f p, ED_fit example_numerics 1 abs_dist ex_classes ex_y ex_rows = Some f /\
  ED_predict example_numerics f ex_bag = Val p.
Proof.
  pose (train := fun i => select (nth i ex_classes 0%Z) ex_y ex_rows).
  pose (K := ed_K abs_dist train (fun i => INR (length (train i)))).
  pose (M := fun i j => 2 * ed_B 2 K i j).
  assert (PM : positive_definite 1 M).
  { apply (ed_pd abs_dist ex_classes ex_y ex_rows 1 abs_dist_sym eq_refl). apply ex_energy_sep. }
  assert (SM : symmetric 1 M) by (apply ed_gram_sym, abs_dist_sym).
  assert (E : ED_fit example_numerics 1 abs_dist ex_classes ex_y ex_rows =
    match ensure_pd example_numerics 1 1 M with
    | None => None
    | Some G => Some {| ed_classes := ex_classes; ed_train := train;
                        ed_sizes := fun i => INR (length (train i)); ed_dist := abs_dist;
                        ed_Kmat := K; ed_Gmat := G; ed_Cmat := ed_C; ed_bvec := ed_b |}
    end).
  { unfold ED_fit, compute_ed_param_train. change (length ex_classes - 1)%nat with 1%nat.
    change (fun i j => 2 * ed_B (length ex_classes) _ i j) with M.
    destruct (ensure_pd _ _ _ M); reflexivity. }
  rewrite E, (ensure_pd_same example_numerics 1 1 M SM PM). clear E.
  pose (a := compute_ed_param_test 2 abs_dist train ex_bag K (fun i => INR (length (train i)))).
  destruct (ideal_qp_answers 1 2 M a ed_C ed_b 0) as (x & Hx).
  - exists [1/4]. split.
    + apply (ed_constraints 1); [reflexivity|]. split; [reflexivity|]. split.
      * simpl. repeat (apply Forall_cons; [lra|]). apply Forall_nil.
      * simpl. lra.
    + intros y (Ly & _). destruct y as [|z [|w y]]; try discriminate.
      unfold qp_objective, quad, M, a, compute_ed_param_test, ed_B, K, ed_K, pair_sum, train.
      simpl. unfold select. simpl. destruct abs_vals as (-> & -> & -> & ->).
      pose proof (Rle_0_sqr (z - 1/4)) as Q. unfold Rsqr in Q. lra.
  - eexists. exists (x ++ [1 - rsum x]). split; [reflexivity|].
    unfold ED_predict, solve_ed. replace (ed_defined _ ex_bag) with true by reflexivity.
    cbn [ed_classes ed_dist ed_train ed_sizes ed_Kmat ed_Gmat ed_Cmat ed_bvec].
    change (length ex_classes - 1)%nat with 1%nat. change (length ex_classes) with 2%nat.
    unfold a in Hx. cbn [solve_qp example_numerics]. rewrite Hx. reflexivity.
Qed.

(** ** Facts stated in the property file *)

Lemma factor_of_pd : forall n A, symmetric n A -> positive_definite n A ->
  let r := upper_part (snd (dpofa n A)) in
  (forall i j, (i < n)%nat -> (j < n)%nat -> sumn n (fun l => r l i * r l j) = A i j) /\
  (forall i, (i < n)%nat -> 0 < r i i).
Proof.
  intros n A Hs Hp r.
  assert (H : fst (dpofa n A) = O).
  { apply (is_pd_sym n A Hs) in Hp. unfold is_pd in Hp. now apply Nat.eqb_eq. }
  split; [exact (dpofa_factor n A Hs H)|].
  intros i Hi. unfold r, upper_part. rewrite Nat.leb_refl. now apply dpofa_diag.
Qed.

Lemma is_pd_not_symmetric : ~ forall n A, is_pd n A = true -> positive_definite n A.
Proof.
  intros H.
  specialize (H 2%nat (of_rows [[1; 0]; [-4; 1]])).
  assert (E : is_pd 2 (of_rows [[1; 0]; [-4; 1]]) = true).
  { apply is_pd_upper. apply (pd_ext 2 (of_rows [[1; 0]; [0; 1]])).
    - intros i j Hi Hj. unfold from_upper_triangle, of_rows.
      destruct i as [|[|i]], j as [|[|j]]; try lia; reflexivity.
    - apply pd2; lra. }
  specialize (H E (fun _ => 1)).
  assert (0 < quad 2 (of_rows [[1; 0]; [-4; 1]]) (fun _ => 1)).
  { apply H. exists O. split; [lia|lra]. }
  unfold quad, of_rows in H0. simpl in H0. lra.
Qed.

Lemma dpofa_example : fst (dpofa 2 (of_rows [[1; 2]; [2; 1]])) = 2%nat.
Proof.
  unfold dpofa. simpl. unfold of_rows at 1. simpl.
  destruct (Rle_dec (1 - 0) 0) as [H|_]; [lra|].
  cbn -[of_rows sqrt Rle_dec]. unfold set_entry, of_rows. simpl.
  replace (1 - 0) with 1 by ring. rewrite sqrt_1.
  destruct (Rle_dec _ 0) as [_|H]; [reflexivity|]. exfalso. apply H. lra.
Qed.

Lemma l2_parameters : forall N fuel d n T G C b,
  compute_l2_param_train N fuel d n T = Some (G, C, b) ->
  symmetric n G /\ positive_definite n G /\
  (independent_columns d n T ->
   forall i j, G i j = 2 * sumn d (fun r => T r i * T r j)).
Proof.
  intros N fuel d n T G C b H. unfold compute_l2_param_train in H.
  destruct (ensure_pd N fuel n (gram2 d T)) as [P|] eqn:E; [|discriminate].
  assert (P = G) by congruence. subst P.
  destruct (ensure_pd_pd N fuel n _ G (gram2_sym d n T) E) as [HS HP].
  split; [auto|]. split; [auto|]. intros HI i j.
  rewrite ensure_pd_same in E by (apply gram2_sym || apply gram2_pd, HI).
  inversion E. reflexivity.
Qed.

Lemma example_same_not_pd : ~ positive_definite 2 (gram2 2 example_same).
Proof.
  intros P. specialize (P (fun i => match i with O => 1 | _ => - (1) end)).
  assert (0 < quad 2 (gram2 2 example_same) (fun i => match i with O => 1 | _ => - (1) end)).
  { apply P. exists O. split; [lia|]. lra. }
  unfold quad in H. simpl in H. rewrite !example_same_gram in H. lra.
Qed.

Lemma tolerance_refuted : ~ forall cvx d n T t P x, feasible_within (10 ^ 6) cvx ->
  solve_hd cvx d n T t None = Val (P, x) -> distribution_over n x.
Proof.
  intros H.
  pose (cvx := fun (w : option (list R)) (n : nat) (f : list R -> R) =>
    if Nat.eqb n 2 then Some [3; 0] else None).
  assert (V : valid_parameter 2 [1/2; 1/2] = true).
  { unfold valid_parameter. simpl. destruct (Rle_dec 0 (1/2)); [reflexivity|lra]. }
  destruct (H cvx 2%nat 2%nat example_T [1/2; 1/2]
    {| cp_n := 2; cp_d := 2; cp_objective := hd_objective 2 2 example_T; cp_last := Some [3; 0] |}
    [3; 0]) as (_ & _ & S).
  - intros w n f x E. unfold cvx in E. destruct (Nat.eqb_spec n 2); [|discriminate].
    inversion E; subst. split; [reflexivity|]. split.
    + repeat (apply Forall_cons; [simpl; lra|]). apply Forall_nil.
    + simpl. rewrite Rabs_right; lra.
  - unfold solve_hd. cbn [length Nat.eqb]. unfold run_problem. cbn [cp_d]. rewrite V. reflexivity.
  - simpl in S. lra.
Qed.

Lemma run_answers : forall n d obj t x, valid_parameter d t = true ->
  best_distribution n (obj t) x ->
  exists P y, run_problem ideal_cvx {| cp_n := n; cp_d := d; cp_objective := obj;
                                       cp_last := None |} t = Val (P, y).
Proof.
  intros n d obj t x V B. unfold run_problem. cbn [cp_d cp_n cp_objective cp_last]. rewrite V.
  destruct (ideal_cvx_answers None n (obj t) x B) as (y & ->). eauto.
Qed.

Lemma halves : distribution_over 2 [1/2; 1/2].
Proof.
  split; [reflexivity|]. split; [|simpl; lra].
  repeat (apply Forall_cons; [lra|]). apply Forall_nil.
Qed.

Lemma example_T_nonneg : forall r j, (r < 2)%nat -> (j < 2)%nat -> 0 <= example_T r j.
Proof.
  intros r j Hr Hj. unfold example_T, of_rows.
  destruct r as [|[|r]], j as [|[|j]]; try lia; simpl; lra.
Qed.

Lemma example_T_mass : forall j, (j < 2)%nat -> sumn 2 (fun r => example_T r j) = 1.
Proof.
  intros j Hj. unfold example_T, of_rows. destruct j as [|[|j]]; try lia; simpl; lra.
Qed.

Lemma squared_hellinger_nonneg : forall d n T t p, 0 <= squared_hellinger d n T t p.
Proof. intros. unfold squared_hellinger. apply sumn_nonneg. intros. apply pow2_ge_0. Qed.

Lemma hd_best_of_fit : forall d n T t p c, length t = d ->
  (forall r j, (r < d)%nat -> (j < n)%nat -> 0 <= T r j) ->
  (forall j, (j < n)%nat -> sumn d (fun r => T r j) = c) ->
  Forall (fun x => 0 <= x) t -> distribution_over n p ->
  (forall r, (r < d)%nat -> mixture_at n T p r = nth r t 0) ->
  best_distribution n (hd_objective d n T t) p.
Proof.
  intros d n T t p c L HT Hm Ht Hp Hf. split; [auto|]. intros q Hq.
  assert (squared_hellinger d n T t p = 0).
  { unfold squared_hellinger. apply sumn_0. intros r Hr. rewrite Hf by auto. ring. }
  pose proof (squared_hellinger_nonneg d n T t q) as N0.
  rewrite (hellinger_identity d n T t p) in H by (auto; apply Hp).
  rewrite (hellinger_identity d n T t q) in N0 by (auto; apply Hq).
  rewrite (mixture_mass d n T p c) in H by auto. rewrite (mixture_mass d n T q c) in N0 by auto. lra.
Qed.

Lemma l1_best_of_fit : forall d n T t p, length t = d -> distribution_over n p ->
  (forall r, (r < d)%nat -> mixture_at n T p r = nth r t 0) ->
  best_distribution n (l1_objective d n T t) p.
Proof.
  intros d n T t p L Hp Hf. split; [auto|]. intros q Hq. rewrite !l1_objective_val by auto.
  assert (l1_distance d n T t p = 0).
  { unfold l1_distance. apply sumn_0. intros r Hr. rewrite Hf by auto.
    unfold Rminus. rewrite Rplus_opp_r. apply Rabs_R0. }
  rewrite H. unfold l1_distance. apply sumn_nonneg. intros; apply Rabs_pos.
Qed.

Lemma example_hd :
  exact_cvx ideal_cvx /\
  (forall r j, (r < 2)%nat -> (j < 2)%nat -> 0 <= example_T r j) /\
  (forall j, (j < 2)%nat -> sumn 2 (fun r => example_T r j) = 1) /\
  exists P x, solve_hd ideal_cvx 2 2 example_T [1/2; 1/2] None = Val (P, x).
Proof.
  split; [exact ideal_cvx_exact|]. split; [exact example_T_nonneg|]. split; [exact example_T_mass|].
  unfold solve_hd. cbn [length Nat.eqb].
  apply (run_answers 2 2 (hd_objective 2 2 example_T) [1/2; 1/2] [1/2; 1/2]).
  - unfold valid_parameter. simpl. destruct (Rle_dec 0 (1/2)); [reflexivity|lra].
  - apply (hd_best_of_fit 2 2 example_T [1/2; 1/2] [1/2; 1/2] 1); auto using halves, example_T_nonneg,
      example_T_mass; [apply halves|].
    intros [|[|r]] H; [| |lia]; unfold mixture_at, example_T, of_rows; simpl; lra.
Qed.

Lemma thirds : distribution_over 3 [1/3; 1/3; 1/3].
Proof.
  split; [reflexivity|]. split; [|simpl; lra].
  repeat (apply Forall_cons; [lra|]). apply Forall_nil.
Qed.

Lemma example_fallback :
  let rows := [[1/3; 1/3; 1/3]; [1/3; 1/3; 1/3]; [1/3; 1/3; 1/3]] in
  let classes := [0; 1; 2]%Z in
  let preds := [0; 1; 2]%Z in
  let S := library_solvers (fun _ _ => None) example_numerics ideal_cvx 1 in
  exact_cvx ideal_cvx /\ distributions 3 rows /\
  (exists p, AC_predict S L1 classes (map Some rows) preds = Val p) /\
  (exists p, AC_predict S HD classes (map Some rows) preds = Val p) /\
  (exists p, PWKQ_predict S classes (map Some rows) preds = Val p).
Proof.
  intros rows classes preds S.
  assert (HT : distributions 3 rows) by (repeat (apply Forall_cons; [exact thirds|]); apply Forall_nil).
  assert (EF : class_frequencies classes preds = Val [1/3; 1/3; 1/3]).
  { rewrite frequencies_fraction by discriminate. unfold fraction, zcount, classes, preds. simpl.
    f_equal. f_equal; [lra|f_equal; [lra|f_equal; lra]]. }
  pose (T := fun i j => entry rows j i).
  assert (V : valid_parameter 3 [1/3; 1/3; 1/3] = true).
  { unfold valid_parameter. simpl. destruct (Rle_dec 0 (1/3)); [reflexivity|lra]. }
  assert (HM : forall r, (r < 3)%nat -> mixture_at 3 T [1/3; 1/3; 1/3] r = nth r [1/3; 1/3; 1/3] 0).
  { intros [|[|[|r]]] H; [| | |lia]; unfold mixture_at, T, entry, rows; simpl; lra. }
  destruct (run_answers 3 3 (l1_objective 3 3 T) [1/3; 1/3; 1/3] [1/3; 1/3; 1/3] V) as (P1 & y1 & E1).
  { apply l1_best_of_fit; auto using thirds. }
  destruct (run_answers 3 3 (hd_objective 3 3 T) [1/3; 1/3; 1/3] [1/3; 1/3; 1/3] V) as (P2 & y2 & E2).
  { apply (hd_best_of_fit 3 3 T _ _ 1); auto using thirds; [| |apply thirds].
    - intros r j Hr Hj. unfold T, entry, rows.
      destruct j as [|[|[|j]]]; try lia; destruct r as [|[|[|r]]]; try lia; simpl; lra.
    - intros j Hj. unfold T, entry, rows.
      destruct j as [|[|[|j]]]; try lia; simpl; lra. }
  split; [exact ideal_cvx_exact|]. split; [exact HT|]. split; [|split].
  - exists y1. unfold AC_predict. rewrite EF. cbn [obind length classes Nat.eqb].
    unfold multi_adjust. rewrite all_some_map. cbn [M_Baselines.inv M_Baselines.solve library_solvers S].
    unfold solve_l1. cbn [length Nat.eqb]. fold T. rewrite E1. reflexivity.
  - exists y2. unfold AC_predict. rewrite EF. cbn [obind length classes Nat.eqb].
    unfold multi_adjust. rewrite all_some_map. cbn [M_Baselines.inv M_Baselines.solve library_solvers S].
    unfold solve_hd. cbn [length Nat.eqb]. fold T. rewrite E2. reflexivity.
  - exists y1. unfold PWKQ_predict. rewrite EF. cbn [obind length classes Nat.eqb].
    rewrite all_some_map. cbn [M_Baselines.inv M_Baselines.solve library_solvers S].
    unfold solve_l1. cbn [length Nat.eqb]. fold T. rewrite E1. reflexivity.
Qed.

Lemma ED_nearly_best_spacing : forall A N fuel dist (classes y : list Z) (rows : list A) f bag p,
  let train := fun i => select (nth i classes 0%Z) y rows in
  let n := (length classes - 1)%nat in
  let M := fun i j => 2 * ed_B (length classes)
        (ed_K dist train (fun i => INR (length (train i)))) i j in
  (1 <= fuel)%nat ->
  (forall u v, dist u v = dist v u) -> classes <> [] -> exact_qp (solve_qp N) ->
  (forall v, 0 < spacing N v) ->
  ((0 < n)%nat ->
   (forall B, agree n B M -> singular_values n B (fst (svd N n B)) (snd (svd N n B))) /\
   (forall B, agree n B M -> smallest_eigenvalue n B (min_eigenvalue N n B))) ->
  (forall p q, distribution_over (length classes) p -> distribution_over (length classes) q ->
     0 <= energy dist (class_mixture p (class_samples classes y rows))
                     (class_mixture q (class_samples classes y rows))) ->
  ED_fit N fuel dist classes y rows = Some f -> ED_predict N f bag = Val p ->
  nearly_best_distribution (length classes) (spacing N (frobenius n M) / 2)
    (fun p => energy dist (class_mixture p (class_samples classes y rows)) (spread_over 1 bag)) p.
Proof.
  intros A N fuel dist classes y rows f bag p train n M Hf Hd Hc HQ Hsp Hnum Hen HF HP.
  exact (ED_nearly_best N fuel dist classes y rows f bag p _ Hf Hd Hc HQ Hsp Hnum Hen HF HP
    (Rle_refl _)).
Qed.
