(** * EDy, CvMy and EDX with their default distances. *)

From Coq Require Import Reals List ZArith Lia Lra Psatz Permutation Bool.
From Verif Require Import Num Spec Spec_Optim Spec_Energy M_Optim L_Num L_Baselines L_Optim L_Optim2 L_Optim3 L_Optim4 L_Optim5
  L_Energy L_Energy2.
Import ListNotations.
Open Scope R_scope.

(** Sums over the examples of a mixture. *)
Lemma mixture_sum : forall n (g : list R -> R) p (cs : list (list (list R))),
  length p = n -> length cs = n ->
  rsum (map (fun e => fst e * g (snd e)) (class_mixture p cs)) =
  sumn n (fun i => nth i p 0 * (rsum (map g (nth i cs [])) / INR (length (nth i cs [])))).
Proof.
  intros n g p cs Lp Lc. unfold class_mixture. rewrite concat_map, rsum_concat, !map_map.
  rewrite (rsum_combine n) by auto. apply sumn_ext. intros i Hi. simpl.
  unfold spread_over. rewrite map_map. simpl. rewrite rsum_map_scal. unfold Rdiv. ring.
Qed.

Lemma count_sum : forall {A} (t : A -> bool) l,
  rsum (map (fun x => if t x then 1 else 0) l) = INR (length (filter t l)).
Proof.
  intros A t l. induction l as [|x l IH]; auto. simpl. destruct (t x); rewrite IH.
  - simpl length. rewrite S_INR. ring.
  - ring.
Qed.

Lemma weight_at_mixture : forall n p cs x, length p = n -> length cs = n ->
  weight_at (class_mixture p cs) x = sumn n (fun i => nth i p 0 * row_fraction x (nth i cs [])).
Proof.
  intros n p cs x Lp Lc. rewrite weight_at_eqr, (mixture_sum n (fun r => eqr r x)) by auto.
  apply sumn_ext. intros i _. unfold row_fraction. f_equal. f_equal. rewrite <- count_sum.
  apply rsum_map_ext. intros r _. unfold eqr. destruct same_row; auto.
Qed.

Lemma weight_upto_mixture : forall n p cs j t, length p = n -> length cs = n ->
  weight_upto (class_mixture p cs) j t =
  sumn n (fun i => nth i p 0 * row_fraction_upto j t (nth i cs [])).
Proof.
  intros n p cs j t Lp Lc. rewrite weight_upto_upto, (mixture_sum n (fun r => upto (nth j r 0) t)) by auto.
  apply sumn_ext. intros i _. unfold row_fraction_upto. f_equal. f_equal. rewrite <- count_sum.
  apply rsum_map_ext. intros r _. unfold upto. destruct Rle_dec; auto.
Qed.

Lemma total_mixture : forall n p (cs : list (list (list R))), distribution_over n p -> length cs = n ->
  (forall i, (i < n)%nat -> nth i cs [] <> []) -> total_weight (class_mixture p cs) = 1.
Proof.
  intros n p cs (Lp & _ & Sp) Lc H. unfold total_weight.
  rewrite (rsum_map_ext fst (fun e => fst e * (fun _ => 1) (snd e))) by (intros; ring).
  rewrite (mixture_sum n (fun _ => 1)) by auto.
  transitivity (rsum p); auto. rewrite <- (sumn_nth p), Lp. apply sumn_ext. intros i Hi.
  rewrite rsum_map_const. field. specialize (H i Hi). destruct (nth i cs []); [congruence|].
  apply not_0_INR. discriminate.
Qed.

Lemma mixture_rows : forall k p (cs : list (list (list R))),
  (forall c, In c cs -> Forall (fun r => length r = k) c) -> rows_of k (class_mixture p cs).
Proof.
  intros k p cs H e He. unfold class_mixture in He. apply in_concat in He.
  destruct He as (l & Hl & He). apply in_map_iff in Hl. destruct Hl as ((w & c) & <- & Hc).
  apply in_combine_r in Hc. unfold spread_over in He. apply in_map_iff in He.
  destruct He as (r & <- & Hr). simpl in *. specialize (H c Hc). rewrite Forall_forall in H. auto.
Qed.

Lemma select_rows : forall k c y (rows : list (list R)), Forall (fun r => length r = k) rows ->
  Forall (fun r => length r = k) (select c y rows).
Proof.
  intros k c y rows H. revert y. induction H as [|r rows Hr H IH]; intros [|l y]; simpl; auto;
  unfold select in *; simpl; auto.
  destruct Z.eqb; simpl; auto.
Qed.

(** A prediction exists only when no class is empty. *)
Lemma predicted_nonempty : forall N fuel dist (classes y : list Z) (rows : list (list R)) f bag p,
  ED_fit N fuel dist classes y rows = Some f -> ED_predict N f bag = Val p ->
  forall i, (i < length classes)%nat -> nth i (class_samples classes y rows) [] <> [].
Proof.
  intros N fuel dist classes y rows f bag p HF HP i Hi. unfold ED_fit in HF.
  destruct compute_ed_param_train as [[[[K G] C] b]|]; [|discriminate].
  injection HF as <-. unfold ED_predict in HP. cbn [ed_classes ed_train] in HP.
  destruct (ed_defined _ bag) eqn:E; [|discriminate]. unfold ed_defined in E.
  apply andb_true_iff in E. destruct E as [E _]. rewrite forallb_forall in E.
  cbn [ed_classes ed_train] in E. specialize (E i). rewrite in_seq in E.
  specialize (E ltac:(lia)). apply negb_true_iff, Nat.eqb_neq in E.
  unfold class_samples. rewrite (nth_indep _ [] (select 0%Z y rows)) by (now rewrite map_length).
  rewrite (map_nth (fun c => select c y rows)). intros H. rewrite H in E. apply E. reflexivity.
Qed.

Section Default.
Variables (n : nat) (cs : list (list (list R))).
Hypothesis Lc : length cs = n.
Hypothesis NE : forall i, (i < n)%nat -> nth i cs [] <> [].

Lemma manhattan_separates : forall k, identifiable_columns n k cs ->
  forall p q, distribution_over n p -> distribution_over n q -> p <> q ->
  0 < energy (manhattan k) (class_mixture p cs) (class_mixture q cs).
Proof.
  intros k H p q Dp Dq N.
  assert (T : total_weight (class_mixture p cs) = total_weight (class_mixture q cs))
    by (rewrite !(total_mixture n); auto).
  destruct (Rle_lt_or_eq_dec _ _ (manhattan_nonneg k _ _ T)) as [L|E]; auto.
  exfalso. apply N. apply H; auto. intros j t Hj.
  rewrite <- !weight_upto_mixture; auto; try apply Dp; try apply Dq.
  symmetry in E. exact (proj1 (manhattan_zero k _ _ T) E j t Hj).
Qed.

Lemma manhattan_mixtures_nonneg : forall k p q, distribution_over n p -> distribution_over n q ->
  0 <= energy (manhattan k) (class_mixture p cs) (class_mixture q cs).
Proof. intros. apply manhattan_nonneg. rewrite !(total_mixture n); auto. Qed.

Lemma euclidean_separates : forall k, (forall c, In c cs -> Forall (fun r => length r = k) c) ->
  identifiable_rows n cs ->
  forall p q, distribution_over n p -> distribution_over n q -> p <> q ->
  0 < energy (euclidean k) (class_mixture p cs) (class_mixture q cs).
Proof.
  intros k HR H p q Dp Dq N.
  assert (T : total_weight (class_mixture p cs) = total_weight (class_mixture q cs))
    by (rewrite !(total_mixture n); auto).
  destruct (weights_decide (class_mixture p cs) (class_mixture q cs)) as [E|(x & Nx)].
  - exfalso. apply N. apply H; auto. intros x.
    rewrite <- !weight_at_mixture; auto; try apply Dp; try apply Dq.
  - apply (euclidean_positive k _ _ x); auto using mixture_rows.
Qed.

Lemma euclidean_mixtures_nonneg : forall k p q,
  (forall c, In c cs -> Forall (fun r => length r = k) c) ->
  distribution_over n p -> distribution_over n q ->
  0 <= energy (euclidean k) (class_mixture p cs) (class_mixture q cs).
Proof.
  intros. apply euclidean_nonneg; auto using mixture_rows. rewrite !(total_mixture n); auto.
Qed.

End Default.

(** ** Sufficient conditions *)

Lemma row_fraction_absent : forall x rows, ~ In x rows -> row_fraction x rows = 0.
Proof.
  intros x rows H. unfold row_fraction.
  assert (E : filter (fun r => if same_row r x then true else false) rows = []).
  { induction rows as [|r rows IH]; auto. simpl. destruct same_row as [->|].
    - exfalso. apply H. simpl; auto.
    - apply IH. intros I. apply H. simpl; auto. }
  rewrite E. simpl. unfold Rdiv. ring.
Qed.

Lemma row_fraction_present : forall x rows, In x rows -> 0 < row_fraction x rows.
Proof.
  intros x rows H. unfold row_fraction.
  assert (I : In x (filter (fun r => if same_row r x then true else false) rows)).
  { apply filter_In. split; auto. destruct same_row; congruence. }
  apply Rdiv_lt_0_compat; apply lt_0_INR.
  - destruct filter; [destruct I|simpl; lia].
  - destruct rows; [destruct H|simpl; lia].
Qed.

Lemma own_examples_identify : forall n cs, own_examples n cs -> identifiable_rows n cs.
Proof.
  intros n cs H p q Dp Dq E. apply list_eq_nth.
  - destruct Dp as [-> _], Dq as [-> _]. reflexivity.
  - intros i Hi. assert (Hi' : (i < n)%nat) by (destruct Dp as [Lp _]; lia).
    destruct (H i Hi') as (x & Hx & Ho). specialize (E x).
    assert (S : forall w : list R, sumn n (fun j => nth j w 0 * row_fraction x (nth j cs [])) =
       nth i w 0 * row_fraction x (nth i cs [])).
    { intros w. rewrite (sumn_single n i); auto.
      intros j Hj Nj. rewrite (row_fraction_absent x (nth j cs [])) by (apply Ho; auto). ring. }
    rewrite !S in E. pose proof (row_fraction_present x (nth i cs []) Hx).
    apply Rmult_eq_reg_r in E; auto. lra.
Qed.


Lemma binary_columns : forall k (A B : list (list R)),
  (exists j t, (j < k)%nat /\ row_fraction_upto j t A <> row_fraction_upto j t B) ->
  identifiable_columns 2 k [A; B].
Proof.
  intros k A B (j & t & Hj & N) p q Dp Dq E. specialize (E j t Hj).
  destruct Dp as (Lp & _ & Sp), Dq as (Lq & _ & Sq).
  destruct p as [|p0 [|p1 [|? ?]]]; try discriminate. destruct q as [|q0 [|q1 [|? ?]]]; try discriminate.
  simpl in *. assert (X : (p0 - q0) * (row_fraction_upto j t A - row_fraction_upto j t B) = 0).
  { replace p1 with (1 - p0) in E by lra. replace q1 with (1 - q0) in E by lra. lra. }
  apply Rmult_integral in X. destruct X as [X|X]; [|lra]. f_equal; [|f_equal]; lra.
Qed.

Lemma samples_length : forall (classes y : list Z) (rows : list (list R)),
  length (class_samples classes y rows) = length classes.
Proof. intros. unfold class_samples. apply map_length. Qed.

Lemma samples_rows : forall k classes y rows, Forall (fun r => length r = k) rows ->
  forall c, In c (class_samples classes y rows) -> Forall (fun r : list R => length r = k) c.
Proof.
  intros k classes y rows H c Hc. apply in_map_iff in Hc. destruct Hc as (l & <- & _).
  now apply select_rows.
Qed.

(** ** The quantifiers *)

Lemma EDy_best : forall N fuel k (classes y : list Z) rows f bag p,
  classes <> [] -> exact_qp (solve_qp N) ->
  identifiable_columns (length classes) k (class_samples classes y rows) ->
  ED_fit N fuel (manhattan k) classes y rows = Some f -> ED_predict N f bag = Val p ->
  best_distribution (length classes)
    (fun p => energy (manhattan k) (class_mixture p (class_samples classes y rows)) (spread_over 1 bag)) p.
Proof.
  intros N fuel k classes y rows f bag p Hc HQ HI HF HP.
  apply (ED_best N fuel (manhattan k) classes y rows f bag p); auto using manhattan_sym.
  intros p' q' Dp Dq Npq. apply (manhattan_separates (length classes)); auto using samples_length.
  intros i Hi. exact (predicted_nonempty N fuel _ classes y rows f bag p HF HP i Hi).
Qed.

Lemma EDy_consistent : forall N fuel k (classes y : list Z) rows f ks bag p,
  exact_qp (solve_qp N) ->
  (forall c, In c classes -> In c y) -> length y = length rows ->
  identifiable_columns (length classes) k (class_samples classes y rows) ->
  length ks = length classes -> bag <> [] ->
  Permutation bag (concat (map (fun kc => repeated (fst kc) (snd kc))
                               (combine ks (class_samples classes y rows)))) ->
  ED_fit N fuel (manhattan k) classes y rows = Some f -> ED_predict N f bag = Val p ->
  p = map (fun kc => INR (fst kc * length (snd kc)) / INR (length bag))
          (combine ks (class_samples classes y rows)).
Proof.
  intros N fuel k classes y rows f ks bag p HQ Hin Hl HI Lk Hb HB HF HP.
  apply (ED_consistent N fuel (manhattan k) classes y rows f ks bag p); auto using manhattan_sym.
  intros p' q' Dp Dq Npq. apply (manhattan_separates (length classes)); auto using samples_length.
  intros i Hi. exact (predicted_nonempty N fuel _ classes y rows f bag p HF HP i Hi).
Qed.

Lemma EDX_best : forall N fuel k (classes y : list Z) rows f bag p,
  classes <> [] -> exact_qp (solve_qp N) -> Forall (fun r => length r = k) rows ->
  identifiable_rows (length classes) (class_samples classes y rows) ->
  ED_fit N fuel (euclidean k) classes y rows = Some f -> ED_predict N f bag = Val p ->
  best_distribution (length classes)
    (fun p => energy (euclidean k) (class_mixture p (class_samples classes y rows)) (spread_over 1 bag)) p.
Proof.
  intros N fuel k classes y rows f bag p Hc HQ HR HI HF HP.
  apply (ED_best N fuel (euclidean k) classes y rows f bag p); auto using euclidean_sym.
  intros p' q' Dp Dq Npq. apply (euclidean_separates (length classes)); auto using samples_length.
  - intros i Hi. exact (predicted_nonempty N fuel _ classes y rows f bag p HF HP i Hi).
  - now apply samples_rows.
Qed.

Lemma EDX_consistent : forall N fuel k (classes y : list Z) rows f ks bag p,
  exact_qp (solve_qp N) -> Forall (fun r => length r = k) rows ->
  (forall c, In c classes -> In c y) -> length y = length rows ->
  identifiable_rows (length classes) (class_samples classes y rows) ->
  length ks = length classes -> bag <> [] ->
  Permutation bag (concat (map (fun kc => repeated (fst kc) (snd kc))
                               (combine ks (class_samples classes y rows)))) ->
  ED_fit N fuel (euclidean k) classes y rows = Some f -> ED_predict N f bag = Val p ->
  p = map (fun kc => INR (fst kc * length (snd kc)) / INR (length bag))
          (combine ks (class_samples classes y rows)).
Proof.
  intros N fuel k classes y rows f ks bag p HQ HR Hin Hl HI Lk Hb HB HF HP.
  apply (ED_consistent N fuel (euclidean k) classes y rows f ks bag p); auto using euclidean_sym.
  intros p' q' Dp Dq Npq. apply (euclidean_separates (length classes)); auto using samples_length.
  - intros i Hi. exact (predicted_nonempty N fuel _ classes y rows f bag p HF HP i Hi).
  - now apply samples_rows.
Qed.

Lemma EDy_nearly_best : forall N fuel k (classes y : list Z) rows f bag p,
  let train := fun i => select (nth i classes 0%Z) y rows in
  let n := (length classes - 1)%nat in
  let M := fun i j => 2 * ed_B (length classes)
        (ed_K (manhattan k) train (fun i => INR (length (train i)))) i j in
  (1 <= fuel)%nat -> classes <> [] -> exact_qp (solve_qp N) ->
  (forall v, 0 < spacing N v) ->
  ((0 < n)%nat ->
   (forall B, agree n B M -> singular_values n B (fst (svd N n B)) (snd (svd N n B))) /\
   (forall B, agree n B M -> smallest_eigenvalue n B (min_eigenvalue N n B))) ->
  ED_fit N fuel (manhattan k) classes y rows = Some f -> ED_predict N f bag = Val p ->
  nearly_best_distribution (length classes) (spacing N (frobenius n M) / 2)
    (fun p => energy (manhattan k) (class_mixture p (class_samples classes y rows)) (spread_over 1 bag)) p.
Proof.
  intros N fuel k classes y rows f bag p train n M Hf Hc HQ Hs Hx HF HP.
  apply (ED_nearly_best_spacing (list R) N fuel (manhattan k) classes y rows f bag p); auto using manhattan_sym.
  intros p' q' Dp Dq. apply (manhattan_mixtures_nonneg (length classes)); auto using samples_length.
  intros i Hi. exact (predicted_nonempty N fuel _ classes y rows f bag p HF HP i Hi).
Qed.

Lemma EDX_nearly_best : forall N fuel k (classes y : list Z) rows f bag p,
  let train := fun i => select (nth i classes 0%Z) y rows in
  let n := (length classes - 1)%nat in
  let M := fun i j => 2 * ed_B (length classes)
        (ed_K (euclidean k) train (fun i => INR (length (train i)))) i j in
  (1 <= fuel)%nat -> classes <> [] -> exact_qp (solve_qp N) ->
  (forall v, 0 < spacing N v) ->
  ((0 < n)%nat ->
   (forall B, agree n B M -> singular_values n B (fst (svd N n B)) (snd (svd N n B))) /\
   (forall B, agree n B M -> smallest_eigenvalue n B (min_eigenvalue N n B))) ->
  Forall (fun r => length r = k) rows ->
  ED_fit N fuel (euclidean k) classes y rows = Some f -> ED_predict N f bag = Val p ->
  nearly_best_distribution (length classes) (spacing N (frobenius n M) / 2)
    (fun p => energy (euclidean k) (class_mixture p (class_samples classes y rows)) (spread_over 1 bag)) p.
Proof.
  intros N fuel k classes y rows f bag p train n M Hf Hc HQ Hs Hx HR HF HP.
  apply (ED_nearly_best_spacing (list R) N fuel (euclidean k) classes y rows f bag p); auto using euclidean_sym.
  intros p' q' Dp Dq. apply (euclidean_mixtures_nonneg (length classes)); auto using samples_length.
  - intros i Hi. exact (predicted_nonempty N fuel _ classes y rows f bag p HF HP i Hi).
  - now apply samples_rows.
Qed.

Lemma CvMy_default : forall N fuel classes y k tr te p,
  classes <> [] -> exact_qp (solve_qp N) ->
  let train := class_samples classes y (rank_rows k (tr ++ te) tr) in
  identifiable_columns (length classes) k train ->
  CvMy_predict N fuel (manhattan k) classes y k tr te = Some (Val p) ->
  best_distribution (length classes)
    (fun p => energy (manhattan k) (class_mixture p train)
                (spread_over 1 (rank_rows k (tr ++ te) te))) p.
Proof.
  intros N fuel classes y k tr te p Hc HQ train HI HP.
  apply (CvMy_best N fuel (manhattan k) classes y k tr te p); auto using manhattan_sym.
  intros p' q' Dp Dq Npq. apply (manhattan_separates (length classes)); auto using samples_length.
  unfold CvMy_predict in HP. destruct (rank_rows_split k tr te) as [E1 E2]. rewrite E1, E2 in HP.
  destruct (ED_fit N fuel (manhattan k) classes y (rank_rows k (tr ++ te) tr)) as [f|] eqn:EF; [|discriminate].
  injection HP as HP. intros i Hi.
  exact (predicted_nonempty N fuel _ classes y _ f _ p EF HP i Hi).
Qed.

(** ** The Manhattan distance sees only the columns *)

Lemma manhattan_blind : exists A B : list (list R),
  Forall (fun r => length r = 2%nat) A /\ Forall (fun r => length r = 2%nat) B /\
  A <> [] /\ (forall x, In x A -> ~ In x B) /\
  energy (manhattan 2) (spread_over 1 A) (spread_over 1 B) = 0.
Proof.
  exists [[0; 0]; [1; 1]], [[0; 1]; [1; 0]]. repeat split.
  - repeat (apply Forall_cons; [reflexivity|]). apply Forall_nil.
  - repeat (apply Forall_cons; [reflexivity|]). apply Forall_nil.
  - discriminate.
  - intros x [<-|[<-|[]]] [H|[H|[]]]; inversion H; lra.
  - apply manhattan_zero.
    + unfold total_weight, spread_over. simpl. lra.
    + intros j t Hj. unfold weight_upto, spread_over. simpl.
      destruct j as [|[|j]]; [| |lia]; simpl; destruct (Rle_dec 0 t), (Rle_dec 1 t); lra.
Qed.

(** ** With an ideal solver there is an answer *)

Lemma ideal_ED : forall dist (classes y : list Z) (rows : list (list R)) ks bag,
  (forall u v, dist u v = dist v u) -> classes <> [] ->
  (forall c, In c classes -> In c y) -> length y = length rows ->
  (forall p q, distribution_over (length classes) p -> distribution_over (length classes) q ->
     p <> q ->
     0 < energy dist (class_mixture p (class_samples classes y rows))
                     (class_mixture q (class_samples classes y rows))) ->
  length ks = length classes -> bag <> [] ->
  Permutation bag (concat (map (fun kc => repeated (fst kc) (snd kc))
                               (combine ks (class_samples classes y rows)))) ->
  exists f p, ED_fit example_numerics 1 dist classes y rows = Some f /\
    ED_predict example_numerics f bag = Val p.
Proof.
  intros dist classes y rows ks bag Hd Hc Hin Hly Hsep Lk Hb HP.
  destruct (length classes) as [|l] eqn:Lc; [destruct classes; [congruence|discriminate]|].
  set (cs := class_samples classes y rows) in *.
  assert (Lcs : length cs = S l) by (unfold cs; rewrite samples_length; auto).
  assert (Ncs : forall c, In c classes -> select c y rows <> []) by (intros; apply select_nonempty; auto).
  set (q := map (fun kc => INR (fst kc * length (snd kc)) / INR (length bag)) (combine ks cs)).
  assert (Dq : distribution_over (S l) q).
  { rewrite <- Lcs. apply copies_distribution; auto. now rewrite Lcs. }
  assert (Hm : forall Q, expected dist (class_mixture q cs) Q = expected dist (spread_over 1 bag) Q).
  { intros Q. apply copies_measure; auto; [now rewrite Lcs|].
    apply Forall_forall. intros s Hs. unfold cs, class_samples in Hs. apply in_map_iff in Hs.
    destruct Hs as (c & <- & Hc'). auto. }
  pose (train := fun i => select (nth i classes 0%Z) y rows).
  pose (sizes := fun i => INR (length (train i))).
  pose (K := ed_K dist train sizes).
  pose (M := fun i j => 2 * ed_B (S l) K i j).
  assert (PM : positive_definite l M) by (apply (ed_pd dist classes y rows l); auto).
  assert (SM : symmetric l M) by (apply ed_gram_sym; auto).
  pose (a := compute_ed_param_test (S l) dist train bag K sizes).
  destruct (split_last l q Dq) as (x0 & L0 & E0).
  destruct (ideal_qp_answers l (S l) M a ed_C ed_b 0) as (x & Hx).
  { exists x0. split.
    - apply ed_constraints; auto. rewrite <- E0. auto.
    - intros z Hz. assert (Lz : length z = l) by apply Hz.
      apply ed_constraints in Hz; auto. unfold M, a, K, sizes.
      rewrite !ed_objective by auto. unfold train.
      rewrite (train_classes classes y rows (S l) Lc). fold (class_samples classes y rows). fold cs.
      rewrite <- E0. rewrite <- !(expected_sub dist _ _ _ Hm Hd).
      assert (Z : energy dist (class_mixture q cs) (class_mixture q cs) = 0) by (unfold energy; ring).
      rewrite Z. apply Rplus_le_compat_r.
      destruct (list_eq_dec Req_EM_T (z ++ [1 - rsum z]) q) as [->|Ne]; [lra|].
      left. apply Hsep; auto. }
  assert (E : ED_fit example_numerics 1 dist classes y rows =
    Some {| ed_classes := classes; ed_train := train; ed_sizes := sizes; ed_dist := dist;
            ed_Kmat := K; ed_Gmat := M; ed_Cmat := ed_C; ed_bvec := ed_b |}).
  { unfold ED_fit, compute_ed_param_train. rewrite Lc. replace (S l - 1)%nat with l by lia.
    change (fun i j => 2 * ed_B (S l) _ i j) with M.
    rewrite (ensure_pd_same example_numerics 1 l M SM PM). reflexivity. }
  eexists. exists (x ++ [1 - rsum x]). split; [exact E|].
  unfold ED_predict. cbn [ed_classes ed_dist ed_train ed_sizes ed_Kmat ed_Gmat ed_Cmat ed_bvec].
  assert (ED : ed_defined {| ed_classes := classes; ed_train := train; ed_sizes := sizes; ed_dist := dist;
            ed_Kmat := K; ed_Gmat := M; ed_Cmat := ed_C; ed_bvec := ed_b |} bag = true).
  { unfold ed_defined. apply andb_true_iff. split.
    - apply forallb_forall. intros i Hi. apply in_seq in Hi. cbn [ed_classes ed_train] in *.
      apply negb_true_iff, Nat.eqb_neq. unfold train. intros H.
      apply length_zero_iff_nil in H. revert H. apply Ncs. apply nth_In. lia.
    - apply negb_true_iff, Nat.eqb_neq. destruct bag; [congruence|discriminate]. }
  rewrite ED, Lc. unfold solve_ed. replace (S l - 1)%nat with l by lia.
  unfold a in Hx. cbn [solve_qp example_numerics]. rewrite Hx. reflexivity.
Qed.

(** Three classes of points of the plane with an example of their own. *)
Definition plane_classes : list Z := [0; 1; 2]%Z.
Definition plane_y : list Z := [0; 0; 1; 2; 1]%Z.
Definition plane_rows : list (list R) := [[0; 0]; [1; 0]; [0; 1]; [2; 2]; [1; 0]].
Definition plane_bag : list (list R) :=
  [[0; 0]; [1; 0]; [0; 0]; [1; 0]; [2; 2]].

Lemma plane_samples : class_samples plane_classes plane_y plane_rows =
  [[[0; 0]; [1; 0]]; [[0; 1]; [1; 0]]; [[2; 2]]].
Proof. reflexivity. Qed.

Lemma plane_own : own_examples 3 (class_samples plane_classes plane_y plane_rows).
Proof.
  rewrite plane_samples. intros i Hi.
  destruct i as [|[|[|i]]]; [exists [0; 0]|exists [0; 1]|exists [2; 2]|lia]; simpl; (split; [auto|]);
  intros j Hj Nj; destruct j as [|[|[|j]]]; try lia; simpl;
  intros H; repeat (destruct H as [H|H]; [injection H; intros; lra|]); auto.
Qed.

Lemma plane_columns : identifiable_columns 3 2 (class_samples plane_classes plane_y plane_rows).
Proof.
  rewrite plane_samples. intros p q (Lp & _ & Sp) (Lq & _ & Sq) E.
  destruct p as [|p0 [|p1 [|p2 [|? ?]]]]; try discriminate.
  destruct q as [|q0 [|q1 [|q2 [|? ?]]]]; try discriminate.
  pose proof (E 0%nat 1 ltac:(lia)) as E0. pose proof (E 1%nat 0 ltac:(lia)) as E1.
  simpl in Sp, Sq. unfold row_fraction_upto in E0, E1. simpl in E0, E1.
  repeat match goal with
    | H : context [Rle_dec ?a ?b] |- _ => destruct (Rle_dec a b); try lra
    end.
  simpl in E0, E1.
  assert (p2 = q2) by lra. assert (p0 = q0) by lra. subst. f_equal. f_equal. lra.
Qed.

Lemma plane_fits : forall dist, (forall u v, dist u v = dist v u) ->
  (forall p q, distribution_over 3 p -> distribution_over 3 q -> p <> q ->
     0 < energy dist (class_mixture p (class_samples plane_classes plane_y plane_rows))
                     (class_mixture q (class_samples plane_classes plane_y plane_rows))) ->
  exists f p, ED_fit example_numerics 1 dist plane_classes plane_y plane_rows = Some f /\
    ED_predict example_numerics f plane_bag = Val p.
Proof.
  intros dist Hd Hs. apply (ideal_ED dist plane_classes plane_y plane_rows [2; 0; 1]%nat); auto.
  - discriminate.
  - intros c [<-|[<-|[<-|[]]]]; simpl; auto.
  - discriminate.
  - rewrite plane_samples. simpl. apply (perm_skip). apply perm_swap.
Qed.

Lemma plane_nonempty : forall i, (i < 3)%nat ->
  nth i (class_samples plane_classes plane_y plane_rows) [] <> [].
Proof. rewrite plane_samples. intros [|[|[|i]]] Hi; try lia; discriminate. Qed.

Lemma plane_example :
  Forall (fun r => length r = 2%nat) plane_rows /\
  (forall c, In c plane_classes -> In c plane_y) /\
  identifiable_columns 3 2 (class_samples plane_classes plane_y plane_rows) /\
  own_examples 3 (class_samples plane_classes plane_y plane_rows) /\
  exact_qp (solve_qp example_numerics) /\
  Permutation plane_bag (concat (map (fun kc => repeated (fst kc) (snd kc))
     (combine [2; 0; 1]%nat (class_samples plane_classes plane_y plane_rows)))) /\
  (exists f p, ED_fit example_numerics 1 (manhattan 2) plane_classes plane_y plane_rows = Some f /\
    ED_predict example_numerics f plane_bag = Val p) /\
  (exists f p, ED_fit example_numerics 1 (euclidean 2) plane_classes plane_y plane_rows = Some f /\
    ED_predict example_numerics f plane_bag = Val p).
Proof.
  assert (R2 : Forall (fun r => length r = 2%nat) plane_rows)
    by (repeat (apply Forall_cons; [reflexivity|]); apply Forall_nil).
  split; [exact R2|]. split; [intros c [<-|[<-|[<-|[]]]]; simpl; auto|].
  split; [exact plane_columns|]. split; [exact plane_own|]. split; [exact ideal_qp_exact|].
  split; [rewrite plane_samples; simpl; apply perm_skip, perm_swap|]. split.
  - apply plane_fits; [apply manhattan_sym|]. apply (manhattan_separates 3); auto using plane_nonempty, plane_columns.
  - apply plane_fits; [apply euclidean_sym|]. apply (euclidean_separates 3); auto using plane_nonempty.
    + now apply samples_rows.
    + apply own_examples_identify. exact plane_own.
Qed.

Lemma manhattan_blind_refuted : ~ forall (A B : list (list R)),
  Forall (fun r => length r = 2%nat) A -> Forall (fun r => length r = 2%nat) B ->
  A <> [] -> (forall x, In x A -> ~ In x B) ->
  energy (manhattan 2) (spread_over 1 A) (spread_over 1 B) <> 0.
Proof.
  intros H. destruct manhattan_blind as (A & B & HA & HB & NA & Hd & E).
  exact (H A B HA HB NA Hd E).
Qed.

Lemma rank_example_rows : rank_rows 1 ([[0]; [1]] ++ [[0]; [1]]) [[0]; [1]] = [[3/2]; [7/2]].
Proof.
  unfold rank_rows, average_rank, col, tabulate. simpl.
  repeat match goal with
    | |- context [Rlt_dec ?a ?b] => destruct (Rlt_dec a b); try lra
    end.
  repeat match goal with
    | |- context [Req_EM_T ?a ?b] => destruct (Req_EM_T a b); try lra
    end.
  apply f_equal2; [|apply f_equal2; [|reflexivity]]; apply f_equal2; try reflexivity; lra.
Qed.

Lemma rank_example :
  within 2 0 1 (spread_over 1 [[0; 0]; [1; 1]]) /\ within 2 0 1 (spread_over 1 [[0; 1]; [1; 0]]) /\
  total_weight (spread_over 1 [[0; 0]; [1; 1]]) = total_weight (spread_over 1 [[0; 1]; [1; 0]]) /\
  identifiable_columns 2 1 (class_samples [0; 1]%Z [0; 1]%Z (rank_rows 1 ([[0]; [1]] ++ [[0]; [1]]) [[0]; [1]])) /\
  exists p, CvMy_predict example_numerics 1 (manhattan 1) [0; 1]%Z [0; 1]%Z 1 [[0]; [1]] [[0]; [1]] = Some (Val p).
Proof.
  assert (I : identifiable_columns 2 1 [[[3/2]]; [[7/2]]]).
  { apply binary_columns. exists O, 2. split; [lia|]. unfold row_fraction_upto. simpl.
    destruct (Rle_dec (3/2) 2), (Rle_dec (7/2) 2); simpl; lra. }
  split; [|split; [|split; [|split]]].
  - intros p j [<-|[<-|[]]] Hj; destruct j as [|[|j]]; simpl; lra || lia.
  - intros p j [<-|[<-|[]]] Hj; destruct j as [|[|j]]; simpl; lra || lia.
  - unfold total_weight, spread_over. simpl. lra.
  - rewrite rank_example_rows. exact I.
  - destruct (ideal_ED (manhattan 1) [0; 1]%Z [0; 1]%Z [[3/2]; [7/2]] [1; 1]%nat [[3/2]; [7/2]])
      as (f & p & HF & HP); auto using manhattan_sym.
    + discriminate.
    + apply (manhattan_separates 2); auto.
      intros [|[|i]] Hi; try lia; discriminate.
    + discriminate.
    + exists p. unfold CvMy_predict.
      destruct (rank_rows_split 1 [[0]; [1]] [[0]; [1]]) as [E1 E2]. rewrite E1, E2, rank_example_rows.
      rewrite HF, HP. reflexivity.
Qed.
