(** * Proofs about EDy/EDX/CvMy, the cvxpy programs and their callers. *)

From Coq Require Import Reals List ZArith Lia Lra Bool Arith Permutation.
From Verif Require Import Num Spec L_Num M_Baselines L_Baselines M_Metrics L_Metrics M_Optim Spec_Optim
  L_Optim L_Optim2 L_Optim3.
Import ListNotations.
Open Scope R_scope.

(** ** solve_ed *)

Section ED.
Context {A : Type}.
Implicit Types (dist : A -> A -> R) (bag : list A).

Lemma ed_gram_sym : forall n l dist (train : nat -> list A), (forall x y, dist x y = dist y x) ->
  symmetric l (fun i j =>
    2 * ed_B n (ed_K dist train (fun i => INR (length (train i)))) i j).
Proof.
  intros n l dist train Hd i j _ _. rewrite !ed_B_entry, !ed_K_mean by auto.
  rewrite (mean_dist_sym dist (train i) (train j)) by auto. ring.
Qed.

Lemma split_last : forall n q, distribution_over (S n) q ->
  exists x, length x = n /\ q = x ++ [1 - rsum x].
Proof.
  intros n q (L & _ & Hs).
  destruct (exists_last (l := q)) as (x & v & E); [destruct q; [discriminate|congruence]|].
  exists x. subst q. rewrite app_length in L. simpl in L. rewrite rsum_app in Hs. simpl in Hs.
  split; [lia|]. do 2 f_equal. lra.
Qed.

Lemma train_classes : forall (classes y : list Z) (rows : list A) n, length classes = n ->
  map (fun i => select (nth i classes 0%Z) y rows) (seq 0 n) =
  map (fun c => select c y rows) classes.
Proof.
  intros classes y rows n <-. rewrite <- (map_map (fun i => nth i classes 0%Z)
    (fun c => select c y rows)). f_equal.
  apply (nth_ext _ _ 0%Z 0%Z); [now rewrite map_length, seq_length|].
  intros i Hi. rewrite map_length, seq_length in Hi.
  rewrite (nth_indep _ 0%Z (nth 0 classes 0%Z)) by (now rewrite map_length, seq_length).
  rewrite (map_nth (fun i => nth i classes 0%Z)), seq_nth by auto. reflexivity.
Qed.

(** The facts all ED theorems start from. *)
Lemma ED_any : forall N fuel dist (classes y : list Z) (rows : list A) f bag p,
  (forall x y, dist x y = dist y x) -> classes <> [] ->
  exact_qp (solve_qp N) ->
  ED_fit N fuel dist classes y rows = Some f ->
  ED_predict N f bag = Val p ->
  exists l x G,
    length classes = S l /\ length x = l /\ p = x ++ [1 - rsum x] /\
    let train := fun i => select (nth i classes 0%Z) y rows in
    let sizes := fun i => INR (length (train i)) in
    let K := ed_K dist train sizes in
    let a := compute_ed_param_test (S l) dist train bag K sizes in
    ensure_pd N fuel l (fun i j => 2 * ed_B (S l) K i j) = Some G /\
    symmetric l G /\ positive_definite l G /\
    distribution_over (S l) p /\
    forall x', length x' = l -> distribution_over (S l) (x' ++ [1 - rsum x']) ->
      qp_objective l G a x <= qp_objective l G a x'.
Proof.
  intros N fuel dist classes y rows f bag p Hd Hc HQ HF HP.
  destruct (length classes) as [|l] eqn:Lc; [destruct classes; [congruence|discriminate]|].
  unfold ED_fit, compute_ed_param_train in HF. rewrite Lc in HF.
  replace (S l - 1)%nat with l in HF by lia.
  pose (train := fun i => select (nth i classes 0%Z) y rows).
  pose (sizes := fun i => INR (length (train i))).
  pose (K := ed_K dist train sizes).
  change (match (match ensure_pd N fuel l (fun i j => 2 * ed_B (S l) K i j) with
                 | None => None
                 | Some G => Some (K, G, ed_C, ed_b)
                 end) with
          | None => None
          | Some (K, G, C, b) =>
              Some {| ed_classes := classes; ed_train := train; ed_sizes := sizes;
                      ed_dist := dist; ed_Kmat := K; ed_Gmat := G; ed_Cmat := C; ed_bvec := b |}
          end = Some f) in HF.
  destruct (ensure_pd N fuel l (fun i j => 2 * ed_B (S l) K i j)) as [G|] eqn:EG;
    [|discriminate].
  inversion HF; subst f. clear HF. unfold ED_predict in HP.
  destruct (ed_defined _ bag) in HP; [|discriminate]. simpl in HP. rewrite Lc in HP.
  unfold solve_ed in HP. replace (S l - 1)%nat with l in HP by lia.
  pose (a := compute_ed_param_test (S l) dist train bag K sizes). fold a in HP.
  destruct (solve_qp N l (S l) G a ed_C ed_b 0) as [x|] eqn:EQ; [|discriminate].
  inversion HP; subst p. clear HP.
  assert (HG : symmetric l G /\ positive_definite l G).
  { eapply ensure_pd_pd; [|exact EG]. apply ed_gram_sym. auto. }
  destruct HG as [SG PG].
  apply HQ in EQ; auto. destruct EQ as [F O].
  exists l, x, G. destruct F as [Lx F]. split; [auto|]. split; [auto|]. split; [auto|].
  cbv zeta. split; [exact EG|]. split; [auto|]. split; [auto|]. split.
  - apply ed_constraints; auto. split; auto.
  - intros x' Lx' D'. apply O. apply ed_constraints; auto.
Qed.

Lemma ED_distribution : forall N fuel dist (classes y : list Z) (rows : list A) f bag p,
  (forall x y, dist x y = dist y x) -> classes <> [] ->
  exact_qp (solve_qp N) ->
  ED_fit N fuel dist classes y rows = Some f -> ED_predict N f bag = Val p ->
  distribution_over (length classes) p.
Proof.
  intros N fuel dist classes y rows f bag p Hd Hc HQ HF HP.
  destruct (ED_any N fuel dist classes y rows f bag p Hd Hc HQ HF HP)
    as (l & x & G & Lc & _ & _ & H). cbv zeta in H. rewrite Lc. apply H.
Qed.

Lemma ed_pd : forall dist (classes y : list Z) (rows : list A) l,
  (forall x y, dist x y = dist y x) -> length classes = S l ->
  (forall p q, distribution_over (S l) p -> distribution_over (S l) q -> p <> q ->
     0 < energy dist (class_mixture p (class_samples classes y rows))
                     (class_mixture q (class_samples classes y rows))) ->
  let train := fun i => select (nth i classes 0%Z) y rows in
  positive_definite l
    (fun i j => 2 * ed_B (S l) (ed_K dist train (fun i => INR (length (train i)))) i j).
Proof.
  intros dist classes y rows l Hd Lc Hsep train x (i & Hi & Hx). rewrite quad_scal.
  destruct (ed_quad_energy l dist train x Hd) as (eps & p & q & He & Dp & Dq & Hpq & E).
  unfold train in E. rewrite (train_classes classes y rows (S l) Lc) in E.
  fold (class_samples classes y rows) in E.
  assert (0 < energy dist (class_mixture p (class_samples classes y rows))
                     (class_mixture q (class_samples classes y rows))).
  { apply Hsep; auto. intros ->. specialize (Hpq i Hi).
    assert (eps * x i <> 0) by (apply Rmult_integral_contrapositive; split; lra). lra. }
  rewrite E in H. fold train in H. assert (0 < eps * eps) by nra.
  set (Q := quad l _ x) in *.
  assert (0 < Q).
  { destruct (Rle_lt_dec Q 0) as [L|L]; [|exact L]. nra. }
  lra.
Qed.

Lemma ed_psd : forall dist (classes y : list Z) (rows : list A) l,
  (forall x y, dist x y = dist y x) -> length classes = S l ->
  (forall p q, distribution_over (S l) p -> distribution_over (S l) q ->
     0 <= energy dist (class_mixture p (class_samples classes y rows))
                     (class_mixture q (class_samples classes y rows))) ->
  let train := fun i => select (nth i classes 0%Z) y rows in
  positive_semidefinite l
    (fun i j => 2 * ed_B (S l) (ed_K dist train (fun i => INR (length (train i)))) i j).
Proof.
  intros dist classes y rows l Hd Lc Hsep train x. rewrite quad_scal.
  destruct (ed_quad_energy l dist train x Hd) as (eps & p & q & He & Dp & Dq & Hpq & E).
  unfold train in E. rewrite (train_classes classes y rows (S l) Lc) in E.
  fold (class_samples classes y rows) in E.
  specialize (Hsep p q Dp Dq). rewrite E in Hsep. fold train in Hsep.
  assert (0 < eps * eps) by nra.
  set (Q := quad l _ x) in *.
  assert (0 <= Q).
  { destruct (Rle_lt_dec 0 Q) as [L|L]; [exact L|]. nra. }
  lra.
Qed.

Lemma ED_best : forall N fuel dist (classes y : list Z) (rows : list A) f bag p,
  (forall x y, dist x y = dist y x) -> classes <> [] ->
  exact_qp (solve_qp N) ->
  (forall p q, distribution_over (length classes) p -> distribution_over (length classes) q ->
     p <> q ->
     0 < energy dist (class_mixture p (class_samples classes y rows))
                     (class_mixture q (class_samples classes y rows))) ->
  ED_fit N fuel dist classes y rows = Some f -> ED_predict N f bag = Val p ->
  best_distribution (length classes)
    (fun p => energy dist (class_mixture p (class_samples classes y rows)) (spread_over 1 bag)) p.
Proof.
  intros N fuel dist classes y rows f bag p Hd Hc HQ Hsep HF HP.
  destruct (ED_any N fuel dist classes y rows f bag p Hd Hc HQ HF HP)
    as (l & x & G & Lc & Lx & -> & H). cbv zeta in H. destruct H as (EG & SG & PG & D & O).
  rewrite Lc in *. split; [exact D|]. intros q Hq.
  destruct (split_last l q Hq) as (x' & Lx' & ->).
  specialize (O x' Lx' Hq).
  rewrite ensure_pd_same in EG; [|apply ed_gram_sym; auto|apply ed_pd; auto].
  inversion EG; subst G.
  rewrite !ed_objective in O by auto.
  rewrite (train_classes classes y rows (S l) Lc) in O. unfold class_samples. lra.
Qed.

Lemma sub_distribution_norm : forall l x, distribution_over (S l) (x ++ [1 - rsum x]) ->
  length x = l -> 0 <= sumn l (fun i => nth i x 0 * nth i x 0) <= 1.
Proof.
  intros l x (_ & Hn & _) L. split; [apply norm_nonneg|].
  apply Forall_app in Hn. destruct Hn as [Hn Hl]. apply Forall_inv in Hl.
  apply Rle_trans with (rsum x); [|lra].
  rewrite <- sumn_nth, L. apply sumn_le. intros i Hi.
  assert (0 <= nth i x 0). { rewrite Forall_forall in Hn. apply Hn, nth_In. lia. }
  assert (nth i x 0 <= rsum x). { apply rsum_in_le; auto. apply nth_In. lia. }
  nra.
Qed.

Lemma ED_nearly_best : forall N fuel dist (classes y : list Z) (rows : list A) f bag p eps,
  (1 <= fuel)%nat ->
  (forall x y, dist x y = dist y x) -> classes <> [] ->
  exact_qp (solve_qp N) ->
  (forall v, 0 < spacing N v) ->
  (let train := fun i => select (nth i classes 0%Z) y rows in
   let n := (length classes - 1)%nat in
   let M := fun i j => 2 * ed_B (length classes)
        (ed_K dist train (fun i => INR (length (train i)))) i j in
   (0 < n)%nat ->
   (forall B, agree n B M -> singular_values n B (fst (svd N n B)) (snd (svd N n B))) /\
   (forall B, agree n B M -> smallest_eigenvalue n B (min_eigenvalue N n B))) ->
  (forall p q, distribution_over (length classes) p -> distribution_over (length classes) q ->
     0 <= energy dist (class_mixture p (class_samples classes y rows))
                     (class_mixture q (class_samples classes y rows))) ->
  ED_fit N fuel dist classes y rows = Some f -> ED_predict N f bag = Val p ->
  (let train := fun i => select (nth i classes 0%Z) y rows in
   spacing N (frobenius (length classes - 1)
     (fun i j => 2 * ed_B (length classes)
        (ed_K dist train (fun i => INR (length (train i)))) i j)) / 2 <= eps) ->
  nearly_best_distribution (length classes) eps
    (fun p => energy dist (class_mixture p (class_samples classes y rows)) (spread_over 1 bag)) p.
Proof.
  intros N fuel dist classes y rows f bag p eps Hf Hd Hc HQ Hsp Hlin Hpos HF HP Heps.
  destruct (ED_any N fuel dist classes y rows f bag p Hd Hc HQ HF HP)
    as (l & x & G & Lc & Lx & -> & H). cbv zeta in H. destruct H as (EG & SG & PG & D & O).
  rewrite Lc in *. split; [exact D|]. intros q Hq.
  destruct (split_last l q Hq) as (x' & Lx' & ->).
  specialize (O x' Lx' Hq). cbv zeta in Heps.
  replace (S l - 1)%nat with l in Heps by lia. cbv zeta in Hlin.
  replace (S l - 1)%nat with l in Hlin by lia.
  set (train := fun i => select (nth i classes 0%Z) y rows) in *.
  set (K := ed_K dist train (fun i => INR (length (train i)))) in *.
  set (M := fun i j => 2 * ed_B (S l) K i j) in *.
  change (ensure_pd N fuel l M = Some G) in EG.
  set (a := compute_ed_param_test (S l) dist train bag K (fun i => INR (length (train i)))).
  change (qp_objective l G a x <= qp_objective l G a x') in O.
  assert (SM : symmetric l M) by (apply ed_gram_sym; auto).
  assert (PM : positive_semidefinite l M) by (apply ed_psd; auto).
  set (sp := spacing N (frobenius l M)) in *.
  assert (Hsp0 : 0 < sp) by apply Hsp.
  change (sp / 2 <= eps) in Heps.
  assert (Obj : forall x, length x = l ->
    qp_objective l M a x =
    energy dist (class_mixture (x ++ [1 - rsum x]) (class_samples classes y rows))
      (spread_over 1 bag) +
    (mean_dist dist bag bag - (2 * mean_dist dist (train l) bag - K l l))).
  { intros z Lz. unfold M, a, K. rewrite ed_objective by auto.
    unfold class_samples. rewrite <- (train_classes classes y rows (S l) Lc). reflexivity. }
  unfold ensure_pd in EG. destruct (is_pd l M) eqn:E.
  - assert (HG : G = M) by congruence. rewrite HG in O. rewrite !Obj in O by auto. lra.
  - assert (NP : ~ positive_definite l M).
    { intros P. apply is_pd_sym in P; [congruence|auto]. }
    assert (Hl : (0 < l)%nat).
    { destruct l; [|lia]. exfalso. apply NP. intros z (i & Hi & _). lia. }
    destruct (Hlin Hl) as [Hsvd Heig].
    destruct (nearest_pd_psd N fuel l M Hf SM PM NP (Hsp _) Hsvd Heig)
      as (P & HPd & EP).
    assert (HG : G = P) by congruence. rewrite HG in O. fold sp in EP.
    rewrite !(qp_objective_ext l P (unit_shift M sp)) in O by auto.
    rewrite !qp_objective_shift, !Obj in O by auto.
    pose proof (sub_distribution_norm l x D Lx). pose proof (sub_distribution_norm l x' Hq Lx'). nra.
Qed.

(** ** Consistency *)

Lemma expected_perm_l : forall dist (P P' Q : weighted A), Permutation P P' ->
  expected dist P Q = expected dist P' Q.
Proof. intros. unfold expected. apply rsum_map_perm. auto. Qed.

Lemma rsum_concat_map : forall {B} (g : A -> R) (h : B -> list A) l,
  rsum (map g (concat (map h l))) = rsum (map (fun b => rsum (map g (h b))) l).
Proof. intros. rewrite concat_map, rsum_concat, !map_map. reflexivity. Qed.

(** A bag made of [k_c] copies of the sample of each class. *)
Lemma copies_measure : forall dist (ks : list nat) (cs : list (list A)) bag Q,
  length ks = length cs -> Forall (fun c => c <> []) cs ->
  Permutation bag (concat (map (fun kc => repeated (fst kc) (snd kc)) (combine ks cs))) ->
  expected dist (class_mixture
     (map (fun kc => INR (fst kc * length (snd kc)) / INR (length bag)) (combine ks cs)) cs) Q
  = expected dist (spread_over 1 bag) Q.
Proof.
  intros dist ks cs bag Q Lk Hne HP.
  set (g := fun x => rsum (map (fun q => fst q * dist x (snd q)) Q)).
  assert (E1 : expected dist (spread_over 1 bag) Q = / INR (length bag) * rsum (map g bag)).
  { unfold expected, spread_over. rewrite map_map. rewrite <- rsum_map_scal. apply rsum_map_ext.
    intros x _. unfold g. rewrite <- rsum_map_scal. apply rsum_map_ext. intros q _. simpl. lra. }
  rewrite E1, (rsum_map_perm g _ _ HP), rsum_concat_map.
  unfold class_mixture. rewrite expected_concat, map_map.
  set (b := INR (length bag)). clearbody b. clear HP E1.
  revert ks Lk. induction cs as [|c cs IH]; intros ks Lk.
  - destruct ks; [|discriminate]. simpl. ring.
  - destruct ks as [|k ks]; [discriminate|]. simpl in Lk.
    cbn [combine map fst snd rsum]. rewrite (IH (Forall_inv_tail Hne) ks) by lia.
    rewrite rsum_map_repeated. rewrite Rmult_plus_distr_l. f_equal.
    unfold expected, spread_over. rewrite map_map, <- !rsum_map_scal. apply rsum_map_ext.
    intros x _. unfold g. rewrite <- !rsum_map_scal. apply rsum_map_ext. intros q _. simpl.
    rewrite mult_INR. unfold Rdiv. apply Forall_inv in Hne.
    assert (INR (length c) <> 0) by (apply not_0_INR; destruct c; [congruence|discriminate]).
    set (u := / b). field. auto.
Qed.

Lemma copies_distribution : forall (ks : list nat) (cs : list (list A)) bag,
  length ks = length cs -> bag <> [] ->
  Permutation bag (concat (map (fun kc => repeated (fst kc) (snd kc)) (combine ks cs))) ->
  distribution_over (length cs)
    (map (fun kc => INR (fst kc * length (snd kc)) / INR (length bag)) (combine ks cs)).
Proof.
  intros ks cs bag Lk Hb HP.
  assert (Hp : 0 < INR (length bag)) by (apply lt_0_INR; destruct bag; [congruence|simpl; lia]).
  split; [rewrite map_length, combine_length; lia|]. split.
  - apply Forall_forall. intros v Hv. apply in_map_iff in Hv. destruct Hv as ((k & c) & <- & _).
    apply Rle_mult_inv_pos; [apply pos_INR|auto].
  - rewrite rsum_map_div.
    replace (rsum (map (fun kc => INR (fst kc * length (snd kc))) (combine ks cs)))
      with (INR (length bag)); [field; lra|].
    rewrite (Permutation_length HP). clear HP Hb Hp. revert ks Lk.
    induction cs as [|c cs IH]; intros ks Lk; destruct ks as [|k ks]; try discriminate;
      [reflexivity|].
    simpl in Lk. cbn [combine map fst snd concat rsum]. rewrite app_length, plus_INR, IH by lia.
    f_equal. f_equal. unfold repeated. clear. induction c; simpl; [lia|].
    rewrite app_length, repeat_length, IHc. lia.
Qed.

Lemma expected_sub : forall dist (P P' Q : weighted A),
  (forall Q, expected dist P Q = expected dist P' Q) -> (forall x y, dist x y = dist y x) ->
  energy dist Q P = energy dist Q P'.
Proof.
  intros dist P P' Q H Hd. unfold energy.
  assert (F : forall Q, expected dist Q P = expected dist Q P').
  { intros Z. rewrite !(expected_flip dist Z).
    unfold expected in *.
    rewrite (rsum_map_ext (fun p => rsum (map (fun q => fst p * fst q * dist (snd q) (snd p)) Z))
      (fun p => rsum (map (fun q => fst p * fst q * dist (snd p) (snd q)) Z)))
      by (intros; apply rsum_map_ext; intros; now rewrite Hd).
    rewrite H. apply rsum_map_ext. intros; apply rsum_map_ext. intros; now rewrite Hd. }
  rewrite (F Q), (F P), (H P'). reflexivity.
Qed.

Lemma ED_consistent : forall N fuel dist (classes y : list Z) (rows : list A) f ks bag p,
  (forall x y, dist x y = dist y x) ->
  exact_qp (solve_qp N) ->
  (forall c, In c classes -> In c y) -> length y = length rows ->
  (forall p q, distribution_over (length classes) p -> distribution_over (length classes) q ->
     p <> q ->
     0 < energy dist (class_mixture p (class_samples classes y rows))
                     (class_mixture q (class_samples classes y rows))) ->
  length ks = length classes -> bag <> [] ->
  Permutation bag (concat (map (fun kc => repeated (fst kc) (snd kc))
                               (combine ks (class_samples classes y rows)))) ->
  ED_fit N fuel dist classes y rows = Some f -> ED_predict N f bag = Val p ->
  p = map (fun kc => INR (fst kc * length (snd kc)) / INR (length bag))
          (combine ks (class_samples classes y rows)).
Proof.
  intros N fuel dist classes y rows f ks bag p Hd HQ Hin Hly Hsep Lk Hb HP HF HPr.
  assert (Hc : classes <> []).
  { intros ->. destruct ks; [|discriminate]. simpl in HP. apply Permutation_sym in HP.
    apply Permutation_nil in HP. congruence. }
  destruct (ED_best N fuel dist classes y rows f bag p Hd Hc HQ Hsep HF HPr) as [D B].
  set (cs := class_samples classes y rows) in *.
  assert (Lcs : length cs = length classes) by (unfold cs, class_samples; now rewrite map_length).
  set (q := map (fun kc => INR (fst kc * length (snd kc)) / INR (length bag)) (combine ks cs)).
  assert (Dq : distribution_over (length classes) q).
  { rewrite <- Lcs. apply copies_distribution; auto. now rewrite Lcs. }
  assert (Hm : forall Q, expected dist (class_mixture q cs) Q = expected dist (spread_over 1 bag) Q).
  { intros Q. apply copies_measure; auto; [now rewrite Lcs|].
    apply Forall_forall. intros s Hs. unfold cs, class_samples in Hs. apply in_map_iff in Hs.
    destruct Hs as (c & <- & Hc'). apply select_nonempty; auto. }
  destruct (list_eq_dec Req_EM_T p q) as [E|Ne]; [exact E|exfalso].
  specialize (Hsep p q D Dq Ne). specialize (B q Dq). cbv beta in B.
  rewrite <- !(expected_sub dist _ _ _ Hm Hd) in B.
  assert (Z : energy dist (class_mixture q cs) (class_mixture q cs) = 0).
  { unfold energy. ring. }
  lra.
Qed.
End ED.

(** ** CvMy *)

Lemma count_below_map : forall g l x, strictly_increasing g ->
  count_below (g x) (map g l) = count_below x l.
Proof.
  intros g l x Hg. unfold count_below. induction l as [|y l IH]; [reflexivity|].
  simpl. destruct (Rlt_dec (g y) (g x)) as [H|H], (Rlt_dec y x) as [H'|H']; simpl; auto.
  - exfalso. apply Rnot_lt_le in H'. destruct H' as [H'|H'].
    + specialize (Hg _ _ H'). lra.
    + subst. lra.
  - specialize (Hg _ _ H'). contradiction.
Qed.

Lemma increasing_inj : forall g x y, strictly_increasing g -> g x = g y -> x = y.
Proof.
  intros g x y Hg E. destruct (Rtotal_order x y) as [H|[H|H]]; auto; specialize (Hg _ _ H); lra.
Qed.

Lemma count_equal_map : forall g l x, strictly_increasing g ->
  count_equal (g x) (map g l) = count_equal x l.
Proof.
  intros g l x Hg. unfold count_equal. induction l as [|y l IH]; [reflexivity|].
  simpl. destruct (Req_EM_T (g y) (g x)) as [H|H], (Req_EM_T y x) as [H'|H']; simpl; auto.
  - exfalso. apply H'. eapply increasing_inj; eauto.
  - subst. congruence.
Qed.

Lemma rankdata_map : forall g l, strictly_increasing g -> rankdata (map g l) = rankdata l.
Proof.
  intros g l Hg. unfold rankdata. rewrite map_map. apply map_ext. intros x.
  rewrite count_below_map, count_equal_map by auto. reflexivity.
Qed.

Lemma transform_col : forall g k rows j, (j < k)%nat -> Forall (fun r => length r = k) rows ->
  col j (map (transform_row g) rows) = map (g j) (col j rows).
Proof.
  intros g k rows j Hj Hr. unfold col. rewrite !map_map. apply map_ext_in. intros r Hin.
  rewrite Forall_forall in Hr. unfold transform_row. rewrite tabulate_nth by (rewrite Hr; auto).
  reflexivity.
Qed.

Lemma rank_columns_transform : forall g k rows, (forall j, strictly_increasing (g j)) ->
  Forall (fun r => length r = k) rows ->
  rank_columns k (map (transform_row g) rows) = rank_columns k rows.
Proof.
  intros g k rows Hg Hr. unfold rank_columns. rewrite map_length. unfold tabulate.
  apply map_ext_in. intros i Hi. apply map_ext_in. intros j Hj. apply in_seq in Hj.
  rewrite (transform_col g k) by (auto; lia). rewrite rankdata_map by auto. reflexivity.
Qed.

Lemma CvMy_invariant : forall N fuel dist classes y k tr te g,
  (forall j, strictly_increasing (g j)) ->
  Forall (fun r => length r = k) tr -> Forall (fun r => length r = k) te ->
  CvMy_predict N fuel dist classes y k (map (transform_row g) tr) (map (transform_row g) te) =
  CvMy_predict N fuel dist classes y k tr te.
Proof.
  intros N fuel dist classes y k tr te g Hg Htr Hte. unfold CvMy_predict.
  rewrite <- map_app, rank_columns_transform, map_length; auto. apply Forall_app. auto.
Qed.

(** ** cvxpy programs *)

Lemma mix_nth : forall d n T p r, (r < d)%nat -> nth r (mix d n T p) 0 = mixture_at n T p r.
Proof. intros. unfold mix. rewrite tabulate_nth by auto. reflexivity. Qed.

Lemma vmap2_sum : forall (h : R -> R) (g : R -> R -> R) d a b, length a = d -> length b = d ->
  rsum (map h (vmap2 g a b)) = sumn d (fun r => h (g (nth r a 0) (nth r b 0))).
Proof.
  intros h g d a. revert d. induction a as [|x a IH]; intros d b La Lb; simpl in La.
  - subst d. destruct b; [reflexivity|discriminate].
  - destruct b as [|y b]; simpl in Lb; [lia|]. destruct d as [|d]; [lia|].
    rewrite sumn_Sl. simpl. f_equal. apply IH; lia.
Qed.

Lemma mix_length : forall d n T p, length (mix d n T p) = d.
Proof. intros. apply tabulate_length. Qed.

Lemma l1_objective_val : forall d n T t p, length t = d ->
  l1_objective d n T t p = l1_distance d n T t p.
Proof.
  intros d n T t p L. unfold l1_objective, l1_distance.
  rewrite (vmap2_sum Rabs Rminus d) by (auto using mix_length). apply sumn_ext. intros r Hr.
  rewrite mix_nth by auto. apply Rabs_minus_sym.
Qed.

Lemma hd_objective_val : forall d n T t p, length t = d ->
  hd_objective d n T t p = 1 - sumn d (fun r => sqrt (nth r t 0 * mixture_at n T p r)).
Proof.
  intros d n T t p L. unfold hd_objective.
  rewrite (vmap2_sum sqrt Rmult d) by (auto using mix_length). f_equal. apply sumn_ext.
  intros r Hr. rewrite mix_nth by auto. reflexivity.
Qed.

Lemma mixture_nonneg : forall n T p r, (forall j, (j < n)%nat -> 0 <= T r j) ->
  Forall (fun x => 0 <= x) p -> 0 <= mixture_at n T p r.
Proof.
  intros n T p r HT Hp. unfold mixture_at. apply sumn_nonneg. intros j Hj.
  apply Rmult_le_pos; auto. destruct (Nat.lt_ge_cases j (length p)) as [H|H].
  - rewrite Forall_forall in Hp. apply Hp. apply nth_In. auto.
  - rewrite nth_overflow by auto. lra.
Qed.

Lemma nth_nonneg : forall l r, Forall (fun x => 0 <= x) l -> 0 <= nth r l 0.
Proof.
  intros l r H. destruct (Nat.lt_ge_cases r (length l)) as [L|L].
  - rewrite Forall_forall in H. apply H. apply nth_In. auto.
  - rewrite nth_overflow by auto. lra.
Qed.

Lemma hellinger_identity : forall d n T t p, length t = d ->
  (forall r j, (r < d)%nat -> (j < n)%nat -> 0 <= T r j) ->
  Forall (fun x => 0 <= x) t -> Forall (fun x => 0 <= x) p ->
  squared_hellinger d n T t p =
  2 * hd_objective d n T t p - 2 + sumn d (mixture_at n T p) + rsum t.
Proof.
  intros d n T t p L HT Ht Hp. rewrite hd_objective_val by auto. unfold squared_hellinger.
  rewrite <- sumn_nth, L.
  rewrite (sumn_ext d _ (fun r => mixture_at n T p r + nth r t 0 +
             - (2) * sqrt (nth r t 0 * mixture_at n T p r))).
  - rewrite !sumn_plus, sumn_scal. unfold mixture_at. ring.
  - intros r Hr.
    assert (Hm : 0 <= mixture_at n T p r) by (apply mixture_nonneg; auto).
    assert (Hn : 0 <= nth r t 0) by (apply nth_nonneg; auto).
    rewrite sqrt_mult by auto.
    pose proof (sqrt_sqrt _ Hm) as E1. pose proof (sqrt_sqrt _ Hn) as E2.
    set (a := sqrt (mixture_at n T p r)) in *. set (b := sqrt (nth r t 0)) in *.
    rewrite <- E1, <- E2. ring.
Qed.

(** The hd metric is the square root. *)
Lemma hd_metric : forall d n T t p, length t = d -> (0 < d)%nat ->
  (forall r j, (r < d)%nat -> (j < n)%nat -> 0 <= T r j) ->
  Forall (fun x => 0 <= x) t -> Forall (fun x => 0 <= x) p ->
  hdist (vec t) (vec (tabulate d (mixture_at n T p))) = Val (sqrt (squared_hellinger d n T t p)).
Proof.
  intros d n T t p L Hd HT Ht Hp.
  rewrite hd_val.
  - f_equal. f_equal. unfold dsum, squared_hellinger.
    rewrite L. apply sumn_ext. intros r Hr. rewrite tabulate_nth by auto. reflexivity.
  - now rewrite tabulate_length.
  - intros ->. simpl in L. lia.
  - auto.
  - apply Forall_forall. intros v Hv. unfold tabulate in Hv. apply in_map_iff in Hv.
    destruct Hv as (r & <- & Hr). apply in_seq in Hr. apply mixture_nonneg; auto.
    intros; apply HT; lia || auto.
Qed.

Lemma run_problem_best : forall cvx P test P' x, exact_cvx cvx ->
  run_problem cvx P test = Val (P', x) ->
  best_distribution (cp_n P) (cp_objective P test) x.
Proof.
  intros cvx P test P' x Hc H. unfold run_problem in H.
  destruct (valid_parameter _ _); [|discriminate].
  destruct (cvx _ _ _) eqn:E; [|discriminate]. inversion H; subst. eapply Hc; eauto.
Qed.

Lemma solve_l1_best : forall cvx d n T t P x, exact_cvx cvx -> length t = d ->
  solve_l1 cvx d n T t None = Val (P, x) -> best_distribution n (l1_distance d n T t) x.
Proof.
  intros cvx d n T t P x Hc L H. unfold solve_l1 in H. rewrite L, Nat.eqb_refl in H.
  apply run_problem_best in H; auto. simpl in H.
  destruct H as [D O]. split; auto. intros q Hq. specialize (O q Hq).
  rewrite !l1_objective_val in O by auto. auto.
Qed.

Lemma mixture_mass : forall d n T p c, distribution_over n p ->
  (forall j, (j < n)%nat -> sumn d (fun r => T r j) = c) -> sumn d (mixture_at n T p) = c.
Proof.
  intros d n T p c (L & _ & Hs) Hc. unfold mixture_at.
  change (sumn d (fun r => sumn n (fun j => T r j * nth j p 0)) = c).
  rewrite sumn_swap. rewrite (sumn_ext n _ (fun j => c * nth j p 0)).
  - rewrite sumn_scal, <- L, sumn_nth, Hs. ring.
  - intros j Hj. rewrite sumn_scal_r, Hc by auto. reflexivity.
Qed.

Lemma valid_parameter_nonneg : forall d t, valid_parameter d t = true ->
  Forall (fun x => 0 <= x) t.
Proof.
  intros d t H. unfold valid_parameter in H. apply andb_true_iff in H. destruct H as [_ H].
  apply Forall_forall. intros x Hx. rewrite forallb_forall in H. specialize (H x Hx).
  destruct (Rle_dec 0 x); [auto|discriminate].
Qed.

Lemma solve_hd_best : forall cvx d n T t P x c, exact_cvx cvx -> length t = d ->
  (forall r j, (r < d)%nat -> (j < n)%nat -> 0 <= T r j) ->
  (forall j, (j < n)%nat -> sumn d (fun r => T r j) = c) ->
  solve_hd cvx d n T t None = Val (P, x) ->
  best_distribution n (squared_hellinger d n T t) x.
Proof.
  intros cvx d n T t P x c Hc L HT Hm H. unfold solve_hd in H. rewrite L, Nat.eqb_refl in H.
  assert (Ht : Forall (fun x => 0 <= x) t).
  { unfold run_problem in H. destruct (valid_parameter _ _) eqn:V; [|discriminate].
    eapply valid_parameter_nonneg; eauto. }
  apply run_problem_best in H; auto. simpl in H.
  destruct H as [D O]. split; auto. intros q Hq. specialize (O q Hq).
  rewrite !hellinger_identity; auto; try apply D; try apply Hq.
  rewrite (mixture_mass d n T x c), (mixture_mass d n T q c); auto. lra.
Qed.

(** ** AC / PAC / PWKQuantifier *)

Definition fallback_loss (d : distance) (n : nat) (T : matrix) (t : list R) (p : list R) : R :=
  match d with
  | HD => squared_hellinger n n T t p
  | L1 => l1_distance n n T t p
  | _ => squared_l2 n n T t p
  end.

Lemma library_solve_best : forall inv N cvx fuel dist n rows t p,
  exact_cvx cvx -> dist = HD \/ dist = L1 ->
  length rows = n -> distributions n rows -> length t = n ->
  M_Baselines.solve (library_solvers inv N cvx fuel) dist n (fun i j => entry rows j i) t = Val p ->
  best_distribution n (fallback_loss dist n (fun i j => entry rows j i) t) p.
Proof.
  intros inv N cvx fuel dist n rows t p Hc Hd Lr Hr Lt H.
  assert (Hrow : forall j, (j < n)%nat -> distribution_over n (nth j rows [])).
  { intros j Hj. unfold distributions in Hr. rewrite Forall_forall in Hr. apply Hr.
    apply nth_In. lia. }
  destruct Hd as [-> | ->]; cbn [M_Baselines.solve library_solvers] in H.
  - destruct (solve_hd cvx n n (fun i j => entry rows j i) t None) as [[P x]| |] eqn:E; try discriminate.
    simpl in H. inversion H; subst x.
    apply (solve_hd_best cvx n n _ t P p 1); auto.
    + intros r j Hr' Hj. unfold entry. apply nth_nonneg. apply Hrow. auto.
    + intros j Hj. destruct (Hrow j Hj) as (L & _ & S). unfold entry. rewrite <- S, <- L.
      apply sumn_nth.
  - destruct (solve_l1 cvx n n (fun i j => entry rows j i) t None) as [[P x]| |] eqn:E; try discriminate.
    simpl in H. inversion H; subst x. eapply solve_l1_best; eauto.
Qed.

Lemma library_solve_l2 : forall inv N cvx fuel n rows t p,
  (1 <= fuel)%nat -> exact_qp (solve_qp N) ->
  (forall v, 0 < spacing N v) ->
  (forall B, agree n B (gram2 n (fun i j => entry rows j i)) ->
     singular_values n B (fst (svd N n B)) (snd (svd N n B))) ->
  (forall M, agree n M (gram2 n (fun i j => entry rows j i)) ->
     smallest_eigenvalue n M (min_eigenvalue N n M)) ->
  M_Baselines.solve (library_solvers inv N cvx fuel) L2 n (fun i j => entry rows j i) t = Val p ->
  nearly_best_distribution n
    (spacing N (frobenius n (gram2 n (fun i j => entry rows j i))) / 2)
    (fallback_loss L2 n (fun i j => entry rows j i) t) p.
Proof.
  intros inv N cvx fuel n rows t p Hf HQ Hsp Hsvd Heig H.
  cbn [M_Baselines.solve library_solvers] in H.
  destruct (compute_l2_param_train N fuel n n (fun i j => entry rows j i)) as [[[G C] b]|] eqn:E;
    [|discriminate].
  unfold fallback_loss. apply (l2_nearly_best N fuel n n (fun i j => entry rows j i) t G C b); auto.
Qed.

Lemma multi_adjust_fallback : forall S dist n rows p0 p, dist <> OtherDistance ->
  M_Baselines.inv S n (fun i j => entry rows j i) = None ->
  multi_adjust S dist n (map Some rows) p0 = Val p ->
  M_Baselines.solve S dist n (fun i j => entry rows j i) p0 = Val p.
Proof.
  intros S dist n rows p0 p Hd Hi H. unfold multi_adjust in H. rewrite all_some_map, Hi in H.
  destruct dist; auto. congruence.
Qed.
