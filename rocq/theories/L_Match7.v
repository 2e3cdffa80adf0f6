(** * The order of the examples and their duplication. *)

From Coq Require Import Reals List ZArith Lia Lra Bool Arith Permutation.
From Verif Require Import Num Spec L_Num M_Baselines L_Baselines M_Metrics L_Metrics M_Bags L_Bags M_Search
  M_Optim Spec_Optim L_Optim4 L_Optim5 M_Match Spec_Match L_Match L_Match2 L_Match3 L_Match4 L_Match5
  L_Match6.
Import ListNotations.
Open Scope R_scope.

(** ** Bags in another order *)

Lemma histogram_perm : forall x x' e, Permutation x x' -> histogram x e = histogram x' e.
Proof.
  intros x x' e P. unfold histogram. destruct (non_decreasing e); [|reflexivity]. f_equal.
  assert (C : forall i, cum_n x e i = cum_n x' e i).
  { intros i. unfold cum_n. destruct (Nat.eqb _ _); apply Permutation_length, filter_perm; auto. }
  apply tabulate_ext. intros i Hi. now rewrite !C.
Qed.

Lemma df_blocks_perm : forall cuts s s', Permutation s s' -> df_blocks cuts s = df_blocks cuts s'.
Proof.
  intros cuts s s' P. unfold df_blocks.
  assert (E : map (fun dc => histogram (col (fst dc) s) (snd dc)) (combine (seq 0 (length cuts)) cuts) =
              map (fun dc => histogram (col (fst dc) s') (snd dc)) (combine (seq 0 (length cuts)) cuts)).
  { apply map_ext. intros dc. apply histogram_perm. unfold col. now apply Permutation_map. }
  pose proof (Permutation_length P) as L.
  destruct s as [|a s], s' as [|a' s']; auto; try discriminate. now rewrite E, L.
Qed.

Lemma dfy_perm : forall kind cuts s s', Permutation s s' -> dfy_represent kind cuts s = dfy_represent kind cuts s'.
Proof. intros. unfold dfy_represent. now rewrite (df_blocks_perm cuts s s'). Qed.
Lemma dfx_perm : forall kind cuts s s', Permutation s s' -> dfx_represent kind cuts s = dfx_represent kind cuts s'.
Proof. intros. unfold dfx_represent. now rewrite (df_blocks_perm cuts s s'). Qed.

Lemma friedman_perm : forall prevs s s', Permutation s s' -> friedman_represent prevs s = friedman_represent prevs s'.
Proof.
  intros prevs s s' P. pose proof (Permutation_length P) as L. unfold friedman_represent.
  assert (E : forall c, rmean (map (fun r => if Rle_dec (nth c prevs 0) (nth c r 0) then 1 else 0) s) =
                        rmean (map (fun r => if Rle_dec (nth c prevs 0) (nth c r 0) then 1 else 0) s'))
    by (intros c; now apply rmean_perm, Permutation_map).
  destruct s as [|a s], s' as [|a' s']; auto; try discriminate. f_equal. apply tabulate_ext. auto.
Qed.

Lemma pdfo_perm : forall n_bins n m emd s s', Permutation s s' ->
  pdfo_represent n_bins n m emd s = pdfo_represent n_bins n m emd s'.
Proof.
  intros n_bins n m emd s s' P. pose proof (Permutation_length P) as L. unfold pdfo_represent.
  destruct (n_bins * (n - 1))%nat; [reflexivity|].
  rewrite (histogram_perm (map (pdfo_score m n) s) (map (pdfo_score m n) s')) by (now apply Permutation_map).
  destruct s as [|a s], s' as [|a' s']; auto; try discriminate. now rewrite L.
Qed.

Lemma aco_perm : forall classes s s', Permutation s s' -> aco_represent classes s = aco_represent classes s'.
Proof. intros. unfold aco_represent. now rewrite (class_frequencies_perm classes s s'). Qed.

(** ** Duplicated bags *)

Lemma filter_repeated : forall {A} (f : A -> bool) k b,
  length (filter f (repeated k b)) = (k * length (filter f b))%nat.
Proof.
  intros A f k b. unfold repeated. induction b as [|a b IH]; [simpl; lia|].
  cbn [map concat]. rewrite filter_app, app_length, IH. cbn [filter].
  assert (G : length (filter f (repeat a k)) = if f a then k else O).
  { clear. induction k as [|k IH]; simpl; [now destruct (f a)|]. destruct (f a) eqn:E; simpl; now rewrite IH. }
  rewrite G. destruct (f a); cbn [length]; lia.
Qed.

Lemma histogram_repeated : forall k x e, histogram (repeated k x) e = omap (map (Nat.mul k)) (histogram x e).
Proof.
  intros k x e. unfold histogram. destruct (non_decreasing e); [|reflexivity]. cbn [omap obind]. f_equal.
  assert (C : forall i, cum_n (repeated k x) e i = (k * cum_n x e i)%nat).
  { intros i. unfold cum_n. destruct (Nat.eqb _ _); apply filter_repeated. }
  unfold tabulate. rewrite map_map. apply map_ext. intros i. rewrite !C. nia.
Qed.

Lemma scaled_counts : forall k h (len : nat), (0 < k)%nat -> (0 < len)%nat ->
  vdiv (map INR (map (Nat.mul k) h)) (INR (k * len)) = vdiv (map INR h) (INR len).
Proof.
  intros k h len Hk Hl. unfold vdiv. rewrite !map_map. apply map_ext. intros a.
  rewrite !mult_INR. assert (0 < INR k) by (apply lt_0_INR; auto). assert (0 < INR len) by (apply lt_0_INR; auto).
  field. lra.
Qed.

Lemma collect_omap : forall {A B} (g : A -> B) l, collect (map (omap g) l) = omap (map g) (collect l).
Proof.
  intros A B g. induction l as [|o l IH]; [reflexivity|]. cbn [map collect]. rewrite IH.
  destruct o; cbn; auto. destruct (collect l); reflexivity.
Qed.

Lemma repeated_nonempty : forall {A} k (s : list A), (0 < k)%nat -> s <> [] -> repeated k s <> [].
Proof.
  intros A k s Hk Hs E. apply (f_equal (@length A)) in E. rewrite repeated_length in E.
  destruct s; [congruence|]. simpl in E. nia.
Qed.

Lemma df_blocks_repeated : forall cuts k s, (0 < k)%nat -> df_blocks cuts (repeated k s) = df_blocks cuts s.
Proof.
  intros cuts k s Hk. destruct s as [|a s0] eqn:ES; [reflexivity|]. rewrite <- ES.
  assert (Hs : s <> []) by (rewrite ES; discriminate).
  assert (E : forall s, s <> [] -> df_blocks cuts s =
     omap (map (fun h => vdiv (map INR h) (INR (length s))))
           (collect (map (fun dc => histogram (col (fst dc) s) (snd dc))
                         (combine (seq 0 (length cuts)) cuts)))).
  { intros [|b t] H; [congruence|reflexivity]. }
  rewrite !E by auto using repeated_nonempty. rewrite repeated_length.
  rewrite (map_ext (fun dc => histogram (col (fst dc) (repeated k s)) (snd dc))
             (fun dc => omap (map (Nat.mul k)) (histogram (col (fst dc) s) (snd dc)))).
  - rewrite <- (map_map (fun dc => histogram (col (fst dc) s) (snd dc)) (omap (map (Nat.mul k)))).
    rewrite collect_omap. destruct (collect _) as [hs| |]; [|reflexivity|reflexivity].
    cbn [omap obind]. f_equal. rewrite map_map. apply map_ext. intros h. apply scaled_counts; auto.
    rewrite ES. simpl. lia.
  - intros dc. unfold col. rewrite map_repeated. apply histogram_repeated.
Qed.

Lemma dfy_repeated : forall kind cuts k s, (0 < k)%nat ->
  dfy_represent kind cuts (repeated k s) = dfy_represent kind cuts s.
Proof. intros. unfold dfy_represent. now rewrite df_blocks_repeated. Qed.
Lemma dfx_repeated : forall kind cuts k s, (0 < k)%nat ->
  dfx_represent kind cuts (repeated k s) = dfx_represent kind cuts s.
Proof. intros. unfold dfx_represent. now rewrite df_blocks_repeated. Qed.

Lemma friedman_repeated : forall prevs k s, (0 < k)%nat ->
  friedman_represent prevs (repeated k s) = friedman_represent prevs s.
Proof.
  intros prevs k s Hk. destruct s as [|a s]; [reflexivity|].
  eapply averages_repeated; [apply friedman_averages|discriminate|auto].
Qed.

Lemma aco_repeated : forall classes k s, (0 < k)%nat ->
  aco_represent classes (repeated k s) = aco_represent classes s.
Proof.
  intros classes k s Hk. destruct s as [|a s]; [reflexivity|].
  eapply averages_repeated; [apply aco_averages|discriminate|auto].
Qed.

Lemma pdfo_repeated : forall n_bins n m emd k s, (0 < k)%nat ->
  pdfo_represent n_bins n m emd (repeated k s) = pdfo_represent n_bins n m emd s.
Proof.
  intros n_bins n m emd k s Hk. unfold pdfo_represent. destruct (n_bins * (n - 1))%nat as [|b]; [reflexivity|].
  destruct s as [|a s0] eqn:ES; [reflexivity|]. rewrite <- ES.
  assert (Hs : s <> []) by (rewrite ES; discriminate).
  assert (Hr := repeated_nonempty k s Hk Hs).
  assert (E : forall s, s <> [] ->
    match s with
    | [] => NotANumber
    | _ :: _ => omap (fun h => let t := vdiv (map INR h) (INR (length s)) in
                     if emd then firstn (S b - 1) (cumsum t) else t)
           (histogram (map (pdfo_score m n) s) (map Fin (uniform_edges (S b) 1 (INR n))))
    end = omap (fun h => let t := vdiv (map INR h) (INR (length s)) in
                     if emd then firstn (S b - 1) (cumsum t) else t)
           (histogram (map (pdfo_score m n) s) (map Fin (uniform_edges (S b) 1 (INR n))))).
  { intros [|c t] H; [congruence|reflexivity]. }
  rewrite !E by auto. rewrite map_repeated, histogram_repeated, repeated_length.
  destruct (histogram _ _) as [h| |]; [|reflexivity|reflexivity]. cbn [omap obind]. cbv zeta.
  rewrite scaled_counts; auto. rewrite ES. simpl. lia.
Qed.

(** A prediction only sees the representation of the bag. *)
Lemma same_representation : forall {B} N cvx crit tol (m : matcher B) bag bag',
  mt_represent m bag = mt_represent m bag' ->
  matching_predict N cvx crit tol m bag = matching_predict N cvx crit tol m bag'.
Proof. intros. unfold matching_predict. now rewrite H. Qed.

Lemma fit_represent : forall {A} N fuel crit d (rep : list A -> out (list R)) classes ye rows m,
  fit_matching N fuel crit d rep classes ye rows = Val m -> mt_represent m = rep /\ cache_ok crit m.
Proof.
  intros A N fuel crit d rep classes ye rows m H. unfold fit_matching in H.
  destruct (Nat.eqb _ _); [|discriminate]. destruct (collect _); try discriminate.
  cbn in H. inversion H. split; [reflexivity|apply new_matcher_cache].
Qed.

Lemma represent_after : forall {B} N cvx crit tol (m : matcher B) bags, cache_ok crit m ->
  mt_represent (after_predictions N cvx crit tol m bags) = mt_represent m.
Proof. intros. apply (predicted_state N cvx crit tol bags m H). Qed.

Lemma DFy_represent : forall ppf N fuel kind nb strat crit y preds m,
  DFy_fit ppf N fuel kind nb strat crit y preds = Val m ->
  exists cuts, mt_represent m = dfy_represent kind cuts /\ cache_ok crit m.
Proof.
  intros. unfold DFy_fit in H. destruct (DFy_cuts _ _ _ _ _) as [cuts| |]; try discriminate.
  exists cuts. eapply fit_represent; eauto.
Qed.

Lemma DFX_represent : forall ppf N fuel kind nb strat crit y k X m,
  DFX_fit ppf N fuel kind nb strat crit y k X = Val m ->
  exists cuts, mt_represent m = dfx_represent kind cuts /\ cache_ok crit m.
Proof.
  intros. unfold DFX_fit in H. destruct (DFX_cuts _ _ _ _ _ _) as [cuts| |]; try discriminate.
  exists cuts. eapply fit_represent; eauto.
Qed.

Lemma PDFO_represent : forall N fuel n_bins d meth y preds m,
  PDFO_fit N fuel n_bins d meth y preds = Val m ->
  mt_represent m = pdfo_represent n_bins (length (np_unique y)) meth (is_emd d) /\
  cache_ok (pdfo_criterion d) m.
Proof.
  intros N fuel n_bins d meth y preds m H. destruct (PDFO_fit_inv _ _ _ _ _ _ _ _ H) as (_ & _ & _ & HM).
  eapply fit_represent; eauto.
Qed.

Lemma ACOrdinal_represent : forall N fuel y preds m, ACOrdinal_fit N fuel y preds = Val m ->
  mt_represent m = aco_represent (np_unique y) /\ cache_ok (Named L1) m.
Proof.
  intros N fuel y preds m H. unfold ACOrdinal_fit in H. destruct (AC_fit y preds); try discriminate.
  cbn [obind] in H. destruct (all_some _); [|discriminate]. inversion H.
  split; [reflexivity|apply new_matcher_cache].
Qed.

Lemma PDFO_same_representation : forall N cvx d m bag bag',
  mt_represent m bag = mt_represent m bag' ->
  PDFO_predict N cvx d m bag = PDFO_predict N cvx d m bag'.
Proof.
  intros. unfold PDFO_predict. rewrite H, (same_representation N cvx _ 0 m bag bag') by auto. reflexivity.
Qed.

(** ** Training examples in another order *)

Lemma sorted_perm_eq : forall a b, sorted a -> sorted b -> Permutation a b -> a = b.
Proof.
  induction a as [|x a IH]; intros b Ha Hb P.
  - apply Permutation_nil in P. now subst.
  - destruct b as [|z b]; [apply Permutation_sym, Permutation_nil in P; discriminate|].
    destruct (sorted_tail _ _ Ha) as [Ta La]. destruct (sorted_tail _ _ Hb) as [Tb Lb].
    rewrite Forall_forall in La, Lb.
    assert (E : x = z).
    { assert (I1 : In x (z :: b)) by (eapply Permutation_in; [exact P|now left]).
      assert (I2 : In z (x :: a)) by (eapply Permutation_in; [apply Permutation_sym, P|now left]).
      destruct I1 as [|I1]; [auto|]. destruct I2 as [|I2]; [auto|].
      specialize (La z I2). specialize (Lb x I1). lra. }
    subst z. f_equal. apply IH; auto. now apply Permutation_cons_inv in P.
Qed.

Lemma rsort_perm_eq : forall a b, Permutation a b -> rsort a = rsort b.
Proof.
  intros a b P. apply sorted_perm_eq; auto using rsort_sorted.
  rewrite rsort_perm. rewrite P. apply Permutation_sym, rsort_perm.
Qed.

Lemma fold_min_in : forall l a, In (fold_left Rmin l a) (a :: l).
Proof.
  induction l as [|b l IH]; intros a; [now left|]. simpl.
  destruct (IH (Rmin a b)) as [E|I]; [|now right; right].
  rewrite <- E. unfold Rmin. destruct (Rle_dec a b); [now left|right; now left].
Qed.
Lemma fold_max_in : forall l a, In (fold_left Rmax l a) (a :: l).
Proof.
  induction l as [|b l IH]; intros a; [now left|]. simpl.
  destruct (IH (Rmax a b)) as [E|I]; [|now right; right].
  rewrite <- E. unfold Rmax. destruct (Rle_dec a b); [right; now left|now left].
Qed.

Lemma lmin_perm : forall a b, Permutation a b -> lmin a = lmin b.
Proof.
  assert (K : forall x l v, In v (x :: l) -> fold_left Rmin l x <= v).
  { intros x l v [<-|Hv]; [apply (proj1 (fold_min_le l x))|now apply (proj2 (fold_min_le l x))]. }
  intros [|x a] [|z b] P; auto.
  - apply Permutation_nil in P. discriminate.
  - apply Permutation_sym, Permutation_nil in P. discriminate.
  - unfold lmin. apply Rle_antisym.
    + apply K. eapply Permutation_in; [apply Permutation_sym, P|apply fold_min_in].
    + apply K. eapply Permutation_in; [apply P|apply fold_min_in].
Qed.
Lemma lmax_perm : forall a b, Permutation a b -> lmax a = lmax b.
Proof.
  assert (K : forall x l v, In v (x :: l) -> v <= fold_left Rmax l x).
  { intros x l v [<-|Hv]; [apply (proj1 (fold_max_ge l x))|now apply (proj2 (fold_max_ge l x))]. }
  intros [|x a] [|z b] P; auto.
  - apply Permutation_nil in P. discriminate.
  - apply Permutation_sym, Permutation_nil in P. discriminate.
  - unfold lmax. apply Rle_antisym.
    + apply K. eapply Permutation_in; [apply P|apply fold_max_in].
    + apply K. eapply Permutation_in; [apply Permutation_sym, P|apply fold_max_in].
Qed.

Lemma rstd_perm : forall a b, Permutation a b -> rstd a = rstd b.
Proof.
  intros a b P. unfold rstd. rewrite (rmean_perm a b P). f_equal. now apply rmean_perm, Permutation_map.
Qed.

(** Labels and values of the same examples. *)
Lemma map_fst_combine : forall {A B} (a : list A) (b : list B), length a = length b -> map fst (combine a b) = a.
Proof. induction a as [|x a IH]; intros [|z b] H; try discriminate; [reflexivity|]. simpl. f_equal. apply IH. simpl in H. lia. Qed.
Lemma map_snd_combine : forall {A B} (a : list A) (b : list B), length a = length b -> map snd (combine a b) = b.
Proof. induction a as [|x a IH]; intros [|z b] H; try discriminate; [reflexivity|]. simpl. f_equal. apply IH. simpl in H. lia. Qed.

Lemma weighted_combine : forall (g : R -> R) (h : Z -> R) (y : list Z) (x : list R), length y = length x ->
  vmap2 Rmult (map g x) (map h y) = map (fun yx => g (snd yx) * h (fst yx)) (combine y x).
Proof.
  intros g h. induction y as [|a y IH]; intros [|v x] H; try discriminate; [reflexivity|].
  simpl. f_equal. apply IH. simpl in H. lia.
Qed.

Lemma class_weights_perm : forall (y : list Z) (x : list R) (y' : list Z) (x' : list R) classes, length y = length x -> length y' = length x' ->
  Permutation y y' -> Permutation x x' -> Permutation (combine y x) (combine y' x') ->
  (forall g, weighted_mean (map g x) (class_weights (length x) classes y) =
             weighted_mean (map g x') (class_weights (length x') classes y')).
Proof.
  intros y x y' x' classes L L' Py Px P g. unfold weighted_mean, class_weights.
  rewrite <- (Permutation_length Px).
  rewrite (map_ext (fun c => if existsb (Z.eqb c) classes then INR (length x) / INR (zcount c y) else 1)
             (fun c => if existsb (Z.eqb c) classes then INR (length x) / INR (zcount c y') else 1))
    by (intros c; now rewrite (zcount_perm c y y' Py)).
  rewrite !weighted_combine by auto. f_equal.
  - now apply rsum_perm, Permutation_map.
  - now apply rsum_perm, Permutation_map.
Qed.

Lemma compute_bincuts_perm : forall ppf (y : list Z) (x : list R) (y' : list Z) (x' : list R) classes n strat range,
  Permutation y y' -> Permutation x x' ->
  (length y = length x -> Permutation (combine y x) (combine y' x')) ->
  compute_bincuts ppf x y classes n strat range = compute_bincuts ppf x' y' classes n strat range.
Proof.
  intros ppf y x y' x' classes n strat range Py Px P.
  pose proof (Permutation_length Px) as Lx. pose proof (Permutation_length Py) as Ly.
  unfold compute_bincuts. destruct n as [|n]; [reflexivity|]. destruct strat; auto.
  - rewrite (lmin_perm x x' Px), (lmax_perm x x' Px).
    destruct range as [[a b]|]; [reflexivity|].
    destruct x, x'; auto; discriminate.
  - now rewrite (rsort_perm_eq x x' Px).
  - rewrite <- Lx, <- Ly. destruct (negb (Nat.eqb (length classes) 2)); [reflexivity|].
    destruct (Nat.eqb_spec (length y) (length x)) as [L|L]; [|reflexivity]. cbn [negb]. specialize (P L).
    assert (PS : forall c, Permutation (select c y x) (select c y' x'))
      by (intros c; unfold select; now apply Permutation_map, filter_perm).
    assert (EX : forall l, existsb (fun l => Nat.eqb (length l) 0) (map (fun c => select c y x) l) =
                 existsb (fun l => Nat.eqb (length l) 0) (map (fun c => select c y' x') l)).
    { induction l as [|c l IH]; [reflexivity|]. simpl. rewrite IH.
      now rewrite (Permutation_length (PS c)). }
    rewrite EX. destruct (existsb _ _); [reflexivity|].
    rewrite !map_map.
    rewrite (map_ext (fun c => rmean (select c y x)) (fun c => rmean (select c y' x'))) by (intros; now apply rmean_perm).
    rewrite (map_ext (fun c => rstd (select c y x)) (fun c => rstd (select c y' x'))) by (intros; now apply rstd_perm).
    reflexivity.
  - rewrite <- Lx, <- Ly.
    destruct (Nat.eqb_spec (length y) (length x)) as [L|L]; [|reflexivity]. cbn [negb]. specialize (P L).
    assert (L' : length y' = length x') by congruence.
    pose proof (class_weights_perm y x y' x' classes L L' Py Px P) as EM.
    pose proof (EM (fun v => v)) as E1. rewrite !map_id in E1. rewrite <- Lx in E1 at 1.
    destruct x as [|a x], x' as [|a' x']; auto; try discriminate. cbv zeta. rewrite E1.
    f_equal. f_equal. rewrite Lx. rewrite <- EM. now rewrite Lx.
Qed.

Lemma fit_matching_perm : forall {A} N fuel crit d (rep : list A -> out (list R)) classes ye rows ye' rows',
  length rows = length rows' -> length ye = length ye' ->
  (forall a b, Permutation a b -> rep a = rep b) ->
  (length ye = length rows -> Permutation (combine ye rows) (combine ye' rows')) ->
  fit_matching N fuel crit d rep classes ye rows = fit_matching N fuel crit d rep classes ye' rows'.
Proof.
  intros A N fuel crit d rep classes ye rows ye' rows' L1 L2 Hrep P. unfold fit_matching.
  rewrite <- L1, <- L2. destruct (Nat.eqb_spec (length ye) (length rows)) as [L|L]; [|reflexivity].
  f_equal. f_equal. apply map_ext. intros c. apply Hrep. unfold select.
  apply Permutation_map, filter_perm. auto.
Qed.

Lemma labels_perm : forall {A} (tr tr' : list (Z * (nat -> A))), Permutation tr tr' ->
  Permutation (labels_of tr) (labels_of tr').
Proof. intros. unfold labels_of. now apply Permutation_map. Qed.

Lemma predictions_length : forall {A} r (tr : list (Z * (nat -> A))),
  length (predictions_of r tr) = (r * length tr)%nat.
Proof.
  intros A r tr. unfold predictions_of. induction r as [|r IH]; [reflexivity|].
  rewrite seq_S, map_app, concat_app, app_length, IH. simpl. rewrite app_nil_r, map_length. lia.
Qed.

Lemma once_or_none : forall {A} r (tr tr' : list (Z * (nat -> A))) (f : A -> R), Permutation tr tr' ->
  length (labels_of tr) = length (map f (predictions_of r tr)) ->
  Permutation (combine (labels_of tr) (map f (predictions_of r tr)))
              (combine (labels_of tr') (map f (predictions_of r tr'))).
Proof.
  intros A r tr tr' f P L. rewrite map_length, predictions_length in L. unfold labels_of in L.
  rewrite map_length in L.
  assert (C : forall t : list (Z * (nat -> A)), combine (labels_of t) (map f (predictions_of 1 t)) =
               map (fun e => (fst e, f (snd e O))) t).
  { intros t. unfold predictions_of. cbn [seq map concat]. rewrite app_nil_r, map_map. unfold labels_of.
    induction t as [|e t IH]; [reflexivity|]. cbn [map combine]. now rewrite IH. }
  destruct tr as [|e tr0] eqn:E.
  - apply Permutation_nil in P. rewrite P. apply Permutation_refl.
  - assert (r = 1%nat) by (simpl in L; nia). rewrite H, !C. now apply Permutation_map.
Qed.

Lemma DFy_fit_perm : forall ppf N fuel kind nb strat crit r (tr tr' : list (Z * (nat -> list R))),
  Permutation tr tr' ->
  DFy_fit ppf N fuel kind nb strat crit (labels_of tr) (predictions_of r tr) =
  DFy_fit ppf N fuel kind nb strat crit (labels_of tr') (predictions_of r tr').
Proof.
  intros ppf N fuel kind nb strat crit r tr tr' P. unfold DFy_fit.
  pose proof (labels_perm tr tr' P) as Py. pose proof (predictions_of_perm r tr tr' P) as Px.
  assert (EC : DFy_cuts ppf nb strat (labels_of tr) (predictions_of r tr) =
               DFy_cuts ppf nb strat (labels_of tr') (predictions_of r tr')).
  { unfold DFy_cuts. rewrite <- (np_unique_perm _ _ Py). f_equal. apply map_ext. intros d.
    apply compute_bincuts_perm; auto.
    - unfold col. now apply Permutation_map.
    - intros L. now apply once_or_none. }
  rewrite EC. clear EC. destruct (DFy_cuts _ _ _ _ _) as [cuts| |]; [|reflexivity|reflexivity]. cbn [obind].
  rewrite <- (np_unique_perm _ _ Py). rewrite !y_ext_predictions.
  apply fit_matching_perm.
  - now apply Permutation_length.
  - rewrite !repeated_labels_length. now apply Permutation_length.
  - intros a b H. now apply dfy_perm.
  - intros _. now apply combine_repeated_perm.
Qed.

Lemma Friedman_fit_perm : forall N fuel crit r (tr tr' : list (Z * (nat -> list R))), Permutation tr tr' ->
  FriedmanME_fit N fuel crit (labels_of tr) (predictions_of r tr) =
  FriedmanME_fit N fuel crit (labels_of tr') (predictions_of r tr').
Proof.
  intros N fuel crit r tr tr' P. unfold FriedmanME_fit.
  pose proof (labels_perm tr tr' P) as Py. pose proof (predictions_of_perm r tr tr' P) as Px.
  rewrite <- (np_unique_perm _ _ Py), <- (Permutation_length Py).
  rewrite (map_ext (fun c => INR (zcount c (labels_of tr')) / INR (length (labels_of tr)))
             (fun c => INR (zcount c (labels_of tr)) / INR (length (labels_of tr))))
    by (intros c; now rewrite (zcount_perm c _ _ Py)).
  rewrite !y_ext_predictions. apply fit_matching_perm.
  - now apply Permutation_length.
  - rewrite !repeated_labels_length. now apply Permutation_length.
  - intros a b H. now apply friedman_perm.
  - intros _. now apply combine_repeated_perm.
Qed.

Lemma PDFO_fit_perm : forall N fuel nb d meth r (tr tr' : list (Z * (nat -> list R))), Permutation tr tr' ->
  PDFO_fit N fuel nb d meth (labels_of tr) (predictions_of r tr) =
  PDFO_fit N fuel nb d meth (labels_of tr') (predictions_of r tr').
Proof.
  intros N fuel nb d meth r tr tr' P. unfold PDFO_fit.
  pose proof (labels_perm tr tr' P) as Py. pose proof (predictions_of_perm r tr tr' P) as Px.
  rewrite <- (np_unique_perm _ _ Py). destruct (Nat.leb _ _); [reflexivity|].
  rewrite !y_ext_predictions.
  destruct meth; try reflexivity; (apply fit_matching_perm;
   [now apply Permutation_length|rewrite !repeated_labels_length; now apply Permutation_length
   |intros a b H; now apply pdfo_perm|intros _; now apply combine_repeated_perm]).
Qed.

Lemma ACOrdinal_fit_perm : forall N fuel r (tr tr' : list (Z * (nat -> Z))), Permutation tr tr' ->
  ACOrdinal_fit N fuel (labels_of tr) (predictions_of r tr) =
  ACOrdinal_fit N fuel (labels_of tr') (predictions_of r tr').
Proof.
  intros N fuel r tr tr' P. unfold ACOrdinal_fit. rewrite <- (AC_fit_perm r tr tr' P).
  now rewrite <- (np_unique_perm _ _ (labels_perm tr tr' P)).
Qed.

(** The examples of DFX are attribute vectors, used once. *)
Lemma DFX_fit_perm : forall ppf N fuel kind nb strat crit k (tr tr' : list (Z * list R)),
  Permutation tr tr' ->
  DFX_fit ppf N fuel kind nb strat crit (map fst tr) k (map snd tr) =
  DFX_fit ppf N fuel kind nb strat crit (map fst tr') k (map snd tr').
Proof.
  intros ppf N fuel kind nb strat crit k tr tr' P. unfold DFX_fit.
  assert (Py : Permutation (map fst tr) (map fst tr')) by now apply Permutation_map.
  assert (Px : Permutation (map snd tr) (map snd tr')) by now apply Permutation_map.
  assert (C : forall (t : list (Z * list R)) (B : Type) (f : list R -> B),
            combine (map fst t) (map f (map snd t)) = map (fun e => (fst e, f (snd e))) t).
  { induction t as [|e t IH]; intros B f; [reflexivity|]. simpl. now rewrite IH. }
  assert (EC : DFX_cuts ppf nb strat (map fst tr) k (map snd tr) =
               DFX_cuts ppf nb strat (map fst tr') k (map snd tr')).
  { unfold DFX_cuts. rewrite <- (np_unique_perm _ _ Py). f_equal. apply map_ext. intros d.
    apply compute_bincuts_perm; auto.
    - unfold col. now apply Permutation_map.
    - intros _. unfold col. rewrite !C. now apply Permutation_map. }
  rewrite EC. clear EC. destruct (DFX_cuts _ _ _ _ _ _) as [cuts| |]; [|reflexivity|reflexivity]. cbn [obind].
  rewrite <- (np_unique_perm _ _ Py). apply fit_matching_perm.
  - now apply Permutation_length.
  - now apply Permutation_length.
  - intros a b H. now apply dfx_perm.
  - intros _. pose proof (C tr _ (fun r => r)) as C1. pose proof (C tr' _ (fun r => r)) as C2.
    rewrite map_id in C1, C2. rewrite C1, C2. now apply Permutation_map.
Qed.
