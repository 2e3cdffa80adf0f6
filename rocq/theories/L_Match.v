(** * Proofs about histograms and representations. *)

From Coq Require Import Reals List ZArith Lia Lra Bool Arith Permutation.
From Verif Require Import Num Spec L_Num M_Baselines L_Baselines M_Bags L_Bags M_Search M_Optim Spec_Optim
  L_Optim2 L_Optim4 M_Match Spec_Match.
Import ListNotations.
Open Scope R_scope.

(** ** Means *)

Definition ind (b : bool) : R := if b then 1 else 0.

Lemma mean_of_perm : forall {A} (f : A -> R) s s', Permutation s s' -> mean_of f s = mean_of f s'.
Proof.
  intros A f s s' H. unfold mean_of. rewrite (Permutation_length H).
  f_equal. apply rsum_perm. now apply Permutation_map.
Qed.

Lemma mean_of_repeated : forall {A} (f : A -> R) k s, (0 < k)%nat -> s <> [] ->
  mean_of f (repeated k s) = mean_of f s.
Proof.
  intros A f k s Hk Hs. unfold mean_of. rewrite rsum_map_repeated, repeated_length, mult_INR.
  assert (0 < INR k) by (apply INR_pos; auto). assert (0 < INR (length s)) by (apply length_pos; auto).
  field. lra.
Qed.

Lemma mean_of_plus : forall {A} (f g : A -> R) s,
  mean_of (fun x => f x + g x) s = mean_of f s + mean_of g s.
Proof.
  intros. unfold mean_of. rewrite rsum_map_plus. unfold Rdiv. ring.
Qed.

Lemma mean_of_sumn : forall {A} n (f : nat -> A -> R) s,
  mean_of (fun x => sumn n (fun i => f i x)) s = sumn n (fun i => mean_of (f i) s).
Proof.
  intros A n f s. induction n as [|n IH]; simpl.
  - unfold mean_of. replace (rsum (map (fun _ => 0) s)) with 0; [unfold Rdiv; ring|].
    clear. induction s; simpl; lra.
  - rewrite <- IH. apply mean_of_plus.
Qed.

Lemma mean_of_const : forall {A} (c : R) (s : list A), s <> [] -> mean_of (fun _ => c) s = c.
Proof.
  intros A c s H. unfold mean_of. assert (0 < INR (length s)) by (apply length_pos; auto).
  replace (rsum (map (fun _ => c) s)) with (INR (length s) * c); [field; lra|].
  clear. induction s; [simpl; lra|]. cbn [length map rsum]. rewrite S_INR. lra.
Qed.

Lemma mean_of_ext : forall {A} (f g : A -> R) s, (forall x, In x s -> f x = g x) ->
  mean_of f s = mean_of g s.
Proof. intros A f g s H. unfold mean_of. f_equal. f_equal. now apply map_ext_in. Qed.

Lemma mean_of_nonneg : forall {A} (f : A -> R) s, (forall x, 0 <= f x) -> 0 <= mean_of f s.
Proof.
  intros A f s H. unfold mean_of. destruct s as [|a s].
  - simpl. unfold Rdiv. lra.
  - apply Rmult_le_pos.
    + apply rsum_nonneg. apply Forall_forall. intros x Hx. apply in_map_iff in Hx.
      destruct Hx as (z & <- & _). auto.
    + left. apply Rinv_0_lt_compat. apply length_pos. discriminate.
Qed.

Lemma copies_mean : forall {A} (f : A -> R) ks (samples : list (list A)) bag,
  copies_of ks samples bag -> bag <> [] -> Forall (fun s => s <> []) samples ->
  mean_of f bag = sumn (length samples) (fun c =>
    nth c (copies_prevalences ks samples bag) 0 * mean_of f (nth c samples [])).
Proof.
  intros A f ks samples bag (L & P) Hb Hs.
  assert (HB : 0 < INR (length bag)) by (apply length_pos; auto).
  unfold mean_of at 1. rewrite (rsum_perm _ _ (Permutation_map f P)).
  unfold copies_prevalences. generalize dependent (INR (length bag)). intros B HB.
  clear P Hb. revert ks L. induction Hs as [|s samples Hs0 Hs IH]; intros ks L.
  - destruct ks; [|discriminate]. simpl. unfold Rdiv. ring.
  - destruct ks as [|k ks]; [discriminate|]. cbn [combine map concat fst snd length].
    rewrite map_app, rsum_app, rsum_map_repeated, sumn_Sl. cbn [nth].
    rewrite <- IH by (simpl in L; lia).
    rewrite mult_INR. unfold mean_of. assert (0 < INR (length s)) by (apply length_pos; auto).
    field. lra.
Qed.

Lemma copies_prevalences_distribution : forall {A} ks (samples : list (list A)) bag,
  copies_of ks samples bag -> bag <> [] ->
  distribution_over (length samples) (copies_prevalences ks samples bag).
Proof. intros A ks samples bag (L & P) Hb. apply copies_distribution; auto. Qed.

(** ** Representations that average a feature vector *)

Definition averages {A} (d : nat) (phi : nat -> A -> R) (rep : list A -> out (list R)) : Prop :=
  forall s, s <> [] -> rep s = Val (tabulate d (fun r => mean_of (phi r) s)).

Lemma averages_perm : forall {A} d phi (rep : list A -> out (list R)) s s',
  averages d phi rep -> s <> [] -> Permutation s s' -> rep s = rep s'.
Proof.
  intros A d phi rep s s' H Hs P. rewrite !H.
  - f_equal. unfold tabulate. apply map_ext. intros r. now apply mean_of_perm.
  - intros ->. apply Permutation_sym, Permutation_nil in P. auto.
  - auto.
Qed.

Lemma averages_repeated : forall {A} d phi (rep : list A -> out (list R)) k s,
  averages d phi rep -> s <> [] -> (0 < k)%nat -> rep (repeated k s) = rep s.
Proof.
  intros A d phi rep k s H Hs Hk. rewrite !H; auto.
  - f_equal. unfold tabulate. apply map_ext. intros r. now apply mean_of_repeated.
  - intros E. apply (f_equal (@length A)) in E. rewrite repeated_length in E.
    destruct s; [congruence|]. destruct k; simpl in E; lia.
Qed.

Lemma tabulate_ext : forall {A} n (f g : nat -> A), (forall i, (i < n)%nat -> f i = g i) ->
  tabulate n f = tabulate n g.
Proof. intros A n f g H. unfold tabulate. apply map_ext_in. intros i Hi. apply in_seq in Hi. apply H. lia. Qed.

Lemma cumsum_from_tabulate : forall n acc f,
  cumsum_from acc (tabulate n f) = tabulate n (fun r => acc + sumn (S r) f).
Proof.
  induction n as [|n IH]; intros acc f; [reflexivity|].
  unfold tabulate in *. rewrite <- cons_seq, <- seq_shift. cbn [map cumsum_from]. rewrite !map_map.
  f_equal; [simpl; lra|]. rewrite (IH (acc + f O) (fun i => f (S i))).
  apply map_ext. intros r. rewrite (sumn_Sl (S r)). lra.
Qed.

Lemma cumsum_tabulate : forall n f, cumsum (tabulate n f) = tabulate n (fun r => sumn (S r) f).
Proof.
  intros n f. unfold cumsum. rewrite cumsum_from_tabulate. apply tabulate_ext. intros; lra.
Qed.

Lemma firstn_tabulate : forall {A} k n (f : nat -> A), (k <= n)%nat ->
  firstn k (tabulate n f) = tabulate k f.
Proof.
  intros A k n f H. unfold tabulate. rewrite firstn_map. f_equal.
  replace n with (k + (n - k))%nat by lia. rewrite seq_app, firstn_app, seq_length, Nat.sub_diag.
  simpl. rewrite app_nil_r. rewrite <- (seq_length k 0) at 1. apply firstn_all.
Qed.

Lemma map_combine_seq : forall {A B} (f : nat * A -> B) (d : A) l,
  map f (combine (seq 0 (length l)) l) = map (fun i => f (i, nth i l d)) (seq 0 (length l)).
Proof.
  intros A B f d l.
  assert (G : forall l k, map f (combine (seq k (length l)) l) =
    map (fun i => f ((k + i)%nat, nth i l d)) (seq 0 (length l))).
  { clear l. induction l as [|a l IH]; intros k; [reflexivity|].
    cbn [length seq combine map]. rewrite Nat.add_0_r. f_equal.
    rewrite IH, <- seq_shift, map_map. apply map_ext. intros i. cbn [nth]. f_equal. f_equal. lia. }
  apply G.
Qed.

Lemma nth_concat_uniform : forall {A} nb (ls : list (list A)) b k d,
  Forall (fun l => length l = nb) ls -> (k < nb)%nat ->
  nth (b * nb + k) (concat ls) d = nth k (nth b ls []) d.
Proof.
  intros A nb ls b k d H Hk. revert b. induction H as [|l ls Hl H IH]; intros b.
  - simpl. destruct b; destruct k; destruct nb; reflexivity || (destruct (_ + _)%nat; reflexivity).
  - cbn [concat]. destruct b as [|b].
    + simpl. rewrite app_nth1 by lia. reflexivity.
    + cbn [nth]. rewrite app_nth2 by (simpl; lia). rewrite <- IH. f_equal. simpl. lia.
Qed.

Lemma concat_uniform_length : forall {A} nb (ls : list (list A)),
  Forall (fun l => length l = nb) ls -> length (concat ls) = (length ls * nb)%nat.
Proof.
  intros A nb ls H. induction H; simpl; [reflexivity|]. rewrite app_length, IHForall. lia.
Qed.

Lemma concat_tabulate : forall {A} nd nb (f : nat -> nat -> A), (0 < nb)%nat ->
  concat (map (fun b => tabulate nb (f b)) (seq 0 nd)) =
  tabulate (nb * nd) (fun r => f (r / nb)%nat (r mod nb)).
Proof.
  intros A nd nb f Hnb.
  assert (U : Forall (fun l : list A => length l = nb) (map (fun b => tabulate nb (f b)) (seq 0 nd))).
  { apply Forall_forall. intros l Hl. apply in_map_iff in Hl. destruct Hl as (b & <- & _).
    apply tabulate_length. }
  apply (nth_ext _ _ (f 0 0)%nat (f 0 0)%nat).
  - rewrite (concat_uniform_length nb) by auto. rewrite map_length, seq_length, tabulate_length. lia.
  - intros r Hr. rewrite (concat_uniform_length nb), map_length, seq_length in Hr by auto.
    rewrite tabulate_nth by lia.
    rewrite (Nat.div_mod r nb) at 1 by lia. rewrite (Nat.mul_comm nb (r / nb)).
    assert (Hd : (r / nb < nd)%nat) by (apply Nat.div_lt_upper_bound; lia).
    rewrite (nth_concat_uniform nb) by (auto; apply Nat.mod_upper_bound; lia).
    rewrite (nth_indep _ [] (tabulate nb (f O))) by (now rewrite map_length, seq_length).
    rewrite (map_nth (fun b => tabulate nb (f b))), seq_nth by auto. simpl.
    apply tabulate_nth. apply Nat.mod_upper_bound. lia.
Qed.

(** ** Histograms *)

Lemma edge_le_spec : forall e f, edge_le e f = true <-> edge_before e f.
Proof.
  intros [|a|] [|b|]; simpl; try (split; [auto|reflexivity]); try (split; [discriminate|contradiction]).
  destruct (Rle_dec a b); split; auto; discriminate.
Qed.

Lemma non_decreasing_spec : forall edges, non_decreasing edges = true <-> ascending_edges edges.
Proof.
  induction edges as [|e edges IH].
  - split; [intros _ i Hi; simpl in Hi; lia|reflexivity].
  - destruct edges as [|f edges].
    + split; [intros _ i Hi; simpl in Hi; lia|reflexivity].
    + change (non_decreasing (e :: f :: edges)) with (edge_le e f && non_decreasing (f :: edges)).
      rewrite andb_true_iff, edge_le_spec, IH. split.
      * intros [H1 H2] [|i] Hi; [exact H1|]. apply H2. simpl in *. lia.
      * intros H. split; [apply (H O); simpl; lia|]. intros i Hi. apply (H (S i)). simpl in *. lia.
Qed.

Lemma below_spec : forall e x, below e x = true <-> value_below x e.
Proof.
  intros [|a|] x; simpl; try (split; [discriminate|contradiction]); try (split; auto; reflexivity).
  destruct (Rlt_dec x a); split; auto; discriminate.
Qed.

Lemma at_most_spec : forall e x, at_most e x = true <-> value_at_most x e.
Proof.
  intros [|a|] x; simpl; try (split; [discriminate|contradiction]); try (split; auto; reflexivity).
  destruct (Rle_dec x a); split; auto; discriminate.
Qed.

(** Values before the end of bin [i - 1]. *)
Definition before (edges : list edge) (i : nat) (x : R) : bool :=
  if Nat.eqb (S i) (length edges) then at_most (nth i edges PosInf) x else below (nth i edges PosInf) x.

Definition in_binb (edges : list edge) (i : nat) (x : R) : bool :=
  negb (below (nth i edges PosInf) x) && before edges (S i) x.

Lemma in_binb_spec : forall edges i x, in_binb edges i x = true <-> in_bin edges i x.
Proof.
  intros edges i x. unfold in_binb, in_bin, before. rewrite andb_true_iff, negb_true_iff.
  rewrite <- below_spec. rewrite <- not_true_iff_false.
  destruct (Nat.eqb (S (S i)) (length edges)); [rewrite at_most_spec|rewrite <- below_spec]; tauto.
Qed.

Lemma filter_difference : forall {A} (f g : A -> bool) l, (forall x, f x = true -> g x = true) ->
  (length (filter g l) - length (filter f l))%nat = length (filter (fun x => negb (f x) && g x) l) /\
  (length (filter f l) <= length (filter g l))%nat.
Proof.
  intros A f g l H. induction l as [|a l [IH1 IH2]]; [simpl; lia|].
  cbn [filter]. destruct (f a) eqn:F; [rewrite (H a F)|]; cbn [negb andb length]; [lia|].
  destruct (g a); cbn [andb length]; lia.
Qed.

Lemma below_mono : forall e f x, edge_before e f -> below e x = true -> below f x = true.
Proof.
  intros [|a|] [|b|] x H; simpl in *; auto; try contradiction; try discriminate.
  destruct (Rlt_dec x a), (Rlt_dec x b); auto; lra.
Qed.

Lemma below_at_most : forall e x, below e x = true -> at_most e x = true.
Proof.
  intros [|a|] x; simpl; auto. destruct (Rlt_dec x a), (Rle_dec x a); auto; lra.
Qed.

Lemma histogram_counts : forall x edges, ascending_edges edges ->
  histogram x edges = Val (tabulate (length edges - 1) (fun i => length (filter (in_binb edges i) x))).
Proof.
  intros x edges H. unfold histogram. rewrite (proj2 (non_decreasing_spec edges) H). f_equal.
  apply tabulate_ext. intros i Hi. unfold cum_n.
  destruct (Nat.eqb_spec (S i) (length edges)) as [E|_]; [lia|].
  assert (Hb : forall v, below (nth i edges PosInf) v = true -> before edges (S i) v = true).
  { intros v Hv. apply (below_mono _ (nth (S i) edges PosInf)) in Hv; [|apply H; lia].
    unfold before. destruct (Nat.eqb _ _); auto using below_at_most. }
  destruct (filter_difference (below (nth i edges PosInf)) (before edges (S i)) x Hb) as [E _].
  unfold in_binb. rewrite <- E. unfold before.
  destruct (Nat.eqb (S (S i)) (length edges)); reflexivity.
Qed.

Lemma histogram_ascending : forall x edges h, histogram x edges = Val h -> ascending_edges edges.
Proof.
  intros x edges h H. unfold histogram in H. destruct (non_decreasing edges) eqn:E; [|discriminate].
  now apply non_decreasing_spec.
Qed.

Lemma count_mean : forall {A} (f : A -> bool) l,
  INR (length (filter f l)) / INR (length l) = mean_of (fun x => ind (f x)) l.
Proof.
  intros A f l. unfold mean_of. f_equal. induction l as [|a l IH]; [reflexivity|].
  simpl. destruct (f a); cbn [ind length]; rewrite ?S_INR, IH; lra.
Qed.

(** Every value is in exactly one bin of covering cuts. *)
Lemma sum_bins : forall edges x k, ascending_edges edges -> (S k < length edges)%nat ->
  below (nth 0 edges PosInf) x = false ->
  sumn (S k) (fun i => ind (in_binb edges i x)) = ind (before edges (S k) x).
Proof.
  intros edges x k H Hk H0. induction k as [|k IH].
  - simpl. unfold in_binb. rewrite H0. simpl. lra.
  - change (sumn (S (S k)) (fun i => ind (in_binb edges i x))) with
      (sumn (S k) (fun i => ind (in_binb edges i x)) + ind (in_binb edges (S k) x)).
    rewrite IH by lia. unfold in_binb.
    assert (E : before edges (S k) x = below (nth (S k) edges PosInf) x).
    { unfold before. destruct (Nat.eqb_spec (S (S k)) (length edges)); [lia|reflexivity]. }
    rewrite E. destruct (below (nth (S k) edges PosInf) x) eqn:B; cbn [negb andb].
    + replace (before edges (S (S k)) x) with true; [unfold ind; lra|]. symmetry.
      apply (below_mono _ (nth (S (S k)) edges PosInf)) in B; [|apply H; lia].
      unfold before. destruct (Nat.eqb _ _); auto using below_at_most.
    + cbn [ind]. lra.
Qed.

Lemma covering_sum : forall n cuts x, (0 < n)%nat -> covering_cuts n cuts ->
  sumn n (fun i => ind (in_binb cuts i x)) = 1.
Proof.
  intros n cuts x Hn (L & H0 & HN & HA). destruct n as [|n]; [lia|].
  rewrite sum_bins by (auto; lia || (rewrite H0; reflexivity)). unfold before.
  rewrite L, Nat.eqb_refl.
  rewrite (nth_indep cuts PosInf NegInf) by lia. rewrite HN. reflexivity.
Qed.

(** ** DFy and DFX *)

Definition good_cuts (nb : nat) (cuts : list (list edge)) : Prop :=
  Forall (fun c => length c = S nb /\ ascending_edges c) cuts.

Definition bin_feature (cuts : list (list edge)) (b k : nat) (row : list R) : R :=
  ind (in_binb (nth b cuts []) k (nth b row 0)).

Lemma collect_val : forall {A B} (f : A -> out B) (g : A -> B) l, (forall a, In a l -> f a = Val (g a)) ->
  collect (map f l) = Val (map g l).
Proof.
  intros A B f g l H. induction l as [|a l IH]; [reflexivity|].
  simpl. rewrite H by (now left). simpl. rewrite IH by (intros; apply H; now right). reflexivity.
Qed.

Lemma collect_inv : forall {A} (l : list (out A)) vs, collect l = Val vs -> l = map Val vs.
Proof.
  intros A l. induction l as [|o l IH]; intros vs H; simpl in H; [inversion H; reflexivity|].
  destruct o as [a| |]; try discriminate. simpl in H.
  destruct (collect l) as [vs'| |]; try discriminate. simpl in H. inversion H; subst.
  simpl. f_equal. apply IH. reflexivity.
Qed.

Lemma df_blocks_val : forall nb cuts rows, good_cuts nb cuts -> rows <> [] ->
  df_blocks cuts rows = Val (map (fun b => tabulate nb (fun k => mean_of (bin_feature cuts b k) rows))
                                 (seq 0 (length cuts))).
Proof.
  intros nb cuts rows HG Hr. unfold df_blocks. destruct rows as [|r0 rows0]; [congruence|].
  set (rows := r0 :: rows0) in *.
  rewrite (map_combine_seq _ []). cbn [fst snd].
  rewrite (collect_val _ (fun b => tabulate nb (fun k =>
     length (filter (in_binb (nth b cuts []) k) (col b rows))))).
  - cbn [omap obind]. f_equal. rewrite map_map. apply map_ext. intros b.
    unfold vdiv, tabulate. rewrite !map_map. apply map_ext. intros k.
    replace (length rows) with (length (col b rows)) by (unfold col; now rewrite map_length).
    rewrite count_mean. unfold mean_of, col, bin_feature. rewrite map_map, !map_length. reflexivity.
  - intros b Hb. apply in_seq in Hb.
    assert (HC : length (nth b cuts []) = S nb /\ ascending_edges (nth b cuts [])).
    { unfold good_cuts in HG. rewrite Forall_forall in HG. apply HG. apply nth_In. lia. }
    destruct HC as [L HA]. rewrite histogram_counts by auto. rewrite L.
    replace (S nb - 1)%nat with nb by lia. reflexivity.
Qed.

Lemma pdf_averages : forall nb cuts, (0 < nb)%nat -> good_cuts nb cuts ->
  averages (nb * length cuts) (fun r => bin_feature cuts (r / nb) (r mod nb)) (dfy_represent PDF cuts) /\
  averages (nb * length cuts) (fun r => bin_feature cuts (r / nb) (r mod nb)) (dfx_represent PDF cuts).
Proof.
  intros nb cuts Hnb HG.
  split; intros s Hs; unfold dfy_represent, dfx_represent;
    rewrite (df_blocks_val nb) by auto; cbn [omap obind]; f_equal;
    apply (concat_tabulate (length cuts) nb (fun b k => mean_of (bin_feature cuts b k) s)); auto.
Qed.

Lemma dfx_cdf_averages : forall nb cuts, (0 < nb)%nat -> good_cuts nb cuts ->
  averages (nb * length cuts)
    (fun r row => sumn (S (r mod nb)) (fun k => bin_feature cuts (r / nb) k row))
    (dfx_represent CDF cuts).
Proof.
  intros nb cuts Hnb HG s Hs. unfold dfx_represent. rewrite (df_blocks_val nb) by auto.
  cbn [omap obind]. f_equal. rewrite map_map.
  rewrite (map_ext _ (fun b => tabulate nb (fun k =>
     mean_of (fun row => sumn (S k) (fun k => bin_feature cuts b k row)) s))).
  - apply (concat_tabulate (length cuts) nb (fun b k =>
      mean_of (fun row => sumn (S k) (fun k => bin_feature cuts b k row)) s)); auto.
  - intros b. rewrite cumsum_tabulate. apply tabulate_ext. intros k Hk.
    symmetry. apply mean_of_sumn.
Qed.

Lemma dfy_cdf_averages : forall nb cuts, (0 < nb)%nat -> good_cuts nb cuts ->
  averages (nb * length cuts)
    (fun r row => sumn (S r) (fun i => bin_feature cuts (i / nb) (i mod nb) row))
    (dfy_represent CDF cuts).
Proof.
  intros nb cuts Hnb HG s Hs. unfold dfy_represent. rewrite (df_blocks_val nb) by auto.
  cbn [omap obind]. f_equal.
  rewrite (concat_tabulate (length cuts) nb (fun b k => mean_of (bin_feature cuts b k) s)) by auto.
  rewrite cumsum_tabulate. apply tabulate_ext. intros r Hr. symmetry.
  apply (mean_of_sumn (S r) (fun i => bin_feature cuts (i / nb) (i mod nb))).
Qed.

Lemma sumn_blocks : forall nb b f, sumn (b * nb) f =
  sumn b (fun i => sumn nb (fun k => f (i * nb + k)%nat)).
Proof.
  intros nb b f. induction b as [|b IH]; [reflexivity|].
  replace (S b * nb)%nat with (b * nb + nb)%nat by (simpl; lia). rewrite sumn_split, IH. reflexivity.
Qed.

Lemma div_block : forall nb b k, (k < nb)%nat -> ((b * nb + k) / nb = b /\ (b * nb + k) mod nb = k)%nat.
Proof.
  intros nb b k H. rewrite Nat.add_comm. split.
  - rewrite Nat.div_add by lia. rewrite Nat.div_small; lia.
  - rewrite Nat.mod_add by lia. now apply Nat.mod_small.
Qed.

Lemma sum_bin_feature : forall nb cuts b row, (0 < nb)%nat -> covering_cuts nb (nth b cuts []) ->
  sumn nb (fun k => bin_feature cuts b k row) = 1.
Proof. intros. unfold bin_feature. apply covering_sum; auto. Qed.

(** DFy's cumulative features: [b] plus those of DFX. *)
Lemma dfy_cdf_feature : forall nb cuts b k row, (k < nb)%nat -> (b < length cuts)%nat ->
  Forall (covering_cuts nb) cuts ->
  sumn (S (b * nb + k)) (fun i => bin_feature cuts (i / nb) (i mod nb) row) =
  INR b + sumn (S k) (fun i => bin_feature cuts b i row).
Proof.
  intros nb cuts b k row Hk Hb HC.
  replace (S (b * nb + k)) with (b * nb + S k)%nat by lia. rewrite sumn_split, sumn_blocks. f_equal.
  - rewrite (sumn_ext b _ (fun _ => 1)); [rewrite sumn_const; ring|].
    intros i Hi. rewrite (sumn_ext nb _ (fun k => bin_feature cuts i k row)).
    + apply sum_bin_feature; [lia|]. rewrite Forall_forall in HC. apply HC, nth_In. lia.
    + intros j Hj. destruct (div_block nb i j Hj) as [-> ->]. reflexivity.
  - apply sumn_ext. intros j Hj. destruct (div_block nb b j) as [-> ->]; [lia|]. reflexivity.
Qed.

Lemma covering_good : forall nb cuts, Forall (covering_cuts nb) cuts -> good_cuts nb cuts.
Proof.
  intros nb cuts H. unfold good_cuts. eapply Forall_impl; [|exact H].
  intros c (L & _ & _ & A). auto.
Qed.

(** ** FriedmanME, PDFOrdinaly and ACOrdinal *)

Lemma friedman_averages : forall prevs,
  averages (length prevs) (fun c (r : list R) => if Rle_dec (nth c prevs 0) (nth c r 0) then 1 else 0)
    (friedman_represent prevs).
Proof.
  intros prevs s Hs. unfold friedman_represent. destruct s as [|r s]; [congruence|].
  f_equal. apply tabulate_ext. intros c Hc. unfold rmean, mean_of. now rewrite map_length.
Qed.

Lemma class_frequencies_averages : forall classes s, s <> [] ->
  class_frequencies classes s =
  Val (tabulate (length classes) (fun i => mean_of (fun z => ind (Z.eqb z (nth i classes 0%Z))) s)).
Proof.
  intros classes s Hs. unfold class_frequencies. destruct s as [|z0 s0]; [congruence|].
  set (s := z0 :: s0). f_equal. apply (nth_ext _ _ 0 0).
  - now rewrite map_length, tabulate_length.
  - intros i Hi. rewrite map_length in Hi. rewrite tabulate_nth by auto.
    rewrite (nth_indep _ 0 (INR (zcount (nth i classes 0%Z) s) / INR (length s)))
      by (now rewrite map_length).
    rewrite (nth_indep _ _ ((fun c => INR (zcount c s) / INR (length s)) 0%Z))
      by (now rewrite map_length).
    rewrite (map_nth (fun c => INR (zcount c s) / INR (length s))).
    rewrite <- count_mean. f_equal. f_equal. clear. unfold zcount. induction s as [|a s IH]; [reflexivity|].
    simpl. destruct (Z.eq_dec a (nth i classes 0%Z)) as [E|E], (Z.eqb_spec a (nth i classes 0%Z));
      try contradiction; simpl; congruence.
Qed.

Lemma aco_averages : forall classes,
  averages (length classes)
    (fun r z => sumn (S r) (fun i => ind (Z.eqb z (nth i classes 0%Z)))) (aco_represent classes).
Proof.
  intros classes s Hs. unfold aco_represent. rewrite class_frequencies_averages by auto.
  cbn [omap obind]. f_equal. rewrite cumsum_tabulate. apply tabulate_ext. intros r Hr.
  symmetry. apply (mean_of_sumn (S r) (fun i z => ind (Z.eqb z (nth i classes 0%Z)))).
Qed.

Definition pdfo_edges (bins n : nat) : list edge := map Fin (uniform_edges bins 1 (INR n)).

Lemma uniform_edges_nth : forall n a b i, a <> b -> (i <= n)%nat ->
  nth i (uniform_edges n a b) 0 = a + INR i * ((b - a) / INR n).
Proof.
  intros n a b i H Hi. unfold uniform_edges. destruct (Req_EM_T a b); [contradiction|].
  rewrite tabulate_nth by lia. reflexivity.
Qed.

Lemma uniform_edges_length : forall n a b, length (uniform_edges n a b) = S n.
Proof.
  intros. unfold uniform_edges. destruct (if Req_EM_T a b then _ else _). apply tabulate_length.
Qed.

Lemma uniform_ascending : forall n a b i, (0 < n)%nat -> a <= b -> (i < n)%nat ->
  nth i (uniform_edges n a b) 0 < nth (S i) (uniform_edges n a b) 0.
Proof.
  intros n a b i Hn Hab Hi. assert (0 < INR n) by (apply INR_pos; lia).
  unfold uniform_edges. destruct (Req_EM_T a b) as [E|E]; rewrite !tabulate_nth by lia; rewrite S_INR.
  - assert (0 < (b + 1/2 - (a - 1/2)) / INR n) by (apply Rdiv_lt_0_compat; lra). lra.
  - assert (0 < (b - a) / INR n) by (apply Rdiv_lt_0_compat; lra). lra.
Qed.

Lemma map_fin_ascending : forall l, ascending l -> ascending_edges (map Fin l).
Proof.
  intros l H i Hi. rewrite map_length in Hi.
  rewrite (nth_indep _ PosInf (Fin 0)) by (rewrite map_length; lia).
  rewrite (nth_indep _ PosInf (Fin 0)) by (rewrite map_length; lia).
  rewrite !(map_nth Fin). simpl. apply H. auto.
Qed.

Lemma uniform_edges_ascending : forall n a b, (0 < n)%nat -> a <= b -> ascending (uniform_edges n a b).
Proof.
  intros n a b Hn Hab i Hi. rewrite uniform_edges_length in Hi. left. apply uniform_ascending; auto. lia.
Qed.

Definition pdfo_feature (n_bins n : nat) (m : scoring) (k : nat) (r : list R) : R :=
  ind (in_binb (pdfo_edges (n_bins * (n - 1)) n) k (pdfo_score m n r)).

Lemma pdfo_averages : forall n_bins n m, (0 < n_bins)%nat -> (2 <= n)%nat ->
  averages (n_bins * (n - 1)) (pdfo_feature n_bins n m) (pdfo_represent n_bins n m false) /\
  averages (n_bins * (n - 1) - 1) (fun k r => sumn (S k) (fun i => pdfo_feature n_bins n m i r))
    (pdfo_represent n_bins n m true).
Proof.
  intros n_bins n m Hb Hn. set (bins := (n_bins * (n - 1))%nat).
  assert (H0 : (0 < bins)%nat) by (unfold bins; apply Nat.mul_pos_pos; lia).
  assert (G : forall s emd, s <> [] -> pdfo_represent n_bins n m emd s =
    Val (let t := tabulate bins (fun k => mean_of (pdfo_feature n_bins n m k) s) in
         if emd then firstn (bins - 1) (cumsum t) else t)).
  { intros s emd Hs. unfold pdfo_represent. fold bins. destruct bins as [|b'] eqn:EB; [lia|].
    rewrite <- EB in *. destruct s as [|r0 s0]; [congruence|]. set (s := r0 :: s0) in *.
    assert (HA : ascending_edges (pdfo_edges bins n)).
    { apply map_fin_ascending, uniform_edges_ascending; auto.
      change 1 with (INR 1). apply le_INR. lia. }
    unfold pdfo_edges in HA.
    rewrite histogram_counts by auto. rewrite map_length, uniform_edges_length.
    replace (S bins - 1)%nat with bins by lia. cbn [omap obind]. f_equal.
    assert (ET : vdiv (map INR (tabulate bins (fun i => length (filter
        (in_binb (map Fin (uniform_edges bins 1 (INR n))) i) (map (pdfo_score m n) s))))) (INR (length s))
      = tabulate bins (fun k => mean_of (pdfo_feature n_bins n m k) s)).
    { unfold vdiv, tabulate. rewrite !map_map. apply map_ext. intros k.
      replace (length s) with (length (map (pdfo_score m n) s)) by apply map_length.
      rewrite count_mean. unfold mean_of, pdfo_feature, pdfo_edges. fold bins.
      rewrite map_map, !map_length. reflexivity. }
    rewrite ET. reflexivity. }
  split; intros s Hs; rewrite G by auto; cbv zeta; [reflexivity|].
  rewrite cumsum_tabulate, firstn_tabulate by lia. f_equal. apply tabulate_ext. intros k Hk.
  symmetry. apply (mean_of_sumn (S k)).
Qed.
