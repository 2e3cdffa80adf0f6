(** * Lemmas about the shared vocabulary. *)

From Coq Require Import Reals List ZArith Lia Lra Permutation Sorted.
From Verif Require Import Num Spec.
Import ListNotations.
Open Scope R_scope.

(** ** rsum *)

Lemma rsum_app : forall a b, rsum (a ++ b) = rsum a + rsum b.
Proof. induction a; simpl; intros; [lra|]. rewrite IHa; lra. Qed.

Lemma rsum_map_plus : forall {A} (f g : A -> R) l,
  rsum (map (fun x => f x + g x) l) = rsum (map f l) + rsum (map g l).
Proof. induction l; simpl; lra. Qed.

Lemma rsum_map_minus : forall {A} (f g : A -> R) l,
  rsum (map (fun x => f x - g x) l) = rsum (map f l) - rsum (map g l).
Proof. induction l; simpl; lra. Qed.

Lemma rsum_map_scal : forall {A} c (f : A -> R) l,
  rsum (map (fun x => c * f x) l) = c * rsum (map f l).
Proof. induction l; simpl; lra. Qed.

Lemma rsum_map_scal_r : forall {A} c (f : A -> R) l,
  rsum (map (fun x => f x * c) l) = rsum (map f l) * c.
Proof. induction l; simpl; lra. Qed.

Lemma rsum_map_div : forall {A} c (f : A -> R) l,
  rsum (map (fun x => f x / c) l) = rsum (map f l) / c.
Proof. intros. unfold Rdiv. apply rsum_map_scal_r. Qed.

Lemma rsum_map_const : forall {A} c (l : list A),
  rsum (map (fun _ => c) l) = INR (length l) * c.
Proof.
  induction l; simpl length; simpl map; simpl rsum.
  - simpl; lra.
  - rewrite S_INR, IHl; lra.
Qed.

Lemma rsum_map_ext : forall {A} (f g : A -> R) l,
  (forall x, In x l -> f x = g x) -> rsum (map f l) = rsum (map g l).
Proof. intros. f_equal. apply map_ext_in; auto. Qed.

Lemma rsum_map_le : forall {A} (f g : A -> R) l,
  (forall x, In x l -> f x <= g x) -> rsum (map f l) <= rsum (map g l).
Proof.
  induction l; simpl; intros; [lra|].
  assert (f a <= g a) by auto. assert (rsum (map f l) <= rsum (map g l)) by auto. lra.
Qed.

Lemma rsum_nonneg : forall l, Forall (fun x => 0 <= x) l -> 0 <= rsum l.
Proof. induction 1; simpl; lra. Qed.

Lemma rsum_map_nonneg : forall {A} (f : A -> R) l,
  (forall x, In x l -> 0 <= f x) -> 0 <= rsum (map f l).
Proof.
  intros. apply rsum_nonneg. apply Forall_forall. intros y Hy.
  apply in_map_iff in Hy. destruct Hy as [x [<- Hx]]; auto.
Qed.

Lemma rsum_in_le : forall l x, Forall (fun x => 0 <= x) l -> In x l -> x <= rsum l.
Proof.
  induction l; simpl; intros; [tauto|]. inversion H; subst.
  assert (0 <= rsum l) by (apply rsum_nonneg; auto).
  destruct H0; [subst; lra|]. specialize (IHl x H4 H0). lra.
Qed.

Lemma rsum_zero_all : forall l, Forall (fun x => 0 <= x) l -> rsum l = 0 ->
  Forall (fun x => x = 0) l.
Proof.
  induction 1; intros; constructor; simpl in *;
    assert (0 <= rsum l) by (apply rsum_nonneg; auto); [lra|apply IHForall; lra].
Qed.

Lemma rsum_perm : forall a b, Permutation a b -> rsum a = rsum b.
Proof. induction 1; simpl; lra. Qed.

Lemma rsum_map_perm : forall {A} (f : A -> R) a b,
  Permutation a b -> rsum (map f a) = rsum (map f b).
Proof. intros. apply rsum_perm, Permutation_map, H. Qed.

Lemma rsum_concat : forall l, rsum (concat l) = rsum (map rsum l).
Proof. induction l; simpl; auto. rewrite rsum_app, IHl; auto. Qed.

Lemma rsum_repeat : forall x n, rsum (repeat x n) = INR n * x.
Proof.
  induction n; simpl repeat; simpl rsum; [simpl; lra|].
  rewrite IHn, S_INR; lra.
Qed.

Lemma rsum_map_swap : forall {A B} (f : A -> B -> R) la lb,
  rsum (map (fun a => rsum (map (f a) lb)) la) =
  rsum (map (fun b => rsum (map (fun a => f a b) la)) lb).
Proof.
  induction la; simpl; intros.
  - rewrite rsum_map_const; lra.
  - rewrite IHla, <- rsum_map_plus. reflexivity.
Qed.

Lemma rsum_Rabs_le : forall {A} (f : A -> R) l,
  Rabs (rsum (map f l)) <= rsum (map (fun x => Rabs (f x)) l).
Proof.
  induction l; simpl. rewrite Rabs_R0; lra.
  eapply Rle_trans; [apply Rabs_triang|]. lra.
Qed.

(** ** sumn *)

Lemma sumn_ext : forall n f g, (forall i, (i < n)%nat -> f i = g i) -> sumn n f = sumn n g.
Proof. induction n; simpl; intros; auto. rewrite (IHn f g), H; auto. Qed.

Lemma sumn_plus : forall n f g, sumn n (fun i => f i + g i) = sumn n f + sumn n g.
Proof. induction n; simpl; intros; [lra|]. rewrite IHn; lra. Qed.

Lemma sumn_minus : forall n f g, sumn n (fun i => f i - g i) = sumn n f - sumn n g.
Proof. induction n; simpl; intros; [lra|]. rewrite IHn; lra. Qed.

Lemma sumn_scal : forall n c f, sumn n (fun i => c * f i) = c * sumn n f.
Proof. induction n; simpl; intros; [lra|]. rewrite IHn; lra. Qed.

Lemma sumn_scal_r : forall n c f, sumn n (fun i => f i * c) = sumn n f * c.
Proof. induction n; simpl; intros; [lra|]. rewrite IHn; lra. Qed.

Lemma sumn_div : forall n c f, sumn n (fun i => f i / c) = sumn n f / c.
Proof. intros. unfold Rdiv. apply sumn_scal_r. Qed.

Lemma sumn_const : forall n c, sumn n (fun _ => c) = INR n * c.
Proof. induction n; intros; [simpl; lra|]. simpl sumn. rewrite IHn, S_INR. lra. Qed.

Lemma sumn_0 : forall n f, (forall i, (i < n)%nat -> f i = 0) -> sumn n f = 0.
Proof. intros. rewrite (sumn_ext n f (fun _ => 0)); auto. rewrite sumn_const; lra. Qed.

Lemma sumn_le : forall n f g, (forall i, (i < n)%nat -> f i <= g i) -> sumn n f <= sumn n g.
Proof.
  induction n; simpl; intros; [lra|].
  assert (sumn n f <= sumn n g) by auto. assert (f n <= g n) by auto. lra.
Qed.

Lemma sumn_nonneg : forall n f, (forall i, (i < n)%nat -> 0 <= f i) -> 0 <= sumn n f.
Proof. intros. rewrite <- (sumn_0 n (fun _ => 0)) by auto. apply sumn_le; auto. Qed.

Lemma sumn_swap : forall n m f,
  sumn n (fun i => sumn m (fun j => f i j)) = sumn m (fun j => sumn n (fun i => f i j)).
Proof.
  induction n; simpl; intros.
  - rewrite sumn_0; auto.
  - rewrite IHn, <- sumn_plus. reflexivity.
Qed.

Lemma sumn_Sl : forall n f, sumn (S n) f = f O + sumn n (fun i => f (S i)).
Proof. induction n; intros; [simpl; lra|]. change (sumn (S (S n)) f) with (sumn (S n) f + f (S n)). rewrite IHn. simpl. lra. Qed.

Lemma sumn_seq : forall n f, rsum (map f (seq 0 n)) = sumn n f.
Proof.
  induction n; intros; [reflexivity|]. rewrite seq_S, map_app, rsum_app, IHn. simpl. lra.
Qed.

Lemma rsum_tabulate : forall n f, rsum (tabulate n f) = sumn n f.
Proof. intros. apply sumn_seq. Qed.

Lemma sumn_nth : forall l, sumn (length l) (fun i => nth i l 0) = rsum l.
Proof.
  induction l; [reflexivity|]. simpl length. rewrite sumn_Sl. simpl. rewrite IHl. lra.
Qed.

Lemma sumn_single : forall n k f, (k < n)%nat ->
  (forall i, (i < n)%nat -> i <> k -> f i = 0) -> sumn n f = f k.
Proof.
  induction n; intros; [lia|]. simpl.
  destruct (Nat.eq_dec k n).
  - subst. rewrite sumn_0; [lra|]. intros; apply H0; lia.
  - rewrite (IHn k); [rewrite (H0 n); [lra|lia|lia]|lia|intros; apply H0; lia].
Qed.

Lemma sumn_Rabs_le : forall n f, Rabs (sumn n f) <= sumn n (fun i => Rabs (f i)).
Proof.
  induction n; simpl; intros. rewrite Rabs_R0; lra.
  eapply Rle_trans; [apply Rabs_triang|]. specialize (IHn f). lra.
Qed.

Lemma sumn_ge_term : forall n f k, (forall i, (i < n)%nat -> 0 <= f i) -> (k < n)%nat ->
  f k <= sumn n f.
Proof.
  induction n; intros; [lia|]. simpl.
  destruct (Nat.eq_dec k n).
  - subst. assert (0 <= sumn n f) by (apply sumn_nonneg; intros; apply H; lia). lra.
  - assert (f k <= sumn n f) by (apply IHn; [intros; apply H; lia|lia]).
    assert (0 <= f n) by (apply H; lia). lra.
Qed.

Lemma sumn_zero_all : forall n f, (forall i, (i < n)%nat -> 0 <= f i) -> sumn n f = 0 ->
  forall i, (i < n)%nat -> f i = 0.
Proof.
  intros. assert (f i <= sumn n f) by (apply sumn_ge_term; auto).
  specialize (H i H1). lra.
Qed.

Lemma sumn_split : forall n m f, sumn (n + m) f = sumn n f + sumn m (fun i => f (n + i)%nat).
Proof.
  induction m; intros.
  - rewrite Nat.add_0_r. simpl. lra.
  - rewrite Nat.add_succ_r. simpl. rewrite IHm. lra.
Qed.

(** ** tabulate, nth *)

Lemma tabulate_length : forall {A} n (f : nat -> A), length (tabulate n f) = n.
Proof. intros. unfold tabulate. rewrite map_length, seq_length. auto. Qed.

Lemma tabulate_nth : forall {A} n (f : nat -> A) i d, (i < n)%nat -> nth i (tabulate n f) d = f i.
Proof.
  intros. unfold tabulate. rewrite (nth_indep _ d (f O)) by (rewrite map_length, seq_length; auto).
  rewrite map_nth, seq_nth; auto.
Qed.

Lemma tabulate_ext : forall {A} n (f g : nat -> A), (forall i, (i < n)%nat -> f i = g i) ->
  tabulate n f = tabulate n g.
Proof. intros. apply map_ext_in. intros. apply in_seq in H0. apply H; lia. Qed.

Lemma tabulate_of_nth : forall l : list R, tabulate (length l) (fun i => nth i l 0) = l.
Proof.
  intros. apply (nth_ext _ _ 0 0). apply tabulate_length.
  intros. rewrite tabulate_length in H. rewrite tabulate_nth; auto.
Qed.

Lemma list_eq_nth : forall (a b : list R), length a = length b ->
  (forall i, (i < length a)%nat -> nth i a 0 = nth i b 0) -> a = b.
Proof. intros. apply (nth_ext _ _ 0 0); auto. Qed.

Lemma nth_map_R : forall {A} (f : A -> R) l i d, (i < length l)%nat ->
  nth i (map f l) 0 = f (nth i l d).
Proof.
  intros. rewrite (nth_indep _ 0 (f d)) by (rewrite map_length; auto). apply map_nth.
Qed.

(** ** clip *)

Lemma clip01_range : forall x, 0 <= clip01 x <= 1.
Proof.
  intros. unfold clip01, Rmin, Rmax. destruct (Rle_dec x 0); destruct (Rle_dec _ 1); lra.
Qed.

Lemma clip01_id : forall x, 0 <= x <= 1 -> clip01 x = x.
Proof.
  intros. unfold clip01. rewrite Rmax_left by lra. rewrite Rmin_left; lra.
Qed.

Lemma clip01_low : forall x, x <= 0 -> clip01 x = 0.
Proof. intros. unfold clip01. rewrite Rmax_right by lra. rewrite Rmin_left; lra. Qed.

Lemma clip01_high : forall x, 1 <= x -> clip01 x = 1.
Proof. intros. unfold clip01. rewrite Rmax_left by lra. rewrite Rmin_right; lra. Qed.

Lemma clip01_compl : forall p, clip01 (1 - p) + clip01 p = 1.
Proof.
  intros. destruct (Rle_dec p 0).
  - rewrite (clip01_low p), (clip01_high (1-p)); lra.
  - destruct (Rle_dec 1 p).
    + rewrite (clip01_high p), (clip01_low (1-p)); lra.
    + rewrite !clip01_id; lra.
Qed.

(** ** unique / count *)

Lemma zinsert_in : forall x a l, In a (zinsert x l) <-> a = x \/ In a l.
Proof.
  induction l; simpl; [intuition|].
  destruct (x <? a0)%Z eqn:E1; simpl; [intuition|].
  destruct (x =? a0)%Z eqn:E2; simpl.
  - apply Z.eqb_eq in E2; subst. intuition.
  - rewrite IHl. intuition.
Qed.

Lemma np_unique_in : forall a l, In a (np_unique l) <-> In a l.
Proof. induction l; simpl; [tauto|]. rewrite zinsert_in, IHl. intuition. Qed.

Lemma zinsert_sorted : forall x l, StronglySorted Z.lt l -> StronglySorted Z.lt (zinsert x l).
Proof.
  induction l; simpl; intros.
  - repeat constructor.
  - inversion H; subst.
    destruct (x <? a)%Z eqn:E1.
    + apply Z.ltb_lt in E1. constructor; [auto|]. constructor; auto.
      eapply Forall_impl; [|eauto]. intros; lia.
    + destruct (x =? a)%Z eqn:E2; [auto|]. apply Z.ltb_ge in E1. apply Z.eqb_neq in E2.
      constructor; [auto|]. apply Forall_forall. intros y Hy.
      apply zinsert_in in Hy. destruct Hy; [lia|]. rewrite Forall_forall in H3; auto.
Qed.

Lemma np_unique_sorted : forall l, StronglySorted Z.lt (np_unique l).
Proof. induction l; simpl; [constructor|]. apply zinsert_sorted; auto. Qed.

Lemma StronglySorted_lt_NoDup : forall l, StronglySorted Z.lt l -> NoDup l.
Proof.
  induction 1; constructor; auto. intro. rewrite Forall_forall in H0.
  specialize (H0 _ H1). lia.
Qed.

Lemma np_unique_NoDup : forall l, NoDup (np_unique l).
Proof. intros. apply StronglySorted_lt_NoDup, np_unique_sorted. Qed.

(** Two strictly sorted lists with the same elements are equal. *)
Lemma sorted_lt_ext : forall a b, StronglySorted Z.lt a -> StronglySorted Z.lt b ->
  (forall x, In x a <-> In x b) -> a = b.
Proof.
  induction a; intros.
  - destruct b; auto. exfalso. destruct (H1 z). apply H3. left; auto.
  - destruct b. exfalso. destruct (H1 a). apply H2; left; auto.
    inversion H; subst. inversion H0; subst.
    rewrite Forall_forall in H5, H7.
    assert (a = z).
    { destruct (H1 a) as [Ha _]. destruct (H1 z) as [_ Hz].
      destruct (Ha (or_introl eq_refl)); [auto|].
      destruct (Hz (or_introl eq_refl)); [auto|].
      specialize (H5 _ H3). specialize (H7 _ H2). lia. }
    subst. f_equal. apply IHa; auto.
    intros. split; intros.
    + destruct (H1 x) as [Hx _]. destruct (Hx (or_intror H2)); auto.
      subst. specialize (H5 _ H2). lia.
    + destruct (H1 x) as [_ Hx]. destruct (Hx (or_intror H2)); auto.
      subst. specialize (H7 _ H2). lia.
Qed.

Lemma np_unique_perm : forall a b, Permutation a b -> np_unique a = np_unique b.
Proof.
  intros. apply sorted_lt_ext; try apply np_unique_sorted.
  intros. rewrite !np_unique_in. split; apply Permutation_in; [auto|apply Permutation_sym; auto].
Qed.

Lemma zcount_perm : forall c a b, Permutation a b -> zcount c a = zcount c b.
Proof. intros. unfold zcount. apply (proj1 (Permutation_count_occ Z.eq_dec a b) H). Qed.

Lemma zcount_app : forall c a b, zcount c (a ++ b) = (zcount c a + zcount c b)%nat.
Proof. intros. unfold zcount. apply count_occ_app. Qed.

Lemma zcount_cons : forall c x l,
  zcount c (x :: l) = ((if Z.eq_dec x c then 1 else 0) + zcount c l)%nat.
Proof. intros. unfold zcount. simpl. destruct (Z.eq_dec x c); lia. Qed.

(** Summing the counts of all classes counts the elements whose label is a class. *)
Lemma sum_indicator : forall (x : Z) cls, NoDup cls ->
  rsum (map (fun c => if Z.eq_dec x c then 1 else 0) cls) = if in_dec Z.eq_dec x cls then 1 else 0.
Proof.
  induction 1; simpl; [reflexivity|]. rewrite IHNoDup.
  destruct (Z.eq_dec x x0); destruct (Z.eq_dec x0 x); subst; try congruence;
  destruct (in_dec Z.eq_dec _ l); try tauto; lra.
Qed.

Definition known (cls : list Z) (l : list Z) : nat :=
  length (filter (fun x => if in_dec Z.eq_dec x cls then true else false) l).

Lemma sum_zcount : forall cls l, NoDup cls ->
  rsum (map (fun c => INR (zcount c l)) cls) = INR (known cls l).
Proof.
  induction l; intros.
  - unfold known; simpl. rewrite rsum_map_const; simpl; lra.
  - rewrite (rsum_map_ext _ (fun c => (if Z.eq_dec a c then 1 else 0) + INR (zcount c l))).
    2:{ intros. rewrite zcount_cons, plus_INR. destruct (Z.eq_dec a x); simpl; lra. }
    rewrite rsum_map_plus, sum_indicator, IHl; auto.
    unfold known. simpl. destruct (in_dec Z.eq_dec a cls); simpl length;
    [rewrite S_INR|]; lra.
Qed.

Lemma known_le : forall cls l, (known cls l <= length l)%nat.
Proof.
  unfold known. induction l; simpl; [lia|].
  destruct (in_dec Z.eq_dec a cls); simpl; lia.
Qed.

Lemma known_all : forall cls l, known cls l = length l <-> (forall x, In x l -> In x cls).
Proof.
  split.
  - induction l; simpl; intros; [tauto|].
    unfold known in *; simpl in *.
    destruct (in_dec Z.eq_dec a cls); simpl in *.
    + destruct H0; [subst; auto|]. apply IHl; [lia|auto].
    + pose proof (known_le cls l). unfold known in *. lia.
  - induction l; simpl; intros; auto. unfold known in *; simpl.
    destruct (in_dec Z.eq_dec a cls); [simpl; rewrite IHl; auto|].
    exfalso; apply n, H; auto.
Qed.

Lemma INR_pos : forall n, (0 < n)%nat -> 0 < INR n.
Proof. intros. apply lt_0_INR; auto. Qed.

Lemma length_pos : forall {A} (l : list A), l <> [] -> 0 < INR (length l).
Proof. intros. apply INR_pos. destruct l; [congruence|simpl; lia]. Qed.

(** ** repeated *)

Lemma repeated_length : forall {A} k (b : list A), length (repeated k b) = (k * length b)%nat.
Proof.
  unfold repeated. induction b; simpl; [lia|]. rewrite app_length, repeat_length, IHb. lia.
Qed.

Lemma rsum_map_repeated : forall {A} (f : A -> R) k b,
  rsum (map f (repeated k b)) = INR k * rsum (map f b).
Proof.
  unfold repeated. induction b; simpl; [lra|].
  rewrite map_app, rsum_app, IHb.
  replace (map f (repeat a k)) with (repeat (f a) k).
  rewrite rsum_repeat; lra.
  clear. induction k; simpl; congruence.
Qed.

Lemma map_repeated : forall {A B} (f : A -> B) k b, map f (repeated k b) = repeated k (map f b).
Proof.
  unfold repeated. induction b; simpl; auto. rewrite map_app, IHb. f_equal.
  clear. induction k; simpl; congruence.
Qed.

Lemma zcount_repeat : forall c x k, zcount c (repeat x k) = (if Z.eq_dec x c then k else 0)%nat.
Proof.
  induction k; simpl repeat; [unfold zcount; simpl; destruct (Z.eq_dec x c); auto|].
  rewrite zcount_cons, IHk. destruct (Z.eq_dec x c); lia.
Qed.

Lemma zcount_repeated : forall c k l, zcount c (repeated k l) = (k * zcount c l)%nat.
Proof.
  unfold repeated. induction l; [unfold zcount; simpl; lia|].
  cbn [map concat]. rewrite zcount_app, zcount_repeat, zcount_cons, IHl. destruct (Z.eq_dec a c); lia.
Qed.

Lemma fraction_perm : forall c a b, Permutation a b -> fraction c a = fraction c b.
Proof.
  intros. unfold fraction. rewrite (zcount_perm c a b H), (Permutation_length H). auto.
Qed.

Lemma fraction_repeated : forall c k l, (0 < k)%nat -> l <> [] ->
  fraction c (repeated k l) = fraction c l.
Proof.
  intros. unfold fraction. rewrite zcount_repeated, repeated_length, !mult_INR.
  assert (0 < INR k) by (apply INR_pos; auto). assert (0 < INR (length l)) by (apply length_pos; auto).
  field. lra.
Qed.

Lemma rmean_perm : forall a b, Permutation a b -> rmean a = rmean b.
Proof. intros. unfold rmean. rewrite (rsum_perm a b H), (Permutation_length H). auto. Qed.

Lemma rmean_repeated : forall k l, (0 < k)%nat -> l <> [] -> rmean (repeated k l) = rmean l.
Proof.
  intros. unfold rmean. rewrite repeated_length, mult_INR.
  pose proof (rsum_map_repeated (fun x => x) k l). rewrite !map_id in H1. rewrite H1.
  assert (0 < INR k) by (apply INR_pos; auto). assert (0 < INR (length l)) by (apply length_pos; auto).
  field. lra.
Qed.

Lemma col_means_perm : forall k a b, Permutation a b -> col_means k a = col_means k b.
Proof.
  intros. unfold col_means. apply map_ext. intros. apply rmean_perm.
  unfold col. apply Permutation_map; auto.
Qed.

Lemma col_means_repeated : forall k m b, (0 < k)%nat -> b <> [] ->
  col_means m (repeated k b) = col_means m b.
Proof.
  intros. unfold col_means. apply map_ext. intros. unfold col.
  rewrite map_repeated. apply rmean_repeated; auto. destruct b; simpl; congruence.
Qed.

Lemma repeated_nil : forall {A} k (b : list A), (0 < k)%nat -> b <> [] -> repeated k b <> [].
Proof. intros. destruct b; [congruence|]. unfold repeated; simpl. destruct k; [lia|]. simpl. congruence. Qed.

(** The column means of distributions form a distribution. *)
Lemma col_means_length : forall k m, length (col_means k m) = k.
Proof. intros. unfold col_means. rewrite map_length, seq_length; auto. Qed.

Lemma col_means_sum : forall k m, m <> [] -> Forall (fun r => length r = k) m ->
  rsum (col_means k m) = rmean (map rsum m).
Proof.
  intros. unfold col_means, rmean, col.
  rewrite (rsum_map_ext _ (fun j => rsum (map (fun r => nth j r 0) m) / INR (length m)))
    by (intros; rewrite map_length; auto).
  rewrite rsum_map_div, map_length. f_equal.
  rewrite (rsum_map_swap (fun j r => nth j r 0)).
  apply rsum_map_ext. intros. rewrite Forall_forall in H0. specialize (H0 _ H1).
  rewrite sumn_seq, <- H0. apply sumn_nth.
Qed.

Lemma distribution_over_col_means : forall k m, m <> [] -> distributions k m ->
  distribution_over k (col_means k m).
Proof.
  intros. unfold distributions in H0. rewrite Forall_forall in H0.
  assert (0 < INR (length m)) by (apply length_pos; auto).
  split; [apply col_means_length|split].
  - apply Forall_forall. intros x Hx. unfold col_means in Hx.
    apply in_map_iff in Hx. destruct Hx as [j [<- Hj]]. unfold rmean, col.
    rewrite map_length. apply Rmult_le_pos; [|left; apply Rinv_0_lt_compat; auto].
    apply rsum_map_nonneg. intros r Hr. destruct (H0 r Hr) as [Hl [Hp _]].
    rewrite Forall_forall in Hp. apply in_seq in Hj. apply Hp, nth_In. lia.
  - rewrite col_means_sum; auto.
    + unfold rmean. rewrite map_length.
      rewrite (rsum_map_ext rsum (fun _ => 1)).
      * rewrite rsum_map_const. field. lra.
      * intros r Hr. destruct (H0 r Hr) as [_ [_ Hs]]; auto.
    + apply Forall_forall. intros r Hr. destruct (H0 r Hr); auto.
Qed.

Lemma distribution_le_1 : forall p x, distribution p -> In x p -> 0 <= x <= 1.
Proof.
  intros p x [H1 H2] Hin. split.
  - rewrite Forall_forall in H1; auto.
  - rewrite <- H2. apply rsum_in_le; auto.
Qed.

Lemma vdiv_sum : forall l s, rsum (vdiv l s) = rsum l / s.
Proof. intros. unfold vdiv. rewrite (rsum_map_div s (fun x => x)), map_id; auto. Qed.

Lemma vdiv_length : forall l s, length (vdiv l s) = length l.
Proof. intros. apply map_length. Qed.

Lemma vdiv_distribution : forall l, Forall (fun x => 0 <= x) l -> 0 < rsum l ->
  distribution (vdiv l (rsum l)).
Proof.
  intros. split.
  - apply Forall_forall. intros x Hx. unfold vdiv in Hx. apply in_map_iff in Hx.
    destruct Hx as [y [<- Hy]]. rewrite Forall_forall in H.
    apply Rmult_le_pos; auto. left; apply Rinv_0_lt_compat; auto.
  - rewrite vdiv_sum. field. lra.
Qed.

Lemma vdiv_1 : forall l, vdiv l 1 = l.
Proof. intros. unfold vdiv. rewrite <- (map_id l) at 2. apply map_ext. intros; field. Qed.
