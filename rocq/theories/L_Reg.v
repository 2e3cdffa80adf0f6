(** * Rows of the regression quantifiers, facts about successful fits. *)

From Coq Require Import Reals List ZArith Lia Lra Bool Arith Permutation.
From Verif Require Import Num Spec L_Num M_Baselines L_Baselines M_Bags Spec_Bags L_Bags
  M_Match Spec_Match L_Match L_Match2 L_Match3 L_Match4 L_Match6 L_Match12 M_Reg Spec_Reg.
Import ListNotations.
Open Scope R_scope.

(** ** Cut points *)

Lemma cuts_length : forall ppf x y classes n strat range cuts,
  compute_bincuts ppf x y classes n strat range = Val cuts -> length cuts = S n /\ (0 < n)%nat.
Proof.
  intros ppf x y classes n strat range cuts H. pose proof (compute_bincuts_pos _ _ _ _ _ _ _ _ H) as Hn.
  split; [|auto].
  assert (G : forall mu std c, gaussian_cuts ppf n mu std = Val c -> length c = S n).
  { intros mu std c E. unfold gaussian_cuts in E. destruct n as [|n']; [lia|].
    destruct (Rlt_dec 0 std); inversion E; subst c.
    - simpl. rewrite app_length, map_length, seq_length. simpl. lia.
    - rewrite map_length. apply uniform_edges_length. }
  destruct strat.
  - apply equal_width_shape in H. apply H.
  - apply equal_count_shape in H. apply H.
  - unfold compute_bincuts in H. destruct n as [|n']; [lia|].
    destruct (negb (Nat.eqb (length classes) 2)); [discriminate|].
    destruct (negb (Nat.eqb (length y) (length x))); [discriminate|]. cbv zeta in H.
    destruct (existsb _ _); [discriminate|]. eapply G; eauto.
  - unfold compute_bincuts in H. destruct n as [|n']; [lia|].
    destruct (negb (Nat.eqb (length y) (length x))); [discriminate|].
    destruct x; [discriminate|]. eapply G; eauto.
  - unfold compute_bincuts in H. destruct n; [lia|discriminate].
Qed.

Definition sized (nb : nat) (cuts : list (list edge)) : Prop := Forall (fun c => length c = S nb) cuts.

Lemma reg_cuts_sized : forall ppf nb strat range k X y cuts,
  reg_cuts ppf nb strat range k X y = Val cuts -> sized nb cuts /\ length cuts = k.
Proof.
  intros ppf nb strat range k X y cuts H. unfold reg_cuts in H. split.
  - apply collect_inv in H. apply Forall_forall. intros c Hc.
    assert (I : In (Val c) (map (fun att => compute_bincuts ppf (col att X) y (np_unique y) nb strat range) (seq 0 k)))
      by (rewrite H; now apply in_map).
    apply in_map_iff in I. destruct I as (a & Ea & _). apply (cuts_length _ _ _ _ _ _ _ _ Ea).
  - apply collect_length in H. now rewrite map_length, seq_length in H.
Qed.

Lemma reg_cuts_pos : forall ppf nb strat range k X y cuts, (0 < k)%nat ->
  reg_cuts ppf nb strat range k X y = Val cuts -> (0 < nb)%nat.
Proof.
  intros ppf nb strat range k X y cuts Hk H. destruct k as [|k]; [lia|].
  unfold reg_cuts in H. cbn [seq map collect] in H.
  destruct (compute_bincuts ppf (col 0 X) y (np_unique y) nb strat range) as [c| |] eqn:E; try discriminate.
  apply (cuts_length _ _ _ _ _ _ _ _ E).
Qed.

(** ** Rows *)

Definition counts (nb : nat) (cuts : list (list edge)) (n : nat) (s : list (list R)) : list R :=
  tabulate (nb * length cuts) (fun r =>
    INR (length (filter (in_binb (nth (r / nb) cuts []) (r mod nb)) (col (r / nb) s))) / INR n).

Lemma describe_val : forall nb cuts n s, sized nb cuts -> Forall ascending_edges cuts -> (0 < n)%nat ->
  describe cuts n s = Val (counts nb cuts n s).
Proof.
  intros nb cuts n s HS HA Hn. unfold describe. destruct n as [|n']; [lia|]. set (n := S n') in *.
  rewrite (map_combine_seq _ []). cbn [fst snd].
  rewrite (collect_val _ (fun b => tabulate nb (fun k =>
     length (filter (in_binb (nth b cuts []) k) (col b s))))).
  - cbn [omap obind]. f_equal. rewrite map_map. destruct nb as [|nb'].
    + unfold counts. cbn [Nat.mul]. generalize (seq 0 (length cuts)). intros l. induction l; [reflexivity|].
      cbn [map concat]. exact IHl.
    + unfold counts. rewrite <- (concat_tabulate (length cuts) (S nb') (fun b k =>
        INR (length (filter (in_binb (nth b cuts []) k) (col b s))) / INR n)) by lia.
      f_equal. apply map_ext. intros b. unfold vdiv, tabulate. now rewrite !map_map.
  - intros b Hb. apply in_seq in Hb. unfold sized in HS. rewrite Forall_forall in *.
    assert (I : In (nth b cuts []) cuts) by (apply nth_In; lia).
    rewrite histogram_counts by auto. rewrite HS by auto. replace (S nb - 1)%nat with nb by lia. reflexivity.
Qed.

Lemma describe_inv : forall cuts n s r, describe cuts n s = Val r -> (0 < n)%nat /\ Forall ascending_edges cuts.
Proof.
  intros cuts n s r H. unfold describe in H. destruct n as [|n']; [discriminate|]. split; [lia|].
  destruct (collect _) as [hs| |] eqn:E; try discriminate. clear H.
  rewrite (map_combine_seq _ []) in E. cbn [fst snd] in E. apply collect_inv in E.
  apply Forall_forall. intros c Hc. apply (In_nth _ _ []) in Hc. destruct Hc as (b & Hb & <-).
  assert (I : In (histogram (col b s) (nth b cuts [])) (map Val hs)).
  { rewrite <- E. apply in_map_iff. exists b. split; [reflexivity|]. apply in_seq. lia. }
  apply in_map_iff in I. destruct I as (h & Eh & _). symmetry in Eh. eapply histogram_ascending; eauto.
Qed.

Lemma describe_eq : forall nb cuts n s r, sized nb cuts -> describe cuts n s = Val r -> r = counts nb cuts n s.
Proof.
  intros nb cuts n s r HS H. destruct (describe_inv _ _ _ _ H) as [Hn HA].
  rewrite (describe_val nb) in H by auto. now inversion H.
Qed.

Lemma counts_length : forall nb cuts n s, length (counts nb cuts n s) = (nb * length cuts)%nat.
Proof. intros. apply tabulate_length. Qed.

Lemma block_lt : forall nb m b k, (b < m)%nat -> (k < nb)%nat -> (b * nb + k < nb * m)%nat.
Proof. intros. nia. Qed.

Lemma counts_nth : forall nb cuts n s b k, (b < length cuts)%nat -> (k < nb)%nat ->
  nth (b * nb + k) (counts nb cuts n s) 0 =
  INR (length (filter (in_binb (nth b cuts []) k) (col b s))) / INR n.
Proof.
  intros nb cuts n s b k Hb Hk. unfold counts. rewrite tabulate_nth by (now apply block_lt).
  destruct (div_block nb b k Hk) as [E1 E2]. now rewrite E1, E2.
Qed.

Lemma counts_spec : forall nb cuts n s, bin_counts nb cuts n s (counts nb cuts n s).
Proof.
  intros nb cuts n s. split; [apply counts_length|]. intros b k Hb Hk.
  exists (length (filter (in_binb (nth b cuts []) k) (col b s))). split; [|now apply counts_nth].
  apply how_many_filter. intros; apply in_binb_spec.
Qed.

Lemma how_many_fun : forall {A} (P : A -> Prop) l i j, how_many P l i -> how_many P l j -> i = j.
Proof.
  intros A P l i j H. revert j. induction H; intros j Hj; inversion Hj; subst; auto; try contradiction.
Qed.

Lemma block_split : forall nb m r, (r < nb * m)%nat -> exists b k, (b < m)%nat /\ (k < nb)%nat /\ r = (b * nb + k)%nat.
Proof.
  intros nb m r Hr. assert (nb <> 0)%nat by (intros ->; simpl in Hr; lia).
  exists (r / nb)%nat, (r mod nb). split; [apply Nat.div_lt_upper_bound; lia|].
  split; [apply Nat.mod_upper_bound; auto|]. rewrite (Nat.div_mod r nb) at 1 by auto. lia.
Qed.

Lemma bin_counts_unique : forall nb cuts n s r r', bin_counts nb cuts n s r -> bin_counts nb cuts n s r' -> r = r'.
Proof.
  intros nb cuts n s r r' (L & H) (L' & H'). apply (nth_ext _ _ 0 0); [congruence|].
  intros i Hi. rewrite L in Hi. destruct (block_split _ _ _ Hi) as (b & k & Hb & Hk & ->).
  destruct (H b k Hb Hk) as (c & Hc & ->). destruct (H' b k Hb Hk) as (c' & Hc' & ->).
  now rewrite (how_many_fun _ _ _ _ Hc Hc').
Qed.

Lemma counts_scale : forall nb cuts n m s i, (0 < n)%nat -> (0 < m)%nat ->
  nth i (counts nb cuts n s) 0 = INR m / INR n * nth i (counts nb cuts m s) 0.
Proof.
  intros nb cuts n m s i Hn Hm. assert (0 < INR n) by (apply INR_pos; auto). assert (0 < INR m) by (apply INR_pos; auto).
  destruct (le_lt_dec (nb * length cuts) i) as [Hi|Hi].
  - rewrite !nth_overflow by (rewrite counts_length; auto). ring.
  - unfold counts. rewrite !tabulate_nth by auto. field. lra.
Qed.

Lemma counts_mass : forall nb cuts n s b, (0 < nb)%nat -> Forall (covering_cuts nb) cuts -> (b < length cuts)%nat ->
  sumn nb (fun k => nth (b * nb + k) (counts nb cuts n s) 0) = INR (length s) / INR n.
Proof.
  intros nb cuts n s b Hnb HC Hb.
  rewrite (sumn_ext nb _ (fun k => / INR n * INR (length (filter (in_binb (nth b cuts []) k) (col b s))))).
  2:{ intros k Hk. rewrite counts_nth by auto. unfold Rdiv. ring. }
  rewrite sumn_scal. unfold Rdiv. rewrite Rmult_comm. f_equal.
  replace (length s) with (length (col b s)) by (unfold col; apply map_length).
  assert (C : covering_cuts nb (nth b cuts [])) by (rewrite Forall_forall in HC; apply HC, nth_In; auto).
  induction (col b s) as [|v l IH].
  - cbn [filter length]. simpl INR. apply sumn_0. intros; reflexivity.
  - rewrite (sumn_ext nb _ (fun k => ind (in_binb (nth b cuts []) k v) +
               INR (length (filter (in_binb (nth b cuts []) k) l)))).
    2:{ intros k Hk. cbn [filter]. destruct (in_binb (nth b cuts []) k v); cbn [ind length]; rewrite ?S_INR; lra. }
    rewrite sumn_plus, (covering_sum nb) by auto. rewrite IH. cbn [length]. rewrite S_INR. lra.
Qed.

Lemma filter_perm_length : forall {A} (f : A -> bool) l l', Permutation l l' -> length (filter f l) = length (filter f l').
Proof.
  intros A f l l' H. induction H; simpl; auto.
  - destruct (f x); simpl; congruence.
  - destruct (f x), (f y); reflexivity.
  - congruence.
Qed.

Lemma counts_perm : forall nb cuts n s s', Permutation s s' -> counts nb cuts n s = counts nb cuts n s'.
Proof.
  intros nb cuts n s s' P. unfold counts. apply tabulate_ext. intros r _. f_equal. f_equal.
  apply filter_perm_length. unfold col. now apply Permutation_map.
Qed.

Lemma map_repeat_eq : forall {A B} (f : A -> B) a k, map f (repeat a k) = repeat (f a) k.
Proof. intros A B f a k. induction k; simpl; congruence. Qed.

Lemma filter_repeat_length : forall {A} (f : A -> bool) a k, length (filter f (repeat a k)) =
  (k * (if f a then 1 else 0))%nat.
Proof. intros A f a k. induction k; simpl; [reflexivity|]. destruct (f a) eqn:E; simpl; rewrite IHk; lia. Qed.

Lemma filter_repeated_length : forall (f : R -> bool) b k s,
  length (filter f (col b (repeated k s))) = (k * length (filter f (col b s)))%nat.
Proof.
  intros f b k s. induction s as [|a s IH]; [simpl; lia|].
  unfold repeated in *. cbn [map concat]. unfold col in *. rewrite map_app, filter_app, app_length, IH.
  cbn [map filter]. rewrite map_repeat_eq, filter_repeat_length.
  destruct (f (nth b a 0)); cbn [length]; lia.
Qed.

Lemma counts_repeated : forall nb cuts k s, (0 < k)%nat -> s <> [] ->
  counts nb cuts (length (repeated k s)) (repeated k s) = counts nb cuts (length s) s.
Proof.
  intros nb cuts k s Hk Hs. unfold counts. apply tabulate_ext. intros r _.
  rewrite filter_repeated_length, repeated_length, !mult_INR.
  assert (0 < INR k) by (apply INR_pos; auto). assert (0 < INR (length s)) by (apply length_pos; auto).
  field. lra.
Qed.
