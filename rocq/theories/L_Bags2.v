(** * Proofs about the bag generators, continued: termination, covariate and mixed shift, histories. *)

From Coq Require Import Reals List ZArith Lia Lra Permutation Bool Sorted.
From Verif Require Import Num Spec L_Num M_Baselines L_Baselines M_Bags Spec_Bags L_Ordinal L_Ordinal2 L_Ordinal3 L_Bags.
Import ListNotations.
Open Scope R_scope.

(** ** The example generators are generators *)

Lemma repeat_Forall : forall {A} (P : A -> Prop) x k, P x -> Forall P (repeat x k).
Proof. intros. apply Forall_forall. intros y H1. apply repeat_spec in H1. subst. auto. Qed.

Lemma one_hot_first : forall k, distribution (1 :: repeat 0 k).
Proof.
  intros. split.
  - constructor; [lra|]. apply repeat_Forall. lra.
  - simpl. replace (rsum (repeat 0 k)) with 0; [lra|]. induction k; simpl; lra.
Qed.

Lemma one_hot_last : forall k, distribution (repeat 0 k ++ [1]).
Proof.
  intros. split.
  - apply Forall_app. split; [apply repeat_Forall; lra|constructor; [lra|constructor]].
  - rewrite rsum_app. simpl. replace (rsum (repeat 0 k)) with 0; [lra|]. induction k; simpl; lra.
Qed.

Lemma argmax_positive : forall p, distribution p -> (argmax p < length p)%nat /\ 0 < nth (argmax p) p 0.
Proof.
  intros p [H1 H2]. assert (p <> []) by (intro; subst; simpl in H2; lra).
  destruct (argmax_spec p H) as [A [B _]]. split; auto.
  destruct (Rlt_dec 0 (nth (argmax p) p 0)) as [|N]; auto. exfalso.
  assert (rsum p <= 0); [|lra].
  assert (Q : forall x, In x p -> x <= 0).
  { intros x Hx. apply (In_nth _ _ 0) in Hx. destruct Hx as [i [Hi <-]]. specialize (B i Hi). lra. }
  clear -Q. induction p; simpl; [lra|]. assert (a <= 0) by (apply Q; left; auto).
  assert (rsum p <= 0) by (apply IHp; intros; apply Q; right; auto). lra.
Qed.

Lemma lowest_rng_ok : rng_ok lowest_rng.
Proof.
  split; intros; simpl.
  - rewrite repeat_length. split; auto. apply repeat_Forall. lia.
  - rewrite repeat_length. split; auto. apply repeat_Forall. destruct a; [congruence|left; auto].
  - rewrite repeat_length. split; auto. apply repeat_Forall. apply argmax_positive; auto.
  - rewrite repeat_length. split; auto. apply repeat_Forall. split; [|apply one_hot_first].
    simpl. rewrite repeat_length. destruct al; [congruence|simpl; lia].
Qed.

Lemma multiples_rng_ok : rng_ok multiples_rng.
Proof.
  destruct lowest_rng_ok as [_ B C D]. split; auto. intros; simpl. rewrite map_length, seq_length. split; auto.
  apply Forall_forall. intros v Hv. apply in_map_iff in Hv. destruct Hv as [i [<- _]]. lia.
Qed.

Lemma two_state_rng_ok : rng_ok two_state_rng.
Proof.
  split; intros; simpl.
  - rewrite repeat_length. split; auto. apply repeat_Forall. lia.
  - rewrite repeat_length. split; auto. apply repeat_Forall. destruct a; [congruence|left; auto].
  - rewrite repeat_length. split; auto. apply repeat_Forall. apply argmax_positive; auto.
  - rewrite repeat_length. split; auto. apply repeat_Forall. destruct g.
    + split; [|apply one_hot_first]. simpl. rewrite repeat_length. destruct al; [congruence|simpl; lia].
    + split; [|apply one_hot_last]. rewrite app_length, repeat_length. destruct al; [congruence|simpl; lia].
Qed.

(** ** Termination *)

Lemma uniform_loop_terminates : forall {G} (RG : rng G) y classes bs low high, (low < high)%Z ->
  forall left fuel g, (left <= fuel)%nat ->
  exists bags g', uniform_loop RG y classes bs None low high fuel left g = Some (Val bags, g').
Proof.
  intros G RG y classes bs low high Hlh. induction left as [|left IH]; intros fuel g Hf.
  - exists [], g. destruct fuel; reflexivity.
  - destruct fuel as [|fuel]; [lia|]. cbn [uniform_loop]. destruct (Z.ltb_spec low high); [|lia].
    destruct (r_randint RG low high (length classes - 1) g) as [draw g1]. cbn [accepted].
    destruct (fill RG y (combine classes _) 0 (repeat O bs) g1) as [idx g2].
    destruct (IH fuel g2 ltac:(lia)) as [bags [g' E]]. rewrite E. eauto.
Qed.

Lemma middle_sum_le : forall m ps, length m = length ps -> accepted (Some m) ps = true ->
  (zlist_sum (middle m) <= zlist_sum (middle ps))%Z.
Proof.
  intros m ps L A. simpl in A. assert (Lm : length (middle m) = length (middle ps)) by (rewrite !middle_length; lia).
  revert Lm A. generalize (middle m) (middle ps). clear. unfold zlist_sum.
  induction l as [|a l IH]; intros [|b l0] L A; try discriminate; simpl.
  simpl in A. apply andb_prop in A. destruct A as [A1 A2]. apply Z.leb_le in A1. simpl in A1.
  specialize (IH l0 ltac:(simpl in L; lia) A2). lia.
Qed.

Lemma uniform_loop_never : forall {G} (RG : rng G) y bs m low high, rng_ok RG -> y <> [] ->
  (0 <= low)%Z -> (low < high)%Z -> (high <= Z.of_nat bs)%Z -> length m = length (np_unique y) -> (2 <= length m)%nat ->
  (high - 1 - low < zlist_sum (middle m))%Z ->
  forall fuel left g, (0 < left)%nat -> uniform_loop RG y (np_unique y) bs (Some m) low high fuel left g = None.
Proof.
  intros G RG y bs m low high OK Hy H0 H1 H2 Lm Hm Hs. induction fuel as [|fuel IH]; intros left g Hl.
  - destruct left; [lia|reflexivity].
  - destruct left; [lia|]. cbn [uniform_loop]. destruct (Z.ltb_spec low high); [|lia].
    destruct (ok_randint RG OK low high (length (np_unique y) - 1) g H1) as [Ld Fd].
    destruct (r_randint RG low high (length (np_unique y) - 1) g) as [draw g1]. simpl in Ld, Fd.
    pose proof (draw_split draw (length (np_unique y)) (Z.of_nat bs) low high Ld (np_unique_nonempty y Hy) Fd H0 H1 H2) as Sp.
    destruct (accepted (Some m) (zdiff (zsort (draw ++ [0%Z; Z.of_nat bs])))) eqn:A; [|apply IH; auto].
    exfalso. apply middle_sum_le in A; [|rewrite (sp_length _ _ _ _ _ Sp); auto].
    pose proof (sp_middle _ _ _ _ _ Sp ltac:(lia)). lia.
Qed.

Lemma last_repeat : forall (z : Z) n, last (repeat z (S n)) 0%Z = z.
Proof. induction n; auto. Qed.

Lemma middle_repeat_sum : forall (z : Z) n, (2 <= n)%nat -> zlist_sum (middle (repeat z n)) = (Z.of_nat (n - 2) * z)%Z.
Proof.
  intros z n H. replace (middle (repeat z n)) with (repeat z (n - 2)).
  - unfold zlist_sum. generalize (n - 2)%nat. clear. induction n; [reflexivity|]. cbn [repeat fold_right]. rewrite IHn, Nat2Z.inj_succ. ring.
  - unfold middle. destruct n as [|[|n]]; try lia. replace (S (S n) - 2)%nat with n by lia.
    change (tl (repeat z (S (S n)))) with (repeat z (S n)).
    clear. induction n; [reflexivity|].
    change (repeat z (S (S n))) with (z :: repeat z (S n)). cbn [removelast]. rewrite <- IHn. reflexivity.
Qed.

Theorem uniform_never : forall {G} (RG : rng G) y n_bags bs v fuel g, rng_ok RG -> y <> [] ->
  (3 <= length (np_unique y))%nat -> 0 <= v <= 1 -> (0 < n_bags)%nat ->
  (2 * round_even (v * INR bs) < Z.of_nat bs)%Z ->
  (Z.of_nat bs <= Z.of_nat (length (np_unique y)) * round_even (v * INR bs))%Z ->
  generate_uniform RG y n_bags bs (MPScalar v) fuel g = None.
Proof.
  intros G RG y n_bags bs v fuel g OK Hy Hn Hv Hb H2 H3. unfold generate_uniform, check_min_prevalence.
  destruct (Rlt_dec 1 v); [lra|]. destruct (Rlt_dec v 0); [lra|].
  unfold limits. destruct (Nat.eqb_spec (length (np_unique y)) 2); [lia|].
  replace (1 * v * INR bs) with (v * INR bs) by ring. set (m := round_even (v * INR bs)) in *.
  assert (0 <= m)%Z. { apply round_even_nonneg. pose proof (pos_INR bs). nra. }
  assert (Eh : hd 0%Z (repeat m (length (np_unique y))) = m) by (destruct (length (np_unique y)); [lia|reflexivity]).
  assert (El : last (repeat m (length (np_unique y))) 0%Z = m) by (destruct (length (np_unique y)); [lia|apply last_repeat]).
  rewrite Eh, El. apply uniform_loop_never; auto; try lia.
  - apply repeat_length.
  - rewrite repeat_length. lia.
  - rewrite middle_repeat_sum by lia.
    replace (Z.of_nat (length (np_unique y) - 2)) with (Z.of_nat (length (np_unique y)) - 2)%Z by lia. nia.
Qed.

(** The converse: with fewer examples reserved than the bag holds, the multiples generator succeeds at once. *)
Lemma multiples_sorted : forall m k, (0 <= m)%Z -> zsort (map (fun i => m * Z.of_nat (S i))%Z (seq 0 k)) = map (fun i => m * Z.of_nat (S i))%Z (seq 0 k).
Proof.
  intros m k H. apply sorted_perm_unique; [apply zsort_sorted| |apply Permutation_sym, zsort_perm].
  generalize 0%nat. induction k; intros s; simpl; constructor; auto.
  apply Forall_forall. intros v Hv. apply in_map_iff in Hv. destruct Hv as [i [<- Hi]]. apply in_seq in Hi. nia.
Qed.

Lemma multiples_accepted : forall m n bs, (0 <= m)%Z -> (2 <= n)%nat -> (Z.of_nat n * m < bs)%Z ->
  accepted (Some (repeat m n))
    (zdiff (zsort (map (fun i => Z.max m (Z.min (bs - m - 1) (m * Z.of_nat (S i))))%Z (seq 0 (n - 1)) ++ [0; bs])%Z)) = true.
Proof.
  intros m n bs Hm Hn Hb.
  assert (E : map (fun i => Z.max m (Z.min (bs - m - 1) (m * Z.of_nat (S i))))%Z (seq 0 (n - 1)) =
              map (fun i => m * Z.of_nat (S i))%Z (seq 0 (n - 1))).
  { apply map_ext_in. intros i Hi. apply in_seq in Hi. nia. }
  rewrite E. rewrite zsort_cut; [|apply Forall_forall; intros v Hv; apply in_map_iff in Hv; destruct Hv as [i [<- Hi]]; apply in_seq in Hi; nia|nia].
  rewrite multiples_sorted by auto.
  set (l := (0%Z :: map (fun i => m * Z.of_nat (S i))%Z (seq 0 (n - 1)) ++ [bs])).
  assert (Ll : length l = S n) by (unfold l; simpl; rewrite app_length, map_length, seq_length; simpl; lia).
  assert (Nl : forall j, (j < n)%nat -> nth j l 0%Z = (m * Z.of_nat j)%Z).
  { intros j Hj. unfold l. destruct j; [simpl; lia|]. cbn [nth]. rewrite app_nth1 by (rewrite map_length, seq_length; lia).
    rewrite (nth_indep _ 0%Z ((fun i => m * Z.of_nat (S i))%Z O)) by (rewrite map_length, seq_length; lia).
    rewrite (map_nth (fun i => m * Z.of_nat (S i))%Z), seq_nth by lia. f_equal. }
  cbn [accepted]. apply forallb_forall. intros p Hp. apply (In_nth _ _ (0%Z, 0%Z)) in Hp.
  destruct Hp as [j [Hj <-]]. rewrite combine_length, !middle_length, repeat_length, zdiff_length, Ll in Hj.
  rewrite combine_nth by (rewrite !middle_length, repeat_length, zdiff_length, Ll; lia). cbn [fst snd].
  rewrite !middle_nth by (rewrite ?repeat_length, ?zdiff_length, ?Ll; lia).
  apply Z.leb_le. rewrite zdiff_nth by lia. rewrite !Nl by lia.
  rewrite (nth_indep _ 0%Z m) by (rewrite repeat_length; lia). rewrite nth_repeat. lia.
Qed.

Theorem uniform_possible : forall y n_bags bs v g, y <> [] -> (3 <= length (np_unique y))%nat -> 0 <= v <= 1 ->
  (Z.of_nat (length (np_unique y)) * round_even (v * INR bs) < Z.of_nat bs)%Z ->
  exists bags g', generate_uniform multiples_rng y n_bags bs (MPScalar v) n_bags g = Some (Val bags, g').
Proof.
  intros y n_bags bs v g Hy Hn Hv H. unfold generate_uniform, check_min_prevalence.
  destruct (Rlt_dec 1 v); [lra|]. destruct (Rlt_dec v 0); [lra|].
  unfold limits. destruct (Nat.eqb_spec (length (np_unique y)) 2); [lia|].
  replace (1 * v * INR bs) with (v * INR bs) by ring. set (m := round_even (v * INR bs)) in *.
  assert (Hm : (0 <= m)%Z). { apply round_even_nonneg. pose proof (pos_INR bs). nra. }
  assert (Eh : hd 0%Z (repeat m (length (np_unique y))) = m) by (destruct (length (np_unique y)); [lia|reflexivity]).
  assert (El : last (repeat m (length (np_unique y))) 0%Z = m) by (destruct (length (np_unique y)); [lia|apply last_repeat]).
  rewrite Eh, El. clear Eh El. revert g. induction n_bags as [|k IH]; intros g; [exists [], g; reflexivity|].
  cbn [uniform_loop]. destruct (Z.ltb_spec m (Z.of_nat bs - m)); [|nia].
  unfold r_randint at 1, multiples_rng at 1.
  rewrite (multiples_accepted m (length (np_unique y)) (Z.of_nat bs) Hm ltac:(lia) H).
  destruct (fill multiples_rng y _ 0 (repeat O bs) g) as [idx g2].
  destruct (IH g2) as [bags [g' E]]. rewrite E. eauto.
Qed.

(** ** generate_bags of the prior-shift generator *)


Theorem PS_honest : forall {G} (RG : rng G) fuel s y global bags s' global', rng_ok RG -> y <> [] ->
  ps_bags s = None -> (0 < bag_size_of s y)%nat -> one_per_class (ps_min s) (length (np_unique y)) ->
  PS_generate RG fuel s y global = Some (Val bags, s', global') ->
  length bags = ps_n_bags s /\ Forall (honest_bag y (bag_size_of s y)) bags.
Proof.
  intros G RG fuel s y global bags s' global' OK Hy Hb Hs Ho H. unfold PS_generate in H. rewrite Hb in H.
  destruct (get_random RG (ps_random s)) as [g|]; [|discriminate].
  change (match ps_bag_size s with Some n => n | None => length y end) with (bag_size_of s y) in H.
  destruct (ps_method s).
  - destruct (generate_uniform RG y (ps_n_bags s) (bag_size_of s y) (ps_min s) fuel g) as [[[b|e|] g']|] eqn:E; try discriminate.
    assert (b = bags) by congruence. subst b. apply uniform_bags in E; auto. destruct E as [E1 E2]. split; auto.
    eapply Forall_impl; [|exact E2]. simpl; tauto.
  - destruct (generate_dirichlet RG y (ps_n_bags s) (bag_size_of s y) (ps_alphas s) global g) as [[o gl] g'] eqn:E.
    assert (o = Val bags) by congruence. subst o. apply dirichlet_honest in E; auto.
  - discriminate.
Qed.

Theorem PS_minimum : forall {G} (RG : rng G) fuel s y global bags s' global', rng_ok RG -> y <> [] ->
  ps_bags s = None -> (0 < bag_size_of s y)%nat -> one_per_class (ps_min s) (length (np_unique y)) -> ps_method s = Uniform ->
  PS_generate RG fuel s y global = Some (Val bags, s', global') ->
  Forall (fun b => (forall i, (i < length (np_unique y))%nat ->
    (round_even (INR (bag_size_of s y) * minimum_for (ps_min s) i) <= Z.of_nat (class_size y i b))%Z) /\
    ((2 <= length (np_unique y))%nat -> (1 <= class_size y (length (np_unique y) - 1) b)%nat)) bags.
Proof.
  intros G RG fuel s y global bags s' global' OK Hy Hb Hs Ho Hm H. unfold PS_generate in H. rewrite Hb in H.
  destruct (get_random RG (ps_random s)) as [g|]; [|discriminate].
  change (match ps_bag_size s with Some n => n | None => length y end) with (bag_size_of s y) in H.
  rewrite Hm in H.
  destruct (generate_uniform RG y (ps_n_bags s) (bag_size_of s y) (ps_min s) fuel g) as [[[b|e|] g']|] eqn:E; try discriminate.
  assert (b = bags) by congruence. subst b. apply uniform_bags in E; auto. destruct E as [E1 E2].
  eapply Forall_impl; [|exact E2]. simpl; tauto.
Qed.

Lemma half_example : forall bs x (k : nat), (0 < bs)%nat -> (round_even (INR bs * x) <= Z.of_nat k)%Z ->
  x - 1 / (2 * INR bs) <= INR k / INR bs.
Proof.
  intros bs x k Hb H. apply IZR_le in H. rewrite <- INR_IZR_INZ in H.
  pose proof (Rabs_le_both _ _ (round_even_near (INR bs * x))). pose proof (INR_pos _ Hb).
  apply Rmult_le_reg_l with (INR bs); auto.
  replace (INR bs * (INR k / INR bs)) with (INR k) by (field; lra).
  replace (INR bs * (x - 1 / (2 * INR bs))) with (INR bs * x - 1 / 2) by (field; lra). lra.
Qed.

(** ** Covariate shift *)

Lemma rbf_pos : forall c x, 0 < rbf c x.
Proof. intros. unfold rbf. apply exp_pos. Qed.

Lemma rsum_pos : forall l, l <> [] -> Forall (fun x => 0 < x) l -> 0 < rsum l.
Proof.
  intros l H F. destruct F; [congruence|]. simpl. assert (0 <= rsum l); [|lra].
  apply rsum_nonneg. eapply Forall_impl; [|exact F]. simpl; intros; lra.
Qed.

Lemma sim_pos : forall X c, Forall (fun x => 0 < x) (map (rbf c) X).
Proof. intros. apply Forall_forall. intros x Hx. apply in_map_iff in Hx. destruct Hx as [a [<- _]]. apply rbf_pos. Qed.

Lemma similarity_distribution : forall X c, X <> [] ->
  distribution_over (length X) (similarity_probs X c) /\ Forall (fun p => 0 < p) (similarity_probs X c).
Proof.
  intros X c H. unfold similarity_probs.
  assert (P : 0 < rsum (map (rbf c) X)). { apply rsum_pos; [|apply sim_pos]. destruct X; simpl; congruence. }
  split.
  - split; [unfold vdiv; rewrite !map_length; auto|]. apply vdiv_distribution; auto.
    eapply Forall_impl; [|apply sim_pos]. simpl; intros; lra.
  - apply Forall_forall. intros x Hx. unfold vdiv in Hx. apply in_map_iff in Hx. destruct Hx as [v [<- Hv]].
    pose proof (sim_pos X c) as S1. rewrite Forall_forall in S1. specialize (S1 v Hv). apply Rdiv_lt_0_compat; auto.
Qed.

Lemma covariate_bags_spec : forall {G} (RG : rng G) X y bs, rng_ok RG -> X <> [] -> length X = length y -> (0 < bs)%nat ->
  forall centers g,
  length (fst (covariate_bags RG X y (np_unique y) bs centers g)) = length centers /\
  Forall (honest_bag y bs) (fst (covariate_bags RG X y (np_unique y) bs centers g)).
Proof.
  intros G RG X y bs OK HX L Hb. induction centers as [|c t IH]; intros g; [simpl; auto|]. cbn [covariate_bags].
  destruct (similarity_distribution X (nth (Z.to_nat c) X []) HX) as [[Lp D] _].
  destruct (ok_choice_p RG OK _ bs g D) as [Lc Fc].
  destruct (r_choice_p RG (similarity_probs X (nth (Z.to_nat c) X [])) bs g) as [idx g1]. cbn [fst] in Lc, Fc.
  specialize (IH g1). destruct (covariate_bags RG X y (np_unique y) bs t g1) as [rest g2]. cbn [fst] in *. destruct IH.
  split; [simpl; lia|]. constructor; auto. unfold honest_bag. cbn [fst snd]. split; auto. split.
  - eapply Forall_impl; [|exact Fc]. simpl. intros i [Hi _]. rewrite Lp in Hi. lia.
  - split; [unfold bag_prevalences; rewrite map_length; auto|]. intros i Hi. unfold bag_prevalences.
    rewrite (nth_indep _ 0 ((fun c => INR (zcount c (map (fun i => nth i y 0%Z) idx)) / INR bs) 0%Z)) by (rewrite map_length; auto).
    rewrite (map_nth (fun c => INR (zcount c (map (fun i => nth i y 0%Z) idx)) / INR bs)).
    unfold fraction, bag_labels. rewrite map_length, Lc. auto.
Qed.


Theorem CS_honest : forall {G} (RG : rng G) s X y bags s', rng_ok RG ->
  cs_bags s = None -> (0 < cs_size_of s y)%nat ->
  CS_generate RG s X y = (Val bags, s') ->
  length bags = cs_n_bags s /\ Forall (honest_bag y (cs_size_of s y)) bags.
Proof.
  intros G RG s X y bags s' OK Hb Hs H. unfold CS_generate in H. rewrite Hb in H.
  destruct (get_random RG (cs_random s)) as [g|]; [|discriminate].
  destruct (Nat.eqb_spec (length X) (length y)) as [L|]; [|discriminate].
  destruct (Nat.eqb_spec (length X) 0) as [|N]; [discriminate|]. cbn [andb negb] in H.
  destruct (ok_randint RG OK 0 (Z.of_nat (length X)) (cs_n_bags s) g ltac:(lia)) as [Lc _].
  destruct (r_randint RG 0 (Z.of_nat (length X)) (cs_n_bags s) g) as [centers g1]. cbn [fst] in Lc.
  replace (match cs_bag_size s with Some n => n | None => length X end) with (cs_size_of s y) in H
    by (unfold cs_size_of; destruct (cs_bag_size s); auto).
  assert (X <> []) by (intro; subst; simpl in N; lia).
  pose proof (covariate_bags_spec RG X y (cs_size_of s y) OK H0 L Hs centers g1) as B.
  destruct (covariate_bags RG X y (np_unique y) (cs_size_of s y) centers g1) as [bs g2]. cbn [fst] in B.
  assert (bs = bags) by congruence. subst bs. destruct B. split; auto; lia.
Qed.

Theorem CS_total : forall {G} (RG : rng G) s X y, cs_bags s = None -> get_random RG (cs_random s) <> None ->
  length X = length y -> X <> [] -> exists bags s', CS_generate RG s X y = (Val bags, s').
Proof.
  intros G RG s X y Hb Hg L HX. unfold CS_generate. rewrite Hb. destruct (get_random RG (cs_random s)) as [g|]; [|congruence].
  rewrite L, Nat.eqb_refl. destruct (Nat.eqb_spec (length y) 0) as [E|E].
  - exfalso. apply HX. destruct X; auto. simpl in L; lia.
  - simpl. destruct (r_randint RG 0 (Z.of_nat (length y)) (cs_n_bags s) g) as [c g1].
    destruct (covariate_bags RG X y (np_unique y) _ c g1). eauto.
Qed.

(** Closer examples are at least as likely. *)
Lemma rsum_vmap2_sq : forall c x, length x = length c -> rsum (vmap2 (fun a b => (a - b) ^ 2) c x) = sq_distance c x.
Proof.
  unfold sq_distance. induction c as [|a c IH]; intros [|b x] L; try discriminate; [reflexivity|].
  injection L as L. change (vmap2 (fun a b => (a - b) ^ 2) (a :: c) (b :: x)) with ((a - b) ^ 2 :: vmap2 (fun a b => (a - b) ^ 2) c x).
  cbn [length seq map rsum fold_right]. rewrite <- seq_shift, map_map. cbn [nth].
  unfold rsum in *. simpl fold_right. rewrite (IH x L). reflexivity.
Qed.

Theorem similarity_order : forall X c i j, (0 < length c)%nat -> Forall (fun x => length x = length c) X ->
  (i < length X)%nat -> (j < length X)%nat ->
  sq_distance c (nth i X []) < sq_distance c (nth j X []) ->
  nth j (similarity_probs X c) 0 < nth i (similarity_probs X c) 0.
Proof.
  intros X c i j Hc F Hi Hj D. unfold similarity_probs.
  assert (P : 0 < rsum (map (rbf c) X)). { apply rsum_pos; [|apply sim_pos]. destruct X; simpl in *; [lia|congruence]. }
  assert (N : forall k, (k < length X)%nat -> nth k (vdiv (map (rbf c) X) (rsum (map (rbf c) X))) 0 = rbf c (nth k X []) / rsum (map (rbf c) X)).
  { intros k Hk. unfold vdiv. rewrite (nth_indep _ 0 (rbf c [] / rsum (map (rbf c) X))) by (rewrite !map_length; auto).
    rewrite (map_nth (fun x => x / rsum (map (rbf c) X)) (map (rbf c) X) (rbf c [])), map_nth. auto. }
  rewrite !N by auto. apply Rmult_lt_compat_r; [apply Rinv_0_lt_compat; auto|].
  rewrite Forall_forall in F. unfold rbf. apply exp_increasing.
  rewrite !rsum_vmap2_sq by (apply F, nth_In; auto).
  assert (0 < 1 / INR (length c)). { apply Rdiv_lt_0_compat; [lra|]. apply INR_pos; auto. } nra.
Qed.

(** ** Mixed shift *)

Theorem MS_honest : forall {G} (RG : rng G) fuel s X y global bags s' global' size, rng_ok RG ->
  ms_bags s = None -> ms_bag_size s = Some size -> (0 < size)%nat -> one_per_class (ms_min s) (length (np_unique y)) ->
  MS_generate RG fuel s X y global = Some (Val bags, s', global') ->
  length bags = ms_n_bags s /\ Forall (honest_bag y size) bags /\
  exists prior covariate, bags = prior ++ covariate /\ length prior = (ms_n_bags s / 2)%nat /\
    (exists prior_obj, PS_generate RG fuel
       {| ps_n_bags := ms_n_bags s / 2; ps_bag_size := Some size; ps_method := ms_method s; ps_alphas := ms_alphas s;
          ps_min := ms_min s; ps_random := ms_random s; ps_bags := None |} y global = Some (Val prior, prior_obj, global')) /\
    (exists cov_obj rs, (forall z, ms_random s = Seed z -> rs = Seed z) /\ CS_generate RG
       {| cs_n_bags := ms_n_bags s - ms_n_bags s / 2; cs_bag_size := Some size; cs_random := rs; cs_bags := None |} X y
       = (Val covariate, cov_obj)).
Proof.
  intros G RG fuel s X y global bags s' global' size OK Hb Hs Hp Ho H. unfold MS_generate in H. rewrite Hb, Hs in H.
  match type of H with context[PS_generate RG fuel ?p y global] => set (prior := p) in * end.
  destruct (PS_generate RG fuel prior y global) as [[[[b1|e|] prior'] gl]|] eqn:E1; try discriminate.
  match type of H with context[CS_generate RG ?c X y] => set (cov := c) in * end.
  destruct (CS_generate RG cov X y) as [[b2|e|] cov'] eqn:E2; try discriminate.
  assert (bags = b1 ++ b2) by congruence. assert (gl = global') by congruence. subst bags gl.
  assert (Hy : y <> []).
  { intro Ey. subst y. unfold CS_generate in E2. simpl in E2. destruct (get_random RG _); [|discriminate].
    destruct (Nat.eqb_spec (length X) 0) as [Z0|Z0]; simpl in E2; [discriminate|congruence]. }
  pose proof (PS_honest RG fuel prior y global b1 prior' global' OK Hy eq_refl Hp Ho E1) as [P1 P2].
  pose proof (CS_honest RG cov X y b2 cov' OK eq_refl Hp E2) as [C1 C2]. change (length b1 = (ms_n_bags s / 2)%nat) in P1. change (length b2 = (ms_n_bags s - ms_n_bags s / 2)%nat) in C1.
  split; [rewrite app_length; assert (ms_n_bags s / 2 <= ms_n_bags s)%nat by (apply Nat.div_le_upper_bound; lia); lia|].
  split; [apply Forall_app; split; auto|].
  exists b1, b2. split; auto. split; auto. split; [eauto|]. eexists _, _. split; [|exact E2].
  intros z Hz. rewrite Hz. auto.
Qed.

Theorem MS_default_fails : forall {G} (RG : rng G) fuel s X y global, ms_bags s = None -> ms_bag_size s = None ->
  MS_generate RG fuel s X y global = Some (Err TypeError, s, global).
Proof. intros. unfold MS_generate. rewrite H, H0. auto. Qed.

(** ** Write-once *)

Lemma PS_keeps : forall {G} (RG : rng G) fuel s y global b s' global',
  PS_generate RG fuel s y global = Some (Val b, s', global') -> ps_bags s' = Some b.
Proof.
  intros G RG fuel s y global b s' global' H. unfold PS_generate in H.
  destruct (ps_bags s) as [b0|] eqn:Eb; [congruence|].
  destruct (get_random RG (ps_random s)) as [g|]; [|discriminate]. destruct (ps_method s).
  - destruct (generate_uniform _ _ _ _ _ _ _) as [[[b0|e|] g']|]; try discriminate. inversion H; subst. reflexivity.
  - destruct (generate_dirichlet _ _ _ _ _ _ _) as [[o gl] g']. inversion H; subst. reflexivity.
  - discriminate.
Qed.

Theorem PS_write_once : forall {G} (RG : rng G) b evs s global, ps_bags s = Some b ->
  exists s', ps_history RG evs s global = Some (s', global) /\ ps_bags s' = Some b.
Proof.
  induction evs as [|[fuel y|n size m al mp rs] t IH]; intros s global H; cbn [ps_history].
  - eauto.
  - unfold PS_generate. rewrite H. apply IH; auto.
  - apply IH; auto.
Qed.

Lemma CS_keeps : forall {G} (RG : rng G) s X y b s', CS_generate RG s X y = (Val b, s') -> cs_bags s' = Some b.
Proof.
  intros G RG s X y b s' H. unfold CS_generate in H. destruct (cs_bags s) eqn:Eb; [congruence|].
  destruct (get_random RG (cs_random s)) as [g|]; [|discriminate].
  destruct (_ && _); [|discriminate]. destruct (r_randint _ _ _ _ _) as [c g1].
  destruct (covariate_bags _ _ _ _ _ _ _) as [bs g2]. inversion H; subst. reflexivity.
Qed.

Theorem CS_write_once : forall {G} (RG : rng G) b evs s, cs_bags s = Some b -> cs_bags (cs_history RG evs s) = Some b.
Proof.
  induction evs as [|[X y|n size rs] t IH]; intros s H; cbn [cs_history]; auto.
  apply IH. unfold CS_generate. rewrite H. auto.
Qed.

Lemma MS_keeps : forall {G} (RG : rng G) fuel s X y global b s' global',
  MS_generate RG fuel s X y global = Some (Val b, s', global') -> ms_bags s' = Some b.
Proof.
  intros G RG fuel s X y global b s' global' H. unfold MS_generate in H.
  destruct (ms_bags s) as [b0|] eqn:Eb; [congruence|]. destruct (ms_bag_size s) as [size|]; [|discriminate].
  destruct (PS_generate _ _ _ _ _) as [[[[b1|e|] p'] gl]|]; try discriminate.
  destruct (CS_generate _ _ _ _) as [[b2|e|] c']; try discriminate. inversion H; subst. reflexivity.
Qed.

Theorem MS_write_once : forall {G} (RG : rng G) b evs s global, ms_bags s = Some b ->
  exists s', ms_history RG evs s global = Some (s', global) /\ ms_bags s' = Some b.
Proof.
  induction evs as [|[fuel X y|n size m al mp rs] t IH]; intros s global H; cbn [ms_history].
  - eauto.
  - unfold MS_generate. rewrite H. apply IH; auto.
  - apply IH; auto.
Qed.

(** ** After a failure *)

Theorem PS_failed_then_zeros : forall {G} (RG : rng G) fuel s y global e s' global', ps_bags s = None ->
  ps_method s = Uniform -> check_min_prevalence (ps_min s) = Val tt -> get_random RG (ps_random s) <> None ->
  PS_generate RG fuel s y global = Some (Err e, s', global') ->
  forall fuel2 y2 global2, PS_generate RG fuel2 s' y2 global2 =
    Some (Val (repeat (repeat 0 (length (np_unique y)), repeat O (bag_size_of s y)) (ps_n_bags s)), s', global2).
Proof.
  intros G RG fuel s y global e s' global' Hb Hm Hc Hg H fuel2 y2 global2. unfold PS_generate in H. rewrite Hb in H.
  destruct (get_random RG (ps_random s)) as [g|]; [|congruence]. rewrite Hm in H.
  change (match ps_bag_size s with Some n => n | None => length y end) with (bag_size_of s y) in H.
  destruct (generate_uniform RG y (ps_n_bags s) (bag_size_of s y) (ps_min s) fuel g) as [[[b|e'|] g']|] eqn:E; try discriminate.
  rewrite Hc in H. inversion H; subst. reflexivity.
Qed.

(** ** Seeds *)

Theorem PS_uniform_reproducible : forall {G} (RG : rng G) fuel s y global1 global2 b s' gl, ps_method s = Uniform ->
  PS_generate RG fuel s y global1 = Some (b, s', gl) -> gl = global1 /\ PS_generate RG fuel s y global2 = Some (b, s', global2).
Proof.
  intros G RG fuel s y global1 global2 b s' gl Hm H. unfold PS_generate in *. destruct (ps_bags s) as [b0|].
  - inversion H; subst. auto.
  - destruct (get_random RG (ps_random s)) as [g|]; [|inversion H; subst; auto]. rewrite Hm in *.
    destruct (generate_uniform _ _ _ _ _ _ _) as [[[b1|e|] g']|]; try discriminate; inversion H; subst; auto.
Qed.
