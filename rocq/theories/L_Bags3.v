(** * Witnesses for the bag generators. *)

From Coq Require Import Reals List ZArith Lia Lra Bool.
From Verif Require Import Num Spec L_Num M_Bags Spec_Bags L_Bags L_Bags2.
Import ListNotations.
Open Scope R_scope.

Lemma Int_part_unique : forall x z, IZR z <= x < IZR z + 1 -> Int_part x = z.
Proof.
  intros x z H. pose proof (Int_part_bounds x).
  assert (z < Int_part x + 1)%Z by (apply lt_IZR; rewrite plus_IZR; lra).
  assert (Int_part x < z + 1)%Z by (apply lt_IZR; rewrite plus_IZR; lra). lia.
Qed.

Lemma round_even_unique : forall x z, Rabs (x - IZR z) < 1 / 2 -> round_even x = z.
Proof.
  intros x z H. unfold round_even. assert (- (1/2) < x - IZR z < 1/2) by (unfold Rabs in H; destruct (Rcase_abs (x - IZR z)); lra).
  rewrite (Int_part_unique (x + 1 / 2) z) by lra. destruct (Req_EM_T (IZR z) (x + 1 / 2)); [lra|auto].
Qed.

Ltac rnd := rewrite (round_even_unique _ 1) by (unfold Rabs; destruct Rcase_abs; simpl in *; lra).

Definition example_ps {G} (n : nat) (size : option nat) (m : bag_method) (a : alphas) (mp : min_prevalence) (rs : random_state G)
  : prior_shift G :=
  {| ps_n_bags := n; ps_bag_size := size; ps_method := m; ps_alphas := a; ps_min := mp; ps_random := rs; ps_bags := None |}.

Lemma example_tenth :
  exists s', PS_generate lowest_rng 1 (example_ps 1 (Some 14%nat) Uniform ANone (MPScalar (1/10)) (Seed 0)) [0; 1]%Z tt
  = Some (Val [([1 / 14; 13 / 14], [0; 1; 1; 1; 1; 1; 1; 1; 1; 1; 1; 1; 1; 1]%nat)], s', tt).
Proof.
  unfold PS_generate, example_ps. cbn [ps_bags ps_random get_random ps_bag_size ps_method ps_n_bags ps_min].
  unfold generate_uniform, check_min_prevalence. destruct (Rlt_dec 1 (1/10)); [lra|]. destruct (Rlt_dec (1/10) 0); [lra|].
  change (np_unique [0%Z; 1%Z]) with [0%Z; 1%Z]. unfold limits. cbn [length Nat.eqb].
  assert (E14 : INR 14 = 14) by (simpl; lra). rewrite E14.
  rewrite (round_even_unique (14 * (1/10)) 1) by (unfold Rabs; destruct Rcase_abs; lra).
  unfold trunc. rewrite (Int_part_unique (14 * (1 - 1/10)) 12) by lra.
  cbn. rewrite ?E14. eexists. f_equal. f_equal. f_equal. f_equal. f_equal. f_equal.
  replace (1 + 1 + 1 + 1 + 1 + 1 + 1 + 1 + 1 + 1 + 1 + 1 + 1 + 1) with 14 by lra. reflexivity.
Qed.

Lemma example_half :
  exists s', PS_generate lowest_rng 5 (example_ps 2 (Some 10%nat) Uniform ANone (MPScalar (1/2)) (Seed 0)) [0; 1]%Z tt
  = Some (Err ValueError, s', tt) /\
  PS_generate lowest_rng 5 s' [0; 1]%Z tt =
    Some (Val [([0; 0], repeat O 10); ([0; 0], repeat O 10)], s', tt).
Proof.
  unfold PS_generate, example_ps. cbn [ps_bags ps_random get_random ps_bag_size ps_method ps_n_bags ps_min].
  unfold generate_uniform, check_min_prevalence. destruct (Rlt_dec 1 (1/2)); [lra|]. destruct (Rlt_dec (1/2) 0); [lra|].
  change (np_unique [0%Z; 1%Z]) with [0%Z; 1%Z]. unfold limits. cbn [length Nat.eqb].
  assert (E10 : INR 10 = 10) by (simpl; lra). rewrite E10.
  rewrite (round_even_unique (10 * (1/2)) 5) by (unfold Rabs; destruct Rcase_abs; lra).
  unfold trunc. rewrite (Int_part_unique (10 * (1 - 1/2)) 5) by lra.
  cbn. eexists. split; reflexivity.
Qed.

Lemma counts_first : dirichlet_counts [1; 0] 1 0 = [1; 0]%Z.
Proof.
  cbn [dirichlet_counts INR]. rewrite (round_even_unique (1 * 1) 1) by (unfold Rabs; destruct Rcase_abs; lra). reflexivity.
Qed.
Lemma counts_last : dirichlet_counts [0; 1] 1 0 = [0; 1]%Z.
Proof.
  cbn [dirichlet_counts INR]. rewrite (round_even_unique (0 * 1) 0) by (unfold Rabs; destruct Rcase_abs; lra). reflexivity.
Qed.

Lemma example_dirichlet :
  let s := example_ps 1 (Some 1%nat) Dirichlet (AScalar 1) MPNone (Seed 7) in
  (exists s', PS_generate two_state_rng 0 s [0; 1]%Z true = Some (Val [([1; 0], [0%nat])], s', true)) /\
  (exists s', PS_generate two_state_rng 0 s [0; 1]%Z false = Some (Val [([0; 1], [1%nat])], s', false)).
Proof.
  unfold PS_generate, example_ps. cbn [ps_bags ps_random get_random ps_bag_size ps_method ps_n_bags ps_min ps_alphas].
  unfold generate_dirichlet, effective_alphas.
  change (np_unique [0%Z; 1%Z]) with [0%Z; 1%Z]. cbn [length repeat existsb].
  destruct (Rle_dec (1 * 1) 0); [lra|]. cbn [orb r_dirichlet two_state_rng length Nat.sub repeat app dirichlet_bags].
  rewrite counts_first, counts_last. unfold fill. cbn [combine Z.eqb Pos.eqb]. change (Z.to_nat 1) with 1%nat.
  cbn. replace (1 / 1) with 1 by lra. replace (0 / 1) with 0 by lra.
  split; eexists; reflexivity.
Qed.

Lemma example_three : round_even (2/5 * INR 10) = 4%Z.
Proof. apply round_even_unique. simpl. unfold Rabs; destruct Rcase_abs; lra. Qed.

Lemma example_quarter : round_even (1/4 * INR 100) = 25%Z.
Proof. apply round_even_unique. rewrite INR_IZR_INZ. simpl. unfold Rabs; destruct Rcase_abs; lra. Qed.

(** ** The statements of the properties *)

Theorem PS_minimum_prevalence : forall (G : Type) (RG : rng G) fuel s y global bags s' global',
  rng_ok RG -> y <> [] -> ps_bags s = None -> (0 < bag_size_of s y)%nat ->
  one_per_class (ps_min s) (length (np_unique y)) -> ps_method s = Uniform ->
  PS_generate RG fuel s y global = Some (Val bags, s', global') ->
  Forall (fun b => forall i, (i < length (np_unique y))%nat ->
    (round_even (INR (bag_size_of s y) * minimum_for (ps_min s) i) <= Z.of_nat (class_size y i b))%Z /\
    minimum_for (ps_min s) i - 1 / (2 * INR (bag_size_of s y)) <= nth i (fst b) 0) bags.
Proof.
  intros G RG fuel s y global bags s' global' OK Hy Hb Hs Ho Hm H.
  pose proof (PS_minimum RG fuel s y global bags s' global' OK Hy Hb Hs Ho Hm H) as M.
  pose proof (PS_honest RG fuel s y global bags s' global' OK Hy Hb Hs Ho H) as [_ B].
  rewrite Forall_forall in *. intros b Hin i Hi. destruct (M b Hin) as [M1 _]. specialize (M1 i Hi). split; auto.
  destruct (B b Hin) as [B1 [_ [_ B4]]]. rewrite B4 by auto. unfold fraction, bag_labels. rewrite map_length, B1.
  apply half_example; auto.
Qed.

Theorem PS_last_class : forall (G : Type) (RG : rng G) fuel s y global bags s' global',
  rng_ok RG -> y <> [] -> ps_bags s = None -> (0 < bag_size_of s y)%nat ->
  one_per_class (ps_min s) (length (np_unique y)) -> ps_method s = Uniform -> (2 <= length (np_unique y))%nat ->
  PS_generate RG fuel s y global = Some (Val bags, s', global') ->
  Forall (fun b => 0 < nth (length (np_unique y) - 1) (fst b) 0) bags.
Proof.
  intros G RG fuel s y global bags s' global' OK Hy Hb Hs Ho Hm H2 H.
  pose proof (PS_minimum RG fuel s y global bags s' global' OK Hy Hb Hs Ho Hm H) as M.
  pose proof (PS_honest RG fuel s y global bags s' global' OK Hy Hb Hs Ho H) as [_ B].
  rewrite Forall_forall in *. intros b Hin. destruct (M b Hin) as [_ M2]. specialize (M2 H2).
  destruct (B b Hin) as [B1 [_ [_ B4]]]. rewrite B4 by lia. unfold fraction, bag_labels. rewrite map_length, B1.
  apply Rdiv_lt_0_compat; apply INR_pos; auto.
Qed.

Theorem exact_bound_refuted : exists bags s' b,
  PS_generate lowest_rng 1 (example_ps 1 (Some 14%nat) Uniform ANone (MPScalar (1/10)) (Seed 0)) [0; 1]%Z tt
  = Some (Val bags, s', tt) /\ In b bags /\ nth 0 (fst b) 0 < 1 / 10.
Proof.
  destruct example_tenth as [s' H]. eexists _, s', _. split; [exact H|]. split; [left; reflexivity|]. simpl. lra.
Qed.

Theorem PS_never : forall (G : Type) (RG : rng G) s y v global, rng_ok RG -> y <> [] -> ps_bags s = None ->
  ps_method s = Uniform -> ps_min s = MPScalar v -> 0 <= v <= 1 -> get_random RG (ps_random s) <> None ->
  (0 < ps_n_bags s)%nat -> (3 <= length (np_unique y))%nat ->
  (2 * round_even (v * INR (bag_size_of s y)) < Z.of_nat (bag_size_of s y))%Z ->
  (Z.of_nat (bag_size_of s y) <= Z.of_nat (length (np_unique y)) * round_even (v * INR (bag_size_of s y)))%Z ->
  forall fuel, PS_generate RG fuel s y global = None.
Proof.
  intros G RG s y v global OK Hy Hb Hm Hv Hr Hg Hn Hc H1 H2 fuel. unfold PS_generate. rewrite Hb.
  destruct (get_random RG (ps_random s)) as [g|]; [|congruence]. rewrite Hm, Hv.
  change (match ps_bag_size s with Some n => n | None => length y end) with (bag_size_of s y).
  rewrite uniform_never; auto.
Qed.

Theorem PS_possible : forall s y v global, y <> [] -> ps_bags s = None ->
  ps_method s = Uniform -> ps_min s = MPScalar v -> 0 <= v <= 1 -> get_random multiples_rng (ps_random s) <> None ->
  (3 <= length (np_unique y))%nat ->
  (Z.of_nat (length (np_unique y)) * round_even (v * INR (bag_size_of s y)) < Z.of_nat (bag_size_of s y))%Z ->
  exists bags s', PS_generate multiples_rng (ps_n_bags s) s y global = Some (Val bags, s', global).
Proof.
  intros s y v global Hy Hb Hm Hv Hr Hg Hc H2. unfold PS_generate. rewrite Hb.
  destruct (get_random multiples_rng (ps_random s)) as [g|]; [|congruence]. rewrite Hm, Hv.
  change (match ps_bag_size s with Some n => n | None => length y end) with (bag_size_of s y).
  destruct (uniform_possible y (ps_n_bags s) (bag_size_of s y) v g Hy Hc Hr H2) as [bags [g' E]]. rewrite E. eauto.
Qed.

Theorem PS_terminates : forall (G : Type) (RG : rng G) s y fuel global, ps_bags s = None ->
  ps_method s = Uniform -> ps_min s = MPNone -> get_random RG (ps_random s) <> None -> (0 < bag_size_of s y)%nat ->
  (ps_n_bags s <= fuel)%nat ->
  exists bags s', PS_generate RG fuel s y global = Some (Val bags, s', global).
Proof.
  intros G RG s y fuel global Hb Hm Hv Hg Hs Hf. unfold PS_generate. rewrite Hb.
  destruct (get_random RG (ps_random s)) as [g|]; [|congruence]. rewrite Hm, Hv.
  change (match ps_bag_size s with Some n => n | None => length y end) with (bag_size_of s y).
  unfold generate_uniform. cbn [check_min_prevalence limits].
  destruct (uniform_loop_terminates RG y (np_unique y) (bag_size_of s y) 0 (Z.of_nat (bag_size_of s y)) ltac:(lia) (ps_n_bags s) fuel g Hf)
    as [bags [g' E]]. rewrite E. eauto.
Qed.

Theorem termination_refuted : forall (G : Type) (RG : rng G) fuel seed global, rng_ok RG ->
  PS_generate RG fuel (example_ps 1 (Some 10%nat) Uniform ANone (MPScalar (2/5)) (Seed seed)) [0; 1; 2]%Z global = None /\
  PS_generate RG fuel (example_ps 1 (Some 100%nat) Uniform ANone (MPScalar (1/4)) (Seed seed)) [0; 1; 2; 3]%Z global = None.
Proof.
  intros G RG fuel seed global OK. split.
  - apply (PS_never G RG _ _ (2/5)); auto; try reflexivity; try (simpl; congruence); try (simpl; lia); try lra;
      cbn [bag_size_of example_ps ps_bag_size]; rewrite example_three; change (length (np_unique [0; 1; 2]%Z)) with 3%nat; lia.
  - apply (PS_never G RG _ _ (1/4)); auto; try reflexivity; try (simpl; congruence); try (simpl; lia); try lra;
      cbn [bag_size_of example_ps ps_bag_size]; rewrite example_quarter; change (length (np_unique [0; 1; 2; 3]%Z)) with 4%nat; lia.
Qed.

Lemma mixed_example : exists bags s',
  MS_generate lowest_rng 5 {| ms_n_bags := 3; ms_bag_size := Some 4%nat; ms_method := Uniform; ms_alphas := ANone;
     ms_min := MPNone; ms_random := Seed 1; ms_bags := None |} [[0]; [1]] [0; 1]%Z tt = Some (Val bags, s', tt).
Proof.
  unfold MS_generate. cbn [ms_bags ms_bag_size ms_n_bags ms_method ms_alphas ms_min ms_random].
  destruct (PS_terminates unit lowest_rng
    {| ps_n_bags := 3 / 2; ps_bag_size := Some 4%nat; ps_method := Uniform; ps_alphas := ANone; ps_min := MPNone;
       ps_random := Seed 1; ps_bags := None |} [0; 1]%Z 5 tt) as [b [s' E]]; auto; try (simpl; congruence); try (unfold bag_size_of; simpl; lia).
  rewrite E.
  destruct (CS_total lowest_rng {| cs_n_bags := 3 - 3 / 2; cs_bag_size := Some 4%nat; cs_random := Seed 1; cs_bags := None |}
    [[0]; [1]] [0; 1]%Z) as [b2 [s2 E2]]; auto; try (simpl; congruence).
  rewrite E2. eauto.
Qed.

Theorem PS_once : forall (G : Type) (RG : rng G) fuel s y global b s1 global1,
  PS_generate RG fuel s y global = Some (Val b, s1, global1) ->
  forall evs, exists s2, ps_history RG evs s1 global1 = Some (s2, global1) /\
  forall fuel' y', PS_generate RG fuel' s2 y' global1 = Some (Val b, s2, global1).
Proof.
  intros G RG fuel s y global b s1 global1 H evs. apply PS_keeps in H.
  destruct (PS_write_once RG b evs s1 global1 H) as [s2 [E1 E2]]. exists s2. split; auto.
  intros. unfold PS_generate. rewrite E2. auto.
Qed.

Theorem CS_once : forall (G : Type) (RG : rng G) s X y b s1,
  CS_generate RG s X y = (Val b, s1) ->
  forall evs X' y', CS_generate RG (cs_history RG evs s1) X' y' = (Val b, cs_history RG evs s1).
Proof.
  intros G RG s X y b s1 H evs X' y'. apply CS_keeps in H. pose proof (CS_write_once RG b evs s1 H) as E.
  unfold CS_generate. rewrite E. auto.
Qed.

Theorem MS_once : forall (G : Type) (RG : rng G) fuel s X y global b s1 global1,
  MS_generate RG fuel s X y global = Some (Val b, s1, global1) ->
  forall evs, exists s2, ms_history RG evs s1 global1 = Some (s2, global1) /\
  forall fuel' X' y', MS_generate RG fuel' s2 X' y' global1 = Some (Val b, s2, global1).
Proof.
  intros G RG fuel s X y global b s1 global1 H evs. apply MS_keeps in H.
  destruct (MS_write_once RG b evs s1 global1 H) as [s2 [E1 E2]]. exists s2. split; auto.
  intros. unfold MS_generate. rewrite E2. auto.
Qed.

Theorem retry_refuted :
  let s := example_ps 2 (Some 10%nat) Uniform ANone (MPScalar (1/2)) (Seed 0) in
  exists s' bags, PS_generate lowest_rng 5 s [0; 1]%Z tt = Some (Err ValueError, s', tt) /\
    PS_generate lowest_rng 5 s' [0; 1]%Z tt = Some (Val bags, s', tt) /\
    bags <> [] /\ Forall (fun b => ~ honest_bag [0; 1]%Z 10 b) bags.
Proof.
  intros s. destruct example_half as [s' [H1 H2]]. exists s'. eexists. split; [exact H1|]. split; [exact H2|].
  split; [congruence|].
  assert (N : ~ honest_bag [0; 1]%Z 10 ([0; 0], repeat O 10)).
  { intros [_ [_ [_ H]]]. specialize (H 0%nat ltac:(simpl; lia)).
    change (np_unique [0%Z; 1%Z]) with [0%Z; 1%Z] in H. unfold fraction, bag_labels in H.
    cbn [fst snd nth repeat map length] in H. change (zcount 0 [0; 0; 0; 0; 0; 0; 0; 0; 0; 0]%Z) with 10%nat in H.
    assert (INR 10 = 10) by (simpl; lra). rewrite H0 in H. lra. }
  repeat (apply Forall_cons; [exact N|]); apply Forall_nil.
Qed.

Theorem dirichlet_refuted : exists (s : prior_shift bool) y b1 b2 s1 s2,
  rng_ok two_state_rng /\ ps_random s = Seed 7 /\ ps_method s = Dirichlet /\
  PS_generate two_state_rng 0 s y true = Some (Val b1, s1, true) /\
  PS_generate two_state_rng 0 s y false = Some (Val b2, s2, false) /\ b1 <> b2.
Proof.
  destruct example_dirichlet as [[s1 H1] [s2 H2]]. do 6 eexists. split; [exact two_state_rng_ok|].
  split; [|split; [|split; [exact H1|split; [exact H2|congruence]]]]; reflexivity.
Qed.

(** Draws of zeros: only the last class. *)
Lemma lowest_high : forall y classes bs high, (0 < high)%Z -> forall fuel left g,
  uniform_loop lowest_rng y classes bs None 0 high fuel left g = uniform_loop lowest_rng y classes bs None 0 1 fuel left g.
Proof.
  intros y classes bs high H. induction fuel as [|fuel IH]; intros [|left] g; try reflexivity.
  cbn [uniform_loop]. destruct (Z.ltb_spec 0 high); [|lia]. change (0 <? 1)%Z with true. cbv iota.
  cbn [r_randint lowest_rng accepted].
  destruct (fill lowest_rng y _ 0 (repeat O bs) g) as [idx g2]. rewrite IH. reflexivity.
Qed.

Theorem others_absent : forall s y global, y <> [] -> ps_bags s = None -> (0 < bag_size_of s y)%nat ->
  ps_method s = Uniform -> ps_min s = MPNone -> get_random lowest_rng (ps_random s) <> None ->
  exists bags s', PS_generate lowest_rng (ps_n_bags s) s y global = Some (Val bags, s', global) /\
    length bags = ps_n_bags s /\
    Forall (fun b => forall i, (i < length (np_unique y) - 1)%nat -> nth i (fst b) 0 = 0) bags.
Proof.
  intros s y global Hy Hb Hs Hm Hv Hg.
  destruct (PS_terminates unit lowest_rng s y (ps_n_bags s) global Hb Hm Hv Hg Hs (le_n _)) as [bags [s' E]].
  exists bags, s'. split; auto.
  destruct (PS_honest lowest_rng (ps_n_bags s) s y global bags s' global lowest_rng_ok Hy Hb Hs ltac:(rewrite Hv; exact I) E) as [L B].
  split; auto. rewrite Forall_forall. intros b Hin i Hi.
  unfold PS_generate in E. rewrite Hb in E. destruct (get_random lowest_rng (ps_random s)) as [g|]; [|congruence].
  rewrite Hm, Hv in E. change (match ps_bag_size s with Some n => n | None => length y end) with (bag_size_of s y) in E.
  unfold generate_uniform in E. cbn [check_min_prevalence limits] in E. rewrite lowest_high in E by lia.
  destruct (uniform_loop lowest_rng y (np_unique y) (bag_size_of s y) None 0 1 (ps_n_bags s) (ps_n_bags s) g)
    as [[[b0|e|] g']|] eqn:E'; try discriminate.
  assert (b0 = bags) by congruence. subst b0.
  apply uniform_loop_spec in E'; auto; [|apply lowest_rng_ok|lia|lia].
  destruct E' as [_ [F _]]. rewrite Forall_forall in F, B. destruct (F b Hin) as [_ [ps [Sp [_ C]]]].
  destruct (B b Hin) as [B1 [_ [_ B4]]]. rewrite B4 by lia. unfold fraction.
  replace (zcount (nth i (np_unique y) 0%Z) (bag_labels y (snd b))) with (class_size y i b) by reflexivity.
  rewrite C by lia.
  pose proof (sp_last _ _ _ _ _ Sp ltac:(lia)) as H1. pose proof (sp_sum _ _ _ _ _ Sp) as H2. pose proof (sp_length _ _ _ _ _ Sp) as H3.
  pose proof (sp_nonneg _ _ _ _ _ Sp) as H4.
  assert (Z0 : nth i ps 0%Z = 0%Z).
  { assert (P : (0 <= nth i ps 0)%Z) by (rewrite Forall_forall in H4; apply H4, nth_In; lia).
    destruct (exists_last (l := ps)) as [front [x Ex]]; [intro; subst; simpl in H3; lia|].
    rewrite Ex in *. rewrite app_length in H3. simpl in H3. rewrite app_nth2 in H1 by lia.
    replace (length (np_unique y) - 1 - length front)%nat with O in H1 by lia. simpl in H1.
    rewrite zlist_sum_app in H2. change (zlist_sum [x]) with (x + 0)%Z in H2. rewrite app_nth1 in * by lia.
    apply Forall_app in H4. destruct H4 as [H4 _]. pose proof (nth_zlist_le_sum front H4 i). lia. }
  rewrite Z0. simpl. unfold Rdiv. apply Rmult_0_l.
Qed.

Theorem PS_no_room : forall (G : Type) (RG : rng G) s y v global fuel, y <> [] -> ps_bags s = None ->
  ps_method s = Uniform -> ps_min s = MPScalar v -> 0 <= v <= 1 -> get_random RG (ps_random s) <> None ->
  (0 < ps_n_bags s)%nat -> (3 <= length (np_unique y))%nat -> (0 < fuel)%nat ->
  (Z.of_nat (bag_size_of s y) <= 2 * round_even (v * INR (bag_size_of s y)))%Z ->
  exists s', PS_generate RG fuel s y global = Some (Err ValueError, s', global).
Proof.
  intros G RG s y v global fuel Hy Hb Hm Hv Hr Hg Hn Hc Hf H. unfold PS_generate. rewrite Hb.
  destruct (get_random RG (ps_random s)) as [g|]; [|congruence]. rewrite Hm, Hv.
  change (match ps_bag_size s with Some n => n | None => length y end) with (bag_size_of s y).
  unfold generate_uniform, check_min_prevalence.
  destruct (Rlt_dec 1 v); [lra|]. destruct (Rlt_dec v 0); [lra|].
  unfold limits. destruct (Nat.eqb_spec (length (np_unique y)) 2); [lia|].
  replace (1 * v * INR (bag_size_of s y)) with (v * INR (bag_size_of s y)) by ring.
  set (m := round_even (v * INR (bag_size_of s y))) in *.
  assert (Eh : hd 0%Z (repeat m (length (np_unique y))) = m) by (destruct (length (np_unique y)); [lia|reflexivity]).
  assert (El : last (repeat m (length (np_unique y))) 0%Z = m) by (destruct (length (np_unique y)); [lia|apply last_repeat]).
  rewrite Eh, El. destruct (ps_n_bags s); [lia|]. destruct fuel; [lia|]. cbn [uniform_loop].
  destruct (Z.ltb_spec m (Z.of_nat (bag_size_of s y) - m)); [lia|]. eauto.
Qed.
