(** * Ensembles of quantifiers: training of the members, shared generators, bounds. *)

From Coq Require Import Reals List ZArith Lra Lia Permutation Bool.
From Verif Require Import Num Spec L_Num M_Baselines L_Baselines M_Metrics L_Metrics M_Bags Spec_Bags L_Bags M_Match Spec_Match
  L_Match L_Match2 L_Match3 L_Match6 L_Match7 L_Match12 M_Reg Spec_Reg L_Reg L_Reg2 M_Eoq Spec_Eoq L_Eoq L_Eoq2 L_Eoq3.
Import ListNotations.
Open Scope R_scope.

(** ** Each member is trained with its bag *)

Lemma without_trained : forall {S Q} (B : settable S) ppf fit predict p k X y preds given g (q : eoq Q) g',
  EoQ_fit B ppf (Without fit predict) p k X y preds given g = Some (Val q, g') ->
  length (eq_quantifiers q) = ep_n p /\ trained_with_bags fit X y q.
Proof.
  intros S Q B ppf fit predict p k X y preds given g q g' H.
  destruct (EoQ_fit_inv _ _ _ _ _ _ _ _ _ _ _ _ H) as (bags & _ & F).
  destruct (fit_without_inv _ _ _ _ _ _ _ F) as (_ & EB & L & T & _). split; [auto|].
  intros i m Hm. assert (Hi : (i < ep_n p)%nat) by (rewrite <- L; apply nth_error_Some; congruence).
  destruct (T i Hi) as (b & m' & E1 & E2 & FB & E3). exists b. rewrite EB. split; [auto|]. split; [auto|]. congruence.
Qed.

(** Repeated predictions. *)
Definition shifted (r n : nat) (idx : list nat) : list nat :=
  concat (map (fun j => map (fun x => (j * n + x)%nat) idx) (seq 0 r)).

Lemma combine_app : forall {A B} (a a' : list A) (b b' : list B), length a = length b ->
  combine (a ++ a') (b ++ b') = combine a b ++ combine a' b'.
Proof.
  intros A B a. induction a as [|x a IH]; intros a' b b' L; destruct b as [|y b]; try discriminate; [reflexivity|].
  cbn. f_equal. apply IH. now inversion L.
Qed.

Lemma repeat_concat_map : forall {A} (l : list A) r s, concat (repeat l r) = concat (map (fun _ : nat => l) (seq s r)).
Proof. intros A l r. induction r as [|r IH]; intros s; [reflexivity|]. cbn. now rewrite (IH (S s)). Qed.

Lemma combine_repeat : forall (idx : list nat) (v : nat), combine idx (repeat v (length idx)) = map (fun x => (x, v)) idx.
Proof. induction idx as [|x l IH]; intros v; [reflexivity|]. cbn. now rewrite IH. Qed.

Lemma broadcast_shifted : forall n idx r s, length idx = n ->
  map (fun p => (fst p + snd p)%nat) (combine (concat (map (fun _ : nat => idx) (seq s r)))
    (concat (map (fun j => repeat (j * n)%nat n) (seq s r)))) =
  concat (map (fun j => map (fun x => (j * n + x)%nat) idx) (seq s r)).
Proof.
  intros n idx r. induction r as [|r IH]; intros s L; [reflexivity|]. cbn [seq map concat].
  rewrite combine_app by (now rewrite repeat_length). rewrite map_app, (IH (S s) L). f_equal.
  rewrite <- L. rewrite combine_repeat, map_map. apply map_ext. intros x. cbn. lia.
Qed.

Lemma adapted_inv : forall r n idx c, (2 <= r)%nat -> (0 < n)%nat -> adapted_indexes r n idx = Val c ->
  length idx = n /\ c = shifted r n idx.
Proof.
  intros r n idx c Hr Hn H. unfold adapted_indexes, broadcast_add in H.
  assert (LA : length (concat (repeat idx r)) = (r * length idx)%nat) by apply concat_repeat_length.
  assert (LB : length (concat (map (fun j => repeat (j * n)%nat n) (seq 0 r))) = (r * n)%nat).
  { rewrite (concat_uniform_length n); [now rewrite map_length, seq_length|].
    apply Forall_forall. intros l Hl. apply in_map_iff in Hl. destruct Hl as (j & <- & _). apply repeat_length. }
  rewrite LA, LB in H. destruct (Nat.eqb_spec (r * length idx) (r * n)) as [E|E].
  - assert (L : length idx = n) by nia. split; [auto|]. inversion H. unfold shifted.
    rewrite (repeat_concat_map idx r 0). now apply broadcast_shifted.
  - exfalso. destruct (concat (repeat idx r)) as [|x [|x' u]].
    + destruct (concat (map (fun j => repeat (j * n)%nat n) (seq 0 r))) as [|v [|v' w]]; cbn in LB; try nia. discriminate.
    + cbn in LA. destruct (length idx) as [|[|u]]; nia.
    + destruct (concat (map (fun j => repeat (j * n)%nat n) (seq 0 r))) as [|v [|v' w]]; cbn in LB; try nia. discriminate.
Qed.

Lemma shifted_one : forall n idx, shifted 1 n idx = idx.
Proof. intros. unfold shifted. cbn. rewrite app_nil_r. rewrite map_id. reflexivity. Qed.

Lemma columns_inv : forall p r y n_preds bags columns i c, (0 < r)%nat -> (0 < length y)%nat ->
  n_preds = (r * length y)%nat -> (r = 1%nat \/ length bags = ep_n p) ->
  extended_indexes p y n_preds bags = Val columns -> (i < ep_n p)%nat -> nth_error columns i = Some c ->
  exists b, nth_error bags i = Some b /\ (r = 1%nat \/ length (snd b) = length y) /\ c = shifted r (length y) (snd b).
Proof.
  intros p r y n_preds bags columns i c Hr Hy HP HB H Hi HC. unfold extended_indexes in H.
  destruct (Nat.eqb_spec (length y) n_preds) as [E|E].
  - assert (r = 1%nat) by nia. subst r. inversion H; subst columns. rewrite nth_error_map in HC.
    unfold bag in *. destruct (nth_error bags i) as [b|]; [|discriminate]. exists b. split; [auto|]. split; [auto|].
    rewrite shifted_one. cbn in HC. congruence.
  - assert (Hr2 : (2 <= r)%nat) by (destruct r as [|[|r]]; [lia|exfalso; apply E; lia|lia]).
    destruct HB as [HB|HB]; [lia|].
    assert (HD : (n_preds / length y = r)%nat) by (rewrite HP; apply Nat.div_mul; lia). rewrite HD in H.
    assert (EC : (if Nat.eqb (length bags) 1 then concat (repeat (map snd bags) (ep_n p)) else map snd bags) = map snd bags).
    { destruct (Nat.eqb_spec (length bags) 1) as [E1|E1]; [|reflexivity]. rewrite <- HB, E1. cbn. apply app_nil_r. }
    rewrite EC in H. unfold bag in *. rewrite HB, Nat.eqb_refl in H. cbn [orb] in H.
    pose proof (collect_length _ _ H) as L. rewrite !map_length in L.
    pose proof (collect_nth _ _ _ H i [] [] ltac:(rewrite map_length; lia)) as E1.
    rewrite (nth_error_nth _ _ _ HC) in E1.
    apply adapted_inv in E1; [|auto|auto]. destruct E1 as [L1 EQ].
    destruct (nth_error bags i) as [b|] eqn:Eb; [|apply nth_error_None in Eb; lia].
    assert (ES : nth i (map snd bags) [] = snd b).
    { apply nth_error_nth. rewrite nth_error_map, Eb. reflexivity. }
    rewrite ES in *. exists b. auto.
Qed.

Lemma nth_repeated : forall {A} (l : list A) r j x d, (j < r)%nat -> (x < length l)%nat ->
  nth (j * length l + x) (concat (repeat l r)) d = nth x l d.
Proof.
  intros A l r j x d Hj Hx. rewrite (nth_concat_uniform (length l)); [|apply Forall_repeat; reflexivity|auto].
  f_equal. rewrite (nth_indep _ [] l) by (now rewrite repeat_length). apply nth_repeat.
Qed.

Lemma nth_predictions : forall {A} r (tr : list (Z * (nat -> A))) j x d e, (j < r)%nat -> (x < length tr)%nat ->
  nth (j * length tr + x) (predictions_of r tr) d = snd (nth x tr e) j.
Proof.
  intros A r tr j x d e Hj Hx. unfold predictions_of. rewrite (nth_concat_uniform (length tr)); [| |auto].
  2:{ apply Forall_forall. intros l Hl. apply in_map_iff in Hl. destruct Hl as (i & <- & _). apply map_length. }
  rewrite (nth_map_seq (fun j => map (fun e => snd e j) tr)) by auto.
  rewrite (nth_indep _ d (snd e j)) by (now rewrite map_length). now rewrite (map_nth (fun e => snd e j)).
Qed.

Lemma predictions_of_length : forall {A} r (tr : list (Z * (nat -> A))), length (predictions_of r tr) = (r * length tr)%nat.
Proof.
  intros A r tr. unfold predictions_of. rewrite (concat_uniform_length (length tr)); [now rewrite map_length, seq_length|].
  apply Forall_forall. intros l Hl. apply in_map_iff in Hl. destruct Hl as (i & <- & _). apply map_length.
Qed.

Lemma shifted_bound : forall r n idx N, (0 < r)%nat -> N = (r * n)%nat -> Forall (fun x => (x < N)%nat) (shifted r n idx) ->
  Forall (fun x => (x < n)%nat) idx.
Proof.
  intros r n idx N Hr -> H. apply Forall_forall. intros x Hx. rewrite Forall_forall in H.
  assert (I : In ((r - 1) * n + x)%nat (shifted r n idx)).
  { unfold shifted. apply in_concat. exists (map (fun x => ((r - 1) * n + x)%nat) idx). split.
    - apply in_map_iff. exists (r - 1)%nat. split; [auto|]. apply in_seq. lia.
    - apply in_map_iff. eauto. }
  apply H in I. nia.
Qed.

Lemma map_shifted : forall {A B} (f : nat -> A) (g : nat -> B) (h : nat -> nat -> A) r n idx,
  (forall j x, (j < r)%nat -> In x idx -> f (j * n + x)%nat = h j x) ->
  map f (shifted r n idx) = concat (map (fun j => map (h j) idx) (seq 0 r)).
Proof.
  intros A B f _ h r n idx H. unfold shifted. rewrite concat_map, map_map. f_equal. apply map_ext_in. intros j Hj.
  apply in_seq in Hj. rewrite map_map. apply map_ext_in. intros x Hx. apply H; [lia|auto].
Qed.

Lemma labels_of_nth : forall {A} (tr : list (Z * (nat -> A))) x d, (x < length tr)%nat ->
  nth x (labels_of tr) 0%Z = fst (nth x tr (0%Z, fun _ => d)).
Proof.
  intros A tr x d Hx. unfold labels_of. rewrite (nth_indep _ 0%Z (fst (0%Z, fun _ : nat => d))) by (now rewrite map_length).
  now rewrite map_nth.
Qed.

Lemma shifted_labels : forall {A} (d : A) r (tr : list (Z * (nat -> A))) idx yi, (0 < r)%nat ->
  items (shifted r (length tr) idx) (repeated_labels r tr) = Val yi ->
  Forall (fun x => (x < length tr)%nat) idx /\ yi = repeated_labels r (part d idx tr).
Proof.
  intros A d r tr idx yi Hr H. apply (items_inv _ _ 0%Z) in H. destruct H as [F ->].
  assert (LL : length (labels_of tr) = length tr) by apply map_length.
  assert (FB : Forall (fun x => (x < length tr)%nat) idx).
  { apply (shifted_bound r (length tr) idx _ Hr eq_refl). unfold repeated_labels in F. now rewrite concat_repeat_length, LL in F. }
  split; [auto|]. rewrite Forall_forall in FB.
  rewrite (map_shifted _ (fun x : nat => x) (fun _ x => fst (nth x tr (0%Z, fun _ => d)))).
  - unfold repeated_labels. rewrite (repeat_concat_map _ r 0). f_equal. apply map_ext. intros _.
    unfold labels_of, part. now rewrite map_map.
  - intros j x Hj Hx. unfold repeated_labels. rewrite <- (labels_of_nth tr x d) by auto.
    rewrite <- LL. apply nth_repeated; [auto|]. rewrite LL. auto.
Qed.

Lemma shifted_predictions : forall {A} (d : A) r (tr : list (Z * (nat -> A))) idx ps, (0 < r)%nat ->
  Forall (fun x => (x < length tr)%nat) idx ->
  items (shifted r (length tr) idx) (predictions_of r tr) = Val ps -> ps = predictions_of r (part d idx tr).
Proof.
  intros A d r tr idx ps Hr FB H. apply (items_inv _ _ d) in H. destruct H as [_ ->]. rewrite Forall_forall in FB.
  rewrite (map_shifted _ (fun x : nat => x) (fun j x => snd (nth x tr (0%Z, fun _ => d)) j)).
  - unfold predictions_of, part. f_equal. apply map_ext. intros j. now rewrite map_map.
  - intros j x Hj Hx. apply nth_predictions; auto.
Qed.

Lemma using_trained_soft : forall {S Q} (B : settable S) ppf fit predict p k X r tr given g (q : eoq Q) g',
  (0 < r)%nat -> tr <> [] -> (r = 1%nat \/ length (eq_bags q) = ep_n p) ->
  EoQ_fit B ppf (Using fit predict) p k X (labels_of tr) (Soft (predictions_of r tr)) given g = Some (Val q, g') ->
  length (eq_quantifiers q) = ep_n p /\
  forall i m, nth_error (eq_quantifiers q) i = Some m ->
    exists b, nth_error (eq_bags q) i = Some b /\ Forall (fun j => (j < length tr)%nat) (snd b) /\
      (r = 1%nat \/ length (snd b) = length tr) /\
      fit (repeated_labels r (part [] (snd b) tr)) (Soft (predictions_of r (part [] (snd b) tr))) = Val m.
Proof.
  intros S Q B ppf fit predict p k X r tr given g q g' Hr Ht HB H.
  destruct (EoQ_fit_inv _ _ _ _ _ _ _ _ _ _ _ _ H) as (bags & _ & F).
  destruct (fit_using_inv _ _ _ _ _ _ _ F) as (_ & EB & L & cols & HI & T & _). split; [auto|].
  intros i m Hm. assert (Hi : (i < ep_n p)%nat) by (rewrite <- L; apply nth_error_Some; congruence).
  destruct (T i Hi) as (c & yi & pi & m' & E1 & E2 & E3 & E4 & E5). assert (m' = m) by congruence. subst m'.
  assert (LL : length (labels_of tr) = length tr) by apply map_length.
  assert (Ht' : (0 < length tr)%nat) by (destruct tr; [congruence|cbn; lia]).
  cbn [n_predictions] in *. rewrite EB in *.
  destruct (columns_inv p r (labels_of tr) _ bags cols i c Hr ltac:(lia)
              ltac:(rewrite LL; apply predictions_of_length) HB HI Hi E1) as (b & Eb & Lb & ->).
  rewrite LL in *. rewrite y_ext_predictions in E3. destruct (shifted_labels [] r tr (snd b) yi Hr E3) as [FB ->].
  cbn [member_predictions] in E4. apply omap_inv in E4. destruct E4 as (ps & E4 & ->).
  rewrite (shifted_predictions [] r tr (snd b) ps Hr FB E4) in E5.
  exists b. split; [auto|]. split; [auto|]. split; [auto|]. exact E5.
Qed.

Lemma using_trained_crisp : forall {S Q} (B : settable S) ppf fit predict p k X r tr given g (q : eoq Q) g',
  (0 < r)%nat -> tr <> [] -> (r = 1%nat \/ length (eq_bags q) = ep_n p) ->
  EoQ_fit B ppf (Using fit predict) p k X (labels_of tr) (Crisp (predictions_of r tr)) given g = Some (Val q, g') ->
  length (eq_quantifiers q) = ep_n p /\
  forall i m, nth_error (eq_quantifiers q) i = Some m ->
    exists b, nth_error (eq_bags q) i = Some b /\ Forall (fun j => (j < length tr)%nat) (snd b) /\
      (r = 1%nat \/ length (snd b) = length tr) /\
      fit (repeated_labels r (part 0%Z (snd b) tr)) (Crisp (predictions_of r (part 0%Z (snd b) tr))) = Val m.
Proof.
  intros S Q B ppf fit predict p k X r tr given g q g' Hr Ht HB H.
  destruct (EoQ_fit_inv _ _ _ _ _ _ _ _ _ _ _ _ H) as (bags & _ & F).
  destruct (fit_using_inv _ _ _ _ _ _ _ F) as (_ & EB & L & cols & HI & T & _). split; [auto|].
  intros i m Hm. assert (Hi : (i < ep_n p)%nat) by (rewrite <- L; apply nth_error_Some; congruence).
  destruct (T i Hi) as (c & yi & pi & m' & E1 & E2 & E3 & E4 & E5). assert (m' = m) by congruence. subst m'.
  assert (LL : length (labels_of tr) = length tr) by apply map_length.
  assert (Ht' : (0 < length tr)%nat) by (destruct tr; [congruence|cbn; lia]).
  cbn [n_predictions] in *. rewrite EB in *.
  destruct (columns_inv p r (labels_of tr) _ bags cols i c Hr ltac:(lia)
              ltac:(rewrite LL; apply predictions_of_length) HB HI Hi E1) as (b & Eb & Lb & ->).
  rewrite LL in *. rewrite y_ext_predictions in E3. destruct (shifted_labels 0%Z r tr (snd b) yi Hr E3) as [FB ->].
  cbn [member_predictions] in E4. apply omap_inv in E4. destruct E4 as (ps & E4 & ->).
  rewrite (shifted_predictions 0%Z r tr (snd b) ps Hr FB E4) in E5.
  exists b. split; [auto|]. split; [auto|]. split; [auto|]. exact E5.
Qed.

(** One classifier for each member. *)
Lemma using_trained_models : forall {S Q} (B : settable S) ppf fit predict p k X y ps given g (q : eoq Q) g',
  length ps = length y ->
  EoQ_fit B ppf (Using fit predict) p k X y (PerModel ps) given g = Some (Val q, g') ->
  length (eq_quantifiers q) = ep_n p /\
  forall i m, nth_error (eq_quantifiers q) i = Some m ->
    exists b, nth_error (eq_bags q) i = Some b /\
      Forall (fun j => (j < length y)%nat /\ (i < length (nth j ps []))%nat) (snd b) /\
      fit (bag_labels y (snd b)) (Soft (map (fun j => nth i (nth j ps []) []) (snd b))) = Val m.
Proof.
  intros S Q B ppf fit predict p k X y ps given g q g' HL H.
  destruct (EoQ_fit_inv _ _ _ _ _ _ _ _ _ _ _ _ H) as (bags & _ & F).
  destruct (fit_using_inv _ _ _ _ _ _ _ F) as (_ & EB & L & cols & HI & T & _). split; [auto|].
  intros i m Hm. assert (Hi : (i < ep_n p)%nat) by (rewrite <- L; apply nth_error_Some; congruence).
  destruct (T i Hi) as (c & yi & pi & m' & E1 & E2 & E3 & E4 & E5). assert (m' = m) by congruence. subst m'.
  cbn [n_predictions] in *. rewrite HL in *. rewrite EB.
  unfold extended_indexes in HI. rewrite Nat.eqb_refl in HI. inversion HI; subst cols.
  rewrite nth_error_map in E1. unfold bag in *. destruct (nth_error bags i) as [b|]; [|discriminate]. cbn in E1.
  assert (c = snd b) by congruence. subst c. unfold y_ext in E3. rewrite Nat.eqb_refl in E3.
  apply (items_inv _ _ 0%Z) in E3. destruct E3 as [FY ->].
  cbn [member_predictions] in E4. apply omap_inv in E4. destruct E4 as (rs & E4 & ->).
  apply obind_inv in E4. destruct E4 as (exs & E6 & E7). apply (items_inv _ _ []) in E6. destruct E6 as [FP ->].
  assert (G : Forall (fun j => (i < length (nth j ps []))%nat) (snd b) /\ rs = map (fun j => nth i (nth j ps []) []) (snd b)).
  { rewrite map_map in E7.
    assert (G : Forall (fun j => (i < length (nth j ps []))%nat) (snd b)).
    { apply Forall_forall. intros j Hj. destruct (collect_forall _ _ _ E7 j Hj) as (v & Ev). apply item_val in Ev.
      apply nth_error_Some. congruence. }
    split; [auto|]. rewrite (collect_val _ (fun j => nth i (nth j ps []) [])) in E7; [congruence|].
    intros j Hj. apply item_ok. rewrite Forall_forall in G. auto. }
  destruct G as [G ->]. exists b. split; [auto|]. split; [|exact E5].
  apply Forall_forall. intros j Hj. rewrite Forall_forall in FY, G. auto.
Qed.

(** ** Shared generators *)

Lemma prior_keeps : forall {G} (RG : rng G) fuel, keeps_bags (settable_prior RG fuel).
Proof.
  intros G RG fuel n X y [s gl] bags [s' gl'] H n' X' y'.
  assert (E : ps_bags s' = Some bags).
  { cbn [se_source se_set settable_prior bs_generate prior_source fst snd] in H. unfold PS_generate in H.
    cbn [ps_bags ps_random ps_method ps_n_bags ps_bag_size ps_min ps_alphas] in H.
    destruct (ps_bags s) as [b|] eqn:EB; [inversion H; subst; cbn; reflexivity|].
    destruct (get_random RG (ps_random s)) as [g0|]; [|discriminate].
    destruct (ps_method s).
    - destruct (generate_uniform RG y n _ (ps_min s) fuel g0) as [[[b| |] g']|]; try discriminate.
      inversion H; subst. reflexivity.
    - destruct (generate_dirichlet RG y n _ (ps_alphas s) gl g0) as [[o g1] g2]. inversion H; subst. reflexivity.
    - discriminate. }
  cbn [se_source se_set settable_prior bs_generate prior_source fst snd]. unfold PS_generate. cbn [ps_bags]. rewrite E.
  reflexivity.
Qed.

Lemma covariate_keeps : forall {G} (RG : rng G), keeps_bags (settable_covariate RG).
Proof.
  intros G RG n X y s bags s' H n' X' y'.
  assert (E : cs_bags s' = Some bags).
  { cbn [se_source se_set settable_covariate bs_generate covariate_source] in H. unfold CS_generate in H.
    cbn [cs_bags cs_random cs_n_bags cs_bag_size] in H.
    destruct (cs_bags s) as [b|] eqn:EB; [inversion H; subst; cbn; reflexivity|].
    destruct (get_random RG (cs_random s)) as [g0|]; [|discriminate].
    destruct (Nat.eqb _ _ && _)%bool; [|discriminate].
    destruct (r_randint RG 0 _ n g0) as [cs g1]. destruct (covariate_bags RG X y (np_unique y) _ cs g1) as [bb g2].
    inversion H; subst. reflexivity. }
  cbn [se_source se_set settable_covariate bs_generate covariate_source]. unfold CS_generate. cbn [cs_bags]. rewrite E.
  reflexivity.
Qed.

Lemma mixed_keeps : forall {G} (RG : rng G) fuel, keeps_bags (settable_mixed RG fuel).
Proof.
  intros G RG fuel n X y [s gl] bags [s' gl'] H n' X' y'.
  assert (E : ms_bags s' = Some bags).
  { cbn [se_source se_set settable_mixed bs_generate mixed_source fst snd] in H. unfold MS_generate in H.
    cbn [ms_bags ms_random ms_method ms_n_bags ms_bag_size ms_min ms_alphas] in H.
    destruct (ms_bags s) as [b|] eqn:EB; [inversion H; subst; cbn; reflexivity|].
    destruct (ms_bag_size s) as [size|]; [|discriminate].
    cbv zeta in H. destruct (PS_generate RG fuel _ y gl) as [[[[b1| |] s1] g1]|]; try discriminate.
    destruct (CS_generate RG _ X y) as [[b2| |] c2]; try discriminate. inversion H; subst. reflexivity. }
  cbn [se_source se_set settable_mixed bs_generate mixed_source fst snd]. unfold MS_generate. cbn [ms_bags]. rewrite E.
  reflexivity.
Qed.

Definition stuck {S} (B : settable S) (bags : list bag) (g : S) : Prop :=
  forall n X y, bs_generate (se_source B) X y (se_set B n g) = Some (Val bags, se_set B n g).

Lemma history_stuck : forall {S Q} (B : settable S) ppf (b : base Q) calls bags g g', keeps_bags B -> stuck B bags g ->
  eoq_history B ppf b calls g = Some g' -> stuck B bags g'.
Proof.
  intros S Q B ppf b calls. induction calls as [|c calls IH]; intros bags g g' HK HS H; [inversion H; subst; auto|].
  cbn [eoq_history] in H.
  destruct (EoQ_fit B ppf b (ec_params c) (ec_attributes c) (ec_X c) (ec_y c) (ec_preds c) (ec_given c) g) as [[o g1]|] eqn:E;
    [|discriminate].
  refine (IH bags g1 g' HK _ H). unfold EoQ_fit in E. unfold eoq_bags in E. destruct (ec_given c) as [bs|].
  - inversion E; subst; auto.
  - rewrite HS in E. inversion E; subst. intros n X y. apply (HK _ _ _ _ _ _ (HS _ (ec_X c) (ec_y c))).
Qed.

Lemma shared_bags : forall {S Q Q'} (B : settable S) ppf (b : base Q) (b' : base Q') p k X y preds g q g1 calls g2
    p2 k2 X2 y2 preds2 o g3, keeps_bags B ->
  EoQ_fit B ppf b p k X y preds None g = Some (Val q, g1) -> eoq_history B ppf b' calls g1 = Some g2 ->
  EoQ_fit B ppf b p2 k2 X2 y2 preds2 None g2 = Some (o, g3) ->
  (forall q2, o = Val q2 -> eq_bags q2 = eq_bags q) /\
  ((length (eq_bags q) < ep_n p2)%nat -> n_predictions preds2 = length y2 -> forall q2, o <> Val q2).
Proof.
  intros S Q Q' B ppf b b' p k X y preds g q g1 calls g2 p2 k2 X2 y2 preds2 o g3 HK H1 HH H2.
  destruct (EoQ_fit_inv _ _ _ _ _ _ _ _ _ _ _ _ H1) as (bags & HB & F1).
  assert (EB : eq_bags q = bags).
  { destruct b as [fit pr|fit pr|]; [| |destruct F1].
    - destruct (fit_without_inv _ _ _ _ _ _ _ F1) as (_ & E & _). auto.
    - destruct (fit_using_inv _ _ _ _ _ _ _ F1) as (_ & E & _). auto. }
  assert (HS : stuck B bags g1).
  { intros n X' y'. cbn in HB. apply (HK _ _ _ _ _ _ HB). }
  apply (history_stuck B ppf b' calls bags g1 g2 HK HS) in HH.
  assert (K : forall q2, o = Val q2 -> exists g', eoq_bags B p2 X2 y2 None g2 = Some (Val bags, g') /\
      match b with Without fit _ => fit_without fit p2 k2 X2 y2 bags = Val q2
                 | Using fit _ => fit_using ppf fit p2 y2 preds2 bags = Val q2 | OtherBase => False end).
  { intros q2 ->. destruct (EoQ_fit_inv _ _ _ _ _ _ _ _ _ _ _ _ H2) as (bags2 & HB2 & F2).
    assert (bags2 = bags) by (cbn in HB2; rewrite (HH (ep_n p2) X2 y2) in HB2; congruence). subst bags2. eauto. }
  split.
  - intros q2 E. destruct (K q2 E) as (_ & _ & F2). rewrite EB. destruct b as [fit pr|fit pr|]; [| |destruct F2].
    + destruct (fit_without_inv _ _ _ _ _ _ _ F2) as (_ & E2 & _). auto.
    + destruct (fit_using_inv _ _ _ _ _ _ _ F2) as (_ & E2 & _). auto.
  - intros LN LP q2 E. destruct (K q2 E) as (_ & _ & F2). rewrite EB in LN. destruct b as [fit pr|fit pr|]; [| |destruct F2].
    + destruct (fit_without_inv _ _ _ _ _ _ _ F2) as (_ & _ & _ & T & _).
      destruct (T (length bags) LN) as (bb & m & E1 & _). assert (N : nth_error bags (length bags) = None) by (apply nth_error_None; lia).
      unfold bag in *. congruence.
    + destruct (fit_using_inv _ _ _ _ _ _ _ F2) as (_ & _ & _ & cols & HI & T & _).
      unfold extended_indexes in HI. rewrite LP, Nat.eqb_refl in HI. inversion HI; subst cols.
      destruct (T (length bags) LN) as (c & yi & pi & m & E1 & _).
      assert (N : nth_error (map snd bags) (length bags) = None) by (apply nth_error_None; rewrite map_length; apply Nat.le_refl).
      unfold bag in *. congruence.
Qed.
