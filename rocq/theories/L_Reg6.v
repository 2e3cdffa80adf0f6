(** * Examples and counterexamples for the regression quantifiers. *)

From Coq Require Import Reals List ZArith Lia Lra Bool Arith.
From Verif Require Import Num Spec L_Num M_Baselines M_Bags Spec_Bags L_Bags L_Bags2 L_Bags3
  M_Match Spec_Match L_Match L_Match10 M_Reg Spec_Reg L_Reg L_Reg2 L_Reg3 L_Reg4 L_Reg5.
Import ListNotations.
Open Scope R_scope.

Lemma describe_half : forall n s, (0 < n)%nat ->
  describe [half_cut] n s =
  Val [INR (length (filter (below (Fin (1/2))) (col 0 s))) / INR n;
       INR (length (col 0 s) - length (filter (below (Fin (1/2))) (col 0 s))) / INR n].
Proof.
  intros [|n] s H; [lia|]. unfold describe. cbn [combine seq length map fst snd collect].
  unfold half_cut. rewrite histogram_two. reflexivity.
Qed.

Definition unit_X : list (list R) := [[0]; [1]].
Definition three_X : list (list R) := [[0]; [1]; [1]].

Lemma half_cuts : forall ppf X y, col 0 X <> [] -> lmin (col 0 X) = 0 -> lmax (col 0 X) = 1 ->
  reg_cuts ppf 2 EqualWidth None 1 X y = Val [half_cut].
Proof.
  intros ppf X y H1 H2 H3. unfold reg_cuts. cbn [seq map collect]. rewrite two_cuts_range by auto. reflexivity.
Qed.

Lemma unit_cuts : forall ppf y, reg_cuts ppf 2 EqualWidth None 1 unit_X y = Val [half_cut].
Proof.
  intros. apply half_cuts; [discriminate| |]; cbn; unfold Rmin, Rmax; dec_lra; lra.
Qed.
Lemma swapped_cuts : forall ppf y, reg_cuts ppf 2 EqualWidth None 1 [[1]; [0]] y = Val [half_cut].
Proof.
  intros. apply half_cuts; [discriminate| |]; cbn; unfold Rmin, Rmax; dec_lra; lra.
Qed.
Lemma three_cuts : forall ppf y, reg_cuts ppf 2 EqualWidth None 1 three_X y = Val [half_cut].
Proof.
  intros. apply half_cuts; [discriminate| |]; cbn;
    rewrite ?(Rmin_left 0 1), ?(Rmax_right 0 1), ?(Rmax_left 1 1) by lra; reflexivity.
Qed.

(** The fit with bags that are given. *)
Lemma fit_with : forall {S M} (B : bag_source S) (Q : regression M) ppf X y w bags g rows,
  reg_cuts ppf 2 EqualWidth None 1 X y = Val [half_cut] ->
  bs_generate B X y (w_generator w) = Some (Val bags, g) ->
  training_rows [half_cut] X (bs_n_bags B g) bags = Val rows ->
  REGX_fit B Q ppf 2 EqualWidth (Table 1 X) y w =
  let '(models, user) := fit_regressor Q (length (np_unique y)) rows (map fst bags) (w_regressor w) in
  Some (omap (fun f => {| ro_bins := 2; ro_n_classes := length (np_unique y); ro_labels := length (np_unique y);
                          ro_cuts := [half_cut]; ro_dataX := rows; ro_dataY := map fst bags; ro_models := f |}) models,
        {| w_generator := g; w_regressor := user |}).
Proof.
  intros S M B Q ppf X y w bags g rows HC HG HR. unfold REGX_fit, REG_fit, create_training_set.
  rewrite HC, HG. cbn [obind]. rewrite HR. reflexivity.
Qed.

Definition world_of {M} (m : option M) : world unit M := {| w_generator := tt; w_regressor := m |}.

(** ** A generator with two bags of the training set's size *)

Definition good_bags : list bag := [([1; 0], [0; 0]%nat); ([1/2; 1/2], [0; 1]%nat)].

Lemma ex_indexes : forall i, Forall (fun i => (i < 2)%nat) (map (fun j => Nat.min j 1) i).
Proof. intros i. apply Forall_forall. intros x Hx. apply in_map_iff in Hx. destruct Hx as (j & <- & _). lia. Qed.

Lemma good_honest : honest_source (fixed_source good_bags) tt unit_X ex_labels 2.
Proof.
  intros bags g' H. cbn in H. inversion H; subst. split; [reflexivity|].
  change (np_unique ex_labels) with ex_labels.
  unfold good_bags. apply Forall_cons; [|apply Forall_cons; [|apply Forall_nil]];
    (split; [reflexivity|]); (split; [repeat (apply Forall_cons; [simpl; lia|]); apply Forall_nil|]);
    (split; [reflexivity|]); intros c Hc;
    change (np_unique ex_labels) with ex_labels in *; cbn [ex_labels length] in Hc;
    (destruct c as [|[|c]]; [| |lia]); cbn; unfold fraction; cbn; unfold zcount; cbn; try lra.
Qed.

Lemma good_rows : training_rows [half_cut] unit_X 2 good_bags = Val [[1; 0]; [1/2; 1/2]].
Proof.
  unfold training_rows, training_row. cbn [seq map nth_error good_bags snd forallb length unit_X Nat.ltb Nat.leb andb].
  rewrite !describe_half by (simpl; lia). cbn [col map nth filter below length collect obind omap unit_X three_X].
  dec_lra. cbn [length Nat.sub map nth]. 
  apply (f_equal Val). apply (f_equal2 cons); [|apply (f_equal2 cons); [|reflexivity]]; list_lra.
Qed.

Definition trained_q {M} (f : fitted M) : reg_object M :=
  {| ro_bins := 2; ro_n_classes := 2; ro_labels := 2; ro_cuts := [half_cut]; ro_dataX := [[1; 0]; [1/2; 1/2]];
     ro_dataY := [[1; 0]; [1/2; 1/2]]; ro_models := f |}.

Lemma good_fit : forall ppf m, REGX_fit (fixed_source good_bags) memory_regressor ppf 2 EqualWidth (Table 1 unit_X) ex_labels
    (world_of (Some m)) =
  Some (Val (trained_q UserObject), world_of (Some [([1; 0], 0); ([1/2; 1/2], 1/2)])).
Proof.
  intros ppf m. rewrite (fit_with _ _ _ _ _ _ good_bags tt [[1; 0]; [1/2; 1/2]]); [|apply unit_cuts|reflexivity|apply good_rows].
  reflexivity.
Qed.

Lemma good_interpolates : interpolates memory_regressor [([1; 0], 0); ([1/2; 1/2], 1/2)]
  [[1; 0]; [1/2; 1/2]] (col 1 [[1; 0]; [1/2; 1/2]]).
Proof.
  intros j Hj. cbn in Hj. destruct j as [|[|j]]; [| |lia]; cbn [nth col map rg_predict memory_regressor]; apply (f_equal Val).
  - cbn [find]. unfold same_row. cbn [fst]. destruct (list_eq_dec Req_EM_T [1; 0] [1; 0]); [reflexivity|congruence].
  - cbn [find]. unfold same_row. cbn [fst]. destruct (list_eq_dec Req_EM_T [1; 0] [1/2; 1/2]) as [e|].
    + exfalso. assert (1 = 1/2) by congruence. lra.
    + destruct (list_eq_dec Req_EM_T [1/2; 1/2] [1/2; 1/2]); [reflexivity|congruence].
Qed.

Lemma good_glm : forall ppf, REGX_fit (fixed_source good_bags) memory_regressor ppf 2 EqualWidth (Table 1 unit_X) ex_labels
    (world_of None) = Some (Val (trained_q (GLMs [[0; 0]])), world_of None).
Proof.
  intros ppf. rewrite (fit_with _ _ _ _ _ _ good_bags tt [[1; 0]; [1/2; 1/2]]); [|apply unit_cuts|reflexivity|apply good_rows].
  reflexivity.
Qed.

Lemma memory_glm : one_coefficient_each memory_regressor.
Proof.
  intros d rows t p H Hn E. cbn in E. inversion E; subst. rewrite repeat_length. destruct rows as [|r rows]; [congruence|].
  exact (Forall_inv H).
Qed.
Lemma memory_predicts : always_predicts memory_regressor.
Proof. intros m row. eexists. reflexivity. Qed.
Lemma constant_predicts : forall v, always_predicts (constant_regressor v).
Proof. intros v m row. eexists. reflexivity. Qed.

(** ** Three classes and a regression model with a negative output *)

Definition three_bags : list bag := [([1/3; 1/3; 1/3], [0; 1; 2]%nat)].
Definition three_labels : list Z := [0; 1; 2]%Z.

Lemma three_rows : training_rows [half_cut] three_X 1 three_bags = Val [[1/3; 2/3]].
Proof.
  unfold training_rows, training_row. cbn [seq map nth_error three_bags snd forallb length three_X Nat.ltb Nat.leb andb].
  rewrite !describe_half by (simpl; lia). cbn [col map nth filter below length collect obind omap unit_X three_X].
  dec_lra. cbn [length Nat.sub map nth]. 
  apply (f_equal Val). apply (f_equal2 cons); [|reflexivity]; list_lra.
Qed.

Lemma three_fit : forall ppf v, REGX_fit (fixed_source three_bags) (constant_regressor v) ppf 2 EqualWidth (Table 1 three_X)
    three_labels (world_of (Some tt)) =
  Some (Val {| ro_bins := 2; ro_n_classes := 3; ro_labels := 3; ro_cuts := [half_cut]; ro_dataX := [[1/3; 2/3]];
               ro_dataY := [[1/3; 1/3; 1/3]]; ro_models := Copies [tt; tt; tt] |}, world_of (Some tt)).
Proof.
  intros ppf v. rewrite (fit_with _ _ _ _ _ _ three_bags tt [[1/3; 2/3]]); [|apply three_cuts|reflexivity|apply three_rows].
  reflexivity.
Qed.

Lemma negative_outputs : forall ppf, exists q w',
  REGX_fit (fixed_source three_bags) (constant_regressor (-1)) ppf 2 EqualWidth (Table 1 three_X) three_labels
    (world_of (Some tt)) = Some (Val q, w') /\ always_predicts (constant_regressor (-1)) /\
  REGX_predict (constant_regressor (-1)) q (w_regressor w') (Table 1 three_X) = NotANumber.
Proof.
  intros ppf. eexists. eexists. split; [apply three_fit|]. split; [apply constant_predicts|].
  destruct (REGX_many (fixed_source three_bags) (constant_regressor (-1)) ppf 2 EqualWidth 1 three_X three_labels
              (world_of (Some tt)) _ _ tt (Some tt) three_X (ltac:(discriminate) : length (np_unique three_labels) <> 2%nat)
              (three_fit ppf (-1)) eq_refl (constant_predicts (-1)) ltac:(discriminate) ltac:(discriminate))
    as (row & ps & _ & L & P & _ & N).
  apply N. apply Forall_forall. intros p Hp. apply (In_nth _ _ 0) in Hp. destruct Hp as (c & Hc & <-).
  destruct (P c Hc) as (mc & _ & E). cbn in E. inversion E. lra.
Qed.

Lemma mean_three : forall ppf, exists q,
  REGX_fit (fixed_source three_bags) mean_regressor ppf 2 EqualWidth (Table 1 three_X)
    three_labels (world_of (Some [0])) = Some (Val q, world_of (Some [0])) /\ ro_dataX q <> [] /\
  ro_models q = Copies [[1/3]; [1/3]; [1/3]].
Proof.
  intros ppf. rewrite (fit_with _ _ _ _ _ _ three_bags tt [[1/3; 2/3]]); [|apply three_cuts|reflexivity|apply three_rows].
  eexists. split; [reflexivity|]. split; [discriminate|reflexivity].
Qed.

(** ** The user's object shared by two binary quantifiers *)

Definition last_bags : list bag := [([0; 1], [1; 1]%nat)].

Lemma last_rows : training_rows [half_cut] unit_X 1 last_bags = Val [[0; 1]].
Proof.
  unfold training_rows, training_row. cbn [seq map nth_error last_bags snd forallb length unit_X Nat.ltb Nat.leb andb].
  rewrite !describe_half by (simpl; lia). cbn [col map nth filter below length collect obind omap unit_X three_X].
  dec_lra. cbn [length Nat.sub map nth].
  apply (f_equal Val). apply (f_equal2 cons); [|reflexivity]; list_lra.
Qed.
Lemma last_rows_swapped : training_rows [half_cut] [[1]; [0]] 1 last_bags = Val [[1; 0]].
Proof.
  unfold training_rows, training_row. cbn [seq map nth_error last_bags snd forallb length unit_X Nat.ltb Nat.leb andb].
  rewrite !describe_half by (simpl; lia). cbn [col map nth filter below length collect obind omap unit_X three_X].
  dec_lra. cbn [length Nat.sub map nth].
  apply (f_equal Val). apply (f_equal2 cons); [|reflexivity]; list_lra.
Qed.

Definition last_q {M} (f : fitted M) (row : list R) : reg_object M :=
  {| ro_bins := 2; ro_n_classes := 2; ro_labels := 2; ro_cuts := [half_cut]; ro_dataX := [row];
     ro_dataY := [[0; 1]]; ro_models := f |}.

Lemma test_ones : test_row [half_cut] 1 [[1]; [1]] = Val [0; 1].
Proof.
  unfold test_row. cbn [length Nat.leb firstn]. rewrite describe_half by lia. cbn [col map nth filter below length].
  dec_lra. cbn [length Nat.sub]. apply (f_equal Val). list_lra.
Qed.

Lemma same_row_refl : forall r, same_row r r = true.
Proof. intros r. unfold same_row. destruct (list_eq_dec Req_EM_T r r); congruence. Qed.
Lemma same_row_not : forall a b r s, a <> b -> same_row (a :: r) (b :: s) = false.
Proof. intros a b r s H. unfold same_row. destruct (list_eq_dec Req_EM_T (a :: r) (b :: s)); congruence. Qed.

Lemma clip01_one : clip01 1 = 1. Proof. apply clip01_id. lra. Qed.
Lemma clip01_zero : clip01 0 = 0. Proof. apply clip01_id. lra. Qed.

Lemma shared_changes : forall ppf, exists q1 w1 q2 w2,
  REGX_fit (fixed_source last_bags) memory_regressor ppf 2 EqualWidth (Table 1 unit_X) ex_labels
    (world_of (Some [])) = Some (Val q1, w1) /\
  REGX_fit (fixed_source last_bags) memory_regressor ppf 2 EqualWidth (Table 1 [[1]; [0]]) ex_labels w1 = Some (Val q2, w2) /\
  REGX_predict memory_regressor q1 (w_regressor w1) (Table 1 [[1]; [1]]) = Val [0; 1] /\
  REGX_predict memory_regressor q1 (w_regressor w2) (Table 1 [[1]; [1]]) = Val [1; 0].
Proof.
  intros ppf. exists (last_q UserObject [0; 1]), (world_of (Some [([0; 1], 1)])), (last_q UserObject [1; 0]), (world_of (Some [([1; 0], 1)])).
  split; [rewrite (fit_with _ _ _ _ _ _ last_bags tt [[0; 1]]); [reflexivity|apply unit_cuts|reflexivity|apply last_rows]|].
  split; [rewrite (fit_with _ _ _ _ _ _ last_bags tt [[1; 0]]); [reflexivity|apply swapped_cuts|reflexivity|apply last_rows_swapped]|].
  unfold REGX_predict. cbn [last_q ro_cuts]. rewrite test_ones.
  unfold predict_bag, outputs. cbn [obind ro_models last_q world_of w_regressor rg_predict memory_regressor omap ro_n_classes Nat.eqb hd find fst snd].
  rewrite same_row_refl. rewrite same_row_not by lra. cbn [hd snd].
  rewrite !normalise_two_val, clip01_one, clip01_zero. split; apply (f_equal Val); list_lra.
Qed.

(** ** Bags of another size *)

Definition small_bags : list bag := [([0; 1], [1]%nat)].

Lemma small_honest : honest_source (fixed_source small_bags) tt unit_X ex_labels 1.
Proof.
  intros bags g' H. cbn in H. inversion H; subst. split; [reflexivity|].
  apply Forall_cons; [|apply Forall_nil].
  split; [reflexivity|]. split; [repeat (apply Forall_cons; [simpl; lia|]); apply Forall_nil|].
  split; [reflexivity|]. intros c Hc. change (np_unique ex_labels) with ex_labels in *. cbn [ex_labels length] in Hc.
  destruct c as [|[|c]]; [| |lia]; cbn; unfold fraction; cbn; unfold zcount; cbn; try lra.
Qed.

Lemma small_rows : training_rows [half_cut] unit_X 1 small_bags = Val [[0; 1/2]].
Proof.
  unfold training_rows, training_row. cbn [seq map nth_error small_bags snd forallb length unit_X Nat.ltb Nat.leb andb].
  rewrite !describe_half by (simpl; lia). cbn [col map nth filter below length collect obind omap unit_X three_X].
  dec_lra. cbn [length Nat.sub map nth].
  apply (f_equal Val). apply (f_equal2 cons); [|reflexivity]; list_lra.
Qed.

Lemma test_one : test_row [half_cut] 1 [[1]] = Val [0; 1].
Proof.
  unfold test_row. cbn [length Nat.leb firstn]. rewrite describe_half by lia. cbn [col map nth filter below length].
  dec_lra. cbn [length Nat.sub]. apply (f_equal Val). list_lra.
Qed.

(** An exact regression model, and the wrong prevalences for the only bag of the training. *)
Lemma small_wrong : forall ppf, exists q w' m',
  REGX_fit (fixed_source small_bags) memory_regressor ppf 2 EqualWidth (Table 1 unit_X) ex_labels
    (world_of (Some [])) = Some (Val q, w') /\ w_regressor w' = Some m' /\
  honest_source (fixed_source small_bags) tt unit_X ex_labels 1 /\
  interpolates memory_regressor m' (ro_dataX q) (col 1 (ro_dataY q)) /\
  training_pair 2 (ro_cuts q) unit_X ex_labels 1 (nth 0 (ro_dataX q) []) (nth 0 (ro_dataY q) []) [1%nat] /\
  map (fun c => fraction c (bag_labels ex_labels [1%nat])) (np_unique ex_labels) = [0; 1] /\
  REGX_predict memory_regressor q (w_regressor w') (Table 1 (examples unit_X [1%nat])) = Val [1; 0].
Proof.
  intros ppf. set (q := {| ro_bins := 2; ro_n_classes := 2; ro_labels := 2; ro_cuts := [half_cut]; ro_dataX := [[0; 1/2]];
     ro_dataY := [[0; 1]]; ro_models := @UserObject (list (list R * R)) |}).
  assert (HF : REGX_fit (fixed_source small_bags) memory_regressor ppf 2 EqualWidth (Table 1 unit_X) ex_labels
    (world_of (Some [])) = Some (Val q, world_of (Some [([0; 1/2], 1)]))).
  { rewrite (fit_with _ _ _ _ _ _ small_bags tt [[0; 1/2]]); [reflexivity|apply unit_cuts|reflexivity|apply small_rows]. }
  exists q, (world_of (Some [([0; 1/2], 1)])), [([0; 1/2], 1)].
  split; [exact HF|]. split; [reflexivity|]. split; [apply small_honest|]. split.
  { intros j Hj. cbn in Hj. destruct j; [|lia]. cbn [nth q ro_dataX ro_dataY col map rg_predict memory_regressor find fst].
    now rewrite same_row_refl. }
  assert (HN : map (fun c => fraction c (bag_labels ex_labels [1%nat])) (np_unique ex_labels) = [0; 1]).
  { change (np_unique ex_labels) with ex_labels. cbn. unfold fraction, zcount. cbn. list_lra. }
  split.
  { destruct (REGX_pairs _ _ _ _ _ _ _ _ _ _ _ 1 HF small_honest) as (_ & _ & P). destruct (P O) as (idx & T); [simpl; lia|].
    assert (E : idx = [1%nat]); [|now rewrite <- E].
    destruct T as (T1 & T2 & _ & T4 & T5). destruct idx as [|i [|j idx]]; try discriminate.
    pose proof (Forall_inv T2) as Hi. cbn in Hi. destruct i as [|[|i]]; [|reflexivity|lia].
    exfalso. specialize (T5 O). cbn in T5. unfold fraction, zcount in T5. cbn in T5. assert (0 = 1 / 1) by (apply T5; lia). lra. }
  split; [exact HN|].
  change (examples unit_X [1%nat]) with [[1]]. unfold REGX_predict. cbn [q ro_cuts]. rewrite test_one.
  unfold predict_bag, outputs. cbn [obind ro_models q world_of w_regressor rg_predict memory_regressor omap ro_n_classes Nat.eqb hd find fst snd].
  unfold same_row. destruct (list_eq_dec Req_EM_T [0; 1/2] [0; 1]) as [e|_].
  - exfalso. assert (1/2 = 1) by congruence. lra.
  - cbn [hd]. rewrite normalise_two_val, clip01_zero. apply (f_equal Val). list_lra.
Qed.

(** ** A generator of the library shared by two quantifiers *)

Definition lazy_ps : prior_shift unit := example_ps 1 None Uniform ANone MPNone (Seed 0).

Lemma lazy_generate : forall X, exists s', bs_generate (prior_source lowest_rng 1) X ex_labels (lazy_ps, tt) =
  Some (Val last_bags, (s', tt)) /\ ps_n_bags s' = 1%nat.
Proof.
  intros X. cbn [bs_generate prior_source fst snd]. unfold PS_generate, lazy_ps, example_ps.
  cbn [ps_bags ps_random get_random ps_bag_size ps_method ps_n_bags ps_min].
  unfold generate_uniform, check_min_prevalence. change (np_unique ex_labels) with ex_labels.
  cbn. replace (0 / (1 + 1)) with 0 by lra. replace (2 / (1 + 1)) with 1 by lra.
  eexists. split; reflexivity.
Qed.

(** The second quantifier is trained with prevalences that its data do not have. *)
Lemma shared_generator_wrong : forall ppf, exists q1 w1 q2 w2,
  REGX_fit (prior_source lowest_rng 1) memory_regressor ppf 2 EqualWidth (Table 1 unit_X) ex_labels
    {| w_generator := (lazy_ps, tt); w_regressor := None |} = Some (Val q1, w1) /\
  REGX_fit (prior_source lowest_rng 1) memory_regressor ppf 2 EqualWidth (Table 1 unit_X) [1; 0]%Z w1 = Some (Val q2, w2) /\
  ro_dataX q2 = [[0; 1]] /\ ro_dataY q2 = [[0; 1]] /\
  forall idx, ~ training_pair 2 (ro_cuts q2) unit_X [1; 0]%Z 2 [0; 1] [0; 1] idx.
Proof.
  intros ppf. destruct (lazy_generate unit_X) as (s' & HG & HN).
  pose proof (prior_write_once unit lowest_rng 1 _ _ _ _ _ HG unit_X [1; 0]%Z) as HO.
  exists (last_q (GLMs [[0; 0]]) [0; 1]), {| w_generator := (s', tt); w_regressor := None |},
    (last_q (GLMs [[0; 0]]) [0; 1]), {| w_generator := (s', tt); w_regressor := None |}.
  assert (HR : training_rows [half_cut] unit_X (bs_n_bags (prior_source lowest_rng 1) (s', tt)) last_bags = Val [[0; 1]]).
  { cbn [bs_n_bags prior_source fst]. rewrite HN. apply last_rows. }
  split; [rewrite (fit_with _ _ _ _ _ _ last_bags (s', tt) [[0; 1]]); [reflexivity|apply unit_cuts|exact HG|exact HR]|].
  split; [rewrite (fit_with _ _ _ _ _ _ last_bags (s', tt) [[0; 1]]); [reflexivity|apply unit_cuts|exact HO|exact HR]|].
  split; [reflexivity|]. split; [reflexivity|].
  intros idx (L & F & (_ & HB) & _ & HT). destruct idx as [|i [|j [|l idx]]]; try discriminate.
  pose proof (Forall_inv F) as Hi. pose proof (Forall_inv (Forall_inv_tail F)) as Hj. cbn in Hi, Hj.
  specialize (HT O ltac:(simpl; lia)). change (np_unique [1%Z; 0%Z]) with ex_labels in HT.
  destruct i as [|[|i]]; [| |lia]; (destruct j as [|[|j]]; [| |lia]); cbn in HT; unfold fraction, zcount in HT; cbn in HT; try lra.
  destruct (HB O 0%nat) as (c & HC & E); [simpl; lia|lia|]. cbn in E.
  assert (I : in_bin half_cut 0 0) by (split; [intros K; exact K|cbn; lra]).
  assert (c = 2%nat); [|subst c; cbn in E; lra].
  apply (how_many_fun (in_bin half_cut 0) [0; 0]); [exact HC|]. apply hm_yes; [auto|]. apply hm_yes; [auto|]. apply hm_nil.
Qed.
