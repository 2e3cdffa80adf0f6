(** * Proofs about the cut points of the columns. *)

From Coq Require Import Reals List ZArith Lra Lia Bool.
From Verif Require Import Num Spec L_Num M_Baselines M_Bags Spec_Bags L_Bags L_Bags2 L_Bags3 M_Match Spec_Match L_Match L_Match2 L_Match3 L_Match12
  M_Reg Spec_Reg L_Reg L_Reg2 L_Reg3 L_Reg4 M_Eoq Spec_Eoq L_Eoq L_Eoq3 Spec_Cuts.
Import ListNotations.
Open Scope R_scope.

Lemma lmin_smallest : forall l, l <> [] -> smallest l (lmin l).
Proof.
  intros [|a l] H; [congruence|]. cbn [lmin]. split.
  - clear H. revert a. induction l as [|b l IH]; intros a; [now left|]. cbn [fold_left].
    destruct (IH (Rmin a b)) as [E|E]; [|now right; right].
    rewrite <- E. unfold Rmin. destruct (Rle_dec a b); [now left|right; now left].
  - intros x [<-|Hx]; [apply (proj1 (fold_min_le l a))|now apply (proj2 (fold_min_le l a))].
Qed.

Lemma lmax_largest : forall l, l <> [] -> largest l (lmax l).
Proof.
  intros [|a l] H; [congruence|]. cbn [lmax]. split.
  - clear H. revert a. induction l as [|b l IH]; intros a; [now left|]. cbn [fold_left].
    destruct (IH (Rmax a b)) as [E|E]; [|now right; right].
    rewrite <- E. unfold Rmax. destruct (Rle_dec a b); [right; now left|now left].
  - intros x [<-|Hx]; [apply (proj1 (fold_max_ge l a))|now apply (proj2 (fold_max_ge l a))].
Qed.

Lemma edges_spaced : forall n a b, (0 < n)%nat -> a <> b -> equally_spaced n a b (wrapped (inner (uniform_edges n a b))).
Proof.
  intros n a b Hn Hab.
  assert (L : length (inner (uniform_edges n a b)) = (n - 1)%nat)
    by (rewrite inner_length, uniform_edges_length; lia).
  destruct (wrapped_shape n (inner (uniform_edges n a b)) Hn L) as (H1 & H2 & H3).
  split; [auto|]. split; [auto|]. split; [auto|]. intros i Hi. destruct i as [|i]; [lia|].
  rewrite (nth_indep _ NegInf PosInf) by lia. rewrite wrapped_nth by lia. rewrite inner_nth by (rewrite uniform_edges_length; lia).
  now rewrite uniform_edges_nth by (auto; lia).
Qed.

Lemma edges_widened : forall n a, (0 < n)%nat -> equally_spaced n (a - 1/2) (a + 1/2) (wrapped (inner (uniform_edges n a a))).
Proof.
  intros n a Hn. replace (uniform_edges n a a) with (uniform_edges n (a - 1/2) (a + 1/2)).
  - apply edges_spaced; [auto|lra].
  - unfold uniform_edges. destruct (Req_EM_T (a - 1/2) (a + 1/2)) as [E|_]; [lra|].
    destruct (Req_EM_T a a) as [_|E]; [reflexivity|congruence].
Qed.

Lemma width_of_range : forall ppf x y classes n a b, (0 < n)%nat -> a < b ->
  exists cuts, compute_bincuts ppf x y classes n EqualWidth (Some (a, b)) = Val cuts /\ equally_spaced n a b cuts.
Proof.
  intros ppf x y classes n a b Hn Hab. unfold compute_bincuts. destruct n as [|n']; [lia|].
  eexists. split; [reflexivity|]. apply edges_spaced; [auto|lra].
Qed.

Lemma width_of_data : forall ppf x y classes n, (0 < n)%nat -> x <> [] ->
  exists cuts, compute_bincuts ppf x y classes n EqualWidth None = Val cuts /\ spaced_over n x cuts.
Proof.
  intros ppf x y classes n Hn Hx. unfold compute_bincuts. destruct n as [|n']; [lia|].
  destruct x as [|v x]; [congruence|]. eexists. split; [reflexivity|].
  exists (lmin (v :: x)), (lmax (v :: x)). split; [now apply lmin_smallest|]. split; [now apply lmax_largest|]. split.
  - intros H. apply edges_spaced; [auto|lra].
  - intros <-. now apply edges_widened.
Qed.

Lemma width_inv : forall ppf x y classes n range cuts, compute_bincuts ppf x y classes n EqualWidth range = Val cuts ->
  match range with None => spaced_over n x cuts | Some (a, b) => a < b -> equally_spaced n a b cuts end.
Proof.
  intros ppf x y classes n range cuts H.
  destruct n as [|n]; [discriminate|]. destruct range as [[a b]|].
  - intros Hab. destruct (width_of_range ppf x y classes (S n) a b) as (c & E & S); [lia|auto|].
    rewrite E in H. inversion H; subst. auto.
  - destruct x as [|v x]; [discriminate|].
    destruct (width_of_data ppf (v :: x) y classes (S n)) as (c & E & S); [lia|discriminate|].
    rewrite E in H. inversion H; subst. auto.
Qed.

Lemma columns_collect : forall (rule : list R -> out (list edge)) k rows cuts,
  collect (map (fun a => rule (col a rows)) (seq 0 k)) = Val cuts -> cuts_of_columns rule k rows cuts.
Proof.
  intros rule k rows cuts H. pose proof (collect_length _ _ H) as L. rewrite map_length, seq_length in L.
  split; [auto|]. intros d Hd.
  pose proof (collect_nth _ _ _ H d 0%nat [] ltac:(rewrite seq_length; auto)) as E. now rewrite seq_nth in E by auto.
Qed.

Lemma columns_spaced : forall ppf y classes n k rows cuts,
  cuts_of_columns (fun v => compute_bincuts ppf v y classes n EqualWidth None) k rows cuts ->
  forall d, (d < k)%nat -> spaced_over n (column d rows) (nth d cuts []).
Proof. intros ppf y classes n k rows cuts [_ H] d Hd. exact (width_inv _ _ _ _ _ _ _ (H d Hd)). Qed.

Lemma columns_unit : forall ppf y classes n k rows cuts,
  cuts_of_columns (fun v => compute_bincuts ppf v y classes n EqualWidth (Some (0, 1))) k rows cuts ->
  forall d, (d < k)%nat -> equally_spaced n 0 1 (nth d cuts []).
Proof. intros ppf y classes n k rows cuts [_ H] d Hd. apply (width_inv _ _ _ _ _ _ _ (H d Hd)). lra. Qed.

Lemma DFX_columns : forall ppf nb strat y k X cuts, DFX_cuts ppf nb strat y k X = Val cuts ->
  cuts_of_columns (fun v => compute_bincuts ppf v y (np_unique y) nb strat None) k X cuts /\
  (strat = EqualWidth -> forall d, (d < k)%nat -> spaced_over nb (column d X) (nth d cuts [])).
Proof.
  intros ppf nb strat y k X cuts H. apply (columns_collect (fun v => compute_bincuts ppf v y (np_unique y) nb strat None)) in H.
  split; [auto|]. intros ->. exact (columns_spaced _ _ _ _ _ _ _ H).
Qed.

Lemma DFy_columns : forall ppf nb strat y preds cuts, DFy_cuts ppf nb strat y preds = Val cuts ->
  cuts_of_columns (fun v => compute_bincuts ppf v y (np_unique y) nb strat (Some (0, 1)))
    (n_descriptors (length (np_unique y))) preds cuts /\
  (strat = EqualWidth -> forall d, (d < n_descriptors (length (np_unique y)))%nat -> equally_spaced nb 0 1 (nth d cuts [])).
Proof.
  intros ppf nb strat y preds cuts H.
  apply (columns_collect (fun v => compute_bincuts ppf v y (np_unique y) nb strat (Some (0, 1)))) in H.
  split; [auto|]. intros ->. exact (columns_unit _ _ _ _ _ _ _ H).
Qed.

Lemma REGX_columns : forall {S M} (B : bag_source S) (Q : regression M) ppf nb strat k X y w q w',
  REGX_fit B Q ppf nb strat (Table k X) y w = Some (Val q, w') ->
  cuts_of_columns (fun v => compute_bincuts ppf v y (np_unique y) nb strat None) k X (ro_cuts q) /\
  (strat = EqualWidth -> forall d, (d < k)%nat -> spaced_over nb (column d X) (nth d (ro_cuts q) [])).
Proof.
  intros S M B Q ppf nb strat k X y w q w' H. cbn [REGX_fit] in H. apply REG_fit_inv in H. destruct H as (H & _).
  exact (DFX_columns _ _ _ _ _ _ _ H).
Qed.

Lemma REGy_columns : forall {S M} (B : bag_source S) (Q : regression M) ppf nb strat y r preds w q w',
  y <> [] -> (0 < r)%nat -> length preds = (r * length y)%nat -> Forall (fun p => length p = length (np_unique y)) preds ->
  REGy_fit B Q ppf nb strat y preds w = Some (Val q, w') ->
  cuts_of_columns (fun v => compute_bincuts ppf v (concat (repeat y r)) (np_unique y) nb strat (Some (0, 1)))
    (n_descriptors (length (np_unique y))) preds (ro_cuts q) /\
  (strat = EqualWidth -> forall d, (d < n_descriptors (length (np_unique y)))%nat ->
     equally_spaced nb 0 1 (nth d (ro_cuts q) [])).
Proof.
  intros S M B Q ppf nb strat y r preds w q w' Hy Hr HL HF H. rewrite (REGy_fit_REG B Q ppf nb strat y r preds w Hy Hr HL HF) in H.
  apply REG_fit_inv in H. destruct H as (H & _). unfold reg_cuts in H.
  apply (columns_collect (fun v => compute_bincuts ppf v (concat (repeat y r)) (np_unique (concat (repeat y r))) nb strat (Some (0, 1)))) in H.
  rewrite unique_repeated in H by auto.
  assert (G : cuts_of_columns (fun v => compute_bincuts ppf v (concat (repeat y r)) (np_unique y) nb strat (Some (0, 1)))
    (n_descriptors (length (np_unique y))) preds (ro_cuts q)).
  { destruct H as [L H]. split; [auto|]. intros d Hd. rewrite <- (H d Hd). f_equal.
    unfold n_descriptors in Hd. destruct (Nat.eqb (length (np_unique y)) 2); [|reflexivity].
    assert (d = 0%nat) by lia. subst d. unfold column. rewrite map_map. reflexivity. }
  split; [exact G|]. intros ->. exact (columns_unit _ _ _ _ _ _ _ G).
Qed.

Lemma without_columns : forall {S Q} (B : settable S) ppf fit predict p k X y preds given g (q : eoq Q) g',
  EoQ_fit B ppf (Without fit predict) p k X y preds given g = Some (Val q, g') ->
  length (eq_cuts q) = k /\ forall d, (d < k)%nat -> spaced_over 100 (column d X) (nth d (eq_cuts q) []).
Proof.
  intros S Q B ppf fit predict p k X y preds given g q g' H. apply EoQ_fit_inv in H. destruct H as (bags & _ & H).
  unfold fit_without in H. apply obind_inv in H. destruct H as (cuts & HC & H). apply obind_inv in H. destruct H as (qs & HQ & H).
  apply omap_inv in H. destruct H as (ds & HD & ->). cbn [eq_cuts].
  destruct (attribute_cuts_inv _ _ _ _ _ HC) as (LC & _ & BC). split; [auto|]. intros d Hd.
  unfold eoq_attribute_cuts in HC.
  pose proof (collect_nth _ _ _ HC d 0%nat [] ltac:(rewrite seq_length; auto)) as E. rewrite seq_nth in E by auto.
  apply obind_inv in E. destruct E as (c & Ec & E). destruct (Nat.eqb (length c) 101); [|discriminate].
  inversion E as [E1]. rewrite E1 in Ec. rewrite BC in Ec by lia. exact (width_inv _ _ _ _ _ _ _ Ec).
Qed.

Lemma using_columns : forall {S Q} (B : settable S) ppf fit predict p k X y preds rows given g (q : eoq Q) g',
  EoQ_fit B ppf (Using fit predict) p k X y preds given g = Some (Val q, g') ->
  describes (length (np_unique y)) preds rows ->
  cuts_of_columns (fun v => compute_bincuts ppf v (y_ext y (n_predictions preds)) (np_unique y) (ep_bins p) (ep_strategy p) None)
    (n_descriptors (length (np_unique y))) rows (eq_cuts q) /\
  (ep_strategy p = EqualWidth -> forall d, (d < n_descriptors (length (np_unique y)))%nat ->
     spaced_over (ep_bins p) (column d rows) (nth d (eq_cuts q) [])).
Proof.
  intros S Q B ppf fit predict p k X y preds rows given g q g' H HR. apply EoQ_fit_inv in H. destruct H as (bags & _ & H).
  apply fit_using_inv in H. destruct H as (_ & _ & _ & cols & _ & _ & H & _). unfold eoq_prediction_cuts in H.
  rewrite (describes_described _ _ _ HR) in H.
  apply (columns_collect (fun v => compute_bincuts ppf v (y_ext y (n_predictions preds)) (np_unique y) (ep_bins p) (ep_strategy p) None)) in H.
  split; [auto|]. intros E. rewrite E in H. exact (columns_spaced _ _ _ _ _ _ _ H).
Qed.

(** The bags of an ensemble come from the generator, with the data of the call, or are those given. *)
Lemma eoq_bags_source : forall {S Q} (B : settable S) ppf (b : base Q) p k X y preds given g (q : eoq Q) g',
  EoQ_fit B ppf b p k X y preds given g = Some (Val q, g') ->
  match given with
  | Some bags => eq_bags q = bags /\ g' = g
  | None => bs_generate (se_source B) X y (se_set B (ep_n p) g) = Some (Val (eq_bags q), g')
  end.
Proof.
  intros S Q B ppf b p k X y preds given g q g' H. apply EoQ_fit_inv in H. destruct H as (bags & H & HF).
  assert (E : eq_bags q = bags).
  { destruct b as [fit predict|fit predict|]; [apply fit_without_inv in HF|apply fit_using_inv in HF|contradiction]; tauto. }
  rewrite E. destruct given as [l|]; cbn [eoq_bags] in H; [inversion H; auto|auto].
Qed.

(** ** With a generator of the library that has not been used *)

Section Fresh.
Context {Q : Type}.
Variables (b : base Q) (ppf : R -> R) (p : eoq_params) (k : nat) (X : list (list R)) (y : list Z) (preds : predictions) (q : eoq Q).

Lemma eoq_fresh_prior : forall (G : Type) (RG : rng G) fuel s global g', rng_ok RG -> y <> [] -> ps_bags s = None ->
  (0 < bag_size_of s y)%nat -> one_per_class (ps_min s) (length (np_unique y)) ->
  EoQ_fit (settable_prior RG fuel) ppf b p k X y preds None (s, global) = Some (Val q, g') ->
  length (eq_bags q) = ep_n p /\ Forall (honest_bag y (bag_size_of s y)) (eq_bags q).
Proof.
  intros G RG fuel s global g' HR Hy Hb Hs Ho H. apply eoq_bags_source in H.
  cbn [se_source settable_prior se_set bs_generate prior_source fst snd] in H.
  match type of H with context [PS_generate RG fuel ?s' y global] => set (s1 := s') in H end.
  destruct (PS_generate RG fuel s1 y global) as [[[o s'] g]|] eqn:E; [|discriminate]. inversion H; subst.
  exact (@PS_honest _ _ _ _ _ _ _ _ _ HR Hy (Hb : ps_bags s1 = None) (Hs : (0 < bag_size_of s1 y)%nat) (Ho : one_per_class (ps_min s1) _) E).
Qed.

Lemma eoq_fresh_covariate : forall (G : Type) (RG : rng G) s g', rng_ok RG -> cs_bags s = None ->
  (0 < cs_size_of s y)%nat ->
  EoQ_fit (settable_covariate RG) ppf b p k X y preds None s = Some (Val q, g') ->
  length (eq_bags q) = ep_n p /\ Forall (honest_bag y (cs_size_of s y)) (eq_bags q).
Proof.
  intros G RG s g' HR Hb Hs H. apply eoq_bags_source in H.
  cbn [se_source settable_covariate se_set bs_generate covariate_source fst snd] in H.
  match type of H with context [CS_generate RG ?s' X y] => set (s1 := s') in H end.
  assert (E : CS_generate RG s1 X y = (Val (eq_bags q), g')) by congruence.
  exact (@CS_honest _ _ _ _ _ _ _ HR (Hb : cs_bags s1 = None) (Hs : (0 < cs_size_of s1 y)%nat) E).
Qed.

Lemma eoq_fresh_mixed : forall (G : Type) (RG : rng G) fuel s global size g', rng_ok RG -> ms_bags s = None ->
  ms_bag_size s = Some size -> (0 < size)%nat -> one_per_class (ms_min s) (length (np_unique y)) ->
  EoQ_fit (settable_mixed RG fuel) ppf b p k X y preds None (s, global) = Some (Val q, g') ->
  length (eq_bags q) = ep_n p /\ Forall (honest_bag y size) (eq_bags q).
Proof.
  intros G RG fuel s global size g' HR Hb Hz Hs Ho H. apply eoq_bags_source in H.
  cbn [se_source settable_mixed se_set bs_generate mixed_source fst snd] in H.
  match type of H with context [MS_generate RG fuel ?s' X y global] => set (s1 := s') in H end.
  destruct (MS_generate RG fuel s1 X y global) as [[[o s'] g]|] eqn:E; [|discriminate]. inversion H; subst.
  destruct (@MS_honest _ _ _ _ _ _ _ _ _ _ _ HR (Hb : ms_bags s1 = None) (Hz : ms_bag_size s1 = Some size) Hs
             (Ho : one_per_class (ms_min s1) _) E) as (L & F & _). split; [exact L|exact F].
Qed.
End Fresh.
