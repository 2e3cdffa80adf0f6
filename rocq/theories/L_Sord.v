(** * Proofs about SORD. *)

From Coq Require Import Reals List ZArith Lia Lra Psatz Bool Permutation.
From Coquelicot Require Import Rcomplements Hierarchy RInt Continuity.
From Verif Require Import Num Spec M_Estimators M_Search Spec_Search L_Num L_Baselines L_Estimators L_Quantiles L_Quantiles2 L_Search.
Import ListNotations.
Open Scope R_scope.

(** Signed cumulative weight of the entries that are at most [x]. *)
Definition cdf (l : list (R * R)) (x : R) : R := rsum (map (fun sw => if Rle_dec (fst sw) x then snd sw else 0) l).

Lemma cdf_cons : forall s w l x, cdf ((s, w) :: l) x = (if Rle_dec s x then w else 0) + cdf l x.
Proof. reflexivity. Qed.

Lemma cdf_low : forall us ws x, Forall (fun u => x < u) us -> cdf (combine us ws) x = 0.
Proof.
  induction us as [|u us IH]; intros [|w ws] x H; try reflexivity. simpl combine. rewrite cdf_cons.
  pose proof (Forall_inv H). apply Forall_inv_tail in H. rewrite IH by auto. destruct (Rle_dec u x); lra.
Qed.

Lemma RInt_0 : forall a b : R, is_RInt (fun _ : R => 0) a b 0.
Proof.
  intros a b. pose proof (is_RInt_const a b (0 : R)) as H. unfold scal in H; simpl in H; unfold mult in H; simpl in H.
  rewrite Rmult_0_r in H. exact H.
Qed.

Inductive chain : R -> list R -> Prop :=
| chain_nil : forall a, chain a []
| chain_cons : forall a u us, a <= u -> chain u us -> chain a (u :: us).

Lemma chain_all : forall us a, chain a us -> Forall (fun u => a <= u) us.
Proof.
  induction us; intros b H; [constructor|]. inversion H; subst. constructor; auto. apply IHus in H4.
  eapply Forall_impl; [|exact H4]. simpl. intros; lra.
Qed.

Lemma sord_area : forall us ws prev cum b, chain prev us -> length ws = length us -> prev <= b -> Forall (fun u => u <= b) us ->
  cum + rsum ws = 0 ->
  is_RInt (fun x => Rabs (cum + cdf (combine us ws) x)) prev b (sord_loop prev cum ws us).
Proof.
  induction us as [|u us IH]; intros [|w ws] prev cum b C L P F Z; simpl in L; try discriminate.
  - simpl. apply (is_RInt_ext (fun _ => 0)).
    + intros. unfold cdf. simpl in *. replace (cum + 0) with 0 by lra. rewrite Rabs_R0. auto.
    + apply RInt_0.
  - inversion C; subst. pose proof (Forall_inv F) as Fu. pose proof (Forall_inv_tail F) as F'.
    cbn [sord_loop combine].
    assert (Hu : Rabs ((u - prev) * cum) = scal (u - prev) (Rabs cum)).
    { unfold scal; simpl; unfold mult; simpl. rewrite Rabs_mult. f_equal. apply Rabs_right. lra. }
    rewrite Hu. apply (is_RInt_Chasles _ prev u b (scal (u - prev) (Rabs cum)) (sord_loop u (cum + w) ws us)).
    + apply (is_RInt_ext (fun _ => Rabs cum)).
      * intros x [_ Hx]. rewrite Rmax_right in Hx by auto. rewrite cdf_cons, cdf_low.
        -- destruct (Rle_dec u x); [lra|]. f_equal. lra.
        -- pose proof (chain_all _ _ H3). eapply Forall_impl; [|exact H]. simpl. intros; lra.
      * apply (is_RInt_const prev u (Rabs cum)).
    + apply (is_RInt_ext (fun x => Rabs ((cum + w) + cdf (combine us ws) x))).
      * intros x [Hx _]. rewrite Rmin_left in Hx by auto. rewrite cdf_cons. destruct (Rle_dec u x); [|lra]. f_equal. lra.
      * apply IH; auto. change (rsum (w :: ws)) with (w + rsum ws) in Z. lra.
Qed.

Lemma sord_zero : forall us ws prev cum, chain prev us -> length ws = length us -> cum + rsum ws = 0 ->
  sord_loop prev cum ws us = 0 -> forall x, prev <= x -> cum + cdf (combine us ws) x = 0.
Proof.
  assert (NN : forall us ws prev cum, 0 <= sord_loop prev cum ws us).
  { induction us; intros [|w ws] prev cum; simpl; try lra. specialize (IHus ws a (cum + w)). pose proof (Rabs_pos ((a - prev) * cum)). lra. }
  induction us as [|u us IH]; intros [|w ws] prev cum C L Z S x Hx; simpl in L; try discriminate.
  - simpl in *. unfold cdf. simpl. lra.
  - inversion C; subst. cbn [sord_loop combine] in *. change (rsum (w :: ws)) with (w + rsum ws) in Z.
    pose proof (Rabs_pos ((u - prev) * cum)) as A. pose proof (NN us ws u (cum + w)) as B.
    rewrite cdf_cons. destruct (Rle_dec u x) as [Le|Gt].
    + rewrite <- Rplus_assoc. apply (IH ws u (cum + w)); auto; lra.
    + rewrite cdf_low.
      * assert (E : (u - prev) * cum = 0) by (destruct (Req_dec ((u - prev) * cum) 0) as [|N]; auto; apply Rabs_pos_lt in N; lra).
        apply Rmult_integral in E. lra.
      * pose proof (chain_all _ _ H3). eapply Forall_impl; [|exact H]. simpl. intros; lra.
Qed.

Lemma ascending_chain : forall l a, ascending (a :: l) -> chain a l.
Proof.
  induction l; intros b A; constructor.
  - apply (A O). simpl. lia.
  - apply IHl. intros i Hi. apply (A (S i)). simpl in *. lia.
Qed.

Lemma cdf_perm : forall a b x, Permutation a b -> cdf a x = cdf b x.
Proof. intros. unfold cdf. apply rsum_map_perm. auto. Qed.

(** ** The sorted union *)

Lemma pick_combine : forall {A B} (a : list A) (b : list B) idx, length a = length b ->
  Forall (fun i => (i < length a)%nat) idx -> combine (pick a idx) (pick b idx) = pick (combine a b) idx.
Proof.
  intros A B a b idx L. induction idx as [|i idx IH]; intros F; auto. pose proof (Forall_inv F) as Hi. apply Forall_inv_tail in F.
  unfold pick in *. cbn [flat_map]. specialize (IH F).
  destruct (nth_error a i) as [x|] eqn:Ea; [|apply nth_error_None in Ea; lia].
  destruct (nth_error b i) as [y|] eqn:Eb; [|apply nth_error_None in Eb; lia].
  assert (E : nth_error (combine a b) i = Some (x, y)).
  { clear -Ea Eb. revert b i Ea Eb. induction a; intros [|b0 b] [|i] Ea Eb; simpl in *; try discriminate; [congruence|auto]. }
  rewrite E. simpl. f_equal. auto.
Qed.

Lemma pick_map : forall {A B} (f : A -> B) l idx, pick (map f l) idx = map f (pick l idx).
Proof.
  intros. unfold pick. induction idx; simpl; auto. rewrite IHidx, map_app. f_equal.
  rewrite nth_error_map. destruct (nth_error l a); auto.
Qed.

Lemma pick_seq : forall {A} (l : list A), pick l (seq 0 (length l)) = l.
Proof.
  intros A l. unfold pick. assert (forall pre, flat_map (fun i => match nth_error (pre ++ l) i with Some x => [x] | None => [] end) (seq (length pre) (length l)) = l).
  { induction l; intros pre; simpl; auto. rewrite nth_error_app2 by lia. rewrite Nat.sub_diag. simpl. f_equal.
    specialize (IHl (pre ++ [a])). rewrite app_length in IHl. simpl in IHl. rewrite <- app_assoc in IHl. simpl in IHl.
    replace (length pre + 1)%nat with (S (length pre)) in IHl by lia. auto. }
  exact (H []).
Qed.

Lemma pick_perm_idx : forall {A} (l : list A) a b, Permutation a b -> Permutation (pick l a) (pick l b).
Proof. intros. unfold pick. apply Permutation_flat_map. auto. Qed.

Lemma pick_perm : forall {A} (l : list A) idx, Permutation idx (seq 0 (length l)) -> Permutation (pick l idx) l.
Proof. intros. rewrite <- (pick_seq l) at 2. apply pick_perm_idx. auto. Qed.

Lemma perm_range : forall n idx, Permutation idx (seq 0 n) -> Forall (fun i => (i < n)%nat) idx.
Proof. intros n idx P. apply Forall_forall. intros i Hi. apply (Permutation_in _ P) in Hi. apply in_seq in Hi. lia. Qed.

Lemma zmax_ge : forall l c, In c l -> (c <= zmax l)%Z.
Proof.
  intros l c. unfold zmax. generalize (hd 0%Z l) as d. induction l; intros d H; [destruct H|]. simpl. destruct H as [->|H]; [lia|].
  specialize (IHl d H). lia.
Qed.

Lemma zmax_unique : forall l m, In m l -> (forall c, In c l -> (c <= m)%Z) -> zmax l = m.
Proof.
  intros l m Hm U. apply Z.le_antisymm; [|apply zmax_ge; auto]. unfold zmax.
  assert (D : (hd 0%Z l <= m)%Z) by (destruct l; [destruct Hm|apply U; left; auto]). revert D. generalize (hd 0%Z l) as d.
  clear Hm. induction l; intros d D; simpl; auto. apply Z.max_lub; [apply U; left; auto|apply IHl; auto; intros; apply U; right; auto].
Qed.

Lemma zmax_perm : forall a b, Permutation a b -> a <> [] -> zmax a = zmax b.
Proof.
  intros a b P N. assert (E : exists m, In m a /\ forall c, In c a -> (c <= m)%Z).
  { clear P. induction a as [|h t IH]; [congruence|]. destruct t as [|h2 t2].
    - exists h. split; [left; auto|]. intros c [->|[]]. lia.
    - destruct (IH ltac:(discriminate)) as [m [Hm U]]. destruct (Z_le_dec m h).
      + exists h. split; [left; auto|]. intros c [->|H]; [lia|]. specialize (U c H). lia.
      + exists m. split; [right; auto|]. intros c [->|H]; [lia|]. auto. }
  destruct E as [m [Hm U]]. rewrite (zmax_unique a m) by auto. symmetry. apply zmax_unique.
  - apply (Permutation_in _ P); auto.
  - intros c Hc. apply U. apply (Permutation_in _ (Permutation_sym P)); auto.
Qed.

(** Weight of a label. *)
Definition label_weight (p : R) (n0 n1 m : nat) (t c0 c1 c : Z) : R :=
  if Z.eqb c t then - 1 / INR m else if Z.eqb c c1 then p / INR n1 else if Z.eqb c c0 then (1 - p) / INR n0 else 0.

Section Union.
  Context (argsort : list R -> list nat) (A : sorts argsort pick).
  Context (y : list Z) (scores test : list R) (c0 c1 : Z).
  Context (L : length y = length scores) (B : binary_labels y c0 c1) (O : (c0 < c1)%Z) (T : test <> []).
  Let s := {| b_classes := [c0; c1]; b_scores := pick scores (argsort scores); b_labels := pick y (argsort scores) |}.
  Let t := (c1 + 1)%Z.
  Let g (p : R) (c : Z) : R := label_weight p (zcount c0 y) (zcount c1 y) (length test) t c0 c1 c.
  (** all examples and their signed weights, in the original order *)
  Let all (p : R) : list (R * R) := combine (scores ++ test) (map (g p) (y ++ repeat t (length test))).

  Lemma train_perm : Permutation (combine (b_scores s) (b_labels s)) (combine scores y).
  Proof.
    simpl. destruct (A scores) as [P _]. rewrite pick_combine by (auto; apply perm_range; auto).
    apply pick_perm. rewrite combine_length, L, Nat.min_id. auto.
  Qed.

  Lemma train_lengths : length (b_scores s) = length scores /\ length (b_labels s) = length scores.
  Proof.
    simpl. destruct (A scores) as [P _]. pose proof (Permutation_length P) as E. rewrite seq_length in E.
    split; rewrite pick_length; auto; [apply perm_range; auto|rewrite L; apply perm_range; auto].
  Qed.

  Lemma labels_perm : Permutation (b_labels s) y.
  Proof. simpl. apply pick_perm. rewrite L. apply A. Qed.

  Lemma scores_perm : Permutation (b_scores s) scores.
  Proof. simpl. apply pick_perm. apply A. Qed.

  Let U := sord_union argsort s test.

  Lemma union_eq : U = (pick (b_scores s ++ test) (argsort (b_scores s ++ test)),
                        pick (b_labels s ++ repeat t (length test)) (argsort (b_scores s ++ test))).
  Proof.
    unfold U, sord_union. replace (zmax (b_classes s) + 1)%Z with t; auto. simpl. unfold zmax, t. simpl.
    f_equal. lia.
  Qed.

  Lemma union_len : length (b_labels s ++ repeat t (length test)) = length (b_scores s ++ test).
  Proof. rewrite !app_length, repeat_length. destruct train_lengths as [-> ->]. auto. Qed.

  Lemma union_perm : Permutation (combine (fst U) (snd U)) (combine (scores ++ test) (y ++ repeat t (length test))).
  Proof.
    rewrite union_eq. cbn [fst snd]. destruct (A (b_scores s ++ test)) as [P _].
    rewrite pick_combine; [|symmetry; apply union_len|apply perm_range; auto].
    eapply Permutation_trans.
    - apply pick_perm. rewrite combine_length, union_len, Nat.min_id. auto.
    - destruct train_lengths as [E1 E2].
      assert (CA : forall (a : list R) (a' : list R) (b b' : list Z), length a = length b -> combine (a ++ a') (b ++ b') = combine a b ++ combine a' b').
      { induction a; intros a' [|b0 b] b' H; simpl in *; try discriminate; auto. f_equal. auto. }
      rewrite !CA by congruence. apply Permutation_app_tail. apply train_perm.
  Qed.

  Lemma union_lens : length (fst U) = length (snd U) /\ length (fst U) = (length scores + length test)%nat.
  Proof.
    rewrite union_eq. cbn [fst snd]. destruct (A (b_scores s ++ test)) as [P _].
    rewrite !pick_length; [|rewrite union_len; apply perm_range; auto|apply perm_range; auto].
    split; auto. apply Permutation_length in P. rewrite P, seq_length, app_length. destruct train_lengths as [-> _]. auto.
  Qed.

  Lemma union_labels_perm : Permutation (snd U) (y ++ repeat t (length test)).
  Proof.
    destruct union_lens as [E _]. rewrite <- (combine_snd (fst U) (snd U)) by auto.
    rewrite <- (combine_snd (scores ++ test) (y ++ repeat t (length test))) by (rewrite !app_length, repeat_length; lia).
    apply Permutation_map. apply union_perm.
  Qed.

  Lemma y_below : forall c, In c y -> (c < t)%Z.
  Proof. intros c H. destruct B as [_ [_ [_ D]]]. unfold t. destruct (D c H); lia. Qed.

  Lemma union_weights : forall p, sord_weights p (snd U) c0 c1 = map (g p) (snd U).
  Proof.
    intros p. pose proof union_labels_perm as P. unfold sord_weights. destruct B as [N [I0 [I1 D]]].
    assert (M : zmax (snd U) = t).
    { rewrite (zmax_perm _ _ P).
      - apply zmax_unique.
        + apply in_or_app. right. destruct test; [congruence|left; auto].
        + intros c H. apply in_app_or in H. destruct H as [H|H]; [apply y_below in H; lia|apply repeat_spec in H; lia].
      - intro E. rewrite E in P. apply Permutation_nil in P. destruct y; [destruct I0|discriminate]. }
    rewrite M. assert (CT : forall c, In c y -> zcount c (snd U) = zcount c y).
    { intros c Hc. rewrite (zcount_perm _ _ _ P), zcount_app, zcount_repeat. apply y_below in Hc. destruct (Z.eq_dec t c); lia. }
    rewrite (CT c0 I0), (CT c1 I1). assert (CTt : zcount t (snd U) = length test).
    { rewrite (zcount_perm _ _ _ P), zcount_app, zcount_repeat. destruct (Z.eq_dec t t); [|congruence].
      assert (Z : zcount t y = 0%nat); [|lia]. apply count_occ_not_In. intro H. apply y_below in H. lia. }
    rewrite CTt. apply map_ext. intros c. reflexivity.
  Qed.

  Lemma loss_eq : forall p, SORDy_loss argsort s test p = sord (map (g p) (snd U)) (fst U).
  Proof. intros p. unfold SORDy_loss. fold U. rewrite <- union_weights. destruct U; auto. Qed.

  Lemma union_ascending : ascending (fst U).
  Proof. rewrite union_eq. cbn [fst]. apply A. Qed.

  Lemma union_values : forall v, In v (fst U) <-> In v (scores ++ test).
  Proof.
    intros v. assert (P : Permutation (fst U) (scores ++ test)).
    { destruct union_lens as [E _]. rewrite <- (combine_fst (fst U) (snd U)) by auto.
      rewrite <- (combine_fst (scores ++ test) (y ++ repeat t (length test))) by (rewrite !app_length, repeat_length; lia).
      apply Permutation_map. apply union_perm. }
    split; intro H; [apply (Permutation_in _ P); auto|apply (Permutation_in _ (Permutation_sym P)); auto].
  Qed.

  Lemma combine_map_r : forall {X} (f : Z -> R) (a : list X) (b : list Z), combine a (map f b) = map (fun ab => (fst ab, f (snd ab))) (combine a b).
  Proof. induction a; intros [|b0 b]; simpl; auto. f_equal. auto. Qed.

  Lemma union_cdf : forall p x, cdf (combine (fst U) (map (g p) (snd U))) x = cdf (all p) x.
  Proof.
    intros p x. apply cdf_perm. unfold all. rewrite !combine_map_r. apply Permutation_map. apply union_perm.
  Qed.

  Lemma train_cdf : forall p x yy ss, length yy = length ss -> (forall c, In c yy -> c = c0 \/ c = c1) ->
    cdf (combine ss (map (g p) yy)) x =
    (1 - p) / INR (zcount c0 y) * rsum (map (fun v => if Rle_dec v x then 1 else 0) (select c0 yy ss)) +
    p / INR (zcount c1 y) * rsum (map (fun v => if Rle_dec v x then 1 else 0) (select c1 yy ss)).
  Proof.
    induction yy as [|c yy IH]; intros [|v ss] E D; simpl in E; try discriminate.
    - unfold cdf, select. simpl. lra.
    - cbn [map combine]. rewrite cdf_cons, IH by (auto; intros; apply D; right; auto).
      unfold select. cbn [combine filter fst snd map].
      assert (G0 : g p c0 = (1 - p) / INR (zcount c0 y)).
      { unfold g, label_weight, t. destruct (Z.eqb_spec c0 (c1 + 1)); [lia|]. destruct (Z.eqb_spec c0 c1); [lia|]. rewrite Z.eqb_refl. auto. }
      assert (G1 : g p c1 = p / INR (zcount c1 y)).
      { unfold g, label_weight, t. destruct (Z.eqb_spec c1 (c1 + 1)); [lia|]. rewrite Z.eqb_refl. auto. }
      destruct (D c (or_introl eq_refl)) as [-> | ->].
      + rewrite G0, Z.eqb_refl. destruct (Z.eqb_spec c0 c1); [lia|]. cbn [map snd]. rewrite rsum_cons. destruct (Rle_dec v x); lra.
      + rewrite G1, Z.eqb_refl. destruct (Z.eqb_spec c1 c0); [lia|]. cbn [map snd]. rewrite rsum_cons. destruct (Rle_dec v x); lra.
  Qed.

  Lemma test_cdf : forall p x l, cdf (combine l (map (g p) (repeat t (length l)))) x = - / INR (length test) * rsum (map (fun v => if Rle_dec v x then 1 else 0) l).
  Proof.
    intros p x l. assert (G : g p t = - / INR (length test)) by (unfold g, label_weight; rewrite Z.eqb_refl; unfold Rdiv; lra).
    induction l as [|v l IH]; [unfold cdf; simpl; lra|]. cbn [length repeat map combine]. rewrite cdf_cons, IH, rsum_cons, G. destruct (Rle_dec v x); lra.
  Qed.

  Lemma all_cdf : forall p x, cdf (all p) x = mixed_fraction_upto p y scores c0 c1 x - fraction_upto test x.
  Proof.
    intros p x. unfold all. rewrite map_app.
    assert (CA : forall (a : list R) (a' : list R) (b b' : list R), length a = length b -> combine (a ++ a') (b ++ b') = combine a b ++ combine a' b').
    { induction a; intros a' [|b0 b] b' H; simpl in *; try discriminate; auto. f_equal. auto. }
    rewrite CA by (rewrite map_length; auto). unfold cdf at 1. rewrite map_app, rsum_app.
    change (cdf (combine scores (map (g p) y)) x + cdf (combine test (map (g p) (repeat t (length test)))) x = mixed_fraction_upto p y scores c0 c1 x - fraction_upto test x).
    destruct B as [N [I0 [I1 D]]]. rewrite train_cdf, test_cdf by auto. unfold mixed_fraction_upto, fraction_upto.
    rewrite !select_length by auto. unfold Rdiv. lra.
  Qed.

  Lemma all_total : forall p x, (forall v, In v (scores ++ test) -> v <= x) -> mixed_fraction_upto p y scores c0 c1 x - fraction_upto test x = 0.
  Proof.
    intros p x H. assert (F : forall l, l <> [] -> (forall v, In v l -> In v (scores ++ test)) -> fraction_upto l x = 1).
    { intros l N I. unfold fraction_upto. rewrite (rsum_map_ext _ (fun _ => 1)).
      - rewrite rsum_map_const. pose proof (length_pos l N). field. lra.
      - intros v Hv. destruct (Rle_dec v x) as [|n]; auto. exfalso. apply n. auto. }
    destruct B as [N [I0 [I1 D]]]. unfold mixed_fraction_upto. rewrite !F; try lra; auto using select_nonempty.
    - intros v Hv. apply in_or_app; auto.
    - intros v Hv. apply select_in in Hv. apply in_or_app; auto.
    - intros v Hv. apply select_in in Hv. apply in_or_app; auto.
  Qed.

  Lemma cdf_total : forall us ws x, length us = length ws -> (forall v, In v us -> v <= x) -> cdf (combine us ws) x = rsum ws.
  Proof.
    induction us; intros [|w ws] x E H; simpl in E; try discriminate; auto. simpl combine. rewrite cdf_cons, rsum_cons, IHus; auto.
    - destruct (Rle_dec a x) as [|n]; auto. exfalso. apply n. apply H. left; auto.
    - intros v Hv. apply H. right; auto.
  Qed.

  Lemma bounded : forall l : list R, exists x, forall v, In v l -> v <= x.
  Proof.
    induction l as [|a l [x IH]]; [exists 0; intros v []|]. exists (Rmax a x). intros v [->|H]; [apply Rmax_l|].
    apply Rle_trans with x; [auto|apply Rmax_r].
  Qed.

  Lemma weights_total : forall p, rsum (map (g p) (snd U)) = 0.
  Proof.
    intros p. destruct (bounded (fst U)) as [x Hx]. destruct union_lens as [E _].
    rewrite <- (cdf_total (fst U) _ x) by (auto; rewrite map_length; auto). rewrite union_cdf, all_cdf. apply all_total.
    intros v Hv. apply Hx. apply union_values. auto.
  Qed.

  (** The loss is the area between the cumulative distributions. *)
  Lemma loss_area : forall p a b, (forall v, In v (scores ++ test) -> a <= v <= b) ->
    is_RInt (fun x => Rabs (mixed_fraction_upto p y scores c0 c1 x - fraction_upto test x)) a b (SORDy_loss argsort s test p).
  Proof.
    intros p a b H. rewrite loss_eq. apply (is_RInt_ext (fun x => Rabs (cdf (combine (fst U) (map (g p) (snd U))) x))).
    { intros x _. rewrite union_cdf, all_cdf. auto. }
    pose proof union_lens as [E1 E2]. pose proof union_ascending as S. pose proof (weights_total p) as W.
    assert (H' : forall v, In v (fst U) -> a <= v <= b) by (intros; apply H, union_values; auto).
    assert (NE : length test <> 0%nat) by (destruct test; [congruence|discriminate]).
    destruct (fst U) as [|u us]; [simpl in E2; lia|]. destruct (snd U) as [|c cs]; [discriminate|].
    cbn [map combine]. unfold sord. pose proof (H' u (or_introl eq_refl)) as Hu.
    rewrite <- (Rplus_0_l (sord_loop _ _ _ _)). apply (is_RInt_Chasles _ a u b 0 (sord_loop u (g p c) (map (g p) cs) us)).
    - apply (is_RInt_ext (fun _ => 0)).
      + intros x [_ Hx]. rewrite Rmax_right in Hx by lra. rewrite cdf_cons, cdf_low.
        * destruct (Rle_dec u x); [lra|]. rewrite Rplus_0_r, Rabs_R0. auto.
        * pose proof (chain_all _ _ (ascending_chain _ _ S)) as G. eapply Forall_impl; [|exact G]. simpl. intros; lra.
      + apply RInt_0.
    - apply (is_RInt_ext (fun x => Rabs (g p c + cdf (combine us (map (g p) cs)) x))).
      + intros x [Hx _]. rewrite Rmin_left in Hx by lra. rewrite cdf_cons. destruct (Rle_dec u x); [auto|lra].
      + apply sord_area; auto; try lra.
        * apply ascending_chain; auto.
        * rewrite map_length. simpl in E1. lia.
        * apply Forall_forall. intros v Hv. apply H'. right; auto.
  Qed.

  Lemma loss_zero : forall p, SORDy_loss argsort s test p = 0 <-> forall x, mixed_fraction_upto p y scores c0 c1 x = fraction_upto test x.
  Proof.
    intros p. split.
    - intros Z x. apply Rminus_diag_uniq. rewrite <- all_cdf, <- union_cdf. rewrite loss_eq in Z.
      pose proof union_lens as [E1 E2]. pose proof union_ascending as S. pose proof (weights_total p) as W.
      destruct (fst U) as [|u us]; [reflexivity|]. destruct (snd U) as [|c cs]; [discriminate|].
      cbn [map combine] in *. unfold sord in Z. rewrite cdf_cons. pose proof (ascending_chain _ _ S) as C. destruct (Rle_dec u x) as [Le|Gt].
      + apply (sord_zero us (map (g p) cs) u (g p c)); auto. rewrite map_length. simpl in E1. lia.
      + rewrite cdf_low; [lra|]. pose proof (chain_all _ _ C) as G. eapply Forall_impl; [|exact G]. simpl. intros; lra.
    - intros H. destruct (bounded (scores ++ test)) as [b Hb]. destruct (bounded (map Ropp (scores ++ test))) as [a Ha].
      assert (K : forall v, In v (scores ++ test) -> - a <= v <= b).
      { intros v Hv. split; [|auto]. specialize (Ha (- v) ltac:(apply in_map; auto)). lra. }
      pose proof (loss_area p (-a) b K) as I. apply (is_RInt_unique (V := R_CompleteNormedModule)) in I. rewrite <- I.
      apply (is_RInt_unique (V := R_CompleteNormedModule)). apply (is_RInt_ext (fun _ => 0)).
      + intros x _. rewrite H. unfold Rminus. rewrite Rplus_opp_r, Rabs_R0. auto.
      + apply RInt_0.
  Qed.

  (** ** Convexity and continuity in the prevalence *)

  Lemma g_affine : forall a p q c, g (a * p + (1 - a) * q) c = a * g p c + (1 - a) * g q c.
  Proof. intros. unfold g, label_weight. destruct (Z.eqb c t), (Z.eqb c c1), (Z.eqb c c0); unfold Rdiv; ring. Qed.

  Lemma loop_convex : forall a p q, 0 <= a <= 1 -> forall cs us prev k l,
    sord_loop prev (a * k + (1 - a) * l) (map (g (a * p + (1 - a) * q)) cs) us <=
    a * sord_loop prev k (map (g p) cs) us + (1 - a) * sord_loop prev l (map (g q) cs) us.
  Proof.
    intros a p q Ha. induction cs as [|c cs IH]; intros [|u us] prev k l; simpl; try lra.
    specialize (IH us u (k + g p c) (l + g q c)). rewrite g_affine.
    replace (a * k + (1 - a) * l + (a * g p c + (1 - a) * g q c)) with (a * (k + g p c) + (1 - a) * (l + g q c)) by ring.
    assert (T3 : Rabs ((u - prev) * (a * k + (1 - a) * l)) <= a * Rabs ((u - prev) * k) + (1 - a) * Rabs ((u - prev) * l)).
    { replace ((u - prev) * (a * k + (1 - a) * l)) with (a * ((u - prev) * k) + (1 - a) * ((u - prev) * l)) by ring.
      eapply Rle_trans; [apply Rabs_triang|]. rewrite (Rabs_mult a), (Rabs_mult (1 - a)), (Rabs_right a), (Rabs_right (1 - a)); lra. }
    lra.
  Qed.

  Lemma loss_convex : convex_on (SORDy_loss argsort s test) 0 1.
  Proof.
    intros p q a _ _ Ha. rewrite !loss_eq. destruct (fst U) as [|u us], (snd U) as [|c cs]; simpl; try lra.
    rewrite g_affine. apply loop_convex. auto.
  Qed.

  Lemma g_continuous : forall c, continuity (fun p => g p c).
  Proof.
    intros c. unfold g, label_weight. destruct (Z.eqb c t), (Z.eqb c c1), (Z.eqb c c0); intro x; reg.
  Qed.

  Lemma loop_continuous : forall cs us prev k, continuity k -> continuity (fun p => sord_loop prev (k p) (map (g p) cs) us).
  Proof.
    induction cs as [|c cs IH]; intros [|u us] prev k Hk; simpl; try (apply continuity_const; intros ? ?; reflexivity).
    apply (continuity_plus (fun p => Rabs ((u - prev) * k p)) (fun p => sord_loop u (k p + g p c) (map (g p) cs) us)).
    - apply (continuity_comp (fun p => (u - prev) * k p) Rabs); [|exact Rcontinuity_abs].
      apply (continuity_mult (fun _ => u - prev) k); auto. apply continuity_const. intros ? ?; auto.
    - apply (IH us u (fun p => k p + g p c)). apply (continuity_plus k (fun p => g p c)); auto. apply g_continuous.
  Qed.

  Lemma loss_continuous : continuity (SORDy_loss argsort s test).
  Proof.
    assert (E : continuity (fun p => sord (map (g p) (snd U)) (fst U))).
    { destruct (fst U) as [|u us], (snd U) as [|c cs]; simpl; try (apply continuity_const; intros ? ?; reflexivity).
      apply loop_continuous. apply g_continuous. }
    intros x. apply (continuity_pt_ext (fun p => sord (map (g p) (snd U)) (fst U))); [|apply E].
    intros p. symmetry. apply loss_eq.
  Qed.

  Lemma loss_minimum : exists m, minimises (SORDy_loss argsort s test) 0 1 m.
  Proof.
    destruct (continuity_ab_min (SORDy_loss argsort s test) 0 1 ltac:(lra)) as [m [H1 H2]].
    - intros c _. apply loss_continuous.
    - exists m. split; auto.
  Qed.
End Union.
