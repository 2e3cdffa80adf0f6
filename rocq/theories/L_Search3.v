(** * global_search with stored mixtures; SORDy. *)

From Coq Require Import Reals List ZArith Lia Lra Psatz Bool Permutation Sorted.
From Coquelicot Require Import Rcomplements Hierarchy RInt Continuity.
From Verif Require Import Num Spec M_Estimators M_Search Spec_Search L_Num L_Baselines L_Search L_Search2 L_Sord.
Import ListNotations.
Open Scope R_scope.

Lemma minima_ext : forall f tol l1 l2 is best, (forall i, In i is -> (1 <= i <= 99)%nat) -> (forall i, (i <= 100)%nat -> l1 i = l2 i) ->
  search_minima f tol l1 is best = search_minima f tol l2 is best.
Proof.
  induction is as [|i is IH]; intros best R E; auto. cbn [search_minima]. pose proof (R i (or_introl eq_refl)).
  rewrite !E by lia. assert (R' : forall i, In i is -> (1 <= i <= 99)%nat) by (intros; apply R; right; auto).
  rewrite (IH best R' E). destruct (Rlt_dec _ _); auto. destruct (Rlt_dec _ _); auto.
  destruct (golden_section_search _ _ _ _); simpl; auto. destruct best; rewrite (IH _ R' E); auto.
Qed.

Lemma global_ext : forall f tol l1 l2, (forall i, (i <= 100)%nat -> l1 i = l2 i) ->
  global_search_from f tol l1 = global_search_from f tol l2.
Proof.
  intros f tol l1 l2 E. unfold global_search_from. rewrite (minima_ext f tol l1 l2) by (auto; intros; apply seq_1_99; auto).
  rewrite !E by lia. auto.
Qed.

(** What the search returns does not depend on the mixtures being stored or not. *)
Lemma global_search_stored : forall {M T : Type} (distance : M -> T -> R) (mixture : R -> M) (test : T) tol,
  let ms := map (fun i => mixture (INR i / 100)) (seq 0 101) in
  let p := global_search_from (fun p => distance (mixture p) test) tol (fun i => distance (mixture (INR i / 100)) test) in
  global_search distance mixture test tol None true = omap (fun p => (Some ms, p)) p /\
  global_search distance mixture test tol (Some ms) true = omap (fun p => (Some ms, p)) p /\
  global_search distance mixture test tol None false = omap (fun p => (None, p)) p.
Proof.
  intros M T distance mixture test tol ms p. unfold global_search.
  assert (E : global_search_from (fun p => distance (mixture p) test) tol (fun i => distance (nth i ms (mixture 0)) test) = p).
  { apply global_ext. intros i Hi. f_equal. unfold ms. rewrite (nth_indep _ _ (mixture (INR 0 / 100))) by (rewrite map_length, seq_length; lia).
    rewrite (map_nth (fun i => mixture (INR i / 100))). rewrite seq_nth by lia. auto. }
  unfold grid. fold ms. rewrite E. auto.
Qed.

Lemma np_unique_two : forall y c0 c1, np_unique y = [c0; c1] -> binary_labels y c0 c1 /\ (c0 < c1)%Z.
Proof.
  intros y c0 c1 E. assert (I : forall c, In c y <-> In c [c0; c1]) by (intros; rewrite <- E; symmetry; apply np_unique_in).
  pose proof (np_unique_sorted y) as S. rewrite E in S. inversion S as [|? ? S1 F]; subst. pose proof (Forall_inv F) as Lt. split; auto.
  split; [lia|]. split; [apply I; simpl; auto|]. split; [apply I; simpl; auto|]. intros c H. apply I in H. simpl in H. intuition.
Qed.

Lemma sordy_loss_area : forall argsort y scores test c0 c1 s, sorts argsort pick -> length y = length scores ->
  np_unique y = [c0; c1] -> test <> [] -> sorted_fit argsort (np_unique y) y scores = Val s ->
  forall p a b, (forall v, In v (scores ++ test) -> a <= v <= b) ->
  is_RInt (fun x => Rabs (mixed_fraction_upto p y scores c0 c1 x - fraction_upto test x)) a b (SORDy_loss argsort s test p).
Proof.
  intros argsort y scores test c0 c1 s A L U T F p a b H. destruct (np_unique_two _ _ _ U) as [B O]. rewrite U in F.
  unfold sorted_fit in F. simpl in F. inversion F. apply loss_area; auto.
Qed.

Lemma sordy_loss_zero : forall argsort y scores test c0 c1 s, sorts argsort pick -> length y = length scores ->
  np_unique y = [c0; c1] -> test <> [] -> sorted_fit argsort (np_unique y) y scores = Val s ->
  forall p, SORDy_loss argsort s test p = 0 <-> forall x, mixed_fraction_upto p y scores c0 c1 x = fraction_upto test x.
Proof.
  intros argsort y scores test c0 c1 s A L U T F p. destruct (np_unique_two _ _ _ U) as [B O]. rewrite U in F.
  unfold sorted_fit in F. simpl in F. inversion F. apply loss_zero; auto.
Qed.

Lemma sordy_ties : forall argsort argsort' y scores test c0 c1 s s', sorts argsort pick -> sorts argsort' pick -> length y = length scores ->
  np_unique y = [c0; c1] -> test <> [] -> sorted_fit argsort (np_unique y) y scores = Val s -> sorted_fit argsort' (np_unique y) y scores = Val s' ->
  forall p, SORDy_loss argsort s test p = SORDy_loss argsort' s' test p.
Proof.
  intros argsort argsort' y scores test c0 c1 s s' A A' L U T F F' p.
  destruct (bounded (scores ++ test)) as [b Hb]. destruct (bounded (map Ropp (scores ++ test))) as [a Ha].
  assert (K : forall v, In v (scores ++ test) -> - a <= v <= b).
  { intros v Hv. split; [|auto]. specialize (Ha (- v) ltac:(apply in_map; auto)). lra. }
  pose proof (sordy_loss_area argsort y scores test c0 c1 s A L U T F p _ _ K) as I.
  pose proof (sordy_loss_area argsort' y scores test c0 c1 s' A' L U T F' p _ _ K) as I'.
  apply (is_RInt_unique (V := R_CompleteNormedModule)) in I. apply (is_RInt_unique (V := R_CompleteNormedModule)) in I'. congruence.
Qed.

Lemma minimises_ext : forall f g a b m, (forall x, f x = g x) -> minimises f a b m -> minimises g a b m.
Proof. intros f g a b m E [H1 H2]. split; auto. intros x Hx. rewrite <- !E. auto. Qed.

Lemma sordy_best : forall argsort tol y scores test c0 c1 s, sorts argsort pick -> 0 < tol -> length y = length scores ->
  np_unique y = [c0; c1] -> test <> [] -> sorted_fit argsort (np_unique y) y scores = Val s ->
  forall a b, (forall v, In v (scores ++ test) -> a <= v <= b) ->
  exists p m, SORDy_predict argsort tol s test = Val p /\ 0 < p < 1 /\
    minimises (fun q => RInt (V := R_CompleteNormedModule) (fun x => Rabs (mixed_fraction_upto q y scores c0 c1 x - fraction_upto test x)) a b) 0 1 m /\ Rabs (p - m) <= tol / 2.
Proof.
  intros argsort tol y scores test c0 c1 s A Ht L U T F a b K. destruct (np_unique_two _ _ _ U) as [B O].
  pose proof (sordy_loss_area argsort y scores test c0 c1 s A L U T F) as I.
  rewrite U in F. unfold sorted_fit in F. simpl in F. inversion F as [E]. clear F.
  destruct (loss_minimum argsort A y scores test c0 c1 L B O T) as [m0 M0].
  pose proof (loss_convex argsort A y scores test c0 c1 L B O T) as Cx. rewrite E in M0, Cx.
  destruct (golden_convex (SORDy_loss argsort s test) tol 0 1 m0 ltac:(lra) Ht Cx M0) as [l [p [m [G [M D]]]]].
  destruct (golden_inside (SORDy_loss argsort s test) tol 0 1 ltac:(lra) Ht) as [l' [p' [z [G' [R' _]]]]].
  exists p, m. unfold SORDy_predict. rewrite E, G. split; [reflexivity|]. split; [rewrite G in G'; inversion G'; subst; auto|].
  split; auto. apply (minimises_ext (SORDy_loss argsort s test)); auto.
  intros q. symmetry. apply (is_RInt_unique (V := R_CompleteNormedModule)). apply I. auto.
Qed.

Lemma sordy_consistent : forall argsort tol y scores test c0 c1 s p0, sorts argsort pick -> 0 < tol -> length y = length scores ->
  np_unique y = [c0; c1] -> test <> [] -> sorted_fit argsort (np_unique y) y scores = Val s ->
  0 <= p0 <= 1 -> (forall x, fraction_upto test x = mixed_fraction_upto p0 y scores c0 c1 x) ->
  (exists x, fraction_upto (select c0 y scores) x <> fraction_upto (select c1 y scores) x) ->
  exists p, SORDy_predict argsort tol s test = Val p /\ Rabs (p - p0) <= tol / 2.
Proof.
  intros argsort tol y scores test c0 c1 s p0 A Ht L U T F P0 E [x0 N].
  pose proof (sordy_loss_zero argsort y scores test c0 c1 s A L U T F) as Z.
  destruct (np_unique_two _ _ _ U) as [B O]. rewrite U in F. unfold sorted_fit in F. simpl in F. inversion F as [Es]. clear F.
  destruct (loss_minimum argsort A y scores test c0 c1 L B O T) as [m0 M0].
  pose proof (loss_convex argsort A y scores test c0 c1 L B O T) as Cx. rewrite Es in M0, Cx.
  destruct (golden_convex (SORDy_loss argsort s test) tol 0 1 m0 ltac:(lra) Ht Cx M0) as [l [p [m [G [M D]]]]].
  exists p. rewrite Es. unfold SORDy_predict. rewrite G. split; [reflexivity|]. replace p0 with m; auto.
  assert (Z0 : SORDy_loss argsort s test p0 = 0) by (apply Z; intros; symmetry; apply E).
  assert (NN : 0 <= SORDy_loss argsort s test m).
  { unfold SORDy_loss. destruct (sord_union argsort s test) as [us ls]. 
    assert (NL : forall us ws prev cum, 0 <= sord_loop prev cum ws us).
    { clear. induction us; intros [|w ws] prev cum; simpl; try lra. specialize (IHus ws a (cum + w)). pose proof (Rabs_pos ((a - prev) * cum)). lra. }
    unfold sord. destruct (sord_weights _ _ _ _); [lra|]. destruct us; [lra|apply NL]. }
  destruct M as [Mr Mm]. specialize (Mm p0 P0). assert (Zm : SORDy_loss argsort s test m = 0) by lra.
  rewrite Z in Zm. specialize (Zm x0). rewrite E in Zm. unfold mixed_fraction_upto in Zm.
  assert (K : (m - p0) * (fraction_upto (select c1 y scores) x0 - fraction_upto (select c0 y scores) x0) = 0) by lra.
  apply Rmult_integral in K. destruct K as [K|K]; [lra|]. exfalso. apply N. lra.
Qed.

(** ** An argsort *)
Fixpoint insert_pos (l : list R) (i : nat) (idx : list nat) : list nat :=
  match idx with
  | [] => [i]
  | j :: t => if Rle_dec (nth i l 0) (nth j l 0) then i :: j :: t else j :: insert_pos l i t
  end.
Definition some_argsort (l : list R) : list nat := fold_right (insert_pos l) [] (seq 0 (length l)).

Lemma some_argsort_sorts : sorts some_argsort pick.
Proof.
  assert (IP : forall l i idx, Permutation (insert_pos l i idx) (i :: idx)).
  { intros l i. induction idx; simpl; auto. destruct (Rle_dec _ _); auto. eapply Permutation_trans; [apply perm_skip, IHidx|apply perm_swap]. }
  assert (P : forall l s, Permutation (fold_right (insert_pos l) [] s) s).
  { intros l. induction s; simpl; auto. eapply Permutation_trans; [apply IP|apply perm_skip, IHs]. }
  intros l. split; [apply P|].
  assert (R1 : Forall (fun i => (i < length l)%nat) (some_argsort l)) by (apply perm_range, P).
  assert (E : pick l (some_argsort l) = map (fun i => nth i l 0) (some_argsort l)).
  { induction R1 as [|i idx Hi F IH]; auto. unfold pick in *. cbn [flat_map map]. rewrite IH. 
    destruct (nth_error l i) as [v|] eqn:En; [|apply nth_error_None in En; lia]. rewrite (nth_error_nth _ _ _ En). auto. }
  assert (SS : forall s, Sorted (fun i j => nth i l 0 <= nth j l 0) (fold_right (insert_pos l) [] s)).
  { assert (SI : forall i idx, Sorted (fun i j => nth i l 0 <= nth j l 0) idx -> Sorted (fun i j => nth i l 0 <= nth j l 0) (insert_pos l i idx)).
    { intros i. induction idx as [|j idx IH]; intros S; simpl; [auto|]. destruct (Rle_dec _ _) as [Le|Gt].
      - constructor; auto.
      - inversion S as [|? ? S' H]; subst. constructor; [apply IH; auto|]. destruct idx as [|k idx]; simpl; [constructor; lra|].
        inversion H; subst. destruct (Rle_dec _ _); constructor; lra. }
    induction s; simpl; auto. }
  rewrite E. unfold some_argsort. specialize (SS (seq 0 (length l))). revert SS. generalize (fold_right (insert_pos l) [] (seq 0 (length l))).
  intros idx S. induction S as [|i idx S IH H]; intros k Hk; [simpl in Hk; lia|]. destruct idx as [|j idx]; [simpl in Hk; lia|].
  inversion H; subst. destruct k as [|k]; [simpl; auto|]. apply (IH k). simpl in *. lia.
Qed.
