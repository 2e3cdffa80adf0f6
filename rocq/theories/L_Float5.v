(** * Proofs about double precision: numpy's summation; Frank and Hall. *)

From Coq Require Import Reals ZArith List Bool Lia Lra Permutation.
From Flocq Require Import Core BinarySingleNaN.
From Verif Require Import Num L_Num Spec M_Baselines M_Float Spec_Float L_Float L_Float2 L_Float3 L_Float4 M_Float2.
Import ListNotations.
Open Scope R_scope.

(** ** numpy's summation adds each number once *)

Lemma summed_perm l m s : Permutation l m -> summed l s -> summed m s.
Proof.
  intros P H. destruct H as [|x|l1 l2 l x y S1 S2 Q].
  - apply Permutation_nil in P. subst. constructor.
  - apply Permutation_length_1_inv in P. subst. constructor.
  - eapply summed_add; [exact S1|exact S2|]. rewrite <- P. exact Q.
Qed.

Lemma fold_summed l : forall m s, summed m s -> summed (m ++ l) (fold_left fadd l s).
Proof.
  induction l as [|x l IH]; intros m s H.
  - rewrite app_nil_r. exact H.
  - cbn [fold_left]. replace (m ++ x :: l) with ((m ++ [x]) ++ l) by (rewrite <- app_assoc; reflexivity).
    apply IH. eapply summed_add; [exact H|apply summed_one|apply Permutation_refl].
Qed.

Lemma left_to_right_summed : adds_in_some_order left_to_right.
Proof. intros l. apply (fold_summed l [] f0). constructor. Qed.

Lemma fmap2_summed : forall LS acc l, Forall2 summed LS acc -> length l = length acc ->
  exists LS', Forall2 summed LS' (fmap2 fadd acc l) /\ Permutation (concat LS') (concat LS ++ l) /\ length (fmap2 fadd acc l) = length acc.
Proof.
  intros LS acc l H. revert l. induction H as [|m s LS acc Hm H IH]; intros l E.
  - destruct l; [|discriminate]. exists []. repeat split; constructor.
  - destruct l as [|x l]; [discriminate|]. cbn in E. destruct (IH l ltac:(lia)) as (LS' & A & B & C).
    exists ((m ++ [x]) :: LS'). cbn. split; [|split; [|lia]].
    + constructor; [|exact A]. eapply summed_add; [exact Hm|apply summed_one|apply Permutation_refl].
    + rewrite B. rewrite <- !app_assoc. apply Permutation_app_head.
      exact (Permutation_middle _ _ _).
Qed.

Lemma sum_blocks_ok : forall n acc l LS, Forall2 summed LS acc -> length acc = 8%nat -> (8 * n <= length l)%nat ->
  exists LS', Forall2 summed LS' (fst (sum_blocks n acc l)) /\ length (fst (sum_blocks n acc l)) = 8%nat /\
    Permutation (concat LS' ++ snd (sum_blocks n acc l)) (concat LS ++ l).
Proof.
  induction n as [|n IH]; intros acc l LS H E L.
  - exists LS. split; [exact H|]. split; [exact E|]. apply Permutation_refl.
  - change (sum_blocks (S n) acc l) with (sum_blocks n (fmap2 fadd acc (firstn 8 l)) (skipn 8 l)).
    destruct (fmap2_summed LS acc (firstn 8 l) H) as (LS1 & A & B & C); [rewrite firstn_length; lia|].
    destruct (IH _ (skipn 8 l) LS1 A) as (LS' & A' & B' & C'); [lia|rewrite skipn_length; lia|].
    exists LS'. split; [exact A'|]. split; [exact B'|]. rewrite C', B, <- app_assoc, firstn_skipn. apply Permutation_refl.
Qed.

Lemma summed_app l1 l2 x y : summed l1 x -> summed l2 y -> summed (l1 ++ l2) (fadd x y).
Proof. intros A B. eapply summed_add; [exact A|exact B|apply Permutation_refl]. Qed.

Lemma sum_eight_ok LS acc : Forall2 summed LS acc -> length acc = 8%nat -> summed (concat LS) (sum_eight acc).
Proof.
  intros H E. do 8 (destruct acc as [|? acc]; [discriminate|]). destruct acc; [|discriminate].
  repeat match goal with H : Forall2 summed _ (_ :: _) |- _ => inversion H; subst; clear H end.
  match goal with H : Forall2 summed _ [] |- _ => inversion H; subst; clear H end.
  cbn [concat sum_eight]. rewrite app_nil_r.
  match goal with |- summed (?a ++ ?b ++ ?c ++ ?d ++ ?e ++ ?f ++ ?g ++ ?h) _ =>
    replace (a ++ b ++ c ++ d ++ e ++ f ++ g ++ h) with (((a ++ b) ++ (c ++ d)) ++ ((e ++ f) ++ (g ++ h))) by (rewrite <- !app_assoc; reflexivity) end.
  repeat apply summed_app; assumption.
Qed.

Lemma singletons (l : list float) : Forall2 summed (map (fun x => [x]) l) l /\ concat (map (fun x => [x]) l) = l.
Proof. induction l as [|x l (A & B)]; cbn; [split; [constructor|reflexivity]|]. rewrite B. split; [constructor; [constructor|exact A]|reflexivity]. Qed.

Lemma sum_small_ok l : summed l (sum_small l).
Proof.
  unfold sum_small. destruct (Nat.ltb_spec (length l) 8) as [H|H]; [apply left_to_right_summed|].
  destruct (singletons (firstn 8 l)) as (A & B).
  destruct (sum_blocks_ok (length l / 8 - 1) (firstn 8 l) (skipn 8 l) _ A) as (LS' & A' & B' & C').
  - rewrite firstn_length. lia.
  - rewrite skipn_length. pose proof (Nat.div_mod (length l) 8 ltac:(lia)). lia.
  - destruct (sum_blocks (length l / 8 - 1) (firstn 8 l) (skipn 8 l)) as (acc, rest). cbn [fst snd] in *.
    rewrite B, firstn_skipn in C'. apply (summed_perm _ _ _ C'). apply fold_summed, sum_eight_ok; assumption.
Qed.

Lemma pairwise_sum_ok fuel : forall l, summed l (pairwise_sum fuel l).
Proof.
  induction fuel as [|f IH]; intros l; cbn [pairwise_sum]; [apply sum_small_ok|].
  destruct (Nat.leb (length l) 128); [apply sum_small_ok|].
  set (n := (length l / 2 - (length l / 2) mod 8)%nat).
  eapply summed_add; [apply IH|apply IH|]. rewrite firstn_skipn. apply Permutation_refl.
Qed.

Lemma numpy_sum_ok : adds_in_some_order numpy_sum.
Proof. intros l. apply pairwise_sum_ok. Qed.

Lemma numpy_sum_few : adds_few_in_order numpy_sum.
Proof.
  intros l L. unfold numpy_sum. assert (E : forall f, pairwise_sum f l = left_to_right l).
  { intros f. assert (S : sum_small l = left_to_right l) by (unfold sum_small; destruct (Nat.ltb_spec (length l) 8); [reflexivity|lia]).
    destruct f; cbn [pairwise_sum]; [exact S|]. destruct (Nat.leb_spec (length l) 128); [exact S|lia]. }
  apply E.
Qed.

(** ** The correction *)

From Verif Require Import M_Ordinal.

Lemma fascending_val l : Forall finite l -> fascending l = is_ascending (map val l).
Proof.
  induction 1 as [|a t Ha Ht IH]; [reflexivity|].
  cbn [fascending map is_ascending]. destruct t as [|b t]; [reflexivity|].
  cbn [map] in *. inversion Ht as [|? ? Hb _]; subst. rewrite <- IH.
  destruct (Rle_dec (val a) (val b)) as [L|L].
  - rewrite (proj2 (fle_ok a b Ha Hb) L). reflexivity.
  - destruct (fle a b) eqn:Q; [|reflexivity]. apply (fle_ok a b Ha Hb) in Q. contradiction.
Qed.

Lemma fraise_from_val l : forall prev, finite prev -> Forall finite l ->
  map val (fraise_from prev l) = raise_from (val prev) (map val l) /\ Forall finite (fraise_from prev l).
Proof.
  induction l as [|x t IH]; intros prev P F; [split; [reflexivity|constructor]|].
  inversion F as [|? ? Fx Ft]; subst. cbn [fraise_from map raise_from].
  set (x' := if flt x prev then prev else x).
  assert (Fx' : finite x') by (unfold x'; destruct (flt x prev); assumption).
  assert (V : (if Rlt_dec (val x) (val prev) then val prev else val x) = val x').
  { unfold x'. destruct (Rlt_dec (val x) (val prev)) as [L|L].
    - rewrite (proj2 (flt_ok x prev Fx P) L). reflexivity.
    - rewrite (proj2 (flt_false x prev Fx P)) by lra. reflexivity. }
  rewrite V. destruct (IH x' Fx' Ft) as (A & B). rewrite A. split; [reflexivity|constructor; assumption].
Qed.

Lemma fraise_val l : Forall finite l -> map val (fraise l) = M_Ordinal.left_to_right (map val l) /\ Forall finite (fraise l).
Proof.
  intros F. destruct F as [|x t Fx Ft]; [split; [reflexivity|constructor]|].
  cbn. destruct (fraise_from_val t x Fx Ft) as (A & B). rewrite A. split; [reflexivity|constructor; assumption].
Qed.

Lemma flower_val l : Forall finite l -> map val (flower l) = right_to_left (map val l) /\ Forall finite (flower l).
Proof.
  induction 1 as [|x t Fx Ft (A & B)]; [split; [reflexivity|constructor]|].
  cbn [flower map right_to_left]. rewrite <- A. destruct (flower t) as [|y r]; [split; [reflexivity|repeat constructor; exact Fx]|].
  inversion B as [|? ? Fy Fr]; subst. cbn [map].
  destruct (Rlt_dec (val y) (val x)) as [L|L].
  - rewrite (proj2 (flt_ok y x Fy Fx) L). split; [reflexivity|repeat constructor; assumption].
  - rewrite (proj2 (flt_false y x Fy Fx)) by lra. split; [reflexivity|repeat constructor; assumption].
Qed.

Lemma half_ok a b : in_unit a -> in_unit b ->
  in_unit (fdiv (fadd a b) f2) /\ val (fdiv (fadd a b) f2) = nearest (nearest (val a + val b) / 2) /\
  Rabs (val (fdiv (fadd a b) f2) - (val a + val b) / 2) <= bpow radix2 (-52).
Proof.
  intros (Fa & Ba) (Fb & Bb). destruct f2_ok as (F2 & V2).
  destruct (fadd_ok a b Fa Fb) as (F & V); [apply big4; rewrite Rabs_pos_eq; lra|].
  assert (R2 : 0 <= nearest (val a + val b) <= 2).
  { split; [apply nearest_ge_format; [apply format_0|lra]|apply nearest_le_format; [apply (format_Z 2); lia|lra]]. }
  destruct (fdiv_ok (fadd a b) f2 F) as (G & W); [lra|rewrite V, V2; apply big4; rewrite Rabs_pos_eq; lra|].
  rewrite V, V2 in W.
  assert (B2 : ulp1 = 2 * bpow radix2 (-54)). { unfold ulp1. change (-53)%Z with (1 + -54)%Z. rewrite bpow_plus. reflexivity. }
  assert (B3 : bpow radix2 (-52) = 4 * bpow radix2 (-54)). { change (-52)%Z with (2 + -54)%Z. rewrite bpow_plus. reflexivity. }
  assert (E1 : Rabs (nearest (val a + val b) / 2 - (val a + val b) / 2) <= ulp1).
  { replace (nearest (val a + val b) / 2 - (val a + val b) / 2) with ((nearest (val a + val b) - (val a + val b)) * / 2) by field.
    destruct (add_error a b) as (d & Hd & Ed). rewrite Ed. replace ((val a + val b) * (1 + d) - (val a + val b)) with ((val a + val b) * d) by ring.
    rewrite !Rabs_mult, (Rabs_pos_eq (/ 2)), (Rabs_pos_eq (val a + val b)) by lra.
    assert (K : (val a + val b) * Rabs d <= 2 * ulp1).
    { apply Rmult_le_compat; [lra|apply Rabs_pos|lra|exact Hd]. }
    lra. }
  assert (E2 : Rabs (nearest (nearest (val a + val b) / 2) - nearest (val a + val b) / 2) <= bpow radix2 (-54)).
  { apply nearest_error_unit. rewrite Rabs_pos_eq; lra. }
  split; [|split; [exact W|]].
  - split; [exact G|]. rewrite W. split; [apply nearest_ge_format; [apply format_0|lra]|apply nearest_le_format; [apply format_1|lra]].
  - rewrite W. pose proof (bpow_gt_0 radix2 (-54)). apply Rabs_le_inv in E1, E2. apply Rabs_le. lra.
Qed.

Lemma fraise_from_unit l : forall prev, in_unit prev -> Forall in_unit l -> Forall in_unit (fraise_from prev l).
Proof.
  induction l as [|x t IH]; intros prev P F; [constructor|]. inversion F; subst. cbn.
  assert (in_unit (if flt x prev then prev else x)) by (destruct (flt x prev); assumption). constructor; [|apply IH]; assumption.
Qed.
Lemma fraise_unit l : Forall in_unit l -> Forall in_unit (fraise l).
Proof. intros F. destruct F; [constructor|]. cbn. constructor; [|apply fraise_from_unit]; assumption. Qed.
Lemma flower_unit l : Forall in_unit l -> Forall in_unit (flower l).
Proof.
  induction 1 as [|x t Fx Ft IH]; [constructor|]. cbn. destruct (flower t) as [|y r]; [apply Forall_cons; [exact Fx|constructor]|].
  inversion IH; subst. destruct (flt y x); repeat apply Forall_cons; assumption.
Qed.

Lemma units_finite l : Forall in_unit l -> Forall finite l.
Proof. intros H. eapply Forall_impl; [|exact H]. intros a (F & _). exact F. Qed.

Lemma halves a : forall b, Forall in_unit a -> Forall in_unit b ->
  Forall in_unit (fmap2 (fun x y => fdiv (fadd x y) f2) a b) /\
  within (bpow radix2 (-52)) (fmap2 (fun x y => fdiv (fadd x y) f2) a b) (vmap2 (fun x y => (x + y) / 2) (map val a) (map val b)).
Proof.
  induction a as [|x a IH]; intros b A B; [split; constructor|].
  destruct b as [|y b]; [split; constructor|].
  inversion A; subst. inversion B; subst. cbn [fmap2 map vmap2].
  destruct (half_ok x y) as (U & _ & E); [assumption|assumption|].
  destruct (IH b) as (P & Q); [assumption|assumption|]. split; constructor; assumption.
Qed.

Lemma within_refl d l : 0 <= d -> within d l (map val l).
Proof. intros D. induction l; constructor; [|assumption]. replace (val a - val a) with 0 by ring. rewrite Rabs_R0. exact D. Qed.

Lemma fcorrect_ok l : Forall in_unit l ->
  Forall in_unit (fcorrect_asc l) /\ within (bpow radix2 (-52)) (fcorrect_asc l) (correct_asc (map val l)).
Proof.
  intros U. pose proof (units_finite l U) as F. unfold fcorrect_asc, correct_asc. rewrite (fascending_val l F).
  destruct (is_ascending (map val l)).
  - split; [exact U|]. apply within_refl, bpow_ge_0.
  - destruct (fraise_val l F) as (A & _). destruct (flower_val l F) as (B & _). rewrite <- A, <- B.
    apply halves; [apply fraise_unit, U|apply flower_unit, U].
Qed.

Lemma within_length d l m : within d l m -> length l = length m.
Proof. unfold within. induction 1; cbn; congruence. Qed.

(** *** It does not decrease, even after rounding *)

Lemma ascending_pairs a : forall b, length a = length b -> Forall in_unit a -> Forall in_unit b ->
  is_ascending (map val a) = true -> is_ascending (map val b) = true ->
  fascending (fmap2 (fun x y => fdiv (fadd x y) f2) a b) = true.
Proof.
  induction a as [|x a IH]; intros b E A B Sa Sb; [reflexivity|].
  destruct b as [|y b]; [discriminate|]. destruct a as [|x' a]; [destruct b; reflexivity|]. destruct b as [|y' b]; [discriminate|].
  inversion A as [|? ? Ux Ua]; subst. inversion B as [|? ? Uy Ub]; subst.
  inversion Ua as [|? ? Ux' _]; subst. inversion Ub as [|? ? Uy' _]; subst.
  cbn [map is_ascending] in Sa, Sb. destruct (Rle_dec (val x) (val x')) as [Lx|]; [|discriminate]. destruct (Rle_dec (val y) (val y')) as [Ly|]; [|discriminate].
  destruct (half_ok x y Ux Uy) as ((F & _) & V & _). destruct (half_ok x' y' Ux' Uy') as ((F' & _) & V' & _).
  specialize (IH (y' :: b) ltac:(cbn in *; lia) Ua Ub Sa Sb). cbn [fmap2] in IH |- *. cbn [fascending].
  cbn [fascending] in IH.
  assert (L : fle (fdiv (fadd x y) f2) (fdiv (fadd x' y') f2) = true).
  { apply fle_ok; [exact F|exact F'|]. rewrite V, V'. apply nearest_le.
    assert (nearest (val x + val y) <= nearest (val x' + val y')) by (apply nearest_le; lra). lra. }
  rewrite L. exact IH.
Qed.

Lemma raise_ascending l : forall p, is_ascending (p :: raise_from p l) = true.
Proof.
  induction l as [|x t IH]; intros p; [reflexivity|].
  cbn [raise_from]. cbv zeta. set (x' := if Rlt_dec x p then p else x). specialize (IH x').
  change (is_ascending (p :: x' :: raise_from x' t)) with (if Rle_dec p x' then is_ascending (x' :: raise_from x' t) else false).
  destruct (Rle_dec p x') as [|N]; [exact IH|]. exfalso. apply N. unfold x'. destruct (Rlt_dec x p); lra.
Qed.

Lemma lower_ascending l : is_ascending (right_to_left l) = true.
Proof.
  induction l as [|x t IH]; [reflexivity|]. cbn [right_to_left]. destruct (right_to_left t) as [|y r]; [reflexivity|].
  set (x' := if Rlt_dec y x then y else x).
  change (is_ascending (x' :: y :: r)) with (if Rle_dec x' y then is_ascending (y :: r) else false).
  destruct (Rle_dec x' y) as [|N]; [exact IH|]. exfalso. apply N. unfold x'. destruct (Rlt_dec y x); lra.
Qed.

Lemma fraise_from_length l : forall p, length (fraise_from p l) = length l.
Proof. induction l; intros; cbn; [reflexivity|]. f_equal. apply IHl. Qed.
Lemma fraise_length l : length (fraise l) = length l.
Proof. destruct l; cbn; [reflexivity|]. f_equal. apply fraise_from_length. Qed.
Lemma flower_length l : length (flower l) = length l.
Proof. induction l as [|x t IH]; [reflexivity|]. cbn. destruct (flower t); cbn in *; lia. Qed.
Lemma fmap2_length f a : forall b, length (fmap2 f a b) = Nat.min (length a) (length b).
Proof. induction a; intros []; cbn; try reflexivity. f_equal. apply IHa. Qed.

Lemma fcorrect_length l : length (fcorrect_asc l) = length l.
Proof. unfold fcorrect_asc. destruct (fascending l); [reflexivity|]. rewrite fmap2_length, fraise_length, flower_length. lia. Qed.

Lemma fcorrect_ascending l : Forall in_unit l -> fascending (fcorrect_asc l) = true.
Proof.
  intros U. pose proof (units_finite l U) as F. unfold fcorrect_asc. destruct (fascending l) eqn:A; [exact A|].
  apply ascending_pairs.
  - rewrite fraise_length, flower_length. reflexivity.
  - apply fraise_unit, U.
  - apply flower_unit, U.
  - rewrite (proj1 (fraise_val l F)). destruct l as [|x t]; [reflexivity|]. cbn [map M_Ordinal.left_to_right]. apply raise_ascending.
  - rewrite (proj1 (flower_val l F)). apply lower_ascending.
Qed.
