(** * emd_distances in double precision: the matrix. *)

From Coq Require Import Reals ZArith List Lia Lra Bool.
From Flocq Require Import Core BinarySingleNaN.
From Verif Require Import Num Spec M_Metrics M_Float M_Float2 M_Float6 Spec_Float L_Float L_Float22 L_Float23 L_Float24.
Import ListNotations.
Open Scope R_scope.

Lemma emd_distances_symmetric A B i j : (i < length A)%nat -> (j < length B)%nat -> length (nth i A []) = length (nth j B []) ->
  nth j (nth i (emd_distances_float A B) []) f0 = nth i (nth j (emd_distances_float B A) []) f0.
Proof.
  intros HA HB L. unfold emd_distances_float.
  rewrite (nth_indep _ [] ((fun a => map (emd_pair_float a) B) [])) by (rewrite map_length; exact HA). rewrite (map_nth (fun a => map (emd_pair_float a) B)).
  rewrite (nth_indep (map (fun a => map (emd_pair_float a) A) B) [] ((fun a => map (emd_pair_float a) A) [])) by (rewrite map_length; exact HB). rewrite (map_nth (fun a => map (emd_pair_float a) A)).
  rewrite (nth_indep _ f0 (emd_pair_float (nth i A []) [])) by (rewrite map_length; exact HB). rewrite map_nth.
  rewrite (nth_indep (map (emd_pair_float (nth j B [])) A) f0 (emd_pair_float (nth j B []) [])) by (rewrite map_length; exact HA). rewrite map_nth.
  apply emd_pair_float_symmetric, L.
Qed.

Lemma emd_distances_accuracy n A B : (0 < n)%nat -> (Z.of_nat n <= 2 ^ 40)%Z -> A <> [] -> B <> [] ->
  Forall (fun row => length row = n /\ Forall in_unit row /\ exact_sum row <= 2) (A ++ B) ->
  Forall (Forall (fun x => finite x /\ 0 <= val x)) (emd_distances_float A B) /\
  exists D, emd_distances (map (map val) A) (map (map val) B) = Val D /\
    Forall2 (within (8 * INR n ^ 2 * bpow radix2 (-52))) (emd_distances_float A B) D.
Proof.
  intros n0 N EA EB H. apply Forall_app in H. destruct H as (HA & HB).
  assert (P : forall a b, In a A -> In b B -> finite (emd_pair_float a b) /\ 0 <= val (emd_pair_float a b) /\
    Rabs (val (emd_pair_float a b) - emd_pair (map val a) (map val b)) <= 8 * INR n ^ 2 * bpow radix2 (-52)).
  { intros a b Ia Ib. rewrite Forall_forall in HA, HB. destruct (HA a Ia) as (La & Ua & Sa), (HB b Ib) as (Lb & Ub & Sb).
    rewrite <- La. apply emd_pair_accuracy; auto; try congruence. intros ->. cbn in La. lia. }
  split.
  - unfold emd_distances_float. apply Forall_forall. intros r I. apply in_map_iff in I. destruct I as (a & <- & Ia).
    apply Forall_forall. intros x I. apply in_map_iff in I. destruct I as (b & <- & Ib). destruct (P a b Ia Ib) as (F & V & _). auto.
  - exists (map (fun a => map (emd_pair a) (map (map val) B)) (map (map val) A)). split.
    + assert (C : forall X, X <> [] -> Forall (fun row : list float => length row = n /\ Forall in_unit row /\ exact_sum row <= 2) X -> n_columns (map (map val) X) = n /\ length (map (map val) X) <> 0%nat).
      { intros [|x X] E F; [congruence|]. inversion_clear F as [|? ? (L & _) _]. cbn. rewrite map_length. split; [exact L|lia]. }
      destruct (C A EA HA) as (CA & LA), (C B EB HB) as (CB & LB). unfold emd_distances. rewrite CA, CB, Nat.eqb_refl.
      destruct (Nat.eqb_spec (length (map (map val) A)) 0); [congruence|]. destruct (Nat.eqb_spec (length (map (map val) B)) 0); [congruence|].
      destruct (Nat.eqb_spec n 0); [lia|]. reflexivity.
    + unfold emd_distances_float, within. clear EA EB HA. induction A as [|a A IH]; cbn [map]; constructor.
      * assert (Q : forall b, In b B -> Rabs (val (emd_pair_float a b) - emd_pair (map val a) (map val b)) <= 8 * INR n ^ 2 * bpow radix2 (-52)).
        { intros b Ib. apply (P a b (or_introl eq_refl) Ib). }
        clear - Q. induction B as [|b B IHB]; cbn [map]; constructor; [apply Q; left; reflexivity|apply IHB; intros; apply Q; right; assumption].
      * apply IH. intros a' b Ia Ib. apply P; [right; exact Ia|exact Ib].
Qed.
