(** * Specification vocabulary for double precision. *)

From Coq Require Import Reals ZArith List Permutation.
From Flocq Require Import Core BinarySingleNaN.
From Verif Require Import M_Float.
Import ListNotations.
Open Scope R_scope.

(** The real number that a double stands for; meaningful for finite ones. *)
Definition val (x : float) : R := B2R x.
Definition finite (x : float) : Prop := is_finite x = true.

(** The real number [r] correctly rounded to a double (ignoring overflow). *)
Definition nearest (r : R) : R := round radix2 (FLT_exp (-1074) 53) ZnearestE r.

(** A double in [0, 1]. *)
Definition in_unit (x : float) : Prop := finite x /\ 0 <= val x <= 1.

(** [s] is a floating-point sum of the numbers in [l], added in some order and grouped in some way. *)
Inductive summed : list float -> float -> Prop :=
| summed_none : summed [] f0
| summed_one : forall x, summed [x] x
| summed_add : forall l1 l2 l x y, summed l1 x -> summed l2 y -> Permutation l (l1 ++ l2) -> summed l (fadd x y).

(** What is assumed of np.sum. *)
Definition adds_in_some_order (np_sum : list float -> float) : Prop := forall l, summed l (np_sum l).

(** np.sum adds fewer than eight numbers from left to right (it uses eight partial sums from there on). *)
Definition adds_few_in_order (np_sum : list float -> float) : Prop :=
  forall l, (length l < 8)%nat -> np_sum l = left_to_right l.

(** Two numbers in [0, 1] whose sum, as computed by the machine, is exactly 1. *)
Definition complementary (p q : float) : Prop := in_unit p /\ in_unit q /\ val (fadd p q) = 1.

(** Exact sum and exact mean. *)
Definition exact_sum (l : list float) : R := fold_right Rplus 0 (map val l).
Definition exact_mean (l : list float) : R := exact_sum l / INR (length l).

(** Two lists of the same length, the first of doubles, whose entries differ by at most [d]. *)
Definition within (d : R) (l : list float) (m : list R) : Prop :=
  Forall2 (fun x r => Rabs (val x - r) <= d) l m.

(** [p] divides 1 in proportion to the numbers [w], up to [d]: its entries are in [0, 1], add up to 1 and are the
    exact shares, up to [d]. *)
Definition shares (d : R) (w : list R) (p : list float) : Prop :=
  Forall in_unit p /\ Rabs (exact_sum p - 1) <= d /\ within d p (map (fun x => x / fold_right Rplus 0 w) w).

(** A row of posterior probabilities with no entry just above the smallest doubles: the entries of the row are at least
    2^q or 2^200 times smaller than that, for some q >= -900, and one of them is at least 2^q. *)
Definition separated (row : list float) : Prop :=
  exists q : Z, (-900 <= q <= 0)%Z /\ Exists (fun x => bpow radix2 q <= val x) row /\
    Forall (fun x => bpow radix2 q <= val x \/ val x <= bpow radix2 (q - 200)) row.
