(** * Vocabulary of the properties about arrays as mutable objects. *)

From Coq Require Import Reals List ZArith Bool.
From Verif Require Import Num M_Arrays.
Import ListNotations.
Open Scope R_scope.

(** Every array that existed in [h] has the same contents in [h']. *)
Definition untouched (h h' : heap) : Prop := forall a x, nth_error h a = Some x -> nth_error h' a = Some x.

(** Run in [h], the program returns an array holding [x], and has changed no array that existed before. *)
Definition returns (p : prog address) (h : heap) (x : array) : Prop :=
  exists r h', p h = Some (r, h') /\ nth_error h' r = Some x /\ untouched h h'.

(** Moreover the array returned is a new one: no name the caller has refers to it. *)
Definition returns_new (p : prog address) (h : heap) (x : array) : Prop :=
  exists r h', p h = Some (r, h') /\ nth_error h' r = Some x /\ untouched h h' /\ nth_error h r = None.

(** [h2] is what [h1] may become when, after a call that led from [h0] to [h1], the caller writes into its own arrays
    (those of [h0]) and makes new ones. *)
Definition caller_changes (h0 h1 h2 : heap) : Prop :=
  (length h1 <= length h2)%nat /\ forall a, (length h0 <= a < length h1)%nat -> nth_error h2 a = nth_error h1 a.

(** The value of a call. *)
Definition value {A : Type} (p : prog A) (h : heap) : option A := option_map fst (p h).

(** Whatever the caller does to its own arrays after [fit], the object answers as it would have right after [fit]. *)
Definition keeps_copies {O A : Type} (fit : prog O) (answer : O -> prog A) : Prop :=
  forall h0 o h1 h2, fit h0 = Some (o, h1) -> caller_changes h0 h1 h2 -> value (answer o) h2 = value (answer o) h1.
