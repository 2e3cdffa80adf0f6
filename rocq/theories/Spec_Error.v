(** * Specification vocabulary for errors of prevalence estimates. *)

From Coq Require Import Reals List ZArith Bool.
From Verif Require Import Num Spec.
Import ListNotations.
Open Scope R_scope.

(** Sum over the classes of the absolute errors. *)
Definition total_error (p truth : list R) : R :=
  sumn (length truth) (fun i => Rabs (nth i p 0 - nth i truth 0)).

(** The true prevalences of a bag with labels [y]. *)
Definition prevalences_of (classes y : list Z) : list R := map (fun c => fraction c y) classes.

(** Examples predicted as [d] that are not of class [d], examples of class [d] predicted as something
    else, and examples with a wrong prediction. *)
Definition false_positives (d : Z) (y p : list Z) : nat :=
  length (filter (fun e => negb (Z.eqb (fst e) d) && Z.eqb (snd e) d) (combine y p)).
Definition false_negatives (d : Z) (y p : list Z) : nat :=
  length (filter (fun e => Z.eqb (fst e) d && negb (Z.eqb (snd e) d)) (combine y p)).
Definition mistakes (y p : list Z) : nat :=
  length (filter (fun e => negb (Z.eqb (fst e) (snd e))) (combine y p)).

(** The vector with 1 for the class [c] and 0 for the others. *)
Definition indicator (classes : list Z) (c : Z) : list R :=
  map (fun d => if Z.eqb c d then 1 else 0) classes.

(** Cumulated prevalence of the first [i+1] classes. *)
Definition cumulated (p : list R) (i : nat) : R := rsum (firstn (S i) p).

(** A two-class matrix of rates according to which the second class is predicted less often for its own
    examples than for those of the first class. *)
Definition reversed (cm : list (option (list R))) : Prop :=
  exists r0 r1 rest, cm = Some r0 :: Some r1 :: rest /\ nth 1 r1 0 - nth 1 r0 0 < - (1/1000).
