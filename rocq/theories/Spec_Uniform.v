(** * Specification vocabulary: how often the uniform method draws each prevalence. *)

From Coq Require Import Reals List ZArith Arith Bool.
From Verif Require Import Num Spec M_Bags.
Import ListNotations.
Open Scope R_scope.

(** The generator [RG], except that randint(low, high, len(d)) answers [d]; any other call of randint answers
    the empty list. *)
Definition answering {G : Type} (RG : rng G) (low high : Z) (d : list Z) : rng G :=
  {| r_seed := r_seed RG;
     r_randint := fun l h k g =>
       if Z.eqb l low && Z.eqb h high && Nat.eqb k (length d) then (d, g) else ([], g);
     r_choice := r_choice RG; r_choice_p := r_choice_p RG; r_dirichlet := r_dirichlet RG |}.

(** What randint(low, high, k) can answer; all these draws are equally likely. *)
Definition possible_draw (low high : Z) (k : nat) (d : list Z) : Prop :=
  length d = k /\ Forall (fun v => (low <= v < high)%Z) d.

(** When randint(low, high, len(d)) answers [d], the uniform method accepts the draw, and the bag has
    prevalences [prevalences]. *)
Definition draw_gives {G : Type} (RG : rng G) (low high : Z) (y : list Z) (bag_size : nat)
    (mp : min_prevalence) (d : list Z) (prevalences : list R) : Prop :=
  forall g, exists idx g',
    generate_uniform (answering RG low high d) y 1 bag_size mp 1 g = Some (Val [(prevalences, idx)], g').

(** There are exactly [k] objects with property [P]. *)
Definition exactly {A : Type} (k : nat) (P : A -> Prop) : Prop :=
  exists L, NoDup L /\ length L = k /\ forall d, In d L <-> P d.

(** The prevalences of a bag with [nth i counts 0] examples of class [i]. *)
Definition prevalences_of (counts : list nat) (bag_size : nat) : list R :=
  map (fun c => INR c / INR bag_size) counts.

(** The numbers of examples of the first class, of the first two, ..., of all but the last one. *)
Definition cut_points (counts : list nat) : list Z :=
  map (fun i => Z.of_nat (list_sum (firstn (S i) counts))) (seq 0 (length counts - 1)).

(** The product of the factorials of the multiplicities of the values of [l]. *)
Definition repetitions (l : list Z) : nat :=
  fold_right (fun v acc => (fact (zcount v l) * acc)%nat) 1%nat (nodup Z.eq_dec l).

(** Every class but the first and the last one has at least [m] examples. *)
Definition middle_at_least (m : nat) (counts : list nat) : Prop :=
  forall i, (0 < i)%nat -> (S i < length counts)%nat -> (m <= nth i counts 0)%nat.
