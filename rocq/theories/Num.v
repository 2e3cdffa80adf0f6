(** * Vocabulary shared by all models.

    No library function is modelled in this file, only the numpy/Python building blocks
    that the library uses.  Floats are modelled as exact reals; see DESIGN.md section 2. *)

From Coq Require Import Reals List ZArith.
Import ListNotations.
Open Scope R_scope.

(** Python exceptions that the modelled code can raise. *)
Inductive exn : Type :=
| ValueError | TypeError | AttributeError | IndexError | LinAlgError
| NotFittedError | AxisError | NameError | ZeroDivisionError.

(** Outcome of a call: a value, an exception, or an array containing NaN/inf
    (numpy does not raise on division by zero, it only warns). *)
Inductive out (A : Type) : Type :=
| Val (a : A)
| Err (e : exn)
| NotANumber.
Arguments Val {A} a.
Arguments Err {A} e.
Arguments NotANumber {A}.

Definition obind {A B : Type} (o : out A) (f : A -> out B) : out B :=
  match o with
  | Val a => f a
  | Err e => Err e
  | NotANumber => NotANumber
  end.

Definition omap {A B : Type} (f : A -> B) (o : out A) : out B :=
  obind o (fun a => Val (f a)).

(** [np.sum] of a vector. *)
Fixpoint rsum (l : list R) : R :=
  match l with
  | [] => 0
  | x :: t => x + rsum t
  end.

(** [sum(f(i) for i in range(n))]. *)
Fixpoint sumn (n : nat) (f : nat -> R) : R :=
  match n with
  | O => 0
  | S m => sumn m f + f m
  end.

(** [np.mean] of a non-empty vector. *)
Definition rmean (l : list R) : R := rsum l / INR (length l).

(** Division as numpy does it, but with an explicit outcome for a zero divisor. *)
Definition odiv (x y : R) : out R :=
  if Req_EM_T y 0 then NotANumber else Val (x / y).

(** [np.clip(x, 0, 1)]. *)
Definition clip01 (x : R) : R := Rmin (Rmax x 0) 1.

(** [v / s] for a vector and a scalar. *)
Definition vdiv (l : list R) (s : R) : list R := map (fun x => x / s) l.

(** Column [j] of a matrix given as a list of rows.  (Rows are assumed long enough; every
    theorem that uses it says so.) *)
Definition col (j : nat) (m : list (list R)) : list R := map (fun r => nth j r 0) m.

(** [np.mean(m, axis=0)] for a matrix with [k] columns. *)
Definition col_means (k : nat) (m : list (list R)) : list R :=
  map (fun j => rmean (col j m)) (seq 0 k).

(** The vector [f 0, ..., f (n-1)]. *)
Definition tabulate {A : Type} (n : nat) (f : nat -> A) : list A := map f (seq 0 n).

(** [np.argmax]: position of the first maximal element (0 for the empty list, on which
    numpy raises). *)
Fixpoint argmax_from (best : R) (bi i : nat) (l : list R) : nat :=
  match l with
  | [] => bi
  | x :: t => if Rlt_dec best x then argmax_from x i (S i) t else argmax_from best bi (S i) t
  end.

Definition argmax (l : list R) : nat :=
  match l with
  | [] => O
  | x :: t => argmax_from x 0 1 t
  end.

(** [np.argmin]: first minimal element. *)
Definition argmin (l : list R) : nat := argmax (map Ropp l).

(** [np.unique]: sorted list of the distinct labels. *)
Fixpoint zinsert (x : Z) (l : list Z) : list Z :=
  match l with
  | [] => [x]
  | h :: t => if (x <? h)%Z then x :: h :: t
              else if (x =? h)%Z then h :: t
              else h :: zinsert x t
  end.

Definition np_unique (l : list Z) : list Z := fold_right zinsert [] l.

(** [np.sum(l == c)]: how often label [c] occurs. *)
Definition zcount (c : Z) (l : list Z) : nat := count_occ Z.eq_dec l c.
Arguments zcount c l : simpl never.

(** [np.cumsum]. *)
Fixpoint cumsum_from (acc : R) (l : list R) : list R :=
  match l with
  | [] => []
  | x :: t => (acc + x) :: cumsum_from (acc + x) t
  end.
Definition cumsum (l : list R) : list R := cumsum_from 0 l.

(** Elementwise operation of two vectors of the same length. *)
Fixpoint vmap2 (f : R -> R -> R) (a b : list R) : list R :=
  match a, b with
  | x :: a', y :: b' => f x y :: vmap2 f a' b'
  | _, _ => []
  end.

(** Rows [x[mask]] where the label of the row is [c]: [preds[y == c]]. *)
Definition select {A : Type} (c : Z) (y : list Z) (rows : list A) : list A :=
  map snd (filter (fun p => Z.eqb (fst p) c) (combine y rows)).
