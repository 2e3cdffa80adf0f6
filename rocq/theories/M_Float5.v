(** * Double precision: search.py.

    The loss [f p] is distance_func(mixture_func(prevalence=p), test_distrib); [None] means that it raises an exception.
    math.log is not modelled: the number n of steps (search.py:165) is an argument. *)

From Coq Require Import ZArith List Bool.
From Flocq Require Import Core BinarySingleNaN.
From Verif Require Import Num M_Float M_Float2.
Import ListNotations.

(** search.py:159-160 *)
Definition invphi_float : float := fdiv (fsub (fsqrt (of_Z 5)) f1) f2.
Definition invphi2_float : float := fdiv (fsub (of_Z 3) (fsqrt (of_Z 5))) f2.

Record fgolden := { fg_a : float; fg_b : float; fg_c : float; fg_d : float; fg_h : float; fg_fc : float; fg_fd : float }.

(** search.py:162, 167-173 *)
Definition golden_start_float (f : float -> option float) (a b : float) : option fgolden :=
  let h := fsub b a in
  let c := fadd a (fmul invphi2_float h) in
  let d := fadd a (fmul invphi_float h) in
  match f c, f d with
  | Some fc, Some fd => Some {| fg_a := a; fg_b := b; fg_c := c; fg_d := d; fg_h := h; fg_fc := fc; fg_fd := fd |}
  | _, _ => None
  end.

(** search.py:176-203, one iteration.  If the loss raises, the except clause prints (not modelled) and the old fc or fd stays. *)
Definition golden_step_float (f : float -> option float) (s : fgolden) : fgolden :=
  let h := fmul invphi_float (fg_h s) in
  if flt (fg_fc s) (fg_fd s) then
    let c := fadd (fg_a s) (fmul invphi2_float h) in
    {| fg_a := fg_a s; fg_b := fg_d s; fg_c := c; fg_d := fg_c s; fg_h := h;
       fg_fc := match f c with Some x => x | None => fg_fc s end; fg_fd := fg_fc s |}
  else
    let d := fadd (fg_c s) (fmul invphi_float h) in
    {| fg_a := fg_c s; fg_b := fg_b s; fg_c := fg_d s; fg_d := d; fg_h := h;
       fg_fc := fg_fd s; fg_fd := match f d with Some x => x | None => fg_fd s end |}.

Fixpoint golden_loop_float (f : float -> option float) (n : nat) (s : fgolden) : fgolden :=
  match n with O => s | S n' => golden_loop_float f n' (golden_step_float f s) end.

(** search.py:205-208: the loss and the pair of prevalences *)
Definition golden_end_float (s : fgolden) : float * list float :=
  if flt (fg_fc s) (fg_fd s)
  then (fg_fc s, [fsub f1 (fdiv (fadd (fg_a s) (fg_d s)) f2); fdiv (fadd (fg_a s) (fg_d s)) f2])
  else (fg_fd s, [fsub f1 (fdiv (fadd (fg_c s) (fg_b s)) f2); fdiv (fadd (fg_c s) (fg_b s)) f2]).

(** search.py:158-208 golden_section_search with n steps (n - 1 iterations), for a <> b *)
Definition golden_float (f : float -> option float) (n : nat) (a b : float) : option (float * list float) :=
  match golden_start_float f a b with
  | Some s => Some (golden_end_float (golden_loop_float f (n - 1) s))
  | None => None
  end.

(** [i / 100] (search.py:79, 86, 95) *)
Definition grid_float (i : nat) : float := fdiv (of_nat i) (of_Z 100).

(** The outcome of global_search: an exception, the number 2 of search.py:89, or a pair of prevalences. *)
Inductive found := Raised | Two | Pair (l : list float).

(** search.py:88-98: [count] is n_mins, [best] the number minimum_loss (inf at first) and the value of p_estimated.
    [steps a b] is the n of search.py:165 for the interval [a, b]. *)
Fixpoint minima_float (f : float -> option float) (steps : float -> float -> nat) (losses : nat -> float) (is : list nat)
    (count : nat) (best : float * found) : option (nat * found) :=
  match is with
  | [] => Some (count, snd best)
  | i :: is' =>
      if flt (losses (i - 1)%nat) (losses i) && flt (losses i) (losses (i + 1)%nat) then
        let a := grid_float (Nat.max (i - 2) 0) in
        let b := grid_float (Nat.min (i + 2) 100) in
        match golden_float f (steps a b) a b with
        | Some (loss, p) => minima_float f steps losses is' (S count) (if flt loss (fst best) then (loss, Pair p) else best)
        | None => None
        end
      else minima_float f steps losses is' count best
  end.

(** search.py:88-106, given the losses on the grid *)
Definition global_float (f : float -> option float) (steps : float -> float -> nat) (losses : nat -> float) : found :=
  match minima_float f steps losses (seq 1 99) 0 (B754_infinity false, Two) with
  | None => Raised
  | Some (O, _) =>
      if Beqb (losses O) (losses 100%nat) then Raised
      else
        let '(a, b) := if flt (losses O) (losses 100%nat) then (f0, fdiv f2 (of_Z 100)) else (fdiv (of_Z 98) (of_Z 100), f1) in
        match golden_float f (steps a b) a b with Some (_, p) => Pair p | None => Raised end
  | Some (_, p) => p
  end.

(** search.py:233 mixture_of_pdfs, for one number of each distribution and for two vectors *)
Definition mix_float (prevalence pos neg : float) : float := fadd (fmul pos prevalence) (fmul neg (fsub f1 prevalence)).
Definition mixture_float (prevalence : float) (pos neg : list float) : list float := fmap2 (mix_float prevalence) pos neg.
