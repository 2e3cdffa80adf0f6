(** * Double precision: the distances and losses between prevalences (metrics/multiclass.py).

    np.sum is an argument, as in M_Float.v.  The checks of check_prevalences (multiclass.py:39-52) come before any
    arithmetic and are modelled in M_Metrics.v; here the two vectors are given as lists of the same length.
    [x ** 2] is numpy's square, that is [x * x]. *)

From Coq Require Import ZArith List Bool.
From Flocq Require Import Core BinarySingleNaN.
From Verif Require Import M_Float M_Float2 M_Float3.
Import ListNotations.

Definition fsquare (x : float) : float := fmul x x.

(** multiclass.py:110-131 l1 *)
Definition l1_float (np_sum : list float -> float) (p q : list float) : float :=
  np_sum (fmap2 (fun a b => fabs (fsub a b)) p q).

(** multiclass.py:134-155 mean_squared_error *)
Definition mse_float (np_sum : list float -> float) (p q : list float) : float :=
  fmean np_sum (fmap2 (fun a b => fsquare (fsub b a)) p q).

(** multiclass.py:158-179 l2 *)
Definition l2_float (np_sum : list float -> float) (p q : list float) : float :=
  fsqrt (np_sum (fmap2 (fun a b => fsquare (fsub a b)) p q)).

(** multiclass.py:182-204 hd *)
Definition hd_float (np_sum : list float -> float) (p q : list float) : float :=
  fsqrt (np_sum (fmap2 (fun a b => fsquare (fsub (fsqrt b) (fsqrt a))) p q)).

(** multiclass.py:207-228 bray_curtis *)
Definition bray_curtis_float (np_sum : list float -> float) (p q : list float) : float :=
  fdiv (np_sum (fmap2 (fun a b => fabs (fsub a b)) p q)) (np_sum (fmap2 fadd p q)).

(** multiclass.py:296-322 probsymmetric; [epsilon] is the double 1e-20 by default *)
Definition probsymmetric_float (np_sum : list float -> float) (epsilon : float) (p q : list float) : float :=
  fmul f2 (np_sum (fmap2 (fun a b => fdiv (fsquare (fsub a b)) (fadd (fadd b a) epsilon)) p q)).
