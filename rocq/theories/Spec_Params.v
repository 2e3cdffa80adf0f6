(** * Specification of constructors, get_params, set_params and clone (C126). *)

From Coq Require Import List String.
From Verif Require Import M_Params.
Import ListNotations.
Open Scope string_scope.

(** The value that Python gives to parameter [i], called [n], with default [d]. *)
Definition argument (positional : list value) (kw : list (string * value)) (i : nat) (n : string) (d : option value) : option value :=
  match nth_error positional i with
  | Some v => Some v
  | None => match keyword n kw with Some v => Some v | None => d end
  end.

(** The objects of class [c] that a program can get: new ones, and those on which methods that assign attributes, or set_params (also
    if it raised), were called. *)
Inductive reachable (c : py_class) : object -> Prop :=
| reachable_new : forall positional kw o, call c positional kw = Returns o -> reachable c o
| reachable_method : forall o k v, reachable c o -> In k (cl_assigns c) -> reachable c (set_attr k v o)
| reachable_set : forall o kw, reachable c o -> reachable c (fst (set_params c o kw)).

(** The classes of the library but EM, EDX, PWKQuantifier, PWK and OrdinalQuantificationTree. *)
Definition plain_classes : list py_class :=
  [cCC; cPCC; cAC; cPAC; cDeBias; cDFy; cHDy; cMMy; cDFX; cHDX; cEDy; cCvMy; cFriedmanME; cREGX; cREGy; cSORDy; cQUANTy; cACOrdinal;
   cPDFOrdinaly; cFrankAndHallClassifier; cFrankAndHallMonotoneClassifier; cFrankAndHallTreeClassifier; cOneVsRestQuantifier;
   cFrankAndHallQuantifier; cEoQ; cEnsembleOfClassifiers; cDDAGClassifier; cCV_estimator; cFHLabelBinarizer].
Definition renaming_classes : list py_class := [cEM; cEDX; cPWKQuantifier; cPWK].

(** Quantifiers with two classifiers, by the one that a single positional argument gives. *)
Definition train_first : list py_class := [cAC; cEM; cDFy; cHDy; cMMy; cEDy; cCvMy; cREGy; cSORDy; cQUANTy; cACOrdinal; cPDFOrdinaly].
Definition test_first : list py_class := [cPAC; cDeBias; cFriedmanME].

(** Whether a quantifier needs training predictions, and whether it works with probabilities. *)
Definition modes : list (py_class * (string * string)) :=
  [(cCC, ("False", "False")); (cPCC, ("False", "True")); (cOrdinalQuantificationTree, ("False", "True")); (cAC, ("True", "False"));
   (cACOrdinal, ("True", "False")); (cPAC, ("True", "True")); (cDeBias, ("True", "True")); (cEM, ("True", "True")); (cDFy, ("True", "True"));
   (cHDy, ("True", "True")); (cMMy, ("True", "True")); (cEDy, ("True", "True")); (cCvMy, ("True", "True")); (cFriedmanME, ("True", "True"));
   (cREGy, ("True", "True")); (cSORDy, ("True", "True")); (cQUANTy, ("True", "True")); (cPDFOrdinaly, ("True", "True"))].

(** The attributes that HDy, MMy and HDX choose for the user. *)
Definition presets : list (py_class * (string * string)) :=
  [(cHDy, ("'PDF'", "'HD'")); (cMMy, ("'CDF'", "'L1'")); (cHDX, ("'PDF'", "'HD'"))].
