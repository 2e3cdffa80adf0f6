(** * Specification of fitting (C120-C122). *)

From Coq Require Import Reals List ZArith Permutation.
From Verif Require Import Num M_Base M_Fit.
Import ListNotations.
Open Scope R_scope.

(** 1 for the labels up to [c], 0 for the others. *)
Definition up_to (c : Z) (y : list Z) : list Z := map (fun v => if (v <=? c)%Z then 1%Z else 0%Z) y.

(** [ready] is a copy of [original] with the parameters of problem [i], if there are any. *)
Definition ready_for {X Pm Ob : Type} (E : estimator_class X Pm Ob) (params : option (list Pm)) (i : nat) (original ready : Ob) : Prop :=
  match params with
  | None => ready = original
  | Some ps => exists p, nth_error ps i = Some p /\ ec_set_params E p original = Val ready
  end.

(** [trained] is what such a copy becomes when it is fitted with [x] and [y]. *)
Definition trained_on {X Pm Ob : Type} (E : estimator_class X Pm Ob) (params : option (list Pm)) (i : nat) (original : Ob)
    (x : list X) (y : list Z) (trained : Ob) : Prop :=
  exists ready, ready_for E params i original ready /\ ec_fit E x y ready = (trained, Val tt).

(** The orders in which [n] jobs may run. *)
Definition schedule (n : nat) (order : list nat) : Prop := Permutation order (seq 0 n).

(** How many binary problems a training set has: one less than classes. *)
Definition n_problems (y : list Z) : nat := (length (np_unique y) - 1)%nat.

(** A call of fit that did not return. *)
Definition raises {A : Type} (o : out A) : Prop := forall a, o <> Val a.

(** The states of a new FrankAndHallClassifier on which fit was called any number of times, always raising.  Between
    the calls the store may change in any way. *)
Inductive only_failed_fits {X Pm Ob : Type} (E : estimator_class X Pm Ob) (accepted : list X -> list Z -> bool) : fh_object Pm -> Prop :=
| failed_new : forall estimator params, only_failed_fits E accepted (FH_new estimator params)
| failed_again : forall s order x y store store' s' r, only_failed_fits E accepted s ->
    FH_fit E accepted order x y s store = (store', s', r) -> raises r -> only_failed_fits E accepted s'.

(** The same for AC; predict may have been called too. *)
Inductive AC_only_failed {X M : Type} (A : nat -> algorithm X M) inv N cvx fuel dist : ac_object -> Prop :=
| AC_failed_new : forall et es, AC_only_failed A inv N cvx fuel dist (AC_new et es)
| AC_failed_again : forall s x y given w r s' w', AC_only_failed A inv N cvx fuel dist s ->
    AC_object_fit A N fuel dist x y given s w = (r, s', w') -> raises r -> AC_only_failed A inv N cvx fuel dist s'
| AC_failed_predict : forall s x given w, AC_only_failed A inv N cvx fuel dist s ->
    AC_only_failed A inv N cvx fuel dist (fst (AC_object_predict A inv N cvx dist x given s w)).

(** [fits_again E accepted s s']: an EnsembleOfClassifiers in state [s] is in state [s'] after any number of calls of fit, with
    any data and any objects around it. *)
Inductive fits_again {X Pm Ob : Type} (E : estimator_class X Pm Ob) (accepted : list X -> list Z -> bool)
  : eoc_object -> eoc_object -> Prop :=
| again_none : forall s, fits_again E accepted s s
| again_one : forall s s1 s2 in_process order x y bags store store' r, fits_again E accepted s s1 ->
    EoC_object_fit E accepted in_process order x y bags s1 store = (store', s2, r) -> fits_again E accepted s s2.

(** [selected l bag v]: [v] are the elements of [l] at the positions [bag]. *)
Definition selected {A : Type} (l : list A) (bag : list nat) (v : list A) : Prop := map Some v = map (nth_error l) bag.

(** [trained] is what [original] becomes when it is fitted with the examples of a bag. *)
Definition trained_with {X Pm Ob : Type} (E : estimator_class X Pm Ob) (x : list X) (y : list Z) (bag : list nat) (original trained : Ob) : Prop :=
  exists xs ys, selected x bag xs /\ selected y bag ys /\ ec_fit E xs ys original = (trained, Val tt).

(** The rows of the matrix with the given columns of length [n]. *)
Definition rows_of_columns (n : nat) (columns : list (list Z)) : list (list Z) :=
  map (fun e => map (fun column => nth e column 0%Z) columns) (seq 0 n).
