(** * Model of quantifier objects that are fitted and used again and again.

    The other files model what one fit computes and what one predict answers.  Here each class is an object with
    attributes: fit assigns some of them and leaves the others as they were, predict may assign the caches problem_ and
    mixtures_.  Predictions are given to fit and predict (for fitted estimators see M_Base). *)

From Coq Require Import Reals List ZArith Bool.
From Verif Require Import Num M_Baselines M_Bags M_Search M_Optim M_Estimators M_Match.
Import ListNotations.
Open Scope R_scope.

(** A class with the methods fit and predict, both of which may change the object. *)
Record quantifier_class (A T St Rt : Type) := {
  qc_new : St;
  qc_fit : A -> St -> out St;
  qc_predict : T -> St -> St * out Rt
}.
Arguments qc_new {A T St Rt}. Arguments qc_fit {A T St Rt}. Arguments qc_predict {A T St Rt}.
Arguments Build_quantifier_class {A T St Rt}.

(** ** DFy, DFX, FriedmanME, PDFOrdinaly, ACOrdinal *)

(** df.py:196-214, 500-516, friedman.py:135-147, pdf.py:135-151, ac_ordinal.py:112-119: after __init__ the attributes
    are None; predict starts with len(self.classes_): TypeError. *)
Definition unfitted_matcher {B : Type} : matcher B :=
  Build_matcher 0 0 (fun _ _ => 0) None (fun _ => Err TypeError) None None.

(** df.py:249-277, 541-566, friedman.py:173-204, pdf.py:179-211, ac_ordinal.py:150-166: the assignments of fit.  [new] holds the
    values computed from the arguments.  G_, C_ and b_ are only assigned if the distance is L2 (df.py:268-271, 557-560,
    friedman.py:195-198, pdf.py:200-203); the caches are emptied. *)
Definition assign_matcher {B : Type} (crit : criterion) (old new : matcher B) : matcher B :=
  {| mt_classes := mt_classes new; mt_bins := mt_bins new; mt_T := mt_T new;
     mt_l2 := match crit with Named L2 => mt_l2 new | _ => mt_l2 old end;
     mt_represent := mt_represent new; mt_problem := None; mt_mixtures := None |}.

Definition matcher_class {A B : Type} (N : numerics) (cvx : cvx_solver) (crit : criterion) (tol : R)
    (fit : A -> out (matcher B)) : quantifier_class A B (matcher B) (list R) :=
  {| qc_new := unfitted_matcher;
     qc_fit := fun a old => omap (assign_matcher crit old) (fit a);
     qc_predict := fun bag m => matching_predict N cvx crit tol m bag |}.

(** df.py:216-359 DFy: labels and predictions. *)
Definition DFy_class (ppf : R -> R) (N : numerics) (cvx : cvx_solver) (fuel : nat) (kind : representation) (n_bins : nat)
    (strat : strategy) (crit : criterion) (tol : R) :=
  matcher_class N cvx crit tol (fun a : list Z * list (list R) =>
    DFy_fit ppf N fuel kind n_bins strat crit (fst a) (snd a)).

(** df.py:518-625 DFX: labels, number of attributes and examples. *)
Definition DFX_class (ppf : R -> R) (N : numerics) (cvx : cvx_solver) (fuel : nat) (kind : representation) (n_bins : nat)
    (strat : strategy) (crit : criterion) (tol : R) :=
  matcher_class N cvx crit tol (fun a : list Z * nat * list (list R) =>
    DFX_fit ppf N fuel kind n_bins strat crit (fst (fst a)) (snd (fst a)) (snd a)).

(** friedman.py:149-273 FriedmanME *)
Definition FriedmanME_class (N : numerics) (cvx : cvx_solver) (fuel : nat) (crit : criterion) (tol : R) :=
  matcher_class N cvx crit tol (fun a : list Z * list (list R) => FriedmanME_fit N fuel crit (fst a) (snd a)).

(** ac_ordinal.py:121-225 ACOrdinal: labels and predicted labels. *)
Definition ACOrdinal_class (N : numerics) (cvx : cvx_solver) (fuel : nat)
  : quantifier_class (list Z * list Z) (list Z) (matcher (list Z)) (list R) :=
  {| qc_new := unfitted_matcher;
     qc_fit := fun a old => omap (assign_matcher (Named L1) old) (ACOrdinal_fit N fuel (fst a) (snd a));
     qc_predict := fun bag m => ACOrdinal_predict N cvx m bag |}.

(** pdf.py:153-287 PDFOrdinaly *)
Definition PDFOrdinaly_class (N : numerics) (cvx : cvx_solver) (fuel n_bins : nat) (d : ordinal_distance) (meth : scoring)
  : quantifier_class (list Z * list (list R)) (list (list R)) (matcher (list (list R))) (option (list R)) :=
  {| qc_new := unfitted_matcher;
     qc_fit := fun a old => omap (assign_matcher (pdfo_criterion d) old) (PDFO_fit N fuel n_bins d meth (fst a) (snd a));
     qc_predict := fun bag m => PDFO_predict N cvx d m bag |}.

(** ** AC, PAC and PWKQuantifier *)

(** ac.py:122-129, 376-383, knn.py:77-79: classes_ (None before fit), cm_, (G_, C_, b_) and problem_. *)
Record adjuster := {
  aj_classes : option (list Z);
  aj_cm : list (option (list R));
  aj_l2 : option (matrix * matrix * (nat -> R));
  aj_problem : option cvx_problem
}.
Definition unfitted_adjuster : adjuster := {| aj_classes := None; aj_cm := []; aj_l2 := None; aj_problem := None |}.

Definition is_l2 (dist : distance) : bool := match dist with L2 => true | _ => false end.

(** ac.py:154-174 and 407-428: the assignments of fit, given the matrix [cm].  With more than two classes and L2 the
    parameters of the quadratic problem are assigned; otherwise the old ones stay.  (They are not computed here for a
    matrix with NaN rows: predict raises ValueError before it uses them.) *)
Definition assign_adjuster (N : numerics) (fuel : nat) (dist : distance) (y : list Z) (old : adjuster)
    (cm : list (option (list R))) : adjuster :=
  let n := length (np_unique y) in
  {| aj_classes := Some (np_unique y); aj_cm := cm;
     aj_l2 := if Nat.ltb 2 n && is_l2 dist
              then match all_some cm with
                   | Some rows => compute_l2_param_train N fuel n n (fun i j => entry rows j i)
                   | None => None
                   end
              else aj_l2 old;
     aj_problem := None |}.

(** problem_, prevalences = solve_..(.., problem=problem_): problem_ is only assigned when the solver returns. *)
Definition keep_problem (o : adjuster) (r : out (cvx_problem * list R)) : adjuster * out (list R) :=
  match r with
  | Val (P, x) => ({| aj_classes := aj_classes o; aj_cm := aj_cm o; aj_l2 := aj_l2 o; aj_problem := Some P |}, Val x)
  | Err e => (o, Err e)
  | NotANumber => (o, NotANumber)
  end.

(** ac.py:225-273 and 481-524: predict, given the uncorrected prevalences for the classes of the object.  (G_, C_, b_
    missing: quadprog raises an exception, modelled as ValueError.) *)
Definition adjuster_predict (inv : nat -> matrix -> option matrix) (N : numerics) (cvx : cvx_solver) (dist : distance)
    (p0_of : list Z -> out (list R)) (o : adjuster) : adjuster * out (list R) :=
  match aj_classes o with
  | None => (o, Err TypeError)
  | Some classes =>
      let n := length classes in
      match p0_of classes with
      | Err e => (o, Err e)
      | NotANumber => (o, NotANumber)
      | Val p0 =>
          if Nat.eqb n 2 then (o, Val (binary_adjust (aj_cm o) p0))
          else match all_some (aj_cm o) with
               | None => (o, Err ValueError)
               | Some rows =>
                   let cmT := fun i j => entry rows j i in
                   match inv n cmT with
                   | Some M =>
                       let v := map (fun x => if Rlt_dec x 0 then 0 else x) (matvec n M p0) in
                       (o, if Req_EM_T (rsum v) 0 then NotANumber else Val (vdiv v (rsum v)))
                   | None =>
                       match dist with
                       | HD => keep_problem o (solve_hd cvx n n cmT p0 (aj_problem o))
                       | L2 => (o, match aj_l2 o with
                                   | Some (G, C, b) => solve_l2 N n n cmT p0 G C b
                                   | None => Err ValueError
                                   end)
                       | L1 => keep_problem o (solve_l1 cvx n n cmT p0 (aj_problem o))
                       | OtherDistance => (o, Err ValueError)
                       end
                   end
               end
      end
  end.

(** ac.py:131-273 AC: labels and predicted labels. *)
Definition AC_class (inv : nat -> matrix -> option matrix) (N : numerics) (cvx : cvx_solver) (fuel : nat) (dist : distance)
  : quantifier_class (list Z * list Z) (list Z) adjuster (list R) :=
  {| qc_new := unfitted_adjuster;
     qc_fit := fun a old => omap (assign_adjuster N fuel dist (fst a) old) (AC_fit (fst a) (snd a));
     qc_predict := fun bag o => adjuster_predict inv N cvx dist (fun classes => class_frequencies classes bag) o |}.

(** ac.py:385-524 PAC: labels and predicted probabilities. *)
Definition PAC_class (inv : nat -> matrix -> option matrix) (N : numerics) (cvx : cvx_solver) (fuel : nat) (dist : distance)
  : quantifier_class (list Z * list (list R)) (list (list R)) adjuster (list R) :=
  {| qc_new := unfitted_adjuster;
     qc_fit := fun a old => omap (assign_adjuster N fuel dist (fst a) old) (PAC_fit (fst a) (snd a));
     qc_predict := fun bag o => adjuster_predict inv N cvx dist (fun classes => mean_rows (length classes) bag) o |}.

(** knn.py:76-79: the training set kept by the PWK classifier, classes_, cm_ and problem_. *)
Record pwk_object (X : Type) := {
  pw_train : option (list X * list Z);
  pw_cm : list (option (list R));
  pw_problem : option cvx_problem
}.
Arguments pw_train {X}. Arguments pw_cm {X}. Arguments pw_problem {X}. Arguments Build_pwk_object {X}.

(** knn.py:81-115 PWKQuantifier.fit; weighted_knn.py:94-131: the classifier keeps the training set and predicts from the
    neighbours that [kneighbors] (scikit-learn) finds in it. *)
Definition PWKQ_fit {X : Type} (kneighbors : list X -> list X -> list (list nat)) (x : list X) (y : list Z) : out (pwk_object X) :=
  omap (fun cm => Build_pwk_object (Some (x, y)) cm None) (AC_fit y (PWK_predict y (kneighbors x x))).

(** knn.py:117-180 PWKQuantifier.predict *)
Definition PWKQ_object_predict {X : Type} (kneighbors : list X -> list X -> list (list nat)) (cvx : cvx_solver)
    (bag : list X) (o : pwk_object X) : pwk_object X * out (list R) :=
  match pw_train o with
  | None => (o, Err NotFittedError)
  | Some (x, y) =>
      let n := length (np_unique y) in
      match class_frequencies (np_unique y) (PWK_predict y (kneighbors x bag)) with
      | Err e => (o, Err e)
      | NotANumber => (o, NotANumber)
      | Val p0 =>
          if Nat.eqb n 2 then (o, Val (binary_adjust (pw_cm o) p0))
          else match all_some (pw_cm o) with
               | None => (o, NotANumber)
               | Some rows =>
                   match solve_l1 cvx n n (fun i j => entry rows j i) p0 (pw_problem o) with
                   | Val (P, p) => (Build_pwk_object (pw_train o) (pw_cm o) (Some P), Val p)
                   | Err e => (o, Err e)
                   | NotANumber => (o, NotANumber)
                   end
               end
      end
  end.

Definition PWKQ_class {X : Type} (kneighbors : list X -> list X -> list (list nat)) (cvx : cvx_solver)
  : quantifier_class (list X * list Z) (list X) (pwk_object X) (list R) :=
  {| qc_new := Build_pwk_object None [] None;
     qc_fit := fun a _ => PWKQ_fit kneighbors (fst a) (snd a);
     qc_predict := fun bag o => PWKQ_object_predict kneighbors cvx bag o |}.

(** ** QUANTy *)

(** quantiles.py:137-140 *)
Record quanty_object := { qo_fitted : option binary_fitted; qo_mixtures : option (list (list R)) }.

(** quantiles.py:142-240 QUANTy: labels and column 1 of the predictions. *)
Definition QUANTy_class (argsort : list R -> list nat) (q : nat) (distance : list R -> list R -> R) (tol : R)
  : quantifier_class (list Z * list R) (list R) quanty_object (list R) :=
  {| qc_new := {| qo_fitted := None; qo_mixtures := None |};
     qc_fit := fun a _ =>
       omap (fun s => {| qo_fitted := Some s; qo_mixtures := None |})
            (sorted_fit argsort (np_unique (fst a)) (y_ext (fst a) (length (snd a))) (snd a));
     qc_predict := fun bag o =>
       match qo_fitted o with
       | None => (o, Err TypeError)
       | Some s =>
           match QUANTy_predict argsort q distance tol s (qo_mixtures o) bag with
           | Val (ms, p) => ({| qo_fitted := qo_fitted o; qo_mixtures := ms |}, Val [1 - p; p])
           | Err e => (o, Err e)
           | NotANumber => (o, NotANumber)
           end
       end |}.
