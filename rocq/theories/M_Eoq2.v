(** * Model of EoQ as an object on which any call of fit may raise and whose parameters can be changed between calls (C131). *)

From Coq Require Import Reals List ZArith Bool.
From Verif Require Import Num M_Baselines M_Metrics M_Bags M_Match M_Reg M_Eoq M_Fit3.
Import ListNotations.
Open Scope R_scope.

(** The class of base_quantifier.  [fit] gives the object after the call and whether the call returned; [Q] are the states of its
    objects.  [NoQuantifier]: not derived from BaseQuantifier; [OtherClass]: derived from it, but neither with nor without classifiers.
    Simplification: predict does not change an object (see C62). *)
Inductive base_class (Q : Type) :=
| ClassWithout (fit : Q -> list (list R) -> list Z -> Q * out unit) (predict : Q -> list (list R) -> out (list R))
| ClassUsing (fit : Q -> list Z -> predictions -> Q * out unit) (predict : Q -> predictions -> out (list R))
| OtherClass
| NoQuantifier.
Arguments ClassWithout {Q}. Arguments ClassUsing {Q}. Arguments OtherClass {Q}. Arguments NoQuantifier {Q}.

(** eoq.py:175-183: the attributes, None before they are assigned.  In quantifiers_ [None] is the number 0 that np.zeros puts there. *)
Record eoq_object (Q : Type) := {
  eo_classes : option (list Z);
  eo_bags : option (list bag);
  eo_cuts : option (list (list edge));
  eo_members : option (list (option Q));
  eo_distributions : option (list (list R))
}.
Arguments eo_classes {Q}. Arguments eo_bags {Q}. Arguments eo_cuts {Q}. Arguments eo_members {Q}. Arguments eo_distributions {Q}.

(** eoq.py:155-183 __init__ *)
Definition EoQ_new {Q : Type} : eoq_object Q :=
  {| eo_classes := None; eo_bags := None; eo_cuts := None; eo_members := None; eo_distributions := None |}.

(** A loop that fills an array that was [blank] everywhere; the step that raises leaves something behind. *)
Fixpoint fill_from {A : Type} (blank : A) (f : nat -> A * out unit) (l : list nat) : list A * out unit :=
  match l with
  | [] => ([], Val tt)
  | i :: t => match f i with
              | (v, Val tt) => let (vs, r) := fill_from blank f t in (v :: vs, r)
              | (v, r) => (v :: repeat blank (length t), r)
              end
  end.

(** eoq.py:251-252, 347-357: the copy of the base quantifier is stored before its data are selected and before it is fitted. *)
Definition train_copy {Q D : Type} (fit : Q -> D -> Q * out unit) (new : Q) (d : out D) : option Q * out unit :=
  match d with
  | Val d => let (q, r) := fit new d in (Some q, r)
  | Err e => (Some new, Err e)
  | NotANumber => (Some new, NotANumber)
  end.

(** eoq.py:252: the examples of bag [i]. *)
Definition data_without (X : list (list R)) (y : list Z) (bags : list bag) (i : nat) : out (list (list R) * list Z) :=
  obind (item bags i) (fun b => obind (items (snd b) X) (fun Xi => omap (pair Xi) (items (snd b) y))).

(** eoq.py:348-357: the labels and predictions for member [i]. *)
Definition data_using (ye : list Z) (preds : predictions) (columns : list (list nat)) (i : nat) : out (list Z * predictions) :=
  obind (item columns i) (fun idx => obind (items idx ye) (fun yi => omap (pair yi) (member_predictions idx i preds))).

(** eoq.py:257-262 and 379-391: one row of distributions_.  The histogram is stored before cumsum raises AxisError.
    (Without examples the code divides by 0.) *)
Definition fill_distribution (kind : representation) (n_bins : nat) (cuts : list (list edge)) (sample : list (list R)) : list R * out unit :=
  match sample with
  | [] => (repeat 0 (n_bins * length cuts), NotANumber)
  | _ =>
      let (blocks, r) := fill_from (repeat 0 n_bins) (fun i =>
        match histogram (col i sample) (nth i cuts []) with
        | Val h => (vdiv (map INR h) (INR (length sample)), match kind with PDF => Val tt | CDF => Err AxisError end)
        | Err e => (repeat 0 n_bins, Err e)
        | NotANumber => (repeat 0 n_bins, NotANumber)
        end) (seq 0 (length cuts)) in
      (concat blocks, r)
  end.

(** eoq.py:255-262 and 377-391: distributions_ for the rows that are described (None: labels, whose distributions stay 0). *)
Definition fill_distributions (p : eoq_params) (d : nat) (cuts : list (list edge)) (sample : option (list (list R)))
  : list (list R) * out unit :=
  fill_from (repeat 0 (ep_bins p * d)) (fun _ =>
    match sample with
    | Some rows => fill_distribution (ep_function p) (ep_bins p) cuts rows
    | None => (repeat 0 (ep_bins p * d), match ep_function p with PDF => Val tt | CDF => Err AxisError end)
    end) (seq 0 (ep_n p)).

(** eoq.py:244-247 and 365-374: bincuts_. *)
Definition fill_attribute_cuts (p : eoq_params) (k : nat) (X : list (list R)) (classes : list Z) : list (list edge) * out unit :=
  fill_rows (repeat (Fin 0) 101) (fun att =>
    obind (compute_bincuts (fun x => x) (col att X) [] classes (ep_bins p) EqualWidth None)
          (fun c => if Nat.eqb (length c) 101 then Val c else Err ValueError)) (seq 0 k).
Definition fill_prediction_cuts (ppf : R -> R) (p : eoq_params) (classes ye : list Z) (preds : predictions) : list (list edge) * out unit :=
  let d := n_descriptors (length classes) in
  match described (length classes) preds with
  | None => (repeat (repeat (Fin 0) (ep_bins p + 1)) d, Val tt)
  | Some rows => fill_rows (repeat (Fin 0) (ep_bins p + 1))
      (fun descr => compute_bincuts ppf (col descr rows) ye classes (ep_bins p) (ep_strategy p) None) (seq 0 d)
  end.

(** eoq.py:239-262 *)
Definition object_fit_without {Q : Type} (fit : Q -> list (list R) * list Z -> Q * out unit) (new : Q) (p : eoq_params) (k : nat)
    (X : list (list R)) (y : list Z) (bags : list bag) (o : eoq_object Q) : out unit * eoq_object Q :=
  let classes := np_unique y in
  let (cuts, r) := fill_attribute_cuts p k X classes in
  match r with
  | Val _ =>
      let (ms, r) := fill_from None (fun i => train_copy fit new (data_without X y bags i)) (seq 0 (ep_n p)) in
      match r with
      | Val _ =>
          let (ds, r) := fill_distributions p k cuts (Some X) in
          (r, {| eo_classes := Some classes; eo_bags := Some bags; eo_cuts := Some cuts; eo_members := Some ms; eo_distributions := Some ds |})
      | _ => (r, {| eo_classes := Some classes; eo_bags := Some bags; eo_cuts := Some cuts; eo_members := Some ms;
                    eo_distributions := eo_distributions o |})
      end
  | _ => (r, {| eo_classes := Some classes; eo_bags := Some bags; eo_cuts := Some cuts; eo_members := eo_members o;
                eo_distributions := eo_distributions o |})
  end.

(** eoq.py:266-391.  [preds]: the predictions given by the user or by ensemble_estimator_train, or the exception raised because there
    are none, or by one of the two estimators. *)
Definition object_fit_using {Q : Type} (ppf : R -> R) (fit : Q -> list Z * predictions -> Q * out unit) (new : Q) (p : eoq_params)
    (y : list Z) (preds : out predictions) (bags : list bag) (o : eoq_object Q) : out unit * eoq_object Q :=
  let classes := np_unique y in
  match obind preds (fun preds => omap (pair preds) (extended_indexes p y (n_predictions preds) bags)) with
  | Val (preds, columns) =>
      let ye := y_ext y (n_predictions preds) in
      let (ms, r) := fill_from None (fun i => train_copy fit new (data_using ye preds columns i)) (seq 0 (ep_n p)) in
      match r with
      | Val _ =>
          let (cuts, r) := fill_prediction_cuts ppf p classes ye preds in
          match r with
          | Val _ =>
              let (ds, r) := fill_distributions p (n_descriptors (length classes)) cuts (described (length classes) preds) in
              (r, {| eo_classes := Some classes; eo_bags := Some bags; eo_cuts := Some cuts; eo_members := Some ms; eo_distributions := Some ds |})
          | _ => (r, {| eo_classes := Some classes; eo_bags := Some bags; eo_cuts := Some cuts; eo_members := Some ms;
                        eo_distributions := eo_distributions o |})
          end
      | _ => (r, {| eo_classes := Some classes; eo_bags := Some bags; eo_cuts := eo_cuts o; eo_members := Some ms;
                    eo_distributions := eo_distributions o |})
      end
  | Err e => (Err e, {| eo_classes := Some classes; eo_bags := Some bags; eo_cuts := eo_cuts o; eo_members := eo_members o;
                        eo_distributions := eo_distributions o |})
  | NotANumber => (NotANumber, {| eo_classes := Some classes; eo_bags := Some bags; eo_cuts := eo_cuts o; eo_members := eo_members o;
                                  eo_distributions := eo_distributions o |})
  end.

Definition uncurried {A B C D : Type} (f : A -> B -> C -> D) (a : A) (x : B * C) : D := f a (fst x) (snd x).

(** eoq.py:185-400 fit, with the parameters [p] and the base quantifier [new] that the object has now: whether it returned, the object
    afterwards, and the bag generator afterwards.  [k]: the number of attributes.  None: generate_bags does not end. *)
Definition EoQ_object_fit {S Q : Type} (B : settable S) (ppf : R -> R) (c : base_class Q) (new : Q) (p : eoq_params)
    (k : nat) (X : list (list R)) (y : list Z) (preds : out predictions) (given : option (list bag)) (g : S) (o : eoq_object Q)
  : option (out unit * eoq_object Q * S) :=
  match c with
  | NoQuantifier => Some (Err ValueError, o, g)
  | _ =>
      match eoq_bags B p X y given g with
      | None => None
      | Some (Val bags, g') =>
          Some (match c with
                | ClassWithout fit _ => object_fit_without (uncurried fit) new p k X y bags o
                | ClassUsing fit _ => object_fit_using ppf (uncurried fit) new p y preds bags o
                | _ => (Err ValueError, {| eo_classes := Some (np_unique y); eo_bags := Some bags; eo_cuts := eo_cuts o;
                                           eo_members := eo_members o; eo_distributions := eo_distributions o |})
                end, g')
      | Some (r, g') =>
          Some (omap (fun _ => tt) r, {| eo_classes := Some (np_unique y); eo_bags := eo_bags o; eo_cuts := eo_cuts o;
                                         eo_members := eo_members o; eo_distributions := eo_distributions o |}, g')
      end
  end.

(** [self.quantifiers_[i].predict]: None[i] raises TypeError, 0 has no method predict. *)
Definition member_at {Q : Type} (ms : option (list (option Q))) (i : nat) : out Q :=
  match ms with
  | None => Err TypeError
  | Some ms => obind (item ms i) (fun m => match m with Some q => Val q | None => Err AttributeError end)
  end.

(** eoq.py:429-450 *)
Definition object_prevalences {Q : Type} (c : base_class Q) (p : eoq_params) (n : nat) (ms : option (list (option Q)))
    (X : list (list R)) (preds : predictions) : out (list (list R)) :=
  collect (map (fun i =>
    obind (match c with
           | ClassWithout _ predict => obind (member_at ms i) (fun m => predict m X)
           | ClassUsing _ predict => obind (member_at ms i) (fun m => obind (test_predictions i preds) (predict m))
           | _ => Val (repeat 0 n)
           end) (store_row n)) (seq 0 (ep_n p))).

(** The class of base_quantifier, for the functions of M_Eoq. *)
Definition base_of {Q : Type} (c : base_class Q) (new : Q) : base Q :=
  match c with
  | ClassWithout fit predict => Without (fun X y => let (q, r) := fit new X y in omap (fun _ => q) r) predict
  | ClassUsing fit predict => Using (fun y preds => let (q, r) := fit new y preds in omap (fun _ => q) r) predict
  | _ => OtherBase
  end.

(** The strategies that compare distributions. *)
Definition needs_distributions (p : eoq_params) : bool :=
  match ep_combination p with DistributionSimilarity => true | AllStrategies => true | _ => false end.

(** eoq.py:452-533 for the members' predictions [prevs].  [prevalences[distribution_similarity_selected, :]] raises IndexError if
    distributions_ has more rows than there are predictions and one of the others is selected (eoq.py:515, 528). *)
Definition object_combine {Q : Type} (argsort : list R -> list nat) (distance : list R -> list R -> R) (b : base Q)
    (p : eoq_params) (q : eoq Q) (k : nat) (X : list (list R)) (preds : predictions) (prevs : list (list R)) : out eoq_result :=
  obind (combine_members argsort distance b p q k X preds prevs) (fun r =>
    if needs_distributions p then
      match obind (test_distribution b p q k X preds) (fun t => distribution_selected argsort distance p t (eq_distributions q)) with
      | Val sel => if forallb (fun i => Nat.ltb i (length prevs)) sel then Val r else Err IndexError
      | _ => Val r
      end
    else Val r).

(** eoq.py:402-533 predict, with the parameters [p] that the object has now.  len(None) raises TypeError, and so does None[..]; cdist
    refuses None; numpy refuses to store histograms of another length than n_bins (simplification: also those of one bin, which it
    repeats, so that cdist raises ValueError later). *)
Definition EoQ_object_predict {Q : Type} (argsort : list R -> list nat) (distance : list R -> list R -> R) (c : base_class Q) (new : Q)
    (p : eoq_params) (o : eoq_object Q) (k : nat) (X : list (list R)) (preds : predictions) : out eoq_result :=
  match eo_classes o with
  | None => Err TypeError
  | Some classes =>
      obind (object_prevalences c p (length classes) (eo_members o) X preds) (fun prevs =>
        let combined cuts ds :=
          object_combine argsort distance (base_of c new) p
            {| eq_classes := classes; eq_bags := []; eq_cuts := cuts; eq_quantifiers := []; eq_distributions := ds |} k X preds prevs in
        if needs_distributions p then
          match eo_cuts o, eo_distributions o with
          | Some cuts, Some ds => if forallb (fun c => Nat.eqb (length c) (S (ep_bins p))) cuts then combined cuts ds else Err ValueError
          | Some _, None => Err ValueError
          | None, _ => Err TypeError
          end
        else combined [] [])
  end.
