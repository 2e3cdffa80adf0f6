(** * Model of ensembles/eoq.py: EoQ *)

From Coq Require Import Reals List ZArith Bool.
From Verif Require Import Num M_Baselines M_Metrics M_Bags M_Match M_Reg.
Import ListNotations.
Open Scope R_scope.

(** ** The parts that come from outside *)

(** A bag generator whose attribute [n_bags] can be set. *)
Record settable (S : Type) := { se_source : bag_source S; se_set : nat -> S -> S }.
Arguments se_source {S}. Arguments se_set {S}.

(** bag_generator.py: assigning [n_bags] of the three generators of the library. *)
Definition settable_prior {G : Type} (RG : rng G) (fuel : nat) : settable (prior_shift G * G) := {|
  se_source := prior_source RG fuel;
  se_set := fun n s =>
    ({| ps_n_bags := n; ps_bag_size := ps_bag_size (fst s); ps_method := ps_method (fst s);
        ps_alphas := ps_alphas (fst s); ps_min := ps_min (fst s); ps_random := ps_random (fst s);
        ps_bags := ps_bags (fst s) |}, snd s)
|}.
Definition settable_covariate {G : Type} (RG : rng G) : settable (covariate_shift G) := {|
  se_source := covariate_source RG;
  se_set := fun n s =>
    {| cs_n_bags := n; cs_bag_size := cs_bag_size s; cs_random := cs_random s; cs_bags := cs_bags s |}
|}.
Definition settable_mixed {G : Type} (RG : rng G) (fuel : nat) : settable (mixed_shift G * G) := {|
  se_source := mixed_source RG fuel;
  se_set := fun n s =>
    ({| ms_n_bags := n; ms_bag_size := ms_bag_size (fst s); ms_method := ms_method (fst s);
        ms_alphas := ms_alphas (fst s); ms_min := ms_min (fst s); ms_random := ms_random (fst s);
        ms_bags := ms_bags (fst s) |}, snd s)
|}.

(** Predictions of one classifier (labels or rows of probabilities), or of an ensemble of classifiers: for
    each example, one row for each classifier. *)
Inductive predictions :=
| Crisp (ps : list Z)
| Soft (ps : list (list R))
| PerModel (ps : list (list (list R))).

Definition n_predictions (p : predictions) : nat :=
  match p with Crisp l => length l | Soft l => length l | PerModel l => length l end.

(** The base quantifier: [fit] is what a copy of the object becomes, [predict] its result.
    Simplification: predict does not change a member (see C62 for the caches of the library). *)
Inductive base (Q : Type) :=
| Without (fit : list (list R) -> list Z -> out Q) (predict : Q -> list (list R) -> out (list R))
| Using (fit : list Z -> predictions -> out Q) (predict : Q -> predictions -> out (list R))
| OtherBase.
Arguments Without {Q}. Arguments Using {Q}. Arguments OtherBase {Q}.

(** ** Parameters and attributes *)

Inductive combination := CMean | CMedian | PrevalenceSimilarity | DistributionSimilarity | AllStrategies | OtherStrategy.

(** eoq.py:155-173 *)
Record eoq_params := {
  ep_n : nat; ep_combination : combination; ep_function : representation; ep_bins : nat;
  ep_strategy : strategy; ep_percentage : R
}.

(** eoq.py:175-183 *)
Record eoq (Q : Type) := {
  eq_classes : list Z; eq_bags : list bag; eq_cuts : list (list edge); eq_quantifiers : list Q;
  eq_distributions : list (list R)
}.
Arguments eq_classes {Q}. Arguments eq_bags {Q}. Arguments eq_cuts {Q}. Arguments eq_quantifiers {Q}.
Arguments eq_distributions {Q}.

(** ** fit *)

(** [l[i]] and [l[indexes]] *)
Definition item {A : Type} (l : list A) (i : nat) : out A :=
  match nth_error l i with Some v => Val v | None => Err IndexError end.
Definition items {A : Type} (idx : list nat) (l : list A) : out (list A) := collect (map (item l) idx).

(** eoq.py:228-236: the bags, and the generator afterwards. *)
Definition eoq_bags {S : Type} (B : settable S) (p : eoq_params) (X : list (list R)) (y : list Z)
    (given : option (list bag)) (g : S) : option (out (list bag) * S) :=
  match given with
  | Some bags => Some (Val bags, g)
  | None => bs_generate (se_source B) X y (se_set B (ep_n p) g)
  end.

(** eoq.py:244-247: one hundred bins in the array, [n_bins] of them assigned; the strategy is always
    equal_width.  Assigning another number of cut points raises ValueError. *)
Definition eoq_attribute_cuts (p : eoq_params) (k : nat) (X : list (list R)) (classes : list Z) : out (list (list edge)) :=
  collect (map (fun att =>
    obind (compute_bincuts (fun x => x) (col att X) [] classes (ep_bins p) EqualWidth None)
          (fun c => if Nat.eqb (length c) 101 then Val c else Err ValueError)) (seq 0 k)).

(** eoq.py:258-262 and 381-391: one row of [distributions_], from all the examples, whatever the bag.
    cumsum with axis=1 of a vector raises AxisError. *)
Definition eoq_distribution (kind : representation) (cuts : list (list edge)) (sample : list (list R)) : out (list R) :=
  match kind, cuts with
  | CDF, _ :: _ => Err AxisError
  | _, _ => describe cuts (length sample) sample
  end.

Definition eoq_distributions (p : eoq_params) (cuts : list (list edge)) (sample : list (list R)) : out (list (list R)) :=
  collect (map (fun _ => eoq_distribution (ep_function p) cuts sample) (seq 0 (ep_n p))).

(** eoq.py:239-262, quantifiers that do not use classifiers *)
Definition fit_without {Q : Type} (fit : list (list R) -> list Z -> out Q) (p : eoq_params) (k : nat)
    (X : list (list R)) (y : list Z) (bags : list bag) : out (eoq Q) :=
  let classes := np_unique y in
  obind (eoq_attribute_cuts p k X classes) (fun cuts =>
  obind (collect (map (fun i =>
           obind (item bags i) (fun b => obind (items (snd b) X) (fun Xi =>
           obind (items (snd b) y) (fun yi => fit Xi yi)))) (seq 0 (ep_n p)))) (fun qs =>
  omap (fun ds => {| eq_classes := classes; eq_bags := bags; eq_cuts := cuts; eq_quantifiers := qs;
                     eq_distributions := ds |}) (eoq_distributions p cuts X))).

(** Broadcasting of a sum of two vectors. *)
Definition broadcast_add (a b : list nat) : out (list nat) :=
  if Nat.eqb (length a) (length b) then Val (map (fun p => (fst p + snd p)%nat) (combine a b))
  else match a, b with
       | [x], _ => Val (map (fun v => (x + v)%nat) b)
       | _, [v] => Val (map (fun x => (x + v)%nat) a)
       | _, _ => Err ValueError
       end.

(** eoq.py:334-337: column [i] of indexes_ext when there are [r] predictions for each of the [n] examples. *)
Definition adapted_indexes (r n : nat) (idx : list nat) : out (list nat) :=
  broadcast_add (concat (repeat idx r)) (concat (map (fun j => repeat (j * n)%nat n) (seq 0 r))).

(** eoq.py:330-340: the columns of indexes_ext.  [np.tile(adapt_indexs, (n_quantifiers, 1))] has
    [n_quantifiers] columns, [indexes_] one for each bag: they must agree, or one of them is 1. *)
Definition extended_indexes (p : eoq_params) (y : list Z) (n_preds : nat) (bags : list bag) : out (list (list nat)) :=
  if Nat.eqb (length y) n_preds then Val (map snd bags)
  else
    let r := (n_preds / length y)%nat in
    let columns := if Nat.eqb (length bags) 1 then concat (repeat (map snd bags) (ep_n p)) else map snd bags in
    if Nat.eqb (length bags) (ep_n p) || Nat.eqb (length bags) 1 || Nat.eqb (ep_n p) 1
    then collect (map (adapted_indexes r (length y)) columns)
    else Err ValueError.

(** eoq.py:348-357: the predictions for member [i]. *)
Definition member_predictions (idx : list nat) (i : nat) (preds : predictions) : out predictions :=
  match preds with
  | Crisp l => omap Crisp (items idx l)
  | Soft l => omap Soft (items idx l)
  | PerModel l => omap Soft (obind (items idx l) (fun rows => collect (map (fun m => item m i) rows)))
  end.

(** numpy [mean(axis=1)] of the predictions of an ensemble: the average row of each example. *)
Definition average_models (k : nat) (l : list (list (list R))) : list (list R) := map (col_means k) l.

(** The rows that are described: eoq.py:367-374, 380-387, 485-492.  (None: labels.) *)
Definition described (k : nat) (preds : predictions) : option (list (list R)) :=
  match preds with
  | Crisp _ => None
  | Soft l => Some l
  | PerModel l => Some (average_models k l)
  end.

(** eoq.py:365-374.  With labels the cut points stay 0. *)
Definition eoq_prediction_cuts (ppf : R -> R) (p : eoq_params) (classes ye : list Z) (preds : predictions)
  : out (list (list edge)) :=
  let d := n_descriptors (length classes) in
  match described (length classes) preds with
  | None => Val (repeat (repeat (Fin 0) (ep_bins p + 1)) d)
  | Some rows =>
      collect (map (fun descr => compute_bincuts ppf (col descr rows) ye classes (ep_bins p) (ep_strategy p) None)
                   (seq 0 d))
  end.

(** eoq.py:377-391.  With labels the distributions stay 0. *)
Definition eoq_prediction_distributions (p : eoq_params) (classes : list Z) (cuts : list (list edge))
    (preds : predictions) : out (list (list R)) :=
  match described (length classes) preds with
  | None =>
      match ep_function p, ep_n p with
      | CDF, S _ => Err AxisError
      | _, _ => Val (repeat (repeat 0 (ep_bins p * n_descriptors (length classes))) (ep_n p))
      end
  | Some rows => eoq_distributions p cuts rows
  end.

(** eoq.py:330-391, quantifiers that use classifiers, for the predictions given by the user or by
    ensemble_estimator_train (the two estimators are outside this model; see C61 for
    EnsembleOfClassifiers). *)
Definition fit_using {Q : Type} (ppf : R -> R) (fit : list Z -> predictions -> out Q) (p : eoq_params)
    (y : list Z) (preds : predictions) (bags : list bag) : out (eoq Q) :=
  let classes := np_unique y in
  let ye := y_ext y (n_predictions preds) in
  obind (extended_indexes p y (n_predictions preds) bags) (fun columns =>
  obind (collect (map (fun i =>
           obind (item columns i) (fun idx => obind (items idx ye) (fun yi =>
           obind (member_predictions idx i preds) (fun pi => fit yi pi)))) (seq 0 (ep_n p)))) (fun qs =>
  obind (eoq_prediction_cuts ppf p classes ye preds) (fun cuts =>
  omap (fun ds => {| eq_classes := classes; eq_bags := bags; eq_cuts := cuts; eq_quantifiers := qs;
                     eq_distributions := ds |}) (eoq_prediction_distributions p classes cuts preds)))).

(** eoq.py:185-400 EoQ.fit: the ensemble, and the generator afterwards.  [k]: the number of attributes. *)
Definition EoQ_fit {S Q : Type} (B : settable S) (ppf : R -> R) (base_quantifier : base Q) (p : eoq_params)
    (k : nat) (X : list (list R)) (y : list Z) (preds : predictions) (given : option (list bag)) (g : S)
  : option (out (eoq Q) * S) :=
  match eoq_bags B p X y given g with
  | None => None
  | Some (o, g') =>
      Some (obind o (fun bags =>
              match base_quantifier with
              | Without fit _ => fit_without fit p k X y bags
              | Using fit _ => fit_using ppf fit p y preds bags
              | OtherBase => Err ValueError
              end), g')
  end.

(** ** predict *)

(** [prevalences[i, :] = v]: a vector of another length raises ValueError, except that one number is
    copied to all classes. *)
Definition store_row (n : nat) (v : list R) : out (list R) :=
  if Nat.eqb (length v) n then Val v
  else match v with [x] => Val (repeat x n) | _ => Err ValueError end.

(** eoq.py:449-450 *)
Definition test_predictions (i : nat) (preds : predictions) : out predictions :=
  match preds with
  | PerModel l => omap Soft (collect (map (fun m => item m i) l))
  | _ => Val preds
  end.

(** eoq.py:429-450: the predictions of the members.  A NaN in one of them makes the result NaN
    (simplification for the two strategies that select members). *)
Definition member_prevalences {Q : Type} (base_quantifier : base Q) (p : eoq_params) (q : eoq Q)
    (X : list (list R)) (preds : predictions) : out (list (list R)) :=
  let n := length (eq_classes q) in
  collect (map (fun i =>
    obind (item (eq_quantifiers q) i) (fun m =>
    obind (match base_quantifier with
           | Without _ predict => predict m X
           | Using _ predict => obind (test_predictions i preds) (predict m)
           | OtherBase => Val (repeat 0 n)
           end) (store_row n))) (seq 0 (ep_n p))).

(** [l[0:z]] *)
Definition slice {A : Type} (z : Z) (l : list A) : list A :=
  if (z <? 0)%Z then firstn (Z.to_nat (Z.of_nat (length l) + z)) l else firstn (Z.to_nat z) l.

(** [round(n_quantifiers * percentage_of_selected_models)] *)
Definition n_selected (p : eoq_params) : Z := round_even (INR (ep_n p) * ep_percentage p).

(** eoq.py:453-458.  [argsort]: numpy's argsort. *)
Definition prevalence_selected (argsort : list R -> list nat) (p : eoq_params) (n : nat) (prevs : list (list R))
  : out (list nat) :=
  let m := col_means n prevs in
  omap (fun difference => slice (n_selected p) (argsort difference))
       (collect (map (fun r => mean_absolute_error (vec m) (vec r)) prevs)).

(** eoq.py:462-496: the distribution of the test bag. *)
Definition test_distribution {Q : Type} (base_quantifier : base Q) (p : eoq_params) (q : eoq Q) (k : nat)
    (X : list (list R)) (preds : predictions) : out (list R) :=
  match base_quantifier with
  | Without _ _ =>
      match ep_function p, k with
      | CDF, S _ => Err AxisError
      | _, _ => test_row (eq_cuts q) k X
      end
  | Using _ _ =>
      match described (length (eq_classes q)) preds with
      | None => Err ValueError
      | Some rows => eoq_distribution (ep_function p) (eq_cuts q) rows
      end
  | OtherBase => Err ValueError
  end.

(** eoq.py:500-502.  [distance]: the metric of cdist, which raises ValueError for vectors of different
    lengths.  Simplification: with one quantifier
    [squeeze] makes a 0-d array; its argsort is taken to be that of a vector with one value. *)
Definition distribution_selected (argsort : list R -> list nat) (distance : list R -> list R -> R)
    (p : eoq_params) (test : list R) (rows : list (list R)) : out (list nat) :=
  omap (fun distances => slice (n_selected p) (argsort distances))
       (collect (map (fun r => if Nat.eqb (length test) (length r) then Val (distance test r) else Err ValueError) rows)).

(** [np.median] of a non-empty vector *)
Definition median (l : list R) : R :=
  let s := rsort l in
  let n := length l in
  if Nat.even n then (nth (n / 2 - 1) s 0 + nth (n / 2) s 0) / 2 else nth (n / 2) s 0.

(** eoq.py:506-507 and the other lines that divide by the sum *)
Definition normalised (v : list R) : out (list R) :=
  if Req_EM_T (rsum v) 0 then NotANumber else Val (vdiv v (rsum v)).

Definition mean_of_rows (n : nat) (rows : list (list R)) : out (list R) :=
  match rows with [] => NotANumber | _ => normalised (col_means n rows) end.
Definition median_of_rows (n : nat) (rows : list (list R)) : out (list R) :=
  match rows with [] => NotANumber | _ => normalised (map (fun j => median (col j rows)) (seq 0 n)) end.

(** The result: a vector, the dictionary of the strategy 'all', or the number 0 (eoq.py:504). *)
Inductive eoq_result :=
| Vector (v : list R)
| Dictionary (mean median prevalence_similarity distribution_similarity all : out (list R))
| Nothing.

(** The members with the given positions. *)
Definition rows_at (idx : list nat) (prevs : list (list R)) : list (list R) := map (fun i => nth i prevs []) idx.

(** eoq.py:531 *)
Definition average_of_four (a b c d : out (list R)) : out (list R) :=
  obind a (fun a => obind b (fun b => obind c (fun c => omap (fun d =>
    vdiv (vmap2 Rplus (vmap2 Rplus (vmap2 Rplus a b) c) d) 4) d))).

(** eoq.py:452-533 for the predictions of the members *)
Definition combine_members {Q : Type} (argsort : list R -> list nat) (distance : list R -> list R -> R)
    (base_quantifier : base Q) (p : eoq_params) (q : eoq Q) (k : nat) (X : list (list R)) (preds : predictions)
    (prevs : list (list R)) : out eoq_result :=
  let n := length (eq_classes q) in
  let by_distribution :=
    obind (test_distribution base_quantifier p q k X preds) (fun t =>
      distribution_selected argsort distance p t (eq_distributions q)) in
  match ep_combination p with
  | CMean => omap Vector (mean_of_rows n prevs)
  | CMedian => omap Vector (median_of_rows n prevs)
  | PrevalenceSimilarity =>
      obind (prevalence_selected argsort p n prevs) (fun s => omap Vector (mean_of_rows n (rows_at s prevs)))
  | DistributionSimilarity =>
      obind by_distribution (fun s => omap Vector (mean_of_rows n (rows_at s prevs)))
  | AllStrategies =>
      obind (prevalence_selected argsort p n prevs) (fun s =>
      omap (fun d =>
        let m0 := mean_of_rows n prevs in
        let m1 := median_of_rows n prevs in
        let m2 := mean_of_rows n (rows_at s prevs) in
        let m3 := mean_of_rows n (rows_at d prevs) in
        Dictionary m0 m1 m2 m3 (average_of_four m0 m1 m2 m3)) by_distribution)
  | OtherStrategy => Val Nothing
  end.

(** eoq.py:402-533 EoQ.predict; [preds]: the predictions given by the user or by ensemble_estimator_test. *)
Definition EoQ_predict {Q : Type} (argsort : list R -> list nat) (distance : list R -> list R -> R)
    (base_quantifier : base Q) (p : eoq_params) (q : eoq Q) (k : nat) (X : list (list R)) (preds : predictions)
  : out eoq_result :=
  obind (member_prevalences base_quantifier p q X preds)
        (combine_members argsort distance base_quantifier p q k X preds).
