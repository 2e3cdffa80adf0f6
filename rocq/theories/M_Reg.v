(** * Model of multiclass/regression.py: REG, REGX and REGy *)

From Coq Require Import Reals List ZArith Bool.
From Verif Require Import Num M_Baselines M_Bags M_Match.
Import ListNotations.
Open Scope R_scope.

(** ** The parts that come from outside *)

(** A bag generator: its attribute [n_bags] and its method [generate_bags], which changes the object.
    [None]: the call does not return. *)
Record bag_source (S : Type) := {
  bs_n_bags : S -> nat;
  bs_generate : list (list R) -> list Z -> S -> option (out (list bag) * S)
}.
Arguments bs_n_bags {S}. Arguments bs_generate {S}.

(** bag_generator.py: the three generators of the library.  The state of the first and the third one
    includes numpy's global generator. *)
Definition prior_source {G : Type} (RG : rng G) (fuel : nat) : bag_source (prior_shift G * G) := {|
  bs_n_bags := fun s => ps_n_bags (fst s);
  bs_generate := fun _ y s =>
    match PS_generate RG fuel (fst s) y (snd s) with
    | Some (o, s', g') => Some (o, (s', g'))
    | None => None
    end
|}.
Definition covariate_source {G : Type} (RG : rng G) : bag_source (covariate_shift G) := {|
  bs_n_bags := cs_n_bags;
  bs_generate := fun X y s => Some (CS_generate RG s X y)
|}.
Definition mixed_source {G : Type} (RG : rng G) (fuel : nat) : bag_source (mixed_shift G * G) := {|
  bs_n_bags := fun s => ms_n_bags (fst s);
  bs_generate := fun X y s =>
    match MS_generate RG fuel (fst s) X y (snd s) with
    | Some (o, s', g') => Some (o, (s', g'))
    | None => None
    end
|}.

(** A regression estimator given by the user (its [fit] changes the object; here the new object is
    returned) and the fit of statsmodels' GLM, which returns the coefficients ([params]). *)
Record regression (M : Type) := {
  rg_fit : M -> list (list R) -> list R -> out M;
  rg_predict : M -> list R -> out R;
  glm_fit : list (list R) -> list R -> out (list R)
}.
Arguments rg_fit {M}. Arguments rg_predict {M}. Arguments glm_fit {M}.

(** statsmodels GLM.predict for the family Binomial with its default link, logit: the inverse link of
    the product of the exogenous row and the coefficients.  ValueError for different lengths. *)
Definition logistic (t : R) : R := 1 / (1 + exp (- t)).
Definition glm_predict (params row : list R) : out R :=
  if Nat.eqb (length params) (length row) then Val (logistic (rsum (vmap2 Rmult row params)))
  else Err ValueError.

(** The objects that several quantifiers may share: the bag generator and the user's regression
    estimator ([None]: regression_estimator is None). *)
Record world (S M : Type) := { w_generator : S; w_regressor : option M }.
Arguments w_generator {S M}. Arguments w_regressor {S M}.

(** ** The quantifier *)

(** [estimators_] and [models_]: the user's object itself, copies of it, or the coefficients of GLMs. *)
Inductive fitted (M : Type) := UserObject | Copies (ms : list M) | GLMs (params : list (list R)).
Arguments UserObject {M}. Arguments Copies {M}. Arguments GLMs {M}.

(** regression.py:116-121: the attributes set by fit.  [ro_labels]: the length of [classes_], an
    attribute of REGy only. *)
Record reg_object (M : Type) := {
  ro_bins : nat; ro_n_classes : nat; ro_labels : nat; ro_cuts : list (list edge);
  ro_dataX : list (list R); ro_dataY : list (list R); ro_models : fitted M
}.
Arguments ro_bins {M}. Arguments ro_n_classes {M}. Arguments ro_labels {M}. Arguments ro_cuts {M}.
Arguments ro_dataX {M}. Arguments ro_dataY {M}. Arguments ro_models {M}.

(** regression.py:164-167, 392-395 and 618-621: the histograms of a sample, one for each attribute,
    divided by [n].  (0/0 when [n] is 0.) *)
Definition describe (cuts : list (list edge)) (n : nat) (sample : list (list R)) : out (list R) :=
  match n with
  | O => NotANumber
  | _ =>
      omap (fun hs => concat (map (fun h => vdiv (map INR h) (INR n)) hs))
           (collect (map (fun dc => histogram (col (fst dc) sample) (snd dc))
                         (combine (seq 0 (length cuts)) cuts)))
  end.

(** regression.py:167: the row of one bag; [X[indexes]] raises IndexError for an index out of range. *)
Definition training_row (cuts : list (list edge)) (X : list (list R)) (b : bag) : out (list R) :=
  if forallb (fun i => Nat.ltb i (length X)) (snd b)
  then describe cuts (length X) (map (fun i => nth i X []) (snd b))
  else Err IndexError.

(** regression.py:164: the first [n_bags] bags; IndexError when there are fewer. *)
Definition training_rows (cuts : list (list edge)) (X : list (list R)) (n_bags : nat) (bags : list bag)
  : out (list (list R)) :=
  collect (map (fun nbag => match nth_error bags nbag with
                            | Some b => training_row cuts X b
                            | None => Err IndexError
                            end) (seq 0 n_bags)).

(** regression.py:143-167 create_training_set_of_distributions for [k] attributes: the cut points,
    [dataX_] and [dataY_], and the generator after the call. *)
Definition reg_cuts (ppf : R -> R) (n_bins : nat) (strat : strategy) (range : option (R * R))
    (k : nat) (X : list (list R)) (y : list Z) : out (list (list edge)) :=
  collect (map (fun att => compute_bincuts ppf (col att X) y (np_unique y) n_bins strat range) (seq 0 k)).

Definition create_training_set {S : Type} (B : bag_source S) (ppf : R -> R) (n_bins : nat)
    (strat : strategy) (range : option (R * R)) (k : nat) (X : list (list R)) (y : list Z) (g : S)
  : option (out (list (list edge) * list (list R) * list (list R)) * S) :=
  match reg_cuts ppf n_bins strat range k X y with
  | Val cuts =>
      match bs_generate B X y g with
      | None => None
      | Some (o, g') =>
          Some (obind o (fun bags =>
                  omap (fun rows => (cuts, rows, map fst bags))
                       (training_rows cuts X (bs_n_bags B g') bags)), g')
      end
  | Err e => Some (Err e, g)
  | NotANumber => Some (NotANumber, g)
  end.

(** [dataY_[:, c]]; IndexError when there is no such column. *)
Definition target (c : nat) (dataY : list (list R)) : out (list R) :=
  if forallb (fun r => Nat.ltb c (length r)) dataY then Val (col c dataY) else Err IndexError.

(** regression.py:173-195 fit_regressor: the models, and the user's object after the call.  With two
    classes the user's object itself is fitted, and kept; otherwise copies of it.  Simplification: an
    object whose [fit] raises is not changed. *)
Definition fit_regressor {M : Type} (Q : regression M) (n : nat) (dataX dataY : list (list R))
    (user : option M) : out (fitted M) * option M :=
  if Nat.eqb n 2 then
    match user with
    | Some m =>
        match obind (target 1 dataY) (rg_fit Q m dataX) with
        | Val m' => (Val UserObject, Some m')
        | Err e => (Err e, user)
        | NotANumber => (NotANumber, user)
        end
    | None => (omap (fun p => GLMs [p]) (obind (target 1 dataY) (glm_fit Q dataX)), user)
    end
  else
    match user with
    | Some m =>
        (omap Copies (collect (map (fun c => obind (target c dataY) (rg_fit Q m dataX)) (seq 0 n))), user)
    | None =>
        (omap GLMs (collect (map (fun c => obind (target c dataY) (glm_fit Q dataX)) (seq 0 n))), user)
    end.

(** regression.py:143-195: the two steps of REGX.fit and REGy.fit. *)
Definition REG_fit {S M : Type} (B : bag_source S) (Q : regression M) (ppf : R -> R) (n_bins : nat)
    (strat : strategy) (range : option (R * R)) (labels k : nat) (X : list (list R)) (y : list Z)
    (w : world S M) : option (out (reg_object M) * world S M) :=
  match create_training_set B ppf n_bins strat range k X y (w_generator w) with
  | None => None
  | Some (Val (cuts, dataX, dataY), g) =>
      let n := length (np_unique y) in
      let '(models, user) := fit_regressor Q n dataX dataY (w_regressor w) in
      Some (omap (fun f => {| ro_bins := n_bins; ro_n_classes := n; ro_labels := labels; ro_cuts := cuts;
                              ro_dataX := dataX; ro_dataY := dataY; ro_models := f |}) models,
            {| w_generator := g; w_regressor := user |})
  | Some (Err e, g) => Some (Err e, {| w_generator := g; w_regressor := w_regressor w |})
  | Some (NotANumber, g) => Some (NotANumber, {| w_generator := g; w_regressor := w_regressor w |})
  end.

(** regression.py:211-237 predict_bag.  The check for a sum of 0 is made for two classes only. *)
Definition normalise_two (p : R) : out (list R) :=
  let prevalences := map clip01 [1 - p; p] in
  if Rlt_dec 0 (rsum prevalences) then Val (vdiv prevalences (rsum prevalences)) else Err ValueError.

Definition normalise_many (ps : list R) : out (list R) :=
  let prevalences := map clip01 ps in
  if Req_EM_T (rsum prevalences) 0 then NotANumber else Val (vdiv prevalences (rsum prevalences)).

(** The outputs of the models for a row, [user] being the present state of the user's object. *)
Definition outputs {M : Type} (Q : regression M) (f : fitted M) (user : option M) (row : list R)
  : out (list R) :=
  match f, user with
  | UserObject, Some m => omap (fun p => [p]) (rg_predict Q m row)
  | UserObject, None => Err AttributeError
  | Copies ms, _ => collect (map (fun m => rg_predict Q m row) ms)
  | GLMs ps, _ => collect (map (fun p => glm_predict p row) ps)
  end.

Definition predict_bag {M : Type} (Q : regression M) (q : reg_object M) (user : option M) (row : list R)
  : out (list R) :=
  obind (outputs Q (ro_models q) user row) (fun ps =>
    if Nat.eqb (ro_n_classes q) 2 then normalise_two (hd 0 ps) else normalise_many ps).

(** ** REGX *)

(** An array of one dimension, or a table with [k] columns. *)
Inductive data := Flat (x : list R) | Table (k : nat) (rows : list (list R)).

(** regression.py:351-364 REGX.fit.  For one dimension n_features is 1, and [X[:, 0]] raises
    IndexError. *)
Definition REGX_fit {S M : Type} (B : bag_source S) (Q : regression M) (ppf : R -> R) (n_bins : nat)
    (strat : strategy) (X : data) (y : list Z) (w : world S M)
  : option (out (reg_object M) * world S M) :=
  match X with
  | Flat _ => Some (Err IndexError, w)
  | Table k rows => REG_fit B Q ppf n_bins strat None (length (np_unique y)) k rows y w
  end.

(** The descriptors of a test bag with [k] attributes: [bincuts_[att]] raises IndexError after the
    last one. *)
Definition test_row (cuts : list (list edge)) (k : nat) (rows : list (list R)) : out (list R) :=
  if Nat.leb k (length cuts) then describe (firstn k cuts) (length rows) rows
  else match describe cuts (length rows) rows with Err e => Err e | _ => Err IndexError end.

(** regression.py:384-397 REGX.predict *)
Definition REGX_predict {M : Type} (Q : regression M) (q : reg_object M) (user : option M) (X : data)
  : out (list R) :=
  match X with
  | Flat _ => Err IndexError
  | Table k rows => obind (test_row (ro_cuts q) k rows) (predict_bag Q q user)
  end.

(** ** REGy *)

Definition width (rows : list (list R)) : nat := length (hd [] rows).

(** regression.py:550-574 REGy.fit, for the predictions of the base class: the first column for two
    classes, all of them otherwise, with the labels [y_ext_]. *)
Definition REGy_fit {S M : Type} (B : bag_source S) (Q : regression M) (ppf : R -> R) (n_bins : nat)
    (strat : strategy) (y : list Z) (preds : list (list R)) (w : world S M)
  : option (out (reg_object M) * world S M) :=
  let n := length (np_unique y) in
  let ye := y_ext y (length preds) in
  if Nat.eqb n 2
  then REG_fit B Q ppf n_bins strat (Some (0, 1)) n 1 (map (fun r => [nth 0 r 0]) preds) ye w
  else REG_fit B Q ppf n_bins strat (Some (0, 1)) n (width preds) preds ye w.

(** regression.py:604-623 REGy.predict; IndexError for a column that the predictions do not have. *)
Definition REGy_predict {M : Type} (Q : regression M) (q : reg_object M) (user : option M)
    (preds : list (list R)) : out (list R) :=
  let k := n_descriptors (ro_labels q) in
  match preds with
  | [] => NotANumber
  | _ =>
      if Nat.leb k (width preds)
      then obind (test_row (ro_cuts q) k preds) (predict_bag Q q user)
      else Err IndexError
  end.
