(** * Model of the constructors, and of scikit-learn's get_params, set_params and clone on their objects (C126). *)

From Coq Require Import List String Bool Arith.
Import ListNotations.
Open Scope string_scope.

(** Values of parameters and attributes: a literal or a global of the library (by its Python text), any object of the user (by a
    number that identifies it), an object made by calling a class. *)
Inductive value :=
| Lit (text : string)
| User (identity : nat)
| Made (cls : string) (args : list value).

(** [a is b] *)
Fixpoint same_value (a b : value) : bool :=
  match a, b with
  | Lit s, Lit t => String.eqb s t
  | User m, User n => Nat.eqb m n
  | Made c l, Made d k =>
      String.eqb c d &&
      (fix same_list l k := match l, k with
                            | [], [] => true
                            | x :: l, y :: k => same_value x y && same_list l k
                            | _, _ => false
                            end) l k
  | _, _ => false
  end.

(** What a call does: return, or raise an exception of the class named. *)
Inductive result (A : Type) := Returns (a : A) | Raises (exception : string).
Arguments Returns {A}. Arguments Raises {A}.

(** The attributes of an object. *)
Definition object := string -> option value.
Definition new_object : object := fun _ => None.
Definition set_attr (k : string) (v : value) (o : object) : object := fun k' => if String.eqb k k' then Some v else o k'.
Definition set_all (l : list (string * value)) (o : object) : object := fold_left (fun o kv => set_attr (fst kv) (snd kv) o) l o.

(** A class: the parameters of __init__ with their defaults ([None]: required), __init__ as a function of their values in that
    order, and the attributes that its other methods, or those it inherits, assign. *)
Record py_class := {
  cl_name : string;
  cl_params : list (string * option value);
  cl_init : list value -> object;
  cl_assigns : list string
}.
Definition param_names (c : py_class) : list string := map fst (cl_params c).
Definition arg (a : list value) (i : nat) : value := nth i a (Lit "None").

Fixpoint keyword (k : string) (kw : list (string * value)) : option value :=
  match kw with
  | [] => None
  | (k', v) :: kw => if String.eqb k k' then Some v else keyword k kw
  end.
Definition mem (k : string) (l : list string) : bool := existsb (String.eqb k) l.

(** Python's binding of positional and keyword arguments. *)
Fixpoint bind (params : list (string * option value)) (positional : list value) (kw : list (string * value)) : result (list value) :=
  match params, positional with
  | [], [] => Returns []
  | [], _ :: _ => Raises "TypeError"
  | (n, d) :: params, v :: positional =>
      match keyword n kw with
      | Some _ => Raises "TypeError"
      | None => match bind params positional kw with Returns l => Returns (v :: l) | Raises e => Raises e end
      end
  | (n, d) :: params, [] =>
      match (match keyword n kw with Some v => Some v | None => d end) with
      | None => Raises "TypeError"
      | Some v => match bind params [] kw with Returns l => Returns (v :: l) | Raises e => Raises e end
      end
  end.

(** C(positional.., keyword=..): unknown keywords are refused. *)
Definition call (c : py_class) (positional : list value) (kw : list (string * value)) : result object :=
  if forallb (fun kv => mem (fst kv) (param_names c)) kw
  then match bind (cl_params c) positional kw with
       | Returns args => Returns (cl_init c args)
       | Raises e => Raises e
       end
  else Raises "TypeError".

(** sklearn.base.BaseEstimator.get_params(deep=False) (scikit-learn from 0.24 on): getattr of every name in the signature of
    __init__.  The result is a dict; here in the order of the signature. *)
Fixpoint read_all (names : list string) (o : object) : result (list (string * value)) :=
  match names with
  | [] => Returns []
  | n :: names =>
      match o n with
      | None => Raises "AttributeError"
      | Some v => match read_all names o with Returns l => Returns ((n, v) :: l) | Raises e => Raises e end
      end
  end.
Definition get_params (c : py_class) (o : object) : result (list (string * value)) := read_all (param_names c) o.

(** BaseEstimator.set_params: the object after the call, and its outcome.  Names with "__" (parameters of a nested estimator) are
    not modelled, nor are the parameters of nested estimators read. *)
Fixpoint assign_params (names : list string) (o : object) (kw : list (string * value)) : object * result unit :=
  match kw with
  | [] => (o, Returns tt)
  | (k, v) :: kw => if mem k names then assign_params names (set_attr k v o) kw else (o, Raises "ValueError")
  end.
Definition set_params (c : py_class) (o : object) (kw : list (string * value)) : object * result unit :=
  match kw with
  | [] => (o, Returns tt)
  | _ => match get_params c o with
         | Raises e => (o, Raises e)
         | Returns _ => assign_params (param_names c) o kw
         end
  end.

(** sklearn.base.clone: copies of the parameters ([copy]: clone or deepcopy) are given to the constructor, whose object must then
    have the very same objects as parameters. *)
Definition clone (c : py_class) (copy : value -> value) (o : object) : result object :=
  match get_params c o with
  | Raises e => Raises e
  | Returns params =>
      let params := map (fun kv => (fst kv, copy (snd kv))) params in
      match call c [] params with
      | Raises e => Raises e
      | Returns o' =>
          match get_params c o' with
          | Raises e => Raises e
          | Returns params' =>
              if forallb (fun kv => match keyword (fst kv) params' with Some v => same_value (snd kv) v | None => false end) params
              then Returns o' else Raises "RuntimeError"
          end
      end
  end.

(** ** The base classes *)

(** base.py:147-160 UsingClassifiers.__init__ *)
Definition UC_init (estimator_train estimator_test needs_predictions_train probabilistic_predictions verbose : value) (o : object) : object :=
  set_all [("estimator_train", estimator_train); ("estimator_test", estimator_test);
           ("needs_predictions_train", needs_predictions_train); ("probabilistic_predictions", probabilistic_predictions);
           ("verbose", verbose); ("predictions_test_", Lit "None"); ("predictions_train_", Lit "None"); ("classes_", Lit "None");
           ("y_ext_", Lit "None")] o.

(** base.py:45-50 WithoutClassifiers.__init__ *)
Definition WC_init (verbose : value) (o : object) : object := set_all [("verbose", verbose); ("classes_", Lit "None")] o.

(** multiclass/regression.py:108-121 REG.__init__.  (In REGX and REGy it runs inside the __init__ of the other superclass, which
    keeps the argument verbose for itself.) *)
Definition REG_init (bag_generator n_bins bin_strategy regression_estimator verbose : value) (o : object) : object :=
  set_all [("bag_generator", bag_generator); ("n_bins", n_bins); ("bin_strategy", bin_strategy);
           ("regression_estimator", regression_estimator); ("verbose", verbose); ("dataX_", Lit "None"); ("dataY_", Lit "None");
           ("bincuts_", Lit "None"); ("estimators_", Lit "None"); ("models_", Lit "None"); ("n_classes_", Lit "None")] o.

(** ** The classes.  The attributes assigned by methods of scikit-learn's OneVsOneClassifier and LabelBinarizer are listed too. *)

(** baselines/cc.py:77-79 CC.__init__ *)
Definition cCC : py_class :=
  {| cl_name := "CC";
     cl_params := [("estimator_test", Some (Lit "None")); ("verbose", Some (Lit "0"))];
     cl_init := fun a => UC_init (Lit "None") (arg a 0) (Lit "False") (Lit "False") (arg a 1) new_object;
     cl_assigns := ["classes_"; "predictions_test_"; "predictions_train_"; "y_ext_"] |}.

(** baselines/cc.py:206-208 PCC.__init__ *)
Definition cPCC : py_class :=
  {| cl_name := "PCC";
     cl_params := [("estimator_test", Some (Lit "None")); ("verbose", Some (Lit "0"))];
     cl_init := fun a => UC_init (Lit "None") (arg a 0) (Lit "False") (Lit "True") (arg a 1) new_object;
     cl_assigns := ["classes_"; "predictions_test_"; "predictions_train_"; "y_ext_"] |}.

(** baselines/ac.py:119-129 AC.__init__ *)
Definition cAC : py_class :=
  {| cl_name := "AC";
     cl_params := [("estimator_train", Some (Lit "None")); ("estimator_test", Some (Lit "None")); ("distance", Some (Lit "'HD'"));
         ("verbose", Some (Lit "0"))];
     cl_init := fun a => set_all [("distance", arg a 2); ("cm_", Lit "None"); ("G_", Lit "None"); ("C_", Lit "None"); ("b_", Lit "None");
         ("problem_", Lit "None")]
      (UC_init (arg a 0) (arg a 1) (Lit "True") (Lit "False") (arg a 3) new_object);
     cl_assigns := ["C_"; "G_"; "b_"; "classes_"; "cm_"; "predictions_test_"; "predictions_train_"; "problem_"; "y_ext_"] |}.

(** baselines/ac.py:373-383 PAC.__init__ *)
Definition cPAC : py_class :=
  {| cl_name := "PAC";
     cl_params := [("estimator_test", Some (Lit "None")); ("estimator_train", Some (Lit "None")); ("distance", Some (Lit "'L2'"));
         ("verbose", Some (Lit "0"))];
     cl_init := fun a => set_all [("distance", arg a 2); ("cm_", Lit "None"); ("G_", Lit "None"); ("C_", Lit "None"); ("b_", Lit "None");
         ("problem_", Lit "None")]
      (UC_init (arg a 1) (arg a 0) (Lit "True") (Lit "True") (arg a 3) new_object);
     cl_assigns := ["C_"; "G_"; "b_"; "classes_"; "cm_"; "predictions_test_"; "predictions_train_"; "problem_"; "y_ext_"] |}.

(** binary/debias.py:97-103 DeBias.__init__ *)
Definition cDeBias : py_class :=
  {| cl_name := "DeBias";
     cl_params := [("estimator_test", Some (Lit "None")); ("estimator_train", Some (Lit "None")); ("verbose", Some (Lit "0"))];
     cl_init := fun a => set_all [("train_prevs_", Lit "None"); ("Vt_", Lit "None")]
      (UC_init (arg a 1) (arg a 0) (Lit "True") (Lit "True") (arg a 2) new_object);
     cl_assigns := ["Vt_"; "classes_"; "predictions_test_"; "predictions_train_"; "train_prevs_"; "y_ext_"] |}.

(** multiclass/em.py:103-108 EM.__init__ *)
Definition cEM : py_class :=
  {| cl_name := "EM";
     cl_params := [("estimator_train", Some (Lit "None")); ("estimator_test", Some (Lit "None")); ("verbose", Some (Lit "0"));
         ("epsilon", Some (Lit "0.0001")); ("max_iter", Some (Lit "1000"))];
     cl_init := fun a => set_all [("epsilon_", arg a 3); ("max_iter_", arg a 4); ("prevalences_train_", Lit "None")]
      (UC_init (arg a 0) (arg a 1) (Lit "True") (Lit "True") (arg a 2) new_object);
     cl_assigns := ["classes_"; "predictions_test_"; "predictions_train_"; "prevalences_train_"; "y_ext_"] |}.

(** multiclass/df.py:193-214 DFy.__init__ *)
Definition cDFy : py_class :=
  {| cl_name := "DFy";
     cl_params := [("estimator_train", Some (Lit "None")); ("estimator_test", Some (Lit "None")); ("distribution_function", Some (Lit "'PDF'"));
         ("n_bins", Some (Lit "8")); ("bin_strategy", Some (Lit "'equal_width'")); ("distance", Some (Lit "'HD'")); ("tol", Some (Lit "1e-05"));
         ("verbose", Some (Lit "0"))];
     cl_init := fun a => set_all [("distribution_function", arg a 2); ("n_bins", arg a 3); ("bin_strategy", arg a 4); ("distance", arg a 5);
         ("tol", arg a 6); ("bincuts_", Lit "None"); ("classes_", Lit "None"); ("train_distrib_", Lit "None"); ("test_distrib_", Lit "None");
         ("G_", Lit "None"); ("C_", Lit "None"); ("b_", Lit "None"); ("problem_", Lit "None"); ("mixtures_", Lit "None")]
      (UC_init (arg a 0) (arg a 1) (Lit "True") (Lit "True") (arg a 7) new_object);
     cl_assigns := ["C_"; "G_"; "b_"; "bincuts_"; "classes_"; "mixtures_"; "predictions_test_"; "predictions_train_"; "problem_";
         "test_distrib_"; "train_distrib_"; "y_ext_"] |}.

(** multiclass/df.py:370-373 HDy.__init__ *)
Definition cHDy : py_class :=
  {| cl_name := "HDy";
     cl_params := [("estimator_train", Some (Lit "None")); ("estimator_test", Some (Lit "None")); ("n_bins", Some (Lit "8"));
         ("bin_strategy", Some (Lit "'equal_width'")); ("tol", Some (Lit "1e-05")); ("verbose", Some (Lit "0"))];
     cl_init := fun a => cl_init cDFy [arg a 0; arg a 1; Lit "'PDF'"; arg a 2; arg a 3; Lit "'HD'"; arg a 4; arg a 5];
     cl_assigns := ["C_"; "G_"; "b_"; "bincuts_"; "classes_"; "mixtures_"; "predictions_test_"; "predictions_train_"; "problem_";
         "test_distrib_"; "train_distrib_"; "y_ext_"] |}.

(** multiclass/df.py:386-390 MMy.__init__ *)
Definition cMMy : py_class :=
  {| cl_name := "MMy";
     cl_params := [("estimator_train", Some (Lit "None")); ("estimator_test", Some (Lit "None")); ("n_bins", Some (Lit "8"));
         ("bin_strategy", Some (Lit "'equal_width'")); ("tol", Some (Lit "1e-05")); ("verbose", Some (Lit "0"))];
     cl_init := fun a => cl_init cDFy [arg a 0; arg a 1; Lit "'CDF'"; arg a 2; arg a 3; Lit "'L1'"; arg a 4; arg a 5];
     cl_assigns := ["C_"; "G_"; "b_"; "bincuts_"; "classes_"; "mixtures_"; "predictions_test_"; "predictions_train_"; "problem_";
         "test_distrib_"; "train_distrib_"; "y_ext_"] |}.

(** multiclass/df.py:497-516 DFX.__init__ *)
Definition cDFX : py_class :=
  {| cl_name := "DFX";
     cl_params := [("distribution_function", Some (Lit "'PDF'")); ("n_bins", Some (Lit "8")); ("bin_strategy", Some (Lit "'equal_width'"));
         ("distance", Some (Lit "'HD'")); ("tol", Some (Lit "1e-05")); ("verbose", Some (Lit "0"))];
     cl_init := fun a => set_all [("distribution_function", arg a 0); ("n_bins", arg a 1); ("bin_strategy", arg a 2); ("distance", arg a 3);
         ("tol", arg a 4); ("bincuts_", Lit "None"); ("train_distrib_", Lit "None"); ("test_distrib_", Lit "None"); ("G_", Lit "None");
         ("C_", Lit "None"); ("b_", Lit "None"); ("problem_", Lit "None"); ("mixtures_", Lit "None")]
      (WC_init (arg a 5) new_object);
     cl_assigns := ["C_"; "G_"; "b_"; "bincuts_"; "classes_"; "mixtures_"; "problem_"; "test_distrib_"; "train_distrib_"] |}.

(** multiclass/df.py:636-638 HDX.__init__ *)
Definition cHDX : py_class :=
  {| cl_name := "HDX";
     cl_params := [("n_bins", Some (Lit "8")); ("bin_strategy", Some (Lit "'equal_width'")); ("tol", Some (Lit "1e-05"))];
     cl_init := fun a => cl_init cDFX [Lit "'PDF'"; arg a 0; arg a 1; Lit "'HD'"; arg a 2; Lit "0"];
     cl_assigns := ["C_"; "G_"; "b_"; "bincuts_"; "classes_"; "mixtures_"; "problem_"; "test_distrib_"; "train_distrib_"] |}.

(** multiclass/energy.py:122-134 EDy.__init__ *)
Definition cEDy : py_class :=
  {| cl_name := "EDy";
     cl_params := [("estimator_train", Some (Lit "None")); ("estimator_test", Some (Lit "None"));
         ("distance", Some (Lit "manhattan_distances")); ("verbose", Some (Lit "0"))];
     cl_init := fun a => set_all [("distance", arg a 2); ("train_n_cls_i_", Lit "None"); ("train_distrib_", Lit "None"); ("K_", Lit "None");
         ("G_", Lit "None"); ("C_", Lit "None"); ("b_", Lit "None"); ("a_", Lit "None")]
      (UC_init (arg a 0) (arg a 1) (Lit "True") (Lit "True") (arg a 3) new_object);
     cl_assigns := ["C_"; "G_"; "K_"; "a_"; "b_"; "classes_"; "predictions_test_"; "predictions_train_"; "train_distrib_"; "train_n_cls_i_";
         "y_ext_"] |}.

(** multiclass/energy.py:334-347 CvMy.__init__ *)
Definition cCvMy : py_class :=
  {| cl_name := "CvMy";
     cl_params := [("estimator_train", Some (Lit "None")); ("estimator_test", Some (Lit "None"));
         ("distance", Some (Lit "manhattan_distances")); ("verbose", Some (Lit "0"))];
     cl_init := fun a => set_all [("distance", arg a 2); ("train_n_cls_i_", Lit "None"); ("train_distrib_", Lit "None");
         ("test_distrib_", Lit "None"); ("K_", Lit "None"); ("G_", Lit "None"); ("C_", Lit "None"); ("b_", Lit "None"); ("a_", Lit "None")]
      (UC_init (arg a 0) (arg a 1) (Lit "True") (Lit "True") (arg a 3) new_object);
     cl_assigns := ["C_"; "G_"; "K_"; "a_"; "b_"; "classes_"; "predictions_test_"; "predictions_train_"; "test_distrib_"; "train_distrib_";
         "train_n_cls_i_"; "y_ext_"] |}.

(** multiclass/energy.py:490-500 EDX.__init__ *)
Definition cEDX : py_class :=
  {| cl_name := "EDX";
     cl_params := [("distance", Some (Lit "euclidean_distances")); ("verbose", Some (Lit "0"))];
     cl_init := fun a => set_all [("distance_", arg a 0); ("train_n_cls_i_", Lit "None"); ("train_distrib_", Lit "None"); ("K_", Lit "None");
         ("G_", Lit "None"); ("C_", Lit "None"); ("b_", Lit "None")]
      (WC_init (arg a 1) new_object);
     cl_assigns := ["C_"; "G_"; "K_"; "b_"; "classes_"; "train_distrib_"; "train_n_cls_i_"] |}.

(** multiclass/friedman.py:132-147 FriedmanME.__init__ *)
Definition cFriedmanME : py_class :=
  {| cl_name := "FriedmanME";
     cl_params := [("estimator_test", Some (Lit "None")); ("estimator_train", Some (Lit "None")); ("distance", Some (Lit "'L2'"));
         ("tol", Some (Lit "1e-05")); ("verbose", Some (Lit "0"))];
     cl_init := fun a => set_all [("distance", arg a 2); ("tol", arg a 3); ("train_distrib_", Lit "None"); ("test_distrib_", Lit "None");
         ("train_prevs_", Lit "None"); ("G_", Lit "None"); ("C_", Lit "None"); ("b_", Lit "None"); ("problem_", Lit "None");
         ("mixtures_", Lit "None")]
      (UC_init (arg a 1) (arg a 0) (Lit "True") (Lit "True") (arg a 4) new_object);
     cl_assigns := ["C_"; "G_"; "b_"; "classes_"; "mixtures_"; "predictions_test_"; "predictions_train_"; "problem_"; "test_distrib_";
         "train_distrib_"; "train_prevs_"; "y_ext_"] |}.

(** multiclass/knn.py:74-79 PWKQuantifier.__init__ *)
Definition cPWKQuantifier : py_class :=
  {| cl_name := "PWKQuantifier";
     cl_params := [("n_neighbors", Some (Lit "10")); ("p", Some (Lit "2")); ("metric", Some (Lit "'minkowski'"));
         ("metric_params", Some (Lit "None")); ("verbose", Some (Lit "0"))];
     cl_init := fun a => set_all [("knn_estimator_", Made "PWK" [arg a 0; arg a 1; arg a 2; arg a 3]); ("cm_", Lit "None"); ("problem_", Lit "None")]
      (WC_init (arg a 4) new_object);
     cl_assigns := ["classes_"; "cm_"; "problem_"] |}.

(** multiclass/regression.py:330-333 REGX.__init__ *)
Definition cREGX : py_class :=
  {| cl_name := "REGX";
     cl_params := [("bag_generator", Some (Lit "PriorShift_BagGenerator()")); ("n_bins", Some (Lit "8"));
         ("bin_strategy", Some (Lit "'normal'")); ("regression_estimator", Some (Lit "None")); ("verbose", Some (Lit "False"))];
     cl_init := fun a => WC_init (arg a 4) (REG_init (arg a 0) (arg a 1) (arg a 2) (arg a 3) (Lit "0") new_object);
     cl_assigns := ["bincuts_"; "classes_"; "dataX_"; "dataY_"; "estimators_"; "models_"; "n_classes_"] |}.

(** multiclass/regression.py:522-527 REGy.__init__ *)
Definition cREGy : py_class :=
  {| cl_name := "REGy";
     cl_params := [("estimator_train", Some (Lit "None")); ("estimator_test", Some (Lit "None"));
         ("bag_generator", Some (Lit "PriorShift_BagGenerator()")); ("n_bins", Some (Lit "8")); ("bin_strategy", Some (Lit "'equal_width'"));
         ("regression_estimator", Some (Lit "None")); ("verbose", Some (Lit "False"))];
     cl_init := fun a => UC_init (arg a 0) (arg a 1) (Lit "True") (Lit "True") (arg a 6) (REG_init (arg a 2) (arg a 3) (arg a 4) (arg a 5) (Lit "0") new_object);
     cl_assigns := ["bincuts_"; "classes_"; "dataX_"; "dataY_"; "estimators_"; "models_"; "n_classes_"; "predictions_test_";
         "predictions_train_"; "y_ext_"] |}.

(** binary/emd.py:108-117 SORDy.__init__ *)
Definition cSORDy : py_class :=
  {| cl_name := "SORDy";
     cl_params := [("estimator_train", Some (Lit "None")); ("estimator_test", Some (Lit "None")); ("tol", Some (Lit "1e-05"));
         ("verbose", Some (Lit "0"))];
     cl_init := fun a => set_all [("tol", arg a 2); ("train_distrib_", Lit "None"); ("train_labels_", Lit "None");
         ("union_distrib_", Lit "None"); ("union_labels_", Lit "None")]
      (UC_init (arg a 0) (arg a 1) (Lit "True") (Lit "True") (arg a 3) new_object);
     cl_assigns := ["classes_"; "predictions_test_"; "predictions_train_"; "train_distrib_"; "train_labels_"; "union_distrib_"; "union_labels_";
         "y_ext_"] |}.

(** binary/quantiles.py:129-140 QUANTy.__init__ *)
Definition cQUANTy : py_class :=
  {| cl_name := "QUANTy";
     cl_params := [("estimator_train", Some (Lit "None")); ("estimator_test", Some (Lit "None")); ("n_quantiles", Some (Lit "8"));
         ("distance", Some (Lit "l2")); ("tol", Some (Lit "1e-05")); ("verbose", Some (Lit "0"))];
     cl_init := fun a => set_all [("n_quantiles", arg a 2); ("distance", arg a 3); ("tol", arg a 4); ("train_distrib_", Lit "None");
         ("train_labels_", Lit "None"); ("test_distrib_", Lit "None"); ("mixtures_", Lit "None")]
      (UC_init (arg a 0) (arg a 1) (Lit "True") (Lit "True") (arg a 5) new_object);
     cl_assigns := ["classes_"; "mixtures_"; "predictions_test_"; "predictions_train_"; "test_distrib_"; "train_distrib_"; "train_labels_";
         "y_ext_"] |}.

(** ordinal/ac_ordinal.py:112-119 ACOrdinal.__init__ *)
Definition cACOrdinal : py_class :=
  {| cl_name := "ACOrdinal";
     cl_params := [("estimator_train", Some (Lit "None")); ("estimator_test", Some (Lit "None")); ("verbose", Some (Lit "0"))];
     cl_init := fun a => set_all [("cm_", Lit "None"); ("train_distrib_", Lit "None"); ("test_distrib_", Lit "None"); ("problem_", Lit "None")]
      (UC_init (arg a 0) (arg a 1) (Lit "True") (Lit "False") (arg a 2) new_object);
     cl_assigns := ["classes_"; "cm_"; "predictions_test_"; "predictions_train_"; "problem_"; "test_distrib_"; "train_distrib_"; "y_ext_"] |}.

(** ordinal/pdf.py:135-151 PDFOrdinaly.__init__ *)
Definition cPDFOrdinaly : py_class :=
  {| cl_name := "PDFOrdinaly";
     cl_params := [("estimator_train", Some (Lit "None")); ("estimator_test", Some (Lit "None")); ("n_bins", Some (Lit "8"));
         ("distance", Some (Lit "'L2'")); ("method", Some (Lit "'full_probabilistic'")); ("tol", Some (Lit "1e-05"));
         ("verbose", Some (Lit "0"))];
     cl_init := fun a => set_all [("n_bins", arg a 2); ("distance", arg a 3); ("method", arg a 4); ("tol", arg a 5);
         ("train_distrib_", Lit "None"); ("test_distrib_", Lit "None"); ("G_", Lit "None"); ("C_", Lit "None"); ("b_", Lit "None");
         ("problem_", Lit "None")]
      (UC_init (arg a 0) (arg a 1) (Lit "True") (Lit "True") (arg a 6) new_object);
     cl_assigns := ["C_"; "G_"; "b_"; "classes_"; "predictions_test_"; "predictions_train_"; "problem_"; "test_distrib_"; "train_distrib_";
         "y_ext_"] |}.

(** estimators/frank_and_hall.py:84-92 FrankAndHallClassifier.__init__ *)
Definition cFrankAndHallClassifier : py_class :=
  {| cl_name := "FrankAndHallClassifier";
     cl_params := [("estimator", Some (Lit "None")); ("n_jobs", Some (Lit "None")); ("verbose", Some (Lit "0")); ("params_fit", Some (Lit "None"))];
     cl_init := fun a => set_all [("estimator", arg a 0); ("verbose", arg a 2); ("n_jobs", arg a 1); ("params_fit", arg a 3);
         ("classes_", Lit "None"); ("estimators_", Lit "None"); ("label_binarizer_", Lit "None")]
      (new_object);
     cl_assigns := ["classes_"; "estimators_"; "label_binarizer_"] |}.

(** estimators/frank_and_hall.py:362-364 FrankAndHallMonotoneClassifier.__init__ *)
Definition cFrankAndHallMonotoneClassifier : py_class :=
  {| cl_name := "FrankAndHallMonotoneClassifier";
     cl_params := [("estimator", Some (Lit "None")); ("n_jobs", Some (Lit "None")); ("verbose", Some (Lit "0")); ("params_fit", Some (Lit "None"))];
     cl_init := fun a => cl_init cFrankAndHallClassifier [arg a 0; arg a 1; arg a 2; arg a 3];
     cl_assigns := ["classes_"; "estimators_"; "label_binarizer_"] |}.

(** estimators/frank_and_hall.py:653-658 FrankAndHallTreeClassifier.__init__ *)
Definition cFrankAndHallTreeClassifier : py_class :=
  {| cl_name := "FrankAndHallTreeClassifier";
     cl_params := [("estimator", Some (Lit "None")); ("n_jobs", Some (Lit "None")); ("verbose", Some (Lit "0"));
         ("performance_measure", Some (Lit "binary_kld")); ("params_fit", Some (Lit "None"))];
     cl_init := fun a => set_all [("performance_measure", arg a 3); ("tree_", Lit "None")]
      (cl_init cFrankAndHallClassifier [arg a 0; arg a 1; arg a 2; arg a 4]);
     cl_assigns := ["classes_"; "estimators_"; "label_binarizer_"; "tree_"] |}.

(** ordinal/trees.py:37-39 OrdinalQuantificationTree.__init__ *)
Definition cOrdinalQuantificationTree : py_class :=
  {| cl_name := "OrdinalQuantificationTree";
     cl_params := [("estimator_test", Some (Lit "None")); ("verbose", Some (Lit "0"))];
     cl_init := fun a => cl_init cPCC [Made "FrankAndHallTreeClassifier" [arg a 0]; arg a 1];
     cl_assigns := ["classes_"; "predictions_test_"; "predictions_train_"; "y_ext_"] |}.

(** decomposition/multiclass.py:89-94 OneVsRestQuantifier.__init__ *)
Definition cOneVsRestQuantifier : py_class :=
  {| cl_name := "OneVsRestQuantifier";
     cl_params := [("base_quantifier", None); ("estimator_train", Some (Lit "None")); ("estimator_test", Some (Lit "None"));
         ("verbose", Some (Lit "0"))];
     cl_init := fun a => set_all [("base_quantifier", arg a 0); ("quantifiers_", Lit "None")]
      (UC_init (arg a 1) (arg a 2) (Lit "True") (Lit "True") (arg a 3) new_object);
     cl_assigns := ["classes_"; "needs_predictions_train"; "predictions_test_"; "predictions_train_"; "quantifiers_"; "y_ext_"] |}.

(** decomposition/ordinal.py:90-96 FrankAndHallQuantifier.__init__ *)
Definition cFrankAndHallQuantifier : py_class :=
  {| cl_name := "FrankAndHallQuantifier";
     cl_params := [("quantifier", None); ("estimator_train", Some (Lit "None")); ("estimator_test", Some (Lit "None")); ("verbose", Some (Lit "0"))];
     cl_init := fun a => set_all [("quantifier", arg a 0); ("quantifiers_", Lit "None"); ("classes_", Lit "None")]
      (UC_init (arg a 1) (arg a 2) (Lit "True") (Lit "True") (arg a 3) new_object);
     cl_assigns := ["classes_"; "needs_predictions_train"; "predictions_test_"; "predictions_train_"; "quantifiers_"; "y_ext_"] |}.

(** ensembles/eoq.py:155-183 EoQ.__init__ *)
Definition cEoQ : py_class :=
  {| cl_name := "EoQ";
     cl_params := [("base_quantifier", Some (Lit "None")); ("n_quantifiers", Some (Lit "100"));
         ("bag_generator", Some (Lit "PriorShift_BagGenerator()")); ("combination_strategy", Some (Lit "'mean'"));
         ("ensemble_estimator_train", Some (Lit "None")); ("ensemble_estimator_test", Some (Lit "None"));
         ("distribution_function", Some (Lit "'PDF'")); ("n_bins", Some (Lit "100")); ("bin_strategy", Some (Lit "'equal_width'"));
         ("distance_bags", Some (Lit "'euclidean'")); ("percentage_of_selected_models", Some (Lit "0.5")); ("verbose", Some (Lit "0"))];
     cl_init := fun a => set_all [("base_quantifier", arg a 0); ("n_quantifiers", arg a 1); ("bag_generator", arg a 2);
         ("combination_strategy", arg a 3); ("ensemble_estimator_train", arg a 4); ("ensemble_estimator_test", arg a 5);
         ("distribution_function", arg a 6); ("n_bins", arg a 7); ("bin_strategy", arg a 8); ("distance_bags", arg a 9);
         ("percentage_of_selected_models", arg a 10); ("verbose", arg a 11); ("quantifiers_", Lit "None"); ("prevalences_", Lit "None");
         ("indexes_", Lit "None"); ("bincuts_", Lit "None"); ("distributions_", Lit "None"); ("classes_", Lit "None")]
      (new_object);
     cl_assigns := ["bincuts_"; "classes_"; "distributions_"; "indexes_"; "prevalences_"; "quantifiers_"] |}.

(** estimators/ensembles.py:70-77 EnsembleOfClassifiers.__init__ *)
Definition cEnsembleOfClassifiers : py_class :=
  {| cl_name := "EnsembleOfClassifiers";
     cl_params := [("base_estimator", Some (Lit "None")); ("n_jobs", Some (Lit "None")); ("verbose", Some (Lit "0"))];
     cl_init := fun a => set_all [("base_estimator", arg a 0); ("verbose", arg a 2); ("n_jobs", arg a 1); ("classes_", Lit "None");
         ("n_estimators_", Lit "0"); ("estimators_", Lit "None")]
      (new_object);
     cl_assigns := ["classes_"; "estimators_"; "n_estimators_"] |}.

(** estimators/ordinal_ddag.py:201-207 DDAGClassifier.__init__ *)
Definition cDDAGClassifier : py_class :=
  {| cl_name := "DDAGClassifier";
     cl_params := [("estimator", None); ("n_jobs", Some (Lit "None")); ("predict_method", Some (Lit "'full_probabilistic'"));
         ("verbose", Some (Lit "0"))];
     cl_init := fun a => set_all [("estimator", arg a 0); ("n_jobs", arg a 1); ("predict_method", arg a 2); ("verbose", arg a 3);
         ("classes_", Lit "None")]
      (set_all [("estimator", arg a 0); ("n_jobs", arg a 1)] new_object);
     cl_assigns := ["classes_"; "estimators_"; "n_features_in_"; "pairwise_indices_"] |}.

(** estimators/cross_validation.py:117-132 CV_estimator.__init__ *)
Definition cCV_estimator : py_class :=
  {| cl_name := "CV_estimator";
     cl_params := [("estimator", None); ("groups", Some (Lit "None")); ("cv", Some (Lit "'warn'")); ("n_jobs", Some (Lit "None"));
         ("fit_params", Some (Lit "None")); ("pre_dispatch", Some (Lit "'2*n_jobs'")); ("averaged_predictions", Some (Lit "True"));
         ("voting", Some (Lit "'hard'")); ("verbose", Some (Lit "0"))];
     cl_init := fun a => set_all [("estimator", arg a 0); ("groups", arg a 1); ("cv", arg a 2); ("n_jobs", arg a 3); ("fit_params", arg a 4);
         ("pre_dispatch", arg a 5); ("averaged_predictions", arg a 6); ("voting", arg a 7); ("verbose", arg a 8); ("estimators_", Lit "()");
         ("le_", Lit "None"); ("classes_", Lit "None"); ("X_train_", Lit "None"); ("y_train_", Lit "None")]
      (new_object);
     cl_assigns := ["X_train_"; "classes_"; "cv"; "estimators_"; "le_"; "y_train_"] |}.

(** estimators/weighted_knn.py:86-92 PWK.__init__ *)
Definition cPWK : py_class :=
  {| cl_name := "PWK";
     cl_params := [("n_neighbors", Some (Lit "10")); ("algorithm", Some (Lit "'auto'")); ("leaf_size", Some (Lit "30")); ("p", Some (Lit "2"));
         ("metric", Some (Lit "'minkowski'")); ("metric_params", Some (Lit "None")); ("n_jobs", Some (Lit "None"))];
     cl_init := fun a => set_all [("knn_", Made "KNeighborsClassifier" [arg a 0; arg a 1; arg a 2; arg a 4; arg a 3; arg a 5; arg a 6]);
         ("classes_", Lit "None"); ("weights_", Lit "None"); ("y_", Lit "None")]
      (new_object);
     cl_assigns := ["classes_"; "weights_"; "y_"] |}.

(** estimators/frank_and_hall.py:972-973 FHLabelBinarizer.__init__ *)
Definition cFHLabelBinarizer : py_class :=
  {| cl_name := "FHLabelBinarizer";
     cl_params := [("neg_label", Some (Lit "0")); ("pos_label", Some (Lit "1"))];
     cl_init := fun a => set_all [("neg_label", arg a 0); ("pos_label", arg a 1); ("sparse_output", Lit "False")] new_object;
     cl_assigns := ["classes_"; "sparse_input_"; "y_type_"] |}.
