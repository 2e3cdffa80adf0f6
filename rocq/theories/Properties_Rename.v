(** * Property theorems: renaming the labels (C106, C107). *)

From Coq Require Import Reals List ZArith Lra Lia.
From Verif Require Import Num Spec Spec_Bags Spec_Eoq Spec_Rename M_Baselines M_EM M_Optim M_Match M_Bags M_Ordinal M_Search
  M_Estimators M_Reg M_Eoq L_Estimators3 L_Bags2 L_Rename L_Rename2 L_Rename3.
Import ListNotations.
Open Scope R_scope.

(** In all theorems the labels of the training examples, and those given by a classifier, are renamed by a
    function that keeps their order; nothing else changes.  Exceptions and NaN are the same too. *)

(** C106, CC, AC, PAC, PWKQuantifier; any solver and distance. *)
Theorem C106_CC : forall f, order_preserving f -> forall y preds,
  CC_predict (np_unique (map f y)) (map f preds) = CC_predict (np_unique y) preds.
Proof. exact CC_map. Qed.
Print Assumptions C106_CC.

Theorem C106_AC : forall f, order_preserving f -> forall S d y preds bag,
  obind (AC_fit (map f y) (map f preds)) (fun cm => AC_predict S d (np_unique (map f y)) cm (map f bag)) =
  obind (AC_fit y preds) (fun cm => AC_predict S d (np_unique y) cm bag).
Proof. exact AC_map. Qed.
Print Assumptions C106_AC.

Theorem C106_PAC : forall f, order_preserving f -> forall S d y preds bag,
  obind (PAC_fit (map f y) preds) (fun cm => PAC_predict S d (np_unique (map f y)) cm bag) =
  obind (PAC_fit y preds) (fun cm => PAC_predict S d (np_unique y) cm bag).
Proof. exact PAC_map. Qed.
Print Assumptions C106_PAC.

Theorem C106_PWKQ : forall f, order_preserving f -> forall S y preds bag,
  obind (AC_fit (map f y) (map f preds)) (fun cm => PWKQ_predict S (np_unique (map f y)) cm (map f bag)) =
  obind (AC_fit y preds) (fun cm => PWKQ_predict S (np_unique y) cm bag).
Proof. exact PWKQ_map. Qed.
Print Assumptions C106_PWKQ.

(** C106: fit learns the same object for the quantifiers whose object contains no labels. *)
Theorem C106_DeBias : forall f, order_preserving f -> forall y preds, DeBias_fit (map f y) preds = DeBias_fit y preds.
Proof. exact DeBias_map. Qed.
Print Assumptions C106_DeBias.

Theorem C106_EM : forall f, order_preserving f -> forall y, EM_fit (map f y) = EM_fit y.
Proof. exact EM_map. Qed.
Print Assumptions C106_EM.

Theorem C106_DFy : forall f, order_preserving f -> forall ppf N fuel kind n_bins strat crit y preds,
  DFy_fit ppf N fuel kind n_bins strat crit (map f y) preds = DFy_fit ppf N fuel kind n_bins strat crit y preds.
Proof. exact DFy_map. Qed.
Print Assumptions C106_DFy.

Theorem C106_DFX : forall f, order_preserving f -> forall ppf N fuel kind n_bins strat crit y k X,
  DFX_fit ppf N fuel kind n_bins strat crit (map f y) k X = DFX_fit ppf N fuel kind n_bins strat crit y k X.
Proof. exact DFX_map. Qed.
Print Assumptions C106_DFX.

Theorem C106_FriedmanME : forall f, order_preserving f -> forall N fuel crit y preds,
  FriedmanME_fit N fuel crit (map f y) preds = FriedmanME_fit N fuel crit y preds.
Proof. exact FriedmanME_map. Qed.
Print Assumptions C106_FriedmanME.

Theorem C106_PDFOrdinaly : forall f, order_preserving f -> forall N fuel n_bins d m y preds,
  PDFO_fit N fuel n_bins d m (map f y) preds = PDFO_fit N fuel n_bins d m y preds.
Proof. exact PDFO_map. Qed.
Print Assumptions C106_PDFOrdinaly.

(** C106, ACOrdinal: the same prevalences. *)
Theorem C106_ACOrdinal : forall f, order_preserving f -> forall N cvx fuel y preds bag,
  omap (fun m => snd (ACOrdinal_predict N cvx m (map f bag))) (ACOrdinal_fit N fuel (map f y) (map f preds)) =
  omap (fun m => snd (ACOrdinal_predict N cvx m bag)) (ACOrdinal_fit N fuel y preds).
Proof. exact ACOrdinal_map. Qed.
Print Assumptions C106_ACOrdinal.

(** C106, EDy and EDX ([ye]: the label of each row, y repeated for EDy) and CvMy. *)
Theorem C106_ED : forall f, order_preserving f -> forall A N fuel (dist : A -> A -> R) y ye rows bag, reads_dimensions N ->
  option_map (fun m => ED_predict N m bag) (ED_fit N fuel dist (np_unique (map f y)) (map f ye) rows) =
  option_map (fun m => ED_predict N m bag) (ED_fit N fuel dist (np_unique y) ye rows).
Proof. intros f Hf A. exact (ED_map f Hf). Qed.
Print Assumptions C106_ED.

Theorem C106_CvMy : forall f, order_preserving f -> forall N fuel dist y ye k preds bag, reads_dimensions N ->
  CvMy_predict N fuel dist (np_unique (map f y)) (map f ye) k preds bag =
  CvMy_predict N fuel dist (np_unique y) ye k preds bag.
Proof. exact CvMy_map. Qed.
Print Assumptions C106_CvMy.

(** C106, SORDy (which makes up a label for the test examples) and QUANTy. *)
Theorem C106_SORDy : forall f, order_preserving f -> forall argsort tol y c0 c1 scores bag, np_unique y = [c0; c1] ->
  obind (sorted_fit argsort (np_unique (map f y)) (map f y) scores) (fun s => SORDy_predict argsort tol s bag) =
  obind (sorted_fit argsort (np_unique y) y scores) (fun s => SORDy_predict argsort tol s bag).
Proof. exact SORDy_map. Qed.
Print Assumptions C106_SORDy.

Theorem C106_QUANTy : forall f, order_preserving f -> forall argsort q distance tol y c0 c1 scores mixtures bag,
  np_unique y = [c0; c1] ->
  obind (sorted_fit argsort (np_unique (map f y)) (map f y) scores)
        (fun s => QUANTy_predict argsort q distance tol s mixtures bag) =
  obind (sorted_fit argsort (np_unique y) y scores) (fun s => QUANTy_predict argsort q distance tol s mixtures bag).
Proof. exact QUANTy_map. Qed.
Print Assumptions C106_QUANTy.

(** C106, Frank-and-Hall, one-vs-rest, and the ordinal quantification tree; any binary quantifier. *)
Theorem C106_FrankAndHall : forall f, order_preserving f -> forall E X S (q : quantifier E X S) a b x y p,
  FHQ_fit q a b x (map f y) p = FHQ_fit q a b x y p /\
  FHQ_fit_without q x (map f y) = FHQ_fit_without q x y /\
  OVR_fit q a b x (map f y) p = OVR_fit q a b x y p.
Proof.
  intros f Hf E X S q a b x y p.
  exact (conj (FHQ_map f Hf q a b x y p) (conj (FHQ_without_map f Hf q x y) (OVR_map f Hf q a b x y p))).
Qed.
Print Assumptions C106_FrankAndHall.

Theorem C106_tree : forall f, order_preserving f -> forall measure y left examples,
  obind (FHT_fit measure (np_unique (map f y)) (map f y) left) (fun t => OQT_predict (np_unique (map f y)) t examples) =
  obind (FHT_fit measure (np_unique y) y left) (fun t => OQT_predict (np_unique y) t examples).
Proof. exact OQT_all. Qed.
Print Assumptions C106_tree.

(** C106: the order matters.  Renaming c to -c reverses the vector of CC. *)
Theorem C106_order : forall y preds,
  CC_predict (np_unique (map Z.opp y)) (map Z.opp preds) = omap (@rev R) (CC_predict (np_unique y) preds).
Proof. exact CC_reversed. Qed.
Print Assumptions C106_order.

Theorem C106_any_renaming_refuted : ~ forall f, (forall a b, f a = f b -> a = b) -> forall y preds,
  CC_predict (np_unique (map f y)) (map f preds) = CC_predict (np_unique y) preds.
Proof. exact any_renaming_refuted. Qed.
Print Assumptions C106_any_renaming_refuted.

(** A renaming; labels with two classes; external routines that read only their arguments, with which EDy
    answers; CC answers. *)
Example C106_hypotheses :
  order_preserving (fun c => 3 * c - 7)%Z /\ np_unique [5; 2; 5]%Z = [2; 5]%Z /\
  reads_dimensions one_variable /\
  option_map (fun m => ED_predict one_variable m [[3/2]; [3]])
    (ED_fit one_variable 1 (fun a b => Rabs (hd 0 a - hd 0 b)) (np_unique [2; 5]%Z) [2; 5]%Z [[3/2]; [4]]) =
    Some (Val [7/10; 1 - 7/10]) /\
  map (fun c => 3 * c - 7)%Z [2; 5]%Z = [-1; 8]%Z /\
  CC_predict (np_unique [2; 5]%Z) [5; 5]%Z = Val [INR 0 / INR 2; INR 2 / INR 2].
Proof.
  split; [intros a b; lia|]. split; [reflexivity|]. split; [exact one_variable_reads|]. split; [exact one_variable_ED|].
  split; reflexivity.
Qed.

(** C107, the bag generators of the library: the same bags, the same prevalences, the same state. *)
Theorem C107_PriorShift : forall f, order_preserving f -> forall G (RG : rng G) fuel s y global,
  PS_generate RG fuel s (map f y) global = PS_generate RG fuel s y global.
Proof. intros f Hf G. exact (PS_map f Hf). Qed.
Print Assumptions C107_PriorShift.

Theorem C107_CovariateShift : forall f, order_preserving f -> forall G (RG : rng G) s X y, rng_ok RG ->
  CS_generate RG s X (map f y) = CS_generate RG s X y.
Proof. intros f Hf G. exact (CS_map f Hf). Qed.
Print Assumptions C107_CovariateShift.

Theorem C107_PriorAndCovariateShift : forall f, order_preserving f -> forall G (RG : rng G) fuel s X y global, rng_ok RG ->
  MS_generate RG fuel s X (map f y) global = MS_generate RG fuel s X y global.
Proof. intros f Hf G. exact (MS_map f Hf). Qed.
Print Assumptions C107_PriorAndCovariateShift.

(** C107: so REGX and REGy learn the same with them, and with any generator that has this property. *)
Theorem C107_generators : forall f, order_preserving f -> forall G (RG : rng G) fuel, rng_ok RG ->
  label_free f (prior_source RG fuel) /\ label_free f (covariate_source RG) /\ label_free f (mixed_source RG fuel).
Proof. intros f Hf G. exact (sources f Hf). Qed.
Print Assumptions C107_generators.

Theorem C107_REGX : forall f, order_preserving f ->
  forall S M (B : bag_source S) (Q : regression M) ppf n_bins strat X y w, label_free f B ->
  REGX_fit B Q ppf n_bins strat X (map f y) w = REGX_fit B Q ppf n_bins strat X y w.
Proof. intros f Hf S M. exact (REGX_map f Hf). Qed.
Print Assumptions C107_REGX.

Theorem C107_REGy : forall f, order_preserving f ->
  forall S M (B : bag_source S) (Q : regression M) ppf n_bins strat y preds w, label_free f B ->
  REGy_fit B Q ppf n_bins strat (map f y) preds w = REGy_fit B Q ppf n_bins strat y preds w.
Proof. intros f Hf S M. exact (REGy_map f Hf). Qed.
Print Assumptions C107_REGy.

(** C107, EoQ: fit and predict, for a base quantifier that has this property; the state of the generator
    is the same too. *)
Theorem C107_EoQ : forall f, order_preserving f ->
  forall S Q (B : settable S) ppf (b : base Q) argsort distance p k X y preds given g k_test X_test preds_test,
  label_free f (se_source B) -> label_free_base f b ->
  option_map (fun r => (obind (fst r) (fun q => EoQ_predict argsort distance b p q k_test X_test (renamed f preds_test)), snd r))
    (EoQ_fit B ppf b p k X (map f y) (renamed f preds) given g) =
  option_map (fun r => (obind (fst r) (fun q => EoQ_predict argsort distance b p q k_test X_test preds_test), snd r))
    (EoQ_fit B ppf b p k X y preds given g).
Proof. intros f Hf S Q. exact (EoQ_map f Hf). Qed.
Print Assumptions C107_EoQ.

(** C107, the classifiers: the probabilities of PWK do not change and its labels are renamed, as long as it
    has been trained with two classes; FrankAndHallClassifier renames its labels. *)
Theorem C107_PWK : forall f, order_preserving f -> forall y all, (2 <= length (np_unique y))%nat ->
  Forall (fun nb => nb <> [] /\ Forall (fun i => (i < length y)%nat) nb) all ->
  PWK_predict (map f y) all = map f (PWK_predict y all) /\
  Forall (fun nb => PWK_row (map f y) nb = PWK_row y nb) all.
Proof. exact PWK_both. Qed.
Print Assumptions C107_PWK.

Theorem C107_PWK_one_class_refuted : ~ forall f, order_preserving f -> forall y all,
  Forall (fun nb => nb <> [] /\ Forall (fun i => (i < length y)%nat) nb) all ->
  PWK_predict (map f y) all = map f (PWK_predict y all).
Proof. exact PWK_one_class_refuted. Qed.
Print Assumptions C107_PWK_one_class_refuted.

Theorem C107_predict_label : forall f classes probs, length probs = length classes -> classes <> [] ->
  predict_label (map f classes) probs = f (predict_label classes probs).
Proof. exact predict_label_renamed. Qed.
Print Assumptions C107_predict_label.

(** A random generator and a base quantifier (CC) that meet the hypotheses; two rows of neighbours. *)
Example C107_hypotheses :
  order_preserving (fun c => 3 * c - 7)%Z /\ rng_ok lowest_rng /\
  label_free_base (fun c => 3 * c - 7)%Z counting_base /\
  (2 <= length (np_unique [5; 3; 5]%Z))%nat /\
  Forall (fun nb => nb <> [] /\ Forall (fun i => (i < length [5; 3; 5]%Z)%nat) nb) [[0; 1]; [2]]%nat.
Proof.
  split; [intros a b; lia|]. split; [exact lowest_rng_ok|].
  split; [apply counting_label_free; intros a b; lia|]. split; [apply le_n|].
  repeat (apply Forall_cons; [split; [discriminate|repeat (apply Forall_cons; [simpl; lia|]); apply Forall_nil]|]).
  apply Forall_nil.
Qed.
