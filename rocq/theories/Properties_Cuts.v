(** * The cut points of the histograms (C93). *)

From Coq Require Import Reals List ZArith Lra Lia.
From Verif Require Import Num Spec L_Num M_Baselines M_Bags Spec_Bags M_Match Spec_Match L_Match10 M_Reg Spec_Reg L_Reg6
  M_Eoq Spec_Eoq L_Eoq7 L_Eoq8 Spec_Cuts L_Cuts.
Import ListNotations.
Open Scope R_scope.

Theorem C93_equal_width_range : forall ppf x y classes n a b, (0 < n)%nat -> a < b ->
  exists cuts, compute_bincuts ppf x y classes n EqualWidth (Some (a, b)) = Val cuts /\ equally_spaced n a b cuts.
Proof. exact width_of_range. Qed.
Print Assumptions C93_equal_width_range.

Theorem C93_equal_width_data : forall ppf x y classes n, (0 < n)%nat -> x <> [] ->
  exists cuts, compute_bincuts ppf x y classes n EqualWidth None = Val cuts /\ spaced_over n x cuts.
Proof. exact width_of_data. Qed.
Print Assumptions C93_equal_width_data.

(** The cut points of DFX and DFy are those of the theorems C51 and C52. *)
Theorem C93_DFX : forall ppf nb strat y k X cuts, DFX_cuts ppf nb strat y k X = Val cuts ->
  cuts_of_columns (fun v => compute_bincuts ppf v y (np_unique y) nb strat None) k X cuts /\
  (strat = EqualWidth -> forall d, (d < k)%nat -> spaced_over nb (column d X) (nth d cuts [])).
Proof. exact DFX_columns. Qed.
Print Assumptions C93_DFX.

Theorem C93_DFy : forall ppf nb strat y preds cuts, DFy_cuts ppf nb strat y preds = Val cuts ->
  cuts_of_columns (fun v => compute_bincuts ppf v y (np_unique y) nb strat (Some (0, 1)))
    (n_descriptors (length (np_unique y))) preds cuts /\
  (strat = EqualWidth -> forall d, (d < n_descriptors (length (np_unique y)))%nat -> equally_spaced nb 0 1 (nth d cuts [])).
Proof. exact DFy_columns. Qed.
Print Assumptions C93_DFy.

Theorem C93_REGX : forall S M (B : bag_source S) (Q : regression M) ppf nb strat k X y w q w',
  REGX_fit B Q ppf nb strat (Table k X) y w = Some (Val q, w') ->
  cuts_of_columns (fun v => compute_bincuts ppf v y (np_unique y) nb strat None) k X (ro_cuts q) /\
  (strat = EqualWidth -> forall d, (d < k)%nat -> spaced_over nb (column d X) (nth d (ro_cuts q) [])).
Proof. intros S M. exact REGX_columns. Qed.
Print Assumptions C93_REGX.

(** [r] blocks of predictions of the same examples. *)
Theorem C93_REGy : forall S M (B : bag_source S) (Q : regression M) ppf nb strat y r preds w q w',
  y <> [] -> (0 < r)%nat -> length preds = (r * length y)%nat -> Forall (fun p => length p = length (np_unique y)) preds ->
  REGy_fit B Q ppf nb strat y preds w = Some (Val q, w') ->
  cuts_of_columns (fun v => compute_bincuts ppf v (concat (repeat y r)) (np_unique y) nb strat (Some (0, 1)))
    (n_descriptors (length (np_unique y))) preds (ro_cuts q) /\
  (strat = EqualWidth -> forall d, (d < n_descriptors (length (np_unique y)))%nat ->
     equally_spaced nb 0 1 (nth d (ro_cuts q) [])).
Proof. intros S M. exact REGy_columns. Qed.
Print Assumptions C93_REGy.

Theorem C93_EoQ_without : forall S Q (B : settable S) ppf fit predict p k X y preds given g (q : eoq Q) g',
  EoQ_fit B ppf (Without fit predict) p k X y preds given g = Some (Val q, g') ->
  length (eq_cuts q) = k /\ forall d, (d < k)%nat -> spaced_over 100 (column d X) (nth d (eq_cuts q) []).
Proof. intros S Q. exact without_columns. Qed.
Print Assumptions C93_EoQ_without.

Theorem C93_EoQ_using : forall S Q (B : settable S) ppf fit predict p k X y preds rows given g (q : eoq Q) g',
  EoQ_fit B ppf (Using fit predict) p k X y preds given g = Some (Val q, g') ->
  describes (length (np_unique y)) preds rows ->
  cuts_of_columns (fun v => compute_bincuts ppf v (y_ext y (n_predictions preds)) (np_unique y) (ep_bins p) (ep_strategy p) None)
    (n_descriptors (length (np_unique y))) rows (eq_cuts q) /\
  (ep_strategy p = EqualWidth -> forall d, (d < n_descriptors (length (np_unique y)))%nat ->
     spaced_over (ep_bins p) (column d rows) (nth d (eq_cuts q) [])).
Proof. intros S Q. exact using_columns. Qed.
Print Assumptions C93_EoQ_using.

Example C93_hypotheses : forall ppf,
  DFX_cuts ppf 2 EqualWidth ex_labels 1 unit_X = Val [half_cut] /\
  DFy_cuts ppf 2 EqualWidth ex_labels [[0; 1]; [1; 0]] = Val [half_cut] /\
  (exists q w', REGX_fit (fixed_source good_bags) memory_regressor ppf 2 EqualWidth (Table 1 unit_X) ex_labels
     (world_of (Some [])) = Some (Val q, w')) /\
  (exists q w', REGy_fit (fixed_source good_bags) memory_regressor ppf 2 EqualWidth ex_labels [[0; 1]; [1; 0]]
     (world_of (Some [])) = Some (Val q, w')) /\
  (exists q : eoq (list R), EoQ_fit no_generator (fun x => x) (prior_using 2) (ep2 CMean 1) 0 [] [0; 1]%Z
     (Soft [[1; 0]; [0; 1]]) (Some two_bags) tt = Some (Val q, tt) /\ describes 2 (Soft [[1; 0]; [0; 1]]) [[1; 0]; [0; 1]]) /\
  exists q : eoq (list R), EoQ_fit no_generator (fun x => x) (prior_base 2)
     {| ep_n := 2; ep_combination := CMean; ep_function := PDF; ep_bins := 100; ep_strategy := EqualWidth; ep_percentage := 1 |}
     1 [[0]; [1]] [0; 1]%Z (Soft []) (Some two_bags) tt = Some (Val q, tt).
Proof.
  intros ppf. split; [exact (unit_cuts ppf ex_labels)|].
  assert (HY : DFy_cuts ppf 2 EqualWidth ex_labels [[0; 1]; [1; 0]] = Val [half_cut]).
  { unfold DFy_cuts. change (seq 0 (n_descriptors (length (np_unique ex_labels)))) with [0%nat]. cbn [map collect].
    now rewrite two_cuts. }
  split; [exact HY|]. split; [eexists; eexists; apply good_fit|].
  split.
  { unfold REGy_fit. change (length (np_unique ex_labels)) with 2%nat. cbn [Nat.eqb]. unfold REG_fit, create_training_set, reg_cuts.
    cbn [seq map collect]. rewrite two_cuts. cbn [omap obind fixed_source bs_generate world_of w_generator bs_n_bags].
    change [[nth 0 [0; 1] 0]; [nth 0 [1; 0] 0]] with unit_X. change [NegInf; Fin (1/2); PosInf] with half_cut.
    change (length good_bags) with 2%nat. rewrite good_rows. eexists. eexists. reflexivity. }
  split; [eexists; split; [exact (pair_fit CMean 1 (fun x => x))|reflexivity]|].
  apply (without_works no_generator); try reflexivity; try discriminate.
  - repeat (apply Forall_cons; [repeat (apply Forall_cons; [cbn; lia|]); apply Forall_nil|]); apply Forall_nil.
  - intros Xi yi. eexists. reflexivity.
Qed.
