(** * The objects that the regression quantifiers share. *)

From Coq Require Import Reals List ZArith Lia Lra Bool Arith.
From Verif Require Import Num Spec L_Num M_Baselines M_Bags Spec_Bags L_Bags L_Bags2 L_Bags3
  M_Match Spec_Match L_Match M_Reg Spec_Reg L_Reg L_Reg2 L_Reg3 L_Reg4 L_Reg5 L_Reg6.
Import ListNotations.
Open Scope R_scope.

Section Properties.
Context {S M : Type}.
Variables (B : bag_source S) (Q : regression M) (ppf : R -> R).

(** The user's object after a fit. *)
Lemma REG_user : forall nb strat range labels k X y w q w',
  REG_fit B Q ppf nb strat range labels k X y w = Some (Val q, w') ->
  match w_regressor w with
  | None => w_regressor w' = None
  | Some m =>
      if Nat.eqb (length (np_unique y)) 2
      then exists m', rg_fit Q m (ro_dataX q) (col 1 (ro_dataY q)) = Val m' /\ w_regressor w' = Some m'
      else w_regressor w' = Some m
  end.
Proof.
  intros nb strat range labels k X y w q w' H.
  destruct (REG_fit_inv _ _ _ _ _ _ _ _ _ _ _ _ _ H) as (_ & _ & _ & _ & HF & _).
  apply fit_regressor_inv in HF. destruct (w_regressor w) as [m|]; [|apply HF].
  destruct (Nat.eqb_spec (length (np_unique y)) 2); [|apply HF].
  destruct HF as (_ & m' & E1 & E2). eauto.
Qed.

Lemma REGX_user : forall nb strat k X y w q w' m,
  REGX_fit B Q ppf nb strat (Table k X) y w = Some (Val q, w') -> w_regressor w = Some m ->
  (length (np_unique y) <> 2%nat -> w_regressor w' = Some m) /\
  (length (np_unique y) = 2%nat ->
   exists m', rg_fit Q m (ro_dataX q) (col 1 (ro_dataY q)) = Val m' /\ w_regressor w' = Some m').
Proof.
  intros nb strat k X y w q w' m H Hw. pose proof (REG_user _ _ _ _ _ _ _ _ _ _ H) as HU. rewrite Hw in HU.
  destruct (Nat.eqb_spec (length (np_unique y)) 2); split; intros; try contradiction; auto.
Qed.

Lemma REGy_user : forall nb strat y r preds w q w' m, y <> [] -> (0 < r)%nat ->
  length preds = (r * length y)%nat -> Forall (fun p => length p = length (np_unique y)) preds ->
  REGy_fit B Q ppf nb strat y preds w = Some (Val q, w') -> w_regressor w = Some m ->
  (length (np_unique y) <> 2%nat -> w_regressor w' = Some m) /\
  (length (np_unique y) = 2%nat ->
   exists m', rg_fit Q m (ro_dataX q) (col 1 (ro_dataY q)) = Val m' /\ w_regressor w' = Some m').
Proof.
  intros nb strat y r preds w q w' m Hy Hr L HW H Hw. rewrite (REGy_fit_REG B Q ppf nb strat y r) in H by auto.
  pose proof (REG_user _ _ _ _ _ _ _ _ _ _ H) as HU. rewrite Hw, unique_repeated in HU by auto.
  destruct (Nat.eqb_spec (length (np_unique y)) 2); split; intros; try contradiction; auto.
Qed.

(** Nothing that happens later to the shared objects changes a prediction. *)
Lemma REGX_independent : forall nb strat X y w q w' evs w2 T,
  REGX_fit B Q ppf nb strat X y w = Some (Val q, w') ->
  length (np_unique y) <> 2%nat \/ w_regressor w = None ->
  reg_history B Q ppf evs w' = Some w2 ->
  REGX_predict Q q (w_regressor w2) T = REGX_predict Q q (w_regressor w') T.
Proof.
  intros nb strat X y w q w' evs w2 T H Hn _. destruct X as [|k X]; [discriminate|].
  destruct (REG_not_shared _ _ _ _ _ _ _ _ _ _ _ _ _ H Hn) as [HM _]. unfold REGX_predict. destruct T; [reflexivity|].
  destruct (test_row (ro_cuts q) k0 rows) as [row| |]; [|reflexivity|reflexivity]. cbn [obind]. now apply predict_bag_user.
Qed.

Lemma REGy_independent : forall nb strat y r preds w q w' evs w2 test, y <> [] -> (0 < r)%nat ->
  length preds = (r * length y)%nat -> Forall (fun p => length p = length (np_unique y)) preds ->
  REGy_fit B Q ppf nb strat y preds w = Some (Val q, w') ->
  length (np_unique y) <> 2%nat \/ w_regressor w = None ->
  reg_history B Q ppf evs w' = Some w2 ->
  REGy_predict Q q (w_regressor w2) test = REGy_predict Q q (w_regressor w') test.
Proof.
  intros nb strat y r preds w q w' evs w2 test Hy Hr L HW H Hn _.
  rewrite (REGy_fit_REG B Q ppf nb strat y r) in H by auto.
  rewrite <- (unique_repeated y r) in Hn by auto.
  destruct (REG_not_shared _ _ _ _ _ _ _ _ _ _ _ _ _ H Hn) as [HM _]. unfold REGy_predict. destruct test; [reflexivity|].
  destruct (Nat.leb _ _); [|reflexivity].
  destruct (test_row _ _ _) as [row| |]; [|reflexivity|reflexivity]. cbn [obind]. now apply predict_bag_user.
Qed.

(** Two classes: the prediction is that of the user's object as it is now. *)
Lemma REGX_follows : forall nb strat k X y w q w' m m1 m2 rows, length (np_unique y) = 2%nat ->
  REGX_fit B Q ppf nb strat (Table k X) y w = Some (Val q, w') -> w_regressor w = Some m ->
  ro_dataX q <> [] -> rows <> [] -> (forall row, rg_predict Q m1 row = rg_predict Q m2 row) ->
  REGX_predict Q q (Some m1) (Table k rows) = REGX_predict Q q (Some m2) (Table k rows).
Proof.
  intros nb strat k X y w q w' m m1 m2 rows H2 H Hw Hd Hr HE.
  rewrite !(REGX_row B Q ppf nb strat k X y w q w') by auto. unfold predict_bag, outputs.
  destruct (REG_fit_inv _ _ _ _ _ _ _ _ _ _ _ _ _ H) as (_ & _ & _ & _ & HF & _).
  apply fit_regressor_inv in HF. rewrite Hw, H2 in HF. cbn [Nat.eqb] in HF. destruct HF as (-> & _).
  now rewrite HE.
Qed.

Lemma REGy_shared_bags : forall nb strat y r preds w q w' evs w2 nb2 strat2 y2 r2 preds2 q2 w3,
  y <> [] -> (0 < r)%nat -> length preds = (r * length y)%nat ->
  Forall (fun p => length p = length (np_unique y)) preds ->
  y2 <> [] -> (0 < r2)%nat -> length preds2 = (r2 * length y2)%nat ->
  Forall (fun p => length p = length (np_unique y2)) preds2 ->
  write_once B -> REGy_fit B Q ppf nb strat y preds w = Some (Val q, w') ->
  reg_history B Q ppf evs w' = Some w2 ->
  REGy_fit B Q ppf nb2 strat2 y2 preds2 w2 = Some (Val q2, w3) ->
  ro_dataY q2 = ro_dataY q.
Proof.
  intros nb strat y r preds w q w' evs w2 nb2 strat2 y2 r2 preds2 q2 w3 Hy Hr L HW Hy2 Hr2 L2 HW2 HO H HE H2.
  rewrite (REGy_fit_REG B Q ppf nb strat y r) in H by auto.
  rewrite (REGy_fit_REG B Q ppf nb2 strat2 y2 r2) in H2 by auto.
  exact (proj1 (shared_bags B Q ppf _ _ _ _ _ _ _ _ _ _ _ _ _ _ _ _ _ _ _ _ _ HO H HE H2)).
Qed.

End Properties.
