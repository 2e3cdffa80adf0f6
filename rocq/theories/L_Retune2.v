(** * Proofs about the parameters and the first fit of a quantifier whose distance changes (C127). *)

From Coq Require Import Reals List ZArith Bool.
From Verif Require Import Num M_Baselines M_Search M_Optim M_Match M_History M_Retune Spec_Retune L_Fit11.
Import ListNotations.
Open Scope R_scope.

Lemma parameters : forall (A B : Type) N cvx (fit : criterion -> A -> out (matcher B)) o es o', after fit N cvx o es o' ->
  tn_distance o' = last_distance (tn_distance o) es /\ tn_tol o' = last_tol (tn_tol o) es.
Proof.
  intros A B N cvx fit o es o' H.
  induction H as [o|o a o1 es o' F _ IH|o a m es o' F _ IH|o bag es o' _ IH|o crit es o' _ IH|o tol es o' _ IH]; cbn [last_distance last_tol]; auto.
  - unfold tunable_fit in F. destruct (fit (tn_distance o) a); try discriminate. cbn [omap] in F. injection F as <-. exact IH.
  - unfold tunable_predict in IH. destruct (matching_predict N cvx (tn_distance o) (tn_tol o) (tn_state o) bag). exact IH.
Qed.

Lemma first_fit : forall (A B : Type) N cvx (fit : criterion -> A -> out (matcher B)) crit tol a m, fit crit a = Val m ->
  mt_problem m = None -> mt_mixtures m = None ->
  exists o, tunable_fit fit a (tunable_new crit tol) = Val o /\
    forall bag, snd (tunable_predict N cvx bag o) = snd (matching_predict N cvx crit tol m bag).
Proof.
  intros A B N cvx fit crit tol a m E HP HM. unfold tunable_fit. cbn [tunable_new tn_distance tn_tol tn_state]. rewrite E. cbn [omap].
  eexists. split; [reflexivity|]. intros bag. unfold tunable_predict. cbn [tn_distance tn_tol tn_state].
  assert (K : snd (matching_predict N cvx crit tol (assign_matcher crit unfitted_matcher m) bag) = snd (matching_predict N cvx crit tol m bag)).
  { unfold matching_predict. cbn [assign_matcher mt_represent]. destruct (mt_represent m bag); try reflexivity.
    apply estimate_same; cbn; auto. intros ->. reflexivity. }
  destruct (matching_predict N cvx crit tol (assign_matcher crit unfitted_matcher m) bag) as [m' r]. exact K.
Qed.

Lemma fit_empties : forall {A} N fuel c bins (rep : list A -> out (list R)) classes ye rows m,
  fit_matching N fuel c bins rep classes ye rows = Val m -> mt_problem m = None /\ mt_mixtures m = None.
Proof.
  intros A N fuel c bins rep classes ye rows m H. unfold fit_matching in H. destruct (Nat.eqb _ _); [|discriminate].
  destruct (collect _) as [cols| |]; try discriminate. inversion H. split; reflexivity.
Qed.

Theorem first_DFy : forall ppf N cvx fuel kind n_bins strat crit tol y P m, DFy_fit ppf N fuel kind n_bins strat crit y P = Val m ->
  exists o, tunable_fit (DFy_fits ppf N fuel kind n_bins strat) (y, P) (tunable_new crit tol) = Val o /\
    forall bag, snd (tunable_predict N cvx bag o) = snd (matching_predict N cvx crit tol m bag).
Proof.
  intros ppf N cvx fuel kind n_bins strat crit tol y P m H. apply first_fit; [exact H|..];
    unfold DFy_fit in H; destruct (DFy_cuts _ _ _ _ _); try discriminate; apply (fit_empties _ _ _ _ _ _ _ _ _ H).
Qed.

Theorem first_DFX : forall ppf N cvx fuel kind n_bins strat crit tol y k X m, DFX_fit ppf N fuel kind n_bins strat crit y k X = Val m ->
  exists o, tunable_fit (DFX_fits ppf N fuel kind n_bins strat) (y, k, X) (tunable_new crit tol) = Val o /\
    forall bag, snd (tunable_predict N cvx bag o) = snd (matching_predict N cvx crit tol m bag).
Proof.
  intros ppf N cvx fuel kind n_bins strat crit tol y k X m H. apply first_fit; [exact H|..];
    unfold DFX_fit in H; destruct (DFX_cuts _ _ _ _ _ _); try discriminate; apply (fit_empties _ _ _ _ _ _ _ _ _ H).
Qed.

Theorem first_FriedmanME : forall N cvx fuel crit tol y P m, FriedmanME_fit N fuel crit y P = Val m ->
  exists o, tunable_fit (FriedmanME_fits N fuel) (y, P) (tunable_new crit tol) = Val o /\
    forall bag, snd (tunable_predict N cvx bag o) = snd (matching_predict N cvx crit tol m bag).
Proof.
  intros N cvx fuel crit tol y P m H. apply first_fit; [exact H|..];
    unfold FriedmanME_fit in H; apply (fit_empties _ _ _ _ _ _ _ _ _ H).
Qed.
