(** * The generator and the bag size that a bag generator keeps (C74). *)

From Coq Require Import Reals List ZArith Bool.
From Verif Require Import Num M_Baselines M_Base M_Bags Spec_Bags L_Base.
Import ListNotations.
Open Scope R_scope.

Lemma PS_seed_or_generator {G : Type} (RG : rng G) fuel n size m al mp k y global :
  let s rs := {| ps_n_bags := n; ps_bag_size := size; ps_method := m; ps_alphas := al; ps_min := mp; ps_random := rs; ps_bags := None |} in
  PS_generate RG fuel (s (Seed k)) y global = PS_generate RG fuel (s (State (r_seed RG k))) y global.
Proof. reflexivity. Qed.

Lemma CS_seed_or_generator {G : Type} (RG : rng G) n size k X y :
  let s rs := {| cs_n_bags := n; cs_bag_size := size; cs_random := rs; cs_bags := None |} in
  CS_generate RG (s (Seed k)) X y = CS_generate RG (s (State (r_seed RG k))) X y.
Proof. reflexivity. Qed.

Lemma PS_keeps_size {G : Type} (RG : rng G) fuel s y global b s' global' : ps_bags s = None ->
  PS_generate RG fuel s y global = Some (Val b, s', global') ->
  ps_bag_size s' = Some (bag_size_of s y) /\ ps_bags s' = Some b /\ (exists g, ps_random s' = State g) /\
  ps_n_bags s' = ps_n_bags s /\ ps_method s' = ps_method s /\ ps_alphas s' = ps_alphas s /\ ps_min s' = ps_min s.
Proof.
  intros N. unfold PS_generate, bag_size_of. rewrite N. destruct (get_random RG (ps_random s)) as [g|]; [|discriminate]. cbv zeta.
  destruct (ps_method s) eqn:EM.
  - destruct (generate_uniform _ _ _ _ _ _ _) as [[[v| |] g']|]; try discriminate. intros H. injection H as -> <- <-. cbn. repeat split; eauto.
  - destruct (generate_dirichlet _ _ _ _ _ _ _) as [[o gl] g']. destruct o; intros H; try discriminate. injection H as -> <- <-. cbn. repeat split; eauto.
  - discriminate.
Qed.

Lemma fit_given_rows {X M : Type} (A : nat -> algorithm X M) q w x y rows : length x = length y -> needs_predictions_train q = true ->
  probabilistic q = true ->
  exists q' w', UC_fit A q w x y (Some (Matrix rows)) = (Val tt, q', w') /\ y_ext_ q' = Some (y_ext y (length rows)).
Proof.
  intros L HN HP. destruct (fit_given_probabilities A q w x y (Matrix rows) L HN HP) as (q' & w' & F & _ & _ & E). exists q', w'. split; [exact F|exact E].
Qed.
