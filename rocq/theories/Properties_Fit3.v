(** * Property theorems: DFX after calls of fit that raise (C129). *)

From Coq Require Import Reals List ZArith Bool Lia Lra.
From Verif Require Import Num Spec M_Baselines M_Optim Spec_Optim M_Match Spec_Match M_Fit3 Spec_Fit Spec_Fit3 L_Fit7 L_Fit8 L_Fit9.
Import ListNotations.
Open Scope R_scope.

(** C129: a fit that returns makes the object answer as a new one, whatever calls returned or raised before; it returns on exactly the
    data on which the fit of a new object does. *)
Theorem C129_fit_returns : forall ppf N cvx fuel kind n_bins strat crit tol k y X s, accepted_data k y X ->
  match DFX_fit ppf N fuel kind n_bins strat crit y k X with
  | Val m => exists s', DFX_object_fit ppf N fuel kind n_bins strat crit k y X s = (Val tt, s') /\
      forall bag, bag <> [] -> snd (DFX_object_predict N cvx kind n_bins crit tol k bag s') = snd (matching_predict N cvx crit tol m bag)
  | _ => raises (fst (DFX_object_fit ppf N fuel kind n_bins strat crit k y X s))
  end.
Proof. exact object_as_fit. Qed.
Print Assumptions C129_fit_returns.

(** Data that scikit-learn's check refuses change nothing. *)
Theorem C129_refused : forall ppf N fuel kind n_bins strat crit k y X s, ~ accepted_data k y X ->
  DFX_object_fit ppf N fuel kind n_bins strat crit k y X s = (Err ValueError, s).
Proof. exact refused. Qed.
Print Assumptions C129_refused.

(** A DFX none of whose fits returned never answers (with equal_count, if n_bins is not 2, 6, 10, ...). *)
Theorem C129_never_fitted : forall ppf N cvx fuel kind n_bins strat crit tol k s, increasing_ppf ppf ->
  (strat = EqualCount -> Nat.modulo n_bins 4 <> 2%nat) -> DFX_only_failed ppf N cvx fuel kind n_bins strat crit tol k s ->
  forall bag, raises (snd (DFX_object_predict N cvx kind n_bins crit tol k bag s)).
Proof. exact never_fitted. Qed.
Print Assumptions C129_never_fitted.

(** With equal_count and n_bins = 6 that is false: two calls of fit that raise are enough for an answer. *)
Theorem C129_never_fitted_refuted : forall ppf N fuel cvx tol, answering_cvx cvx ->
  exists s1 s2 r1 r2 p,
    DFX_object_fit ppf N fuel PDF 6 EqualCount (Named L1) 1 [0; 0; 1]%Z [[0]; [0]; [1]] DFX_new = (r1, s1) /\ raises r1 /\
    DFX_object_fit ppf N fuel PDF 6 EqualCount (Named L1) 1 [0; 1]%Z [[0]; [1]] s1 = (r2, s2) /\ raises r2 /\
    snd (DFX_object_predict N cvx PDF 6 (Named L1) tol 1 [[2]] s2) = Val p.
Proof. exact two_failed_fits_answer. Qed.
Print Assumptions C129_never_fitted_refuted.

(** "A fit that raises does not change the answers" is false: a DFX that answers (1, 0) for a bag like the first class answers (0, 1)
    after a fit with too few examples, with every exact solver. *)
Theorem C129_refit_refuted : forall ppf N fuel cvx tol, increasing_ppf ppf -> exact_cvx cvx -> answering_cvx cvx ->
  exists s1 s2 r,
    DFX_object_fit ppf N fuel CDF 4 EqualCount (Named L1) 1 [0; 0; 1; 1]%Z [[1]; [1]; [2]; [2]] DFX_new = (Val tt, s1) /\
    DFX_object_fit ppf N fuel CDF 4 EqualCount (Named L1) 1 [0; 1]%Z [[1]; [2]] s1 = (r, s2) /\ raises r /\
    snd (DFX_object_predict N cvx CDF 4 (Named L1) tol 1 [[1]] s1) = Val [1; 0] /\
    snd (DFX_object_predict N cvx CDF 4 (Named L1) tol 1 [[1]] s2) = Val [0; 1].
Proof. exact failed_refit_changes. Qed.
Print Assumptions C129_refit_refuted.

(** After a fit that raises on accepted data, all the bags without a value that is exactly 0 get the same answer, or none. *)
Theorem C129_forgotten : forall ppf N cvx fuel kind n_bins strat crit tol k s y X r s', increasing_ppf ppf ->
  (strat = EqualCount -> Nat.modulo n_bins 4 <> 2%nat) -> accepted_data k y X ->
  DFX_object_fit ppf N fuel kind n_bins strat crit k y X s = (r, s') -> raises r ->
  forall bag1 bag2, without_zeros k bag1 -> without_zeros k bag2 ->
  snd (DFX_object_predict N cvx kind n_bins crit tol k bag1 s') = snd (DFX_object_predict N cvx kind n_bins crit tol k bag2 s').
Proof. exact forgotten. Qed.
Print Assumptions C129_forgotten.

(** If the labels of that fit have another number of classes than those of the fit before, HD and L1 do not answer. *)
Theorem C129_other_classes : forall ppf N cvx fuel kind n_bins strat crit tol k s0 y0 X0 s y X r s', increasing_ppf ppf ->
  (strat = EqualCount -> Nat.modulo n_bins 4 <> 2%nat) -> crit = Named HD \/ crit = Named L1 ->
  accepted_data k y0 X0 -> accepted_data k y X ->
  DFX_object_fit ppf N fuel kind n_bins strat crit k y0 X0 s0 = (Val tt, s) ->
  DFX_object_fit ppf N fuel kind n_bins strat crit k y X s = (r, s') -> raises r -> length (np_unique y) <> length (np_unique y0) ->
  forall bag, raises (snd (DFX_object_predict N cvx kind n_bins crit tol k bag s')).
Proof. exact other_classes. Qed.
Print Assumptions C129_other_classes.

(** But once the object has answered with HD or L1, the labels (and examples) of the fit that raises do not matter, not even their number
    of classes. *)
Theorem C129_after_an_answer : forall ppf N cvx fuel kind n_bins strat crit tol k s bag1 s2 p y X r s3 y' X' r' s3', increasing_ppf ppf ->
  (strat = EqualCount -> Nat.modulo n_bins 4 <> 2%nat) -> crit = Named HD \/ crit = Named L1 -> accepted_data k y X -> accepted_data k y' X' ->
  DFX_object_predict N cvx kind n_bins crit tol k bag1 s = (s2, Val p) ->
  DFX_object_fit ppf N fuel kind n_bins strat crit k y X s2 = (r, s3) -> raises r ->
  DFX_object_fit ppf N fuel kind n_bins strat crit k y' X' s2 = (r', s3') -> raises r' ->
  forall bag, snd (DFX_object_predict N cvx kind n_bins crit tol k bag s3) = snd (DFX_object_predict N cvx kind n_bins crit tol k bag s3').
Proof. exact labels_ignored. Qed.
Print Assumptions C129_after_an_answer.

(** If fit with equal_count raises ValueError on accepted data (the cut points decrease), no bag is answered. *)
Theorem C129_decreasing_cuts : forall ppf N cvx fuel kind n_bins crit tol k s y X s', (0 < n_bins)%nat -> accepted_data k y X ->
  DFX_object_fit ppf N fuel kind n_bins EqualCount crit k y X s = (Err ValueError, s') ->
  forall bag, raises (snd (DFX_object_predict N cvx kind n_bins crit tol k bag s')).
Proof. exact decreasing_cuts. Qed.
Print Assumptions C129_decreasing_cuts.

Example C129_hypotheses : increasing_ppf (fun p => p) /\ Nat.modulo 4 4 <> 2%nat /\ accepted_data 1 [0; 1]%Z [[1]; [2]] /\
  ~ accepted_data 1 [0; 1]%Z [[1]] /\ without_zeros 1 [[1]] /\ without_zeros 1 [[2]; [3]] /\
  (forall N fuel s, raises (fst (DFX_object_fit (fun p => p) N fuel CDF 4 EqualCount (Named L1) 1 [0; 1]%Z [[1]; [2]] s))) /\
  (forall N fuel, fst (DFX_object_fit (fun p => p) N fuel PDF 6 EqualCount (Named L1) 1 [0; 0; 1]%Z [[0]; [0]; [1]] DFX_new) = Err ValueError).
Proof.
  assert (A : accepted_data 1 [0; 1]%Z [[1]; [2]]) by (split; [reflexivity|split; [discriminate|lia]]).
  split; [intros u v _ H _; exact H|]. split; [cbn; lia|]. split; [exact A|]. split; [intros (H & _); discriminate|].
  split; [split; [discriminate|]; apply Forall_cons; [|apply Forall_nil]; split; [reflexivity|]; cbn; lra|].
  split; [split; [discriminate|]; apply Forall_cons; [|apply Forall_cons; [|apply Forall_nil]]; (split; [reflexivity|]; cbn; lra)|].
  split.
  - intros N fuel s u E. destruct (DFX_object_fit (fun p => p) N fuel CDF 4 EqualCount (Named L1) 1 [0; 1]%Z [[1]; [2]] s) as [r s'] eqn:F.
    cbn [fst] in E. subst r. destruct u. apply object_fit_returns in F; [|exact A]. destruct F as (cuts & cols & EC & _). unfold DFX_cuts in EC. cbn [seq map] in EC.
    rewrite (equal_count_half (fun p => p) _ _ _ 4 None) in EC; [discriminate|lia|reflexivity|reflexivity].
  - intros N fuel. destruct L_Match3.equal_count_unordered as (cuts & EC & NA).
    assert (EC' : compute_bincuts (fun p => p) [0; 0; 1] [0; 0; 1]%Z (np_unique [0; 0; 1]%Z) 6 EqualCount None = Val cuts) by (rewrite <- EC; reflexivity).
    unfold DFX_object_fit. cbn [length Nat.eqb negb orb]. unfold DFX_fill_cuts. cbn [seq fill_rows]. unfold col. cbn [map nth]. rewrite EC'.
    change (np_unique [0; 0; 1]%Z) with [0; 1]%Z. cbn [DFX_fill_train]. unfold DFX_fill_column at 1. cbn [seq fill_rows nth].
    unfold histogram at 1. destruct (non_decreasing cuts) eqn:E; [|reflexivity]. apply L_Match.non_decreasing_spec in E. contradiction.
Qed.
