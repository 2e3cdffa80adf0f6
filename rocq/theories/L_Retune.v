(** * Proofs about changing the distance of a quantifier between calls (C127). *)

From Coq Require Import Reals List ZArith Lia Lra Bool Arith.
From Verif Require Import Num Spec L_Num M_Baselines L_Baselines M_Search M_Optim Spec_Optim L_Optim2 L_Optim3 L_Optim4 L_Optim5 M_Match Spec_Match
  L_Match L_Match2 L_Match4 L_Match10 M_History Spec_History L_History M_Retune Spec_Retune.
Import ListNotations.
Open Scope R_scope.

(** ** What fit computes depends on the distance only in the parameters of L2 *)

Lemma fit_uniform : forall {A B} N (fit : criterion -> A -> out (matcher B)), tunable_class N fit -> forall c d a m, fit c a = Val m ->
  exists m', fit d a = Val m' /\ mt_classes m' = mt_classes m /\ mt_bins m' = mt_bins m /\ mt_T m' = mt_T m /\
    mt_represent m' = mt_represent m.
Proof.
  assert (K : forall {A} N fuel c d bins (rep : list A -> out (list R)) classes ye rows m,
    fit_matching N fuel c bins rep classes ye rows = Val m ->
    exists m', fit_matching N fuel d bins rep classes ye rows = Val m' /\ mt_classes m' = mt_classes m /\ mt_bins m' = mt_bins m /\
      mt_T m' = mt_T m /\ mt_represent m' = mt_represent m).
  { intros A N fuel c d bins rep classes ye rows m H. unfold fit_matching in *. destruct (Nat.eqb _ _); [|discriminate].
    destruct (collect _) as [cols| |]; try discriminate. inversion H. subst m. cbn [omap]. eexists. split; [reflexivity|]. cbn. auto. }
  intros A B N fit H. destruct H; intros c d a m E.
  - unfold DFy_fits, DFy_fit in *. destruct (DFy_cuts _ _ _ _ _); try discriminate. cbn [obind] in *. eapply K. exact E.
  - unfold DFX_fits, DFX_fit in *. destruct (DFX_cuts _ _ _ _ _ _); try discriminate. cbn [obind] in *. eapply K. exact E.
  - unfold FriedmanME_fits, FriedmanME_fit in *. eapply K. exact E.
Qed.

(** ** The caches, when predictions were made with the distances [used] *)

Definition caches {B} (used : list criterion) (m : matcher B) : Prop :=
  match mt_problem m with
  | None => True
  | Some P => cp_n P = mt_classes m /\ cp_d P = mt_bins m /\
      (In (Named HD) used /\ cp_objective P = hd_objective (mt_bins m) (mt_classes m) (mt_T m) \/
       In (Named L1) used /\ cp_objective P = l1_objective (mt_bins m) (mt_classes m) (mt_T m))
  end /\
  match mt_mixtures m with None => True | Some ms => ms = stored_mixtures m end.

Lemma caches_ok : forall {B} used d (m : matcher B), caches used m ->
  (d = Named HD -> ~ In (Named L1) used) -> (d = Named L1 -> ~ In (Named HD) used) -> cache_ok d m.
Proof.
  intros B used d m [HP HM] H1 H2. split; [|exact HM]. destruct (mt_problem m) as [P|]; [|exact I].
  destruct HP as (a & b & c). split; [exact a|]. split; [exact b|]. destruct d as [[]|]; auto.
  - destruct c as [[i e]|[i e]]; [exact e|]. destruct (H1 eq_refl i).
  - destruct c as [[i e]|[i e]]; [|exact e]. destruct (H2 eq_refl i).
Qed.

Lemma caches_step : forall {B} N cvx used c tol (m : matcher B) bag, caches used m ->
  let m' := fst (matching_predict N cvx c tol m bag) in same_fit m m' /\ caches (used ++ [c]) m'.
Proof.
  intros B N cvx used c tol m bag HC. cbv zeta.
  assert (W : caches (used ++ [c]) m).
  { destruct HC as [HP HM]. split; [|exact HM]. destruct (mt_problem m) as [P|]; [|exact I]. destruct HP as (a & b & [[i e]|[i e]]).
    - split; [exact a|]. split; [exact b|]. left. split; [apply in_or_app; auto|exact e].
    - split; [exact a|]. split; [exact b|]. right. split; [apply in_or_app; auto|exact e]. }
  assert (K : same_fit m m /\ caches (used ++ [c]) m) by (split; [apply same_fit_refl|exact W]).
  assert (L : In c (used ++ [c])) by (apply in_or_app; right; left; reflexivity).
  unfold matching_predict. destruct (mt_represent m bag) as [t| |]; [|exact K..].
  unfold estimate. destruct c as [[| | |]|f]; cbv zeta; try exact K.
  - destruct (solve_hd _ _ _ _ _ _) as [[P x]| |] eqn:E; cbn [fst]; try exact K.
    split; [apply with_problem_same|]. destruct W as [WP WM]. split; [|exact WM].
    unfold solve_hd in E. cbn [with_problem mt_problem mt_classes mt_bins mt_T]. destruct (mt_problem m) as [P0|].
    + destruct (run_problem_shape _ _ _ _ _ E) as (F1 & F2 & F3). rewrite F1, F2, F3. exact WP.
    + destruct (Nat.eqb_spec (length t) (mt_bins m)) as [Lt|]; [|discriminate].
      destruct (run_problem_shape _ _ _ _ _ E) as (F1 & F2 & F3). rewrite F1, F2, F3. cbn. auto.
  - destruct (solve_l1 _ _ _ _ _ _) as [[P x]| |] eqn:E; cbn [fst]; try exact K.
    split; [apply with_problem_same|]. destruct W as [WP WM]. split; [|exact WM].
    unfold solve_l1 in E. cbn [with_problem mt_problem mt_classes mt_bins mt_T]. destruct (mt_problem m) as [P0|].
    + destruct (run_problem_shape _ _ _ _ _ E) as (F1 & F2 & F3). rewrite F1, F2, F3. exact WP.
    + destruct (Nat.eqb_spec (length t) (mt_bins m)) as [Lt|]; [|discriminate].
      destruct (run_problem_shape _ _ _ _ _ E) as (F1 & F2 & F3). rewrite F1, F2, F3. cbn. auto.
  - pose proof (estimate_state N cvx (Callable f) tol m t) as ES. unfold estimate in ES. cbv zeta in ES.
    destruct (Nat.ltb (mt_classes m) 2); [exact K|].
    assert (CK : cache_ok (Callable f) m). { eapply caches_ok; [exact HC| |]; discriminate. }
    specialize (ES CK). destruct (global_search f _ t tol (mt_mixtures m) true) as [[ms p]| |] eqn:E; cbn [fst] in *; try exact K.
    split; [apply with_mixtures_same|]. destruct W as [WP _]. split; [exact WP|]. exact (proj2 (proj2 ES)).
Qed.

(** ** Histories *)

Lemma no_fit_tail : forall {A B} (e : event A B) es, no_fit (e :: es) -> no_fit es.
Proof. intros A B e es H a Ha. apply (H a). right. exact Ha. Qed.

Lemma after_invariant : forall {A B} N cvx (fit : criterion -> A -> out (matcher B)) o es o', after fit N cvx o es o' -> no_fit es ->
  forall used, caches used (tn_state o) -> same_fit (tn_state o) (tn_state o') /\
    caches (used ++ predicted_with (tn_distance o) es) (tn_state o').
Proof.
  intros A B N cvx fit o es o' H. induction H as [o|o a o1 es o' E H IH|o a m es o' E H IH|o bag es o' H IH|o c es o' H IH|o tol es o' H IH];
    intros NF used HC.
  - rewrite app_nil_r. split; [apply same_fit_refl|exact HC].
  - destruct (NF a). left. reflexivity.
  - destruct (NF a). left. reflexivity.
  - pose proof (caches_step N cvx used (tn_distance o) (tn_tol o) (tn_state o) bag HC) as S. cbv zeta in S.
    unfold tunable_predict in *. destruct (matching_predict N cvx (tn_distance o) (tn_tol o) (tn_state o) bag) as [m r] eqn:E.
    cbn [fst tn_state tn_distance] in *. destruct S as [S1 S2].
    destruct (IH (no_fit_tail _ _ NF) _ S2) as [IH1 IH2]. split; [eapply same_fit_trans; eassumption|].
    cbn [predicted_with]. rewrite <- app_assoc in IH2. exact IH2.
  - cbn [predicted_with]. apply (IH (no_fit_tail _ _ NF) used HC).
  - cbn [predicted_with]. apply (IH (no_fit_tail _ _ NF) used HC).
Qed.

Lemma fit_state : forall {A B} (fit : criterion -> A -> out (matcher B)) a o o1, tunable_fit fit a o = Val o1 ->
  exists m, fit (tn_distance o) a = Val m /\
    o1 = Build_tunable (tn_distance o) (tn_tol o) (assign_matcher (tn_distance o) (tn_state o) m).
Proof. intros A B fit a o o1 H. unfold tunable_fit in H. apply omap_val in H. exact H. Qed.

Theorem retuned_answers : forall {A B} N cvx (fit : criterion -> A -> out (matcher B)) c0 tol0 before o1 a o2 es o bag,
  tunable_class N fit -> after fit N cvx (tunable_new c0 tol0) before o1 -> tunable_fit fit a o1 = Val o2 ->
  after fit N cvx o2 es o -> no_fit es ->
  (tn_distance o = Named L2 -> tn_distance o1 = Named L2) ->
  (tn_distance o = Named HD -> ~ In (Named L1) (predicted_with (tn_distance o1) es)) ->
  (tn_distance o = Named L1 -> ~ In (Named HD) (predicted_with (tn_distance o1) es)) ->
  (tn_distance o = Named HD \/ tn_distance o = Named L1 -> ignores_warm_start cvx) ->
  exists fresh, tunable_fit fit a (tunable_new (tn_distance o) (tn_tol o)) = Val fresh /\
    snd (tunable_predict N cvx bag o) = snd (tunable_predict N cvx bag fresh).
Proof.
  intros A B N cvx fit c0 tol0 before o1 a o2 es o bag HT _ HF HA NF H2 HHD HL1 HW.
  destruct (fit_state _ _ _ _ HF) as (m & Em & ->).
  destruct (fit_uniform N fit HT _ (tn_distance o) _ _ Em) as (m' & Em' & a1 & a2 & a3 & a4).
  unfold tunable_fit. cbn [tunable_new tn_distance tn_tol tn_state]. rewrite Em'. cbn [omap]. eexists. split; [reflexivity|].
  destruct (after_invariant _ _ _ _ _ _ HA NF []) as [S C]; [split; exact I|]. cbn [app tn_state tn_distance] in *.
  unfold tunable_predict. cbn [tn_distance tn_tol tn_state].
  assert (G : snd (matching_predict N cvx (tn_distance o) (tn_tol o) (tn_state o) bag) =
    snd (matching_predict N cvx (tn_distance o) (tn_tol o) (assign_matcher (tn_distance o) unfitted_matcher m') bag)).
  { apply (fitted_as_answer N cvx (tn_distance o) (tn_tol o) m'); [exact HW| |apply assign_fitted_as].
    destruct S as (b1 & b2 & b3 & b4 & b5). cbn [assign_matcher mt_classes mt_bins mt_T mt_l2 mt_represent] in *.
    split; [congruence|]. split; [congruence|]. split; [congruence|]. split; [|split; [congruence|eapply caches_ok; eassumption]].
    intros E. pose proof (H2 E) as Ed. rewrite b4, Ed. rewrite Ed in Em. rewrite E in Em'. congruence. }
  destruct (matching_predict N cvx (tn_distance o) (tn_tol o) (tn_state o) bag) as [x1 r1].
  destruct (matching_predict N cvx (tn_distance o) (tn_tol o) (assign_matcher (tn_distance o) unfitted_matcher m') bag) as [x2 r2].
  exact G.
Qed.

(** ** A prediction freezes the distance *)

Theorem frozen : forall {B} N cvx bag p (o : tunable B), (tn_distance o = Named HD \/ tn_distance o = Named L1) ->
  snd (tunable_predict N cvx bag o) = Val p -> forall d bag', d = HD \/ d = L1 ->
  let o' := fst (tunable_predict N cvx bag o) in
  snd (tunable_predict N cvx bag' (set_distance (Named d) o')) = snd (tunable_predict N cvx bag' o').
Proof.
  intros B N cvx bag p [c tol m] Hc Hp d bag' Hd. cbv zeta. cbn [tn_distance tn_tol tn_state] in *.
  assert (K : exists P m', fst (matching_predict N cvx c tol m bag) = m' /\ mt_problem m' = Some P).
  { unfold tunable_predict in Hp. cbn [tn_distance tn_tol tn_state] in Hp. unfold matching_predict in *.
    destruct (mt_represent m bag) as [t| |]; try discriminate. unfold estimate in *. cbv zeta in *.
    destruct Hc as [->| ->].
    - destruct (solve_hd _ _ _ _ _ _) as [[P x]| |]; try discriminate. exists P. eexists. split; reflexivity.
    - destruct (solve_l1 _ _ _ _ _ _) as [[P x]| |]; try discriminate. exists P. eexists. split; reflexivity. }
  destruct K as (P & m' & E & EP). unfold tunable_predict. cbn [tn_distance tn_tol tn_state].
  destruct (matching_predict N cvx c tol m bag) as [m1 r1]. cbn [fst] in *. subst m1.
  unfold set_distance. cbn [tn_distance tn_tol tn_state].
  assert (G : forall e, e = HD \/ e = L1 -> snd (matching_predict N cvx (Named e) tol m' bag') =
    obind (mt_represent m' bag') (fun t => omap snd (run_problem cvx P t))).
  { intros e He. unfold matching_predict. destruct (mt_represent m' bag') as [t| |]; [|reflexivity..]. cbn [obind].
    unfold estimate. cbv zeta. unfold solve_hd, solve_l1. rewrite EP. destruct He as [->| ->]; destruct (run_problem cvx P t) as [[P' x]| |]; reflexivity. }
  assert (G' : snd (matching_predict N cvx (Named d) tol m' bag') = snd (matching_predict N cvx c tol m' bag')).
  { rewrite (G d Hd). destruct Hc as [->| ->]; rewrite G; auto. }
  destruct (matching_predict N cvx (Named d) tol m' bag'), (matching_predict N cvx c tol m' bag'). exact G'.
Qed.

(** ** L2 *)

Theorem L2_needs_fit : forall {A B} N cvx (fit : criterion -> A -> out (matcher B)) c tol a o1 es o bag p,
  c <> Named L2 -> tunable_fit fit a (tunable_new c tol) = Val o1 -> after fit N cvx o1 es o -> no_fit es -> tn_distance o = Named L2 ->
  snd (tunable_predict N cvx bag o) <> Val p.
Proof.
  intros A B N cvx fit c tol a o1 es o bag p Hc HF HA NF E.
  destruct (fit_state _ _ _ _ HF) as (m & Em & ->). cbn [tunable_new tn_distance tn_tol tn_state] in *.
  destruct (after_invariant _ _ _ _ _ _ HA NF []) as [S _]; [split; exact I|].
  destruct S as (_ & _ & _ & b4 & _). cbn [tn_state assign_matcher mt_l2] in b4.
  assert (E2 : mt_l2 (tn_state o) = None) by (rewrite b4; destruct c as [[]|]; first [reflexivity|congruence]).
  unfold tunable_predict. rewrite E. unfold matching_predict. destruct (mt_represent (tn_state o) bag) as [t| |]; cbn [snd]; try discriminate.
  unfold estimate. cbv zeta. rewrite E2. cbn. discriminate.
Qed.

Theorem L2_stale : forall {A B} N cvx (fit : criterion -> A -> out (matcher B)) tol a1 o1 c a2 o2 m1 m2 G C b bag t, c <> Named L2 ->
  tunable_fit fit a1 (tunable_new (Named L2) tol) = Val o1 -> tunable_fit fit a2 (set_distance c o1) = Val o2 ->
  fit (Named L2) a1 = Val m1 -> mt_l2 m1 = Some (G, C, b) -> fit c a2 = Val m2 -> mt_represent m2 bag = Val t ->
  snd (tunable_predict N cvx bag (set_distance (Named L2) o2)) = solve_l2 N (mt_bins m2) (mt_classes m2) (mt_T m2) t G C b.
Proof.
  intros A B N cvx fit tol a1 o1 c a2 o2 m1 m2 G C b bag t Hc H1 H2 E1 EG E2 ER.
  destruct (fit_state _ _ _ _ H1) as (x1 & X1 & ->). cbn [tunable_new tn_distance tn_tol tn_state set_distance] in *.
  destruct (fit_state _ _ _ _ H2) as (x2 & X2 & ->). cbn [set_distance tn_distance tn_tol tn_state] in *.
  assert (x1 = m1) by congruence. assert (x2 = m2) by congruence. subst x1 x2.
  unfold tunable_predict. cbn [set_distance tn_distance tn_tol tn_state]. unfold matching_predict.
  cbn [assign_matcher mt_represent]. rewrite ER. unfold estimate. cbv zeta. cbn [assign_matcher mt_classes mt_bins mt_T mt_l2].
  destruct c as [[]|]; try congruence; rewrite EG; reflexivity.
Qed.

(** ** The witness: DFy with cumulative histograms *)

Lemma half_half : forall {A} N cvx tol fuel crit (rep : list A -> out (list R)) bag, crit = Named L1 -> rep bag = Val [1/2; 1] -> exact_cvx cvx ->
  answering_cvx cvx ->
  snd (matching_predict N cvx (Named L1) tol (new_matcher N fuel crit 2 rep (ex_columns CDF)) bag) = Val [1/2; 1/2].
Proof.
  intros A N cvx tol fuel crit rep bag -> HR HX HA. unfold matching_predict. cbn [mt_represent new_matcher]. rewrite HR.
  unfold estimate, solve_l1. cbn [mt_problem mt_bins mt_classes mt_T new_matcher]. cbn [length ex_columns Nat.eqb].
  assert (V : forall x, 0 <= x <= 1 -> l1_objective 2 2 (matrix_of_columns [[0; 1]; [1; 1]]) [1/2; 1] [x; 1 - x] = Rabs (x - 1/2)).
  { intros x Hx. unfold l1_objective, mix, matrix_of_columns, tabulate. cbn.
    replace (1 - (0 + 1 * x + 1 * (1 - x))) with 0 by ring. rewrite Rabs_R0.
    replace (1/2 - (0 + 0 * x + 1 * (1 - x))) with (x - 1/2) by lra. ring. }
  assert (D : distribution_over 2 [1/2; 1/2]).
  { split; [reflexivity|]. split; [|simpl; lra]. apply Forall_cons; [lra|]. apply Forall_cons; [lra|]. apply Forall_nil. }
  assert (V0 : l1_objective 2 2 (matrix_of_columns [[0; 1]; [1; 1]]) [1/2; 1] [1/2; 1/2] = 0).
  { pose proof (V (1/2)) as H. replace (1 - 1/2) with (1/2) in H by lra. rewrite H by lra. unfold Rminus. rewrite Rplus_opp_r. apply Rabs_R0. }
  assert (HB : best_distribution 2 (l1_objective 2 2 (matrix_of_columns [[0; 1]; [1; 1]]) [1/2; 1]) [1/2; 1/2]).
  { split; [exact D|]. intros q Hq. destruct (dist2_of 2 q eq_refl Hq) as (x & Hx & ->). rewrite V0, V by exact Hx. apply Rabs_pos. }
  destruct (run_problem_answers cvx {| cp_n := 2; cp_d := 2; cp_objective := l1_objective 2 2 (matrix_of_columns [[0; 1]; [1; 1]]);
     cp_last := None |} [1/2; 1] [1/2; 1/2] HA eq_refl) as (P & x & E).
  { apply Forall_cons; [lra|]. apply Forall_cons; [lra|]. apply Forall_nil. }
  { exact HB. }
  change (length (ex_columns CDF)) with 2%nat. unfold ex_columns. rewrite E. cbn [snd]. f_equal.
  apply run_problem_best in E; [|exact HX]. cbn [cp_n cp_objective] in E. destruct E as [Dx Ox].
  destruct (dist2_of 2 x eq_refl Dx) as (u & Hu & ->). specialize (Ox _ D). rewrite V0, V in Ox by exact Hu.
  pose proof (Rabs_pos (u - 1/2)) as Hp. assert (Z : Rabs (u - 1/2) = 0) by lra.
  destruct (Req_dec (u - 1/2) 0) as [Hz|Hz]; [|apply Rabs_no_R0 in Hz; contradiction].
  replace u with (1/2) by lra. f_equal. f_equal. lra.
Qed.

Theorem distance_ignored : forall ppf N fuel cvx tol, exact_cvx cvx -> answering_cvx cvx ->
  let fit := DFy_fits ppf N fuel CDF 2 EqualWidth in
  exists o fresh, tunable_fit fit (ex_labels, ex_preds) (tunable_new (Named HD) tol) = Val o /\
    tunable_fit fit (ex_labels, ex_preds) (tunable_new (Named L1) tol) = Val fresh /\
    snd (tunable_predict N cvx ex_preds (set_distance (Named L1) (fst (tunable_predict N cvx ex_preds o)))) = Val [0; 1] /\
    snd (tunable_predict N cvx ex_preds fresh) = Val [1/2; 1/2].
Proof.
  intros ppf N fuel cvx tol HX HA fit. unfold fit, tunable_fit, DFy_fits. cbn [tunable_new tn_distance tn_tol tn_state fst snd].
  rewrite !ex_fit. cbn [omap]. eexists. eexists. split; [reflexivity|]. split; [reflexivity|].
  change (assign_matcher (Named HD) unfitted_matcher (new_matcher N fuel (Named HD) 2 (dfy_represent CDF [half_cut]) (ex_columns CDF)))
    with (new_matcher N fuel (Named HD) 2 (dfy_represent CDF [half_cut]) (ex_columns CDF)).
  change (assign_matcher (Named L1) unfitted_matcher (new_matcher N fuel (Named L1) 2 (dfy_represent CDF [half_cut]) (ex_columns CDF)))
    with (new_matcher N fuel (Named L1) 2 (dfy_represent CDF [half_cut]) (ex_columns CDF)).
  set (o := Build_tunable (Named HD) tol (new_matcher N fuel (Named HD) 2 (dfy_represent CDF [half_cut]) (ex_columns CDF))).
  destruct (hd_skewed (1/2) 1 (hd_objective 2 2 (matrix_of_columns [[0; 1]; [1; 1]]) [1/2; 1])) as [HB HU].
  { lra. }
  { intros x. apply hd_value. }
  assert (HN : Forall (fun v => 0 <= v) [1/2; 1]) by (apply Forall_cons; [lra|]; apply Forall_cons; [lra|]; apply Forall_nil).
  (** both predictions solve the same problem *)
  assert (S : forall m last, mt_represent m = dfy_represent CDF [half_cut] -> mt_bins m = 2%nat -> mt_classes m = 2%nat ->
    mt_T m = matrix_of_columns [[0; 1]; [1; 1]] -> (mt_problem m = None /\ last = None \/ mt_problem m = Some {| cp_n := 2; cp_d := 2;
      cp_objective := hd_objective 2 2 (matrix_of_columns [[0; 1]; [1; 1]]); cp_last := last |}) ->
    exists last', tunable_predict N cvx ex_preds (Build_tunable (Named HD) tol m) =
      (Build_tunable (Named HD) tol (with_problem m {| cp_n := 2; cp_d := 2;
         cp_objective := hd_objective 2 2 (matrix_of_columns [[0; 1]; [1; 1]]); cp_last := last' |}), Val [0; 1])).
  { intros m last R1 R2 R3 R4 R5. unfold tunable_predict. cbn [tn_distance tn_tol tn_state]. unfold matching_predict.
    rewrite R1, (ex_represented CDF). unfold estimate, solve_hd. cbv zeta. rewrite R2, R3, R4.
    destruct (run_problem_answers cvx {| cp_n := 2; cp_d := 2; cp_objective := hd_objective 2 2 (matrix_of_columns [[0; 1]; [1; 1]]);
       cp_last := last |} [1/2; 1] [0; 1] HA eq_refl HN HB) as (P & x & E).
    pose proof (run_problem_shape _ _ _ _ _ E) as (F1 & F2 & F3). cbn [cp_n cp_d cp_objective] in F1, F2, F3.
    pose proof E as EB. apply run_problem_best in EB; [|exact HX]. cbn [cp_n cp_objective] in EB. apply HU in EB. subst x.
    destruct P as [pn pd po pl]. cbn in F1, F2, F3. subst pn pd po. exists pl.
    destruct R5 as [[R5 ->]|R5]; rewrite R5; [cbn [length Nat.eqb]|]; rewrite E; reflexivity. }
  assert (E1 : snd (tunable_predict N cvx ex_preds o) = Val [0; 1] /\
    snd (tunable_predict N cvx ex_preds (fst (tunable_predict N cvx ex_preds o))) = Val [0; 1]).
  { unfold o. destruct (S (new_matcher N fuel (Named HD) 2 (dfy_represent CDF [half_cut]) (ex_columns CDF)) None) as [l1 K1]; try reflexivity.
    { left. split; reflexivity. }
    rewrite K1. split; [reflexivity|]. cbn [fst].
    edestruct (S (with_problem (new_matcher N fuel (Named HD) 2 (dfy_represent CDF [half_cut]) (ex_columns CDF)) {| cp_n := 2; cp_d := 2;
         cp_objective := hd_objective 2 2 (matrix_of_columns [[0; 1]; [1; 1]]); cp_last := l1 |}) l1) as [l2 K2]; try reflexivity.
    { right. reflexivity. }
    rewrite K2. reflexivity. }
  destruct E1 as [E1 E2]. split.
  - rewrite (frozen N cvx ex_preds [0; 1] o (or_introl eq_refl) E1 L1 ex_preds (or_intror eq_refl)). exact E2.
  - unfold tunable_predict. cbn [tn_distance tn_tol tn_state].
    pose proof (half_half N cvx tol fuel (Named L1) (dfy_represent CDF [half_cut]) ex_preds eq_refl (ex_represented CDF) HX HA) as H.
    destruct (matching_predict _ _ _ _ _ _) as [x r]. exact H.
Qed.

(** ** AC and PAC *)

Theorem adjuster_frozen : forall inv N cvx d p0_of p classes rows (s : adjuster), d = HD \/ d = L1 ->
  aj_classes s = Some classes -> length classes <> 2%nat -> all_some (aj_cm s) = Some rows ->
  inv (length classes) (fun i j => entry rows j i) = None ->
  snd (adjuster_predict inv N cvx d p0_of s) = Val p -> forall d' p0_of', d' = HD \/ d' = L1 ->
  let s' := fst (adjuster_predict inv N cvx d p0_of s) in
  snd (adjuster_predict inv N cvx d' p0_of' s') = snd (adjuster_predict inv N cvx d p0_of' s').
Proof.
  intros inv N cvx d p0_of p classes rows s Hd Hc Hn Hr Hi Hp d' p0_of' Hd'. cbv zeta.
  assert (K : exists P, aj_problem (fst (adjuster_predict inv N cvx d p0_of s)) = Some P /\
    aj_classes (fst (adjuster_predict inv N cvx d p0_of s)) = Some classes /\ aj_cm (fst (adjuster_predict inv N cvx d p0_of s)) = aj_cm s).
  { unfold adjuster_predict in *. rewrite Hc in *. cbv zeta in *. destruct (p0_of classes) as [p0| |]; try discriminate.
    rewrite (proj2 (Nat.eqb_neq _ _) Hn) in *. rewrite Hr, Hi in *.
    destruct Hd as [->| ->].
    - destruct (solve_hd _ _ _ _ _ _) as [[P x]| |]; try discriminate. exists P. cbn. auto.
    - destruct (solve_l1 _ _ _ _ _ _) as [[P x]| |]; try discriminate. exists P. cbn. auto. }
  destruct K as (P & KP & KC & KM). set (s' := fst (adjuster_predict inv N cvx d p0_of s)) in *. clearbody s'.
  assert (G : forall e, e = HD \/ e = L1 -> snd (adjuster_predict inv N cvx e p0_of' s') =
    obind (p0_of' classes) (fun t => omap snd (run_problem cvx P t))).
  { intros e He. unfold adjuster_predict. rewrite KC. cbv zeta. destruct (p0_of' classes) as [p0| |]; try reflexivity.
    rewrite (proj2 (Nat.eqb_neq _ _) Hn), KM, Hr, Hi. cbn [obind]. unfold solve_hd, solve_l1. rewrite KP.
    destruct He as [->| ->]; destruct (run_problem cvx P p0) as [[P' x]| |]; reflexivity. }
  rewrite (G d' Hd'), (G d Hd). reflexivity.
Qed.
