(** * search.py in double precision: global search and mixtures. *)

From Coq Require Import Reals ZArith List Permutation Sorted Lia Lra Bool Psatz.
From Flocq Require Import Core BinarySingleNaN Relative Plus_error Mult_error.
From Verif Require Import Num Spec L_Num M_Baselines M_Search M_Float M_Float2 M_Float5 Spec_Float Spec_Float2 L_Float L_Float2 L_Float3 L_Float4 L_Float5 L_Float6 L_Float7 L_Float8 L_Float9 L_Float10 L_Float11 L_Float12 L_Float14 L_Float18 L_Float19.
Import ListNotations.
Open Scope R_scope.

Local Notation pow2 := (bpow radix2).

Lemma grid_ok i : (i <= 100)%nat -> in_unit (grid_float i) /\ Rabs (val (grid_float i) - INR i / 100) <= 2 * ulp1.
Proof.
  intros I. destruct (ratio_unit (Z.of_nat i) 100 ltac:(lia) ltac:(lia)) as (Ui & V). change (ratio (Z.of_nat i) 100) with (grid_float i) in *.
  split; [exact Ui|]. rewrite V, <- INR_IZR_INZ. pose proof tiny as T. pose proof ulp1_bounds.
  assert (Ii : 0 <= INR i <= 100) by (split; [apply pos_INR|]; replace 100 with (INR 100) by (cbn; lra); apply le_INR, I).
  apply Rle_trans with (1 := nearest_abs (INR i / 100) 1 ltac:(rewrite Rabs_pos_eq; lra)). lra.
Qed.

Lemma grid_wide i j : (i + 2 <= j)%nat -> (j <= 100)%nat -> in_unit (grid_float i) /\ in_unit (grid_float j) /\ 1/64 <= val (grid_float j) - val (grid_float i).
Proof.
  intros I J. destruct (grid_ok i ltac:(lia)) as (Ui & Ci). destruct (grid_ok j J) as (Uj & Cj). split; [exact Ui|]. split; [exact Uj|].
  apply Rabs_le_inv in Ci, Cj. pose proof ulp1_bounds. assert (INR i + 2 <= INR j) by (change 2 with (INR 2); rewrite <- plus_INR; apply le_INR, I). lra.
Qed.

Definition good (o : found) : Prop := exists p, o = Pair [fsub f1 p; p] /\ complementary (fsub f1 p) p.

Lemma minima_range f steps losses : not_too_many steps -> forall is count best,
  Forall (fun i => (1 <= i <= 99)%nat) is -> (snd best = Two \/ good (snd best)) ->
  match minima_float f steps losses is count best with None => True | Some (_, o) => o = Two \/ good o end.
Proof.
  intros N. induction is as [|i is IH]; intros count best H G; [exact G|]. inversion H as [|? ? Hi His]; subst. cbn [minima_float].
  destruct (flt _ _ && flt _ _); [|apply IH; assumption].
  set (a := grid_float _). set (b := grid_float _).
  destruct (grid_wide (Nat.max (i - 2) 0) (Nat.min (i + 2) 100) ltac:(lia) ltac:(lia)) as (Ua & Ub & W). fold a b in Ua, Ub, W.
  destruct (golden_range a b Ua Ub (steps a b) (N a b Ua Ub W) f) as [(E & _)|(loss & p & z & E & C & _)]; rewrite E; [exact I|].
  apply IH; [exact His|]. destruct (flt loss (fst best)); [|exact G]. right. exists p. split; [reflexivity|exact C].
Qed.

Lemma ends : in_unit f0 /\ in_unit f1 /\ in_unit (fdiv f2 (of_Z 100)) /\ in_unit (fdiv (of_Z 98) (of_Z 100)) /\
  1/64 <= val (fdiv f2 (of_Z 100)) - val f0 /\ 1/64 <= val f1 - val (fdiv (of_Z 98) (of_Z 100)).
Proof.
  destruct (grid_wide 0 2 ltac:(lia) ltac:(lia)) as (_ & U2 & W2). destruct (grid_wide 98 100 ltac:(lia) ltac:(lia)) as (U98 & _ & W98).
  assert (E0 : val (grid_float 0) = 0) by (destruct f0_ok as (_ & <-); unfold val; apply f_equal, B2SF_inj; vm_compute; reflexivity).
  assert (E1 : val (grid_float 100) = 1) by (destruct f1_ok as (_ & <-); unfold val; apply f_equal, B2SF_inj; vm_compute; reflexivity).
  change (grid_float 2) with (fdiv f2 (of_Z 100)) in *. change (grid_float 98) with (fdiv (of_Z 98) (of_Z 100)) in *.
  destruct f0_ok as (F0 & V0), f1_ok as (F1 & V1). rewrite E0 in W2. rewrite E1 in W98. rewrite V0, V1.
  repeat split; try assumption; try apply U2; try apply U98; rewrite ?V0, ?V1; lra.
Qed.

Lemma global_range f steps losses : not_too_many steps ->
  global_float f steps losses = Raised \/ global_float f steps losses = Two \/ good (global_float f steps losses).
Proof.
  intros N. unfold global_float. pose proof (minima_range f steps losses N (seq 1 99) 0 (B754_infinity false, Two)) as M.
  assert (Hs : Forall (fun i => (1 <= i <= 99)%nat) (seq 1 99)) by (apply Forall_forall; intros i Hi; apply in_seq in Hi; lia).
  specialize (M Hs (or_introl eq_refl)). destruct (minima_float _ _ _ _ _ _) as [(c & o)|]; [|left; reflexivity].
  destruct c as [|c]; [|right; exact M].
  destruct (Beqb _ _); [left; reflexivity|]. destruct ends as (U0 & U1 & U2 & U98 & W0 & W1).
  destruct (flt (losses 0%nat) (losses 100%nat)).
  - destruct (golden_range _ _ U0 U2 _ (N _ _ U0 U2 W0) f) as [(E & _)|(loss & p & z & E & C & _)]; rewrite E; [left; reflexivity|].
    right; right. exists p. split; [reflexivity|exact C].
  - destruct (golden_range _ _ U98 U1 _ (N _ _ U98 U1 W1) f) as [(E & _)|(loss & p & z & E & C & _)]; rewrite E; [left; reflexivity|].
    right; right. exists p. split; [reflexivity|exact C].
Qed.

Lemma flt_inf u : finite u -> flt u (B754_infinity false) = true.
Proof. intros F. unfold finite in F. destruct u; try discriminate F; reflexivity. Qed.

Section Total.
Variable f : float -> option float.
Hypothesis Tot : forall x, in_unit x -> exists u, f x = Some u /\ finite u.

Lemma golden_total a b n : in_unit a -> in_unit b -> pow2 (-40) <= golden_ratio ^ n * (val b - val a) ->
  exists loss p, golden_float f n a b = Some (loss, [fsub f1 p; p]) /\ complementary (fsub f1 p) p /\ finite loss.
Proof using Tot.
  intros Ua Ub L. destruct (golden_range a b Ua Ub n L f) as [(E & z & (Fz & Bz) & Ez)|(loss & p & z & E & C & _ & (Fz & Bz) & Ez)];
    (assert (Uz : in_unit z) by (split; [exact Fz|destruct Ua as (_ & ?), Ub as (_ & ?); lra])); destruct (Tot z Uz) as (u & Eu & Fu).
  - congruence.
  - rewrite Ez in Eu. injection Eu as <-. exists loss, p. split; [exact E|]. split; assumption.
Qed.

Lemma minima_total steps losses : not_too_many steps -> forall is count best,
  Forall (fun i => (1 <= i <= 99)%nat) is -> (count = 0%nat /\ best = (B754_infinity false, Two) \/ (0 < count)%nat /\ good (snd best)) ->
  exists count' o, minima_float f steps losses is count best = Some (count', o) /\ (count' = 0%nat \/ good o).
Proof using Tot.
  intros N. induction is as [|i is IH]; intros count best H G.
  - exists count, (snd best). split; [reflexivity|]. destruct G as [(-> & _)|(_ & G)]; [left; reflexivity|right; exact G].
  - inversion H as [|? ? Hi His]; subst. cbn [minima_float]. destruct (flt _ _ && flt _ _); [|apply IH; assumption].
    set (a := grid_float _). set (b := grid_float _).
    destruct (grid_wide (Nat.max (i - 2) 0) (Nat.min (i + 2) 100) ltac:(lia) ltac:(lia)) as (Ua & Ub & W). fold a b in Ua, Ub, W.
    destruct (golden_total a b (steps a b) Ua Ub (N a b Ua Ub W)) as (loss & p & E & C & Fl). rewrite E.
    apply IH; [exact His|]. right. split; [lia|].
    destruct G as [(_ & ->)|(_ & G)].
    + cbn [fst]. rewrite flt_inf by exact Fl. exists p. split; [reflexivity|exact C].
    + match goal with |- good (snd (if ?c then _ else _)) => destruct c end; [|exact G]. exists p. split; [reflexivity|exact C].
Qed.

Lemma global_total steps losses : not_too_many steps ->
  good (global_float f steps losses) \/ (global_float f steps losses = Raised /\ Beqb (losses 0%nat) (losses 100%nat) = true).
Proof using Tot.
  intros N. unfold global_float.
  assert (Hs : Forall (fun i => (1 <= i <= 99)%nat) (seq 1 99)) by (apply Forall_forall; intros i Hi; apply in_seq in Hi; lia).
  destruct (minima_total steps losses N (seq 1 99) 0 (B754_infinity false, Two) Hs (or_introl (conj eq_refl eq_refl))) as (c & o & E & G). rewrite E.
  destruct c as [|c]; [|left; destruct G as [G|G]; [discriminate G|exact G]].
  destruct (Beqb _ _) eqn:Q; [right; split; reflexivity|]. left. destruct ends as (U0 & U1 & U2 & U98 & W0 & W1).
  destruct (flt (losses 0%nat) (losses 100%nat)).
  - destruct (golden_total _ _ _ U0 U2 (N _ _ U0 U2 W0)) as (loss & p & E' & C & _). rewrite E'. exists p. split; [reflexivity|exact C].
  - destruct (golden_total _ _ _ U98 U1 (N _ _ U98 U1 W1)) as (loss & p & E' & C & _). rewrite E'. exists p. split; [reflexivity|exact C].
Qed.
End Total.

(** A loss that is infinite except on the grid. *)
Definition grid_only (x : float) : option float :=
  if existsb (fun i => Beqb x (grid_float i)) (seq 0 101) then Some x else Some (B754_infinity false).

Lemma global_two_refuted : exists f losses, (forall i, (i <= 100)%nat -> f (grid_float i) = Some (losses i) /\ in_unit (losses i)) /\
  global_float f (fun _ _ => 1%nat) losses = Two.
Proof.
  exists grid_only, grid_float. split.
  - intros i I. split; [|apply grid_ok, I]. unfold grid_only.
    assert (E : existsb (fun j => Beqb (grid_float i) (grid_float j)) (seq 0 101) = true).
    { apply existsb_exists. exists i. split; [apply in_seq; lia|]. destruct (grid_ok i I) as ((F & _) & _). rewrite Beqb_correct by exact F. apply Req_bool_true. reflexivity. }
    rewrite E. reflexivity.
  - vm_compute. reflexivity.
Qed.

(** ** Mixtures *)

Section Mix.
Variable p : float.
Hypothesis Up : in_unit p.

Lemma mix_parts pos neg : in_unit pos -> in_unit neg ->
  in_unit (fsub f1 p) /\ in_unit (fmul pos p) /\ in_unit (fmul neg (fsub f1 p)) /\ in_unit (mix_float p pos neg) /\
  val (fsub f1 p) = nearest (1 - val p) /\ val (fmul pos p) = nearest (val pos * val p) /\ val (fmul neg (fsub f1 p)) = nearest (val neg * val (fsub f1 p)) /\
  val (mix_float p pos neg) = nearest (val (fmul pos p) + val (fmul neg (fsub f1 p))).
Proof using Up.
  intros (Fo & Bo) (Fn & Bn). destruct (complement_ok p Up) as (Uq & _ & S). destruct Up as (Fp & Bp). destruct f1_ok as (F1 & V1).
  destruct (fsub_ok f1 p F1 Fp) as (Fq & Vq); [rewrite V1; apply big4; rewrite Rabs_pos_eq; lra|]. rewrite V1 in Vq. destruct Uq as (_ & Bq).
  destruct (fadd_ok (fsub f1 p) p Fq Fp) as (_ & Vs); [apply big4; rewrite Rabs_pos_eq; lra|]. rewrite Vs in S.
  assert (B1 : 0 <= val pos * val p <= val p) by (split; [apply Rmult_le_pos; lra|]; rewrite <- (Rmult_1_l (val p)) at 2; apply Rmult_le_compat_r; lra).
  assert (B2 : 0 <= val neg * val (fsub f1 p) <= val (fsub f1 p)) by (split; [apply Rmult_le_pos; lra|]; rewrite <- (Rmult_1_l (val (fsub f1 p))) at 2; apply Rmult_le_compat_r; lra).
  destruct (fmul_ok pos p Fo Fp) as (F3 & V3); [apply big4; rewrite Rabs_pos_eq; lra|].
  destruct (fmul_ok neg (fsub f1 p) Fn Fq) as (F4 & V4); [apply big4; rewrite Rabs_pos_eq; lra|].
  assert (B3 : 0 <= val (fmul pos p) <= val p) by (rewrite V3; split; [apply nearest_ge_format; [apply format_0|lra]|apply nearest_le_format; [apply format_val|lra]]).
  assert (B4 : 0 <= val (fmul neg (fsub f1 p)) <= val (fsub f1 p)) by (rewrite V4; split; [apply nearest_ge_format; [apply format_0|lra]|apply nearest_le_format; [apply format_val|lra]]).
  destruct (fadd_ok _ _ F3 F4) as (F5 & V5); [apply big4; rewrite Rabs_pos_eq; lra|]. fold (mix_float p pos neg) in F5, V5.
  assert (B5 : 0 <= val (mix_float p pos neg) <= 1).
  { rewrite V5. split; [apply nearest_ge_format; [apply format_0|lra]|]. rewrite <- S. apply nearest_le. lra. }
  split; [split; assumption|]. split; [split; [assumption|lra]|]. split; [split; [assumption|lra]|]. split; [split; assumption|].
  repeat split; assumption.
Qed.

Lemma mix_mono pos neg pos' neg' : in_unit pos -> in_unit neg -> in_unit pos' -> in_unit neg' -> val pos <= val pos' -> val neg <= val neg' ->
  val (mix_float p pos neg) <= val (mix_float p pos' neg').
Proof using Up.
  intros Uo Un Uo' Un' L1 L2. destruct (mix_parts pos neg Uo Un) as (Uq & _ & _ & _ & _ & V1 & V2 & V).
  destruct (mix_parts pos' neg' Uo' Un') as (_ & _ & _ & _ & _ & V1' & V2' & V'). rewrite V, V', V1, V2, V1', V2'. destruct Up as (_ & Bp), Uq as (_ & Bq).
  apply nearest_le, Rplus_le_compat; apply nearest_le; apply Rmult_le_compat_r; lra.
Qed.

Lemma mix_close pos neg : in_unit pos -> in_unit neg ->
  Rabs (val (mix_float p pos neg) - (val pos * val p + val neg * (1 - val p))) <= pow2 (-51).
Proof using Up.
  intros Uo Un. destruct (mix_parts pos neg Uo Un) as (Uq & U1 & U2 & _ & Vq & V1 & V2 & V). destruct Up as (_ & Bp), Uq as (_ & Bq), Uo as (_ & Bo), Un as (_ & Bn), U1 as (_ & B1), U2 as (_ & B2).
  pose proof ulp1_bounds as (u0 & u1). pose proof tiny as T.
  assert (P1 : 0 <= val pos * val p <= val p) by (split; [apply Rmult_le_pos; lra|]; rewrite <- (Rmult_1_l (val p)) at 2; apply Rmult_le_compat_r; lra).
  assert (P2 : 0 <= val neg * val (fsub f1 p) <= val (fsub f1 p)) by (split; [apply Rmult_le_pos; lra|]; rewrite <- (Rmult_1_l (val (fsub f1 p))) at 2; apply Rmult_le_compat_r; lra).
  pose proof (nearest_abs (1 - val p) (1 - val p) ltac:(rewrite Rabs_pos_eq; lra)) as N0. rewrite <- Vq in N0.
  pose proof (nearest_abs (val pos * val p) (val p) ltac:(rewrite Rabs_pos_eq; lra)) as N1. rewrite <- V1 in N1.
  pose proof (nearest_abs (val neg * val (fsub f1 p)) (val (fsub f1 p)) ltac:(rewrite Rabs_pos_eq; lra)) as N2. rewrite <- V2 in N2.
  apply Rabs_le_inv in N0, N1, N2. set (q := val (fsub f1 p)) in *. set (x := val (fmul pos p)) in *. set (y := val (fmul neg (fsub f1 p))) in *.
  assert (uq : ulp1 * q <= ulp1 * 1) by (apply Rmult_le_compat_l; lra). assert (up : 0 <= ulp1 * val p) by (apply Rmult_le_pos; lra). assert (uq0 : 0 <= ulp1 * (1 - val p)) by (apply Rmult_le_pos; lra).
  assert (uqp : ulp1 * q <= ulp1 * (1 - val p + 0.01)) by (apply Rmult_le_compat_l; lra).
  assert (Bxy : 0 <= x + y <= 1.01) by (split; [lra|]; lra).
  pose proof (nearest_abs (x + y) 1.01 ltac:(rewrite Rabs_pos_eq; lra)) as N3. rewrite <- V in N3. apply Rabs_le_inv in N3.
  assert (Q : Rabs (val neg * q - val neg * (1 - val p)) <= ulp1 * (1 - val p) + pow2 (-1075)).
  { rewrite <- Rmult_minus_distr_l, Rabs_mult, (Rabs_pos_eq (val neg)) by lra. rewrite <- (Rmult_1_l (ulp1 * (1 - val p) + pow2 (-1075))).
    apply Rmult_le_compat; [lra|apply Rabs_pos|lra|apply Rabs_le; lra]. }
  apply Rabs_le_inv in Q. assert (E : pow2 (-51) = 4 * ulp1) by (unfold ulp1; change (-51)%Z with (2 + -53)%Z; rewrite bpow_plus; reflexivity). rewrite E.
  apply Rabs_le. lra.
Qed.
End Mix.

Lemma mix_0 pos neg : in_unit pos -> in_unit neg -> val (mix_float f0 pos neg) = val neg.
Proof.
  intros Uo Un. destruct f0_ok as (F0 & V0). assert (U0 : in_unit f0) by (split; [exact F0|rewrite V0; lra]).
  destruct (mix_parts f0 U0 pos neg Uo Un) as (_ & _ & _ & _ & Vq & V1 & V2 & V). rewrite V0, Rminus_0_r, (nearest_id 1 format_1) in Vq.
  rewrite V0, Rmult_0_r, (nearest_id 0 format_0) in V1. rewrite Vq, Rmult_1_r, nearest_id in V2 by apply format_val.
  rewrite V, V1, V2, Rplus_0_l. apply nearest_id, format_val.
Qed.

Lemma mix_1 pos neg : in_unit pos -> in_unit neg -> val (mix_float f1 pos neg) = val pos.
Proof.
  intros Uo Un. destruct f1_ok as (F0 & V0). assert (U0 : in_unit f1) by (split; [exact F0|rewrite V0; lra]).
  destruct (mix_parts f1 U0 pos neg Uo Un) as (_ & _ & _ & _ & Vq & V1 & V2 & V). rewrite V0 in *. rewrite Rminus_diag_eq, (nearest_id 0 format_0) in Vq by reflexivity.
  rewrite Rmult_1_r, nearest_id in V1 by apply format_val. rewrite Vq, Rmult_0_r, (nearest_id 0 format_0) in V2.
  rewrite V, V1, V2, Rplus_0_r. apply nearest_id, format_val.
Qed.

(** ** Mixtures of vectors *)

Lemma mixture_unit p pos neg : in_unit p -> Forall in_unit pos -> Forall in_unit neg -> Forall in_unit (mixture_float p pos neg).
Proof.
  intros Up Uo. revert neg. induction Uo as [|x pos Ux Uo IH]; intros neg Un; [constructor|]. destruct Un as [|y neg Uy Un]; [constructor|].
  unfold mixture_float. cbn [fmap2]. constructor; [apply (mix_parts p Up x y Ux Uy)|apply IH, Un].
Qed.

Lemma mixture_ends pos neg : length pos = length neg -> Forall in_unit pos -> Forall in_unit neg ->
  map val (mixture_float f0 pos neg) = map val neg /\ map val (mixture_float f1 pos neg) = map val pos.
Proof.
  intros L Uo. revert neg L. induction Uo as [|x pos Ux Uo IH]; intros neg L Un; (destruct Un as [|y neg Uy Un]; [try discriminate L|try discriminate L]).
  - split; reflexivity.
  - injection L as L. destruct (IH neg L Un) as (I0 & I1). unfold mixture_float in *. cbn [fmap2 map]. rewrite I0, I1, mix_0, mix_1 by assumption. split; reflexivity.
Qed.

Lemma mixture_within p pos neg : in_unit p -> length pos = length neg -> Forall in_unit pos -> Forall in_unit neg ->
  within (pow2 (-51)) (mixture_float p pos neg) (mixture_of_pdfs (val p) (map val pos) (map val neg)).
Proof.
  intros Up L Uo. revert neg L. induction Uo as [|x pos Ux Uo IH]; intros neg L Un; (destruct Un as [|y neg Uy Un]; [try discriminate L|try discriminate L]).
  - constructor.
  - injection L as L. specialize (IH neg L Un). unfold mixture_float, mixture_of_pdfs, within in *. cbn [fmap2 map]. constructor; [apply mix_close; assumption|exact IH].
Qed.

Lemma mixture_sum p pos neg e : in_unit p -> length pos = length neg -> Forall in_unit pos -> Forall in_unit neg ->
  Rabs (exact_sum pos - 1) <= e -> Rabs (exact_sum neg - 1) <= e ->
  Rabs (exact_sum (mixture_float p pos neg) - 1) <= e + INR (length pos) * pow2 (-51).
Proof.
  intros Up L Uo Un Eo En.
  assert (H : Rabs (exact_sum (mixture_float p pos neg) - (exact_sum pos * val p + exact_sum neg * (1 - val p))) <= INR (length pos) * pow2 (-51)).
  { clear Eo En. revert neg L Un. induction Uo as [|x pos Ux Uo IH]; intros neg L Un; (destruct Un as [|y neg Uy Un]; [try discriminate L|try discriminate L]).
    - unfold exact_sum. cbn. rewrite Rmult_0_l, Rmult_0_l, Rplus_0_l, Rminus_0_r, Rabs_R0. lra.
    - injection L as L. specialize (IH neg L Un). pose proof (mix_close p Up x y Ux Uy) as C. unfold mixture_float in *. cbn [fmap2 length]. rewrite S_INR.
      change (exact_sum (x :: pos)) with (val x + exact_sum pos). change (exact_sum (y :: neg)) with (val y + exact_sum neg).
      change (exact_sum (mix_float p x y :: fmap2 (mix_float p) pos neg)) with (val (mix_float p x y) + exact_sum (fmap2 (mix_float p) pos neg)).
      apply Rabs_le_inv in IH, C. apply Rabs_le. lra. }
  destruct Up as (_ & Bp). apply Rabs_le_inv in Eo, En, H.
  assert ((exact_sum pos - 1) * val p <= e * val p /\ - e * val p <= (exact_sum pos - 1) * val p) by (split; apply Rmult_le_compat_r; lra).
  assert ((exact_sum neg - 1) * (1 - val p) <= e * (1 - val p) /\ - e * (1 - val p) <= (exact_sum neg - 1) * (1 - val p)) by (split; apply Rmult_le_compat_r; lra).
  apply Rabs_le. lra.
Qed.

(** Cumulative distributions stay cumulative. *)
Lemma mixture_sorted p pos neg : in_unit p -> length pos = length neg -> Forall in_unit pos -> Forall in_unit neg ->
  Sorted Rle (map val pos) -> Sorted Rle (map val neg) -> Sorted Rle (map val (mixture_float p pos neg)).
Proof.
  intros Up L Uo. revert neg L. induction Uo as [|x pos Ux Uo IH]; intros neg L Un; (destruct Un as [|y neg Uy Un]; [try discriminate L|try discriminate L]); intros So Sn.
  - constructor.
  - injection L as L. inversion So as [|? ? So' Ho]; subst. inversion Sn as [|? ? Sn' Hn]; subst. specialize (IH neg L Un So' Sn').
    unfold mixture_float in *. cbn [fmap2 map]. constructor; [exact IH|].
    destruct Uo as [|x' pos Ux' Uo]; [constructor|]. destruct Un as [|y' neg Uy' Un]; [constructor|]. cbn [fmap2 map] in *. inversion Ho; inversion Hn; subst. constructor. apply mix_mono; assumption.
Qed.

Lemma mix_same_refuted : exists p x, in_unit p /\ in_unit x /\ val (mix_float p x x) <> val x.
Proof.
  exists (ratio 2 10), (ratio 9 10). split; [apply ratio_unit; lia|]. split; [apply ratio_unit; lia|].
  apply Rgt_not_eq. apply flt_val; vm_compute; reflexivity.
Qed.
