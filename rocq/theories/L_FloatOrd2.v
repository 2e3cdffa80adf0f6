(** * Proofs about the ordinal classifiers in double precision: DDAG. *)

From Coq Require Import Reals List ZArith Lia Lra Permutation Bool.
From Flocq Require Import Core BinarySingleNaN.
From Verif Require Import Num Spec L_Num M_Baselines L_Baselines L_Metrics M_Ordinal Spec_Ordinal L_Ordinal L_Ordinal2 L_Ordinal3
  M_Float Spec_Float L_Float L_Float2 L_Float4 L_Float5 L_Float19 M_Float7 Spec_FloatOrd L_FloatOrd.
Import ListNotations.
Open Scope R_scope.

Local Notation pow2 := (bpow radix2).

Lemma ovo_rows_nth n pair l r : (l < r)%nat -> (r < n)%nat -> nth (pos_estim n l r) (ovo_rows n pair) (f0, f0) = pair l r.
Proof.
  intros H1 H2. apply nth_error_nth. unfold ovo_rows, pos_estim.
  rewrite <- list_sum_seq_lengths by lia.
  set (f := fun i => map (fun j => pair i j) (seq (S i) (n - S i))).
  rewrite (map_ext_in _ (fun i => length (f i))) by (intros; unfold f; rewrite map_length, seq_length; auto).
  rewrite (nth_error_concat _ f n 0 l); [|lia|unfold f; rewrite map_length, seq_length; simpl; lia].
  unfold f. simpl (0 + l)%nat. rewrite nth_error_map.
  rewrite (nth_error_nth' _ 0%nat) by (rewrite seq_length; lia). rewrite seq_nth by lia. simpl. f_equal. f_equal. lia.
Qed.

Lemma nth_fmap_seq (f : nat -> float) n c : (c < n)%nat -> nth c (map f (seq 0 n)) f0 = f c.
Proof.
  intros. rewrite (nth_indep _ f0 (f O)) by (rewrite map_length, seq_length; auto). rewrite map_nth, seq_nth by auto. auto.
Qed.

Lemma nth_repeat_lt (x : float) n c : (c < n)%nat -> nth c (repeat x n) f0 = x.
Proof. revert c. induction n; intros [|c] H; simpl; auto; try lia. apply IHn. lia. Qed.

(** ** winner_node *)

Lemma half_ok : finite f_half /\ val f_half = 1/2.
Proof. split; [reflexivity|]. unfold val, f_half. vm_compute. lra. Qed.

Lemma mul_0_1 a p (x : R) : in_unit a -> val a = x -> (x = 0 \/ x = 1) -> in_unit p ->
  in_unit (fmul a p) /\ val (fmul a p) = x * val p.
Proof.
  intros Ua Ea Hx Up. destruct (mul_unit a p Ua Up) as (U & V & _). split; [exact U|]. rewrite V, Ea.
  destruct Hx as [->| ->]; [rewrite Rmult_0_l; apply nearest_0|rewrite Rmult_1_l; apply nearest_id, format_val].
Qed.

Lemma add_0 x y : in_unit x -> in_unit y -> (val x = 0 \/ val y = 0) ->
  in_unit (fadd x y) /\ val (fadd x y) = val x + val y.
Proof.
  intros (Fx & Bx) (Fy & By) H. destruct (fadd_ok x y Fx Fy) as (F & V); [apply big4; rewrite Rabs_pos_eq; lra|].
  assert (E : val (fadd x y) = val x + val y).
  { rewrite V. destruct H as [H|H]; rewrite H; [rewrite Rplus_0_l|rewrite Rplus_0_r]; apply nearest_id, format_val. }
  split; [split; [exact F|rewrite E; lra]|exact E].
Qed.

Section Winner.
Context (n : nat) (pair : nat -> nat -> float * float) (D : forall l r, (l < r < n)%nat -> decided (pair l r)).

Lemma node_unit l r : (l < r < n)%nat -> unit_pair (node_probs_float WinnerNode l r (pair l r)).
Proof.
  intros H. destruct (D l r H) as (U & _). unfold node_probs_float. destruct (Nat.eqb _ _); [exact U|].
  split; cbn [fst snd]; [destruct (flt _ _)|destruct (fle _ _)]; apply unit_f0 || apply unit_f1.
Qed.

Lemma node_winner l r : (l < r < n)%nat -> (r - l <> 1)%nat ->
  (node_probs_float WinnerNode l r (pair l r) = (f0, f1) /\ winner (vals (pair l r)) = (0, 1)) \/
  (node_probs_float WinnerNode l r (pair l r) = (f1, f0) /\ winner (vals (pair l r)) = (1, 0)).
Proof.
  intros H Ne. destruct (D l r H) as (((Fa & _) & (Fb & _)) & I). unfold node_probs_float.
  destruct (Nat.eqb_spec (r - l) 1); [contradiction|].
  destruct half_ok as (Fh & Vh). unfold winner, vals. cbn [fst snd].
  destruct (Rlt_dec (val (fst (pair l r))) (1/2)) as [L|L].
  - left. pose proof (proj1 I L) as L2.
    rewrite (proj2 (flt_ok _ _ Fa Fh)) by (rewrite Vh; exact L).
    assert (E : fle (snd (pair l r)) f_half = false).
    { destruct (fle (snd (pair l r)) f_half) eqn:E; [|reflexivity]. apply fle_ok in E; [|assumption..]. rewrite Vh in E. lra. }
    rewrite E. split; [reflexivity|]. destruct (Rlt_dec _ _); [reflexivity|lra].
  - right. assert (L2 : ~ 1/2 < val (snd (pair l r))) by tauto.
    rewrite (proj2 (flt_false _ _ Fa Fh)) by (rewrite Vh; lra).
    rewrite (proj2 (fle_ok _ _ Fb Fh)) by (rewrite Vh; lra).
    split; [reflexivity|]. destruct (Rlt_dec _ _); [lra|reflexivity].
Qed.

(** A part of the DAG that is not reached adds nothing. *)
Lemma unreached : forall d left accum probs, (left + d < n)%nat ->
  (forall c, (c < n)%nat -> in_unit (nth c accum f0) /\ val (nth c accum f0) = 0) ->
  (forall c, (c < n)%nat -> in_unit (nth c probs f0)) ->
  forall c, (c < n)%nat ->
    in_unit (nth c (ddag_float WinnerNode n (ovo_rows n pair) d left accum probs) f0) /\
    val (nth c (ddag_float WinnerNode n (ovo_rows n pair) d left accum probs) f0) = val (nth c probs f0).
Proof.
  induction d; intros left accum probs Hb Ha Hp c Hc; cbn [ddag_float].
  - rewrite nth_fmap_seq by exact Hc. destruct (Ha c Hc) as (Ua & Va).
    destruct (add_0 (nth c probs f0) (nth c accum f0)) as (U & V); auto. split; [exact U|]. rewrite V, Va. ring.
  - cbv zeta. rewrite ovo_rows_nth by lia.
    destruct (node_unit left (left + S d) ltac:(lia)) as (Ul & Ur).
    set (p := node_probs_float WinnerNode left (left + S d) (pair left (left + S d)%nat)) in *.
    set (ra := map _ (seq 0 n)). set (la := map _ (seq 0 n)).
    assert (A : forall c, (c < n)%nat -> in_unit (nth c la f0) /\ val (nth c la f0) = 0).
    { intros i Hi. unfold la. rewrite nth_fmap_seq by exact Hi. destruct (Ha i Hi) as (Ua & Va). destruct (_ && _)%bool; [|apply unit_f0].
      destruct (mul_0_1 _ (fst p) 0 Ua Va ltac:(auto) Ul) as (U & V). split; [exact U|]. rewrite V. ring. }
    assert (B : forall c, (c < n)%nat -> in_unit (nth c ra f0) /\ val (nth c ra f0) = 0).
    { intros i Hi. unfold ra. rewrite nth_fmap_seq by exact Hi. destruct (Ha i Hi) as (Ua & Va). destruct (_ && _)%bool; [|apply unit_f0].
      destruct (mul_0_1 _ (snd p) 0 Ua Va ltac:(auto) Ur) as (U & V). split; [exact U|]. rewrite V. ring. }
    pose proof (IHd left la probs ltac:(lia) A Hp) as R1.
    destruct (IHd (S left) ra _ ltac:(lia) B (fun c Hc => proj1 (R1 c Hc)) c Hc) as (U2 & V2).
    split; [exact U2|]. rewrite V2. apply R1, Hc.
Qed.

Lemma reached : forall d left accum probs, (left + S d < n)%nat ->
  (forall c, (c < n)%nat -> in_unit (nth c accum f0) /\
     val (nth c accum f0) = if (Nat.leb left c && Nat.leb c (left + S d))%bool then 1 else 0) ->
  (forall c, (c < n)%nat -> in_unit (nth c probs f0) /\ val (nth c probs f0) = 0) ->
  forall c, (c < n)%nat ->
    in_unit (nth c (ddag_float WinnerNode n (ovo_rows n pair) (S d) left accum probs) f0) /\
    val (nth c (ddag_float WinnerNode n (ovo_rows n pair) (S d) left accum probs) f0) =
      dag_probability (ddag_decision WinnerNode (fun l r => vals (pair l r))) (S d) left c.
Proof.
  induction d; intros left accum probs Hb Ha Hp c Hc.
  - cbn [ddag_float]. cbv zeta. rewrite ovo_rows_nth by lia.
    destruct (D left (left + 1)%nat ltac:(lia)) as ((Ul & Ur) & _).
    assert (E : node_probs_float WinnerNode left (left + 1) (pair left (left + 1)%nat) = pair left (left + 1)%nat).
    { unfold node_probs_float. replace (left + 1 - left)%nat with 1%nat by lia. reflexivity. }
    rewrite E. rewrite (nth_fmap_seq _ n c Hc). rewrite !(nth_fmap_seq _ n c Hc).
    cbn [dag_probability]. unfold ddag_decision. replace (left + 1 - left)%nat with 1%nat by lia. cbn [Nat.eqb vals fst snd].
    destruct (Ha c Hc) as (Ua & Va). destruct (Hp c Hc) as (Up & Vp).
    assert (A1 : in_unit (if (Nat.leb left c && Nat.ltb c (left + 1))%bool then fmul (nth c accum f0) (fst (pair left (left + 1)%nat)) else f0) /\
       val (if (Nat.leb left c && Nat.ltb c (left + 1))%bool then fmul (nth c accum f0) (fst (pair left (left + 1)%nat)) else f0) =
         if Nat.eqb c left then val (fst (pair left (left + 1)%nat)) else 0).
    { destruct (Nat.leb_spec left c), (Nat.ltb_spec c (left + 1)), (Nat.eqb_spec c left); cbn [andb]; try lia; try apply unit_f0.
      destruct (mul_0_1 _ (fst (pair left (left + 1)%nat)) 1 Ua) as (U & V); auto.
      - rewrite Va. destruct (Nat.leb_spec left c), (Nat.leb_spec c (left + 1)); cbn; try lia; reflexivity.
      - split; [exact U|rewrite V; ring]. }
    assert (A2 : in_unit (if (Nat.leb (S left) c && Nat.ltb c (S (left + 1)))%bool then fmul (nth c accum f0) (snd (pair left (left + 1)%nat)) else f0) /\
       val (if (Nat.leb (S left) c && Nat.ltb c (S (left + 1)))%bool then fmul (nth c accum f0) (snd (pair left (left + 1)%nat)) else f0) =
         if Nat.eqb c (S left) then val (snd (pair left (left + 1)%nat)) else 0).
    { destruct (Nat.leb_spec (S left) c), (Nat.ltb_spec c (S (left + 1))), (Nat.eqb_spec c (S left)); cbn [andb]; try lia; try apply unit_f0.
      destruct (mul_0_1 _ (snd (pair left (left + 1)%nat)) 1 Ua) as (U & V); auto.
      - rewrite Va. destruct (Nat.leb_spec left c), (Nat.leb_spec c (left + 1)); cbn; try lia; reflexivity.
      - split; [exact U|rewrite V; ring]. }
    destruct A1 as (U1 & V1). destruct A2 as (U2 & V2).
    destruct (add_0 _ _ Up U1) as (U3 & V3); [left; exact Vp|].
    destruct (add_0 _ _ U3 U2) as (U4 & V4).
    { rewrite V3, Vp, V1, V2. destruct (Nat.eqb_spec c left), (Nat.eqb_spec c (S left)); try lia; try (right; reflexivity); left; ring. }
    split; [exact U4|]. rewrite V4, V3, Vp, V1, V2.
    destruct (Nat.eqb_spec c left), (Nat.eqb_spec c (S left)); try lia; ring.
  - remember (S d) as d1. cbn [ddag_float]. cbv zeta. rewrite ovo_rows_nth by lia.
    assert (Ed : dag_probability (ddag_decision WinnerNode (fun l r => vals (pair l r))) (S d1) left c =
      fst (winner (vals (pair left (left + S d1)%nat))) * dag_probability (ddag_decision WinnerNode (fun l r => vals (pair l r))) d1 left c +
      snd (winner (vals (pair left (left + S d1)%nat))) * dag_probability (ddag_decision WinnerNode (fun l r => vals (pair l r))) d1 (S left) c).
    { cbn [dag_probability]. unfold ddag_decision at 1 3. destruct (Nat.eqb_spec (left + S d1 - left) 1); [lia|]. reflexivity. }
    rewrite Ed. clear Ed.
    subst d1.
    destruct (node_winner left (left + S (S d)) ltac:(lia) ltac:(lia)) as [(E & W)|(E & W)]; rewrite W, E; cbn [fst snd];
      set (ra := map _ (seq 0 n)); set (la := map _ (seq 0 n)); rewrite Rmult_0_l, Rmult_1_l.
    + assert (A : forall c, (c < n)%nat -> in_unit (nth c la f0) /\ val (nth c la f0) = 0).
      { intros i Hi. unfold la. rewrite nth_fmap_seq by exact Hi. destruct (Nat.leb left i && Nat.ltb i (left + S (S d)))%bool; [|apply unit_f0].
        destruct (Ha i Hi) as (Ua & Va).
        destruct (mul_0_1 _ f0 _ Ua Va) as (U & V); [destruct (_ && _)%bool; auto|apply unit_f0|].
        split; [exact U|]. rewrite V. replace (val f0) with 0 by reflexivity. ring. }
      pose proof (unreached (S d) left la probs ltac:(lia) A (fun c Hc => proj1 (Hp c Hc))) as R1.
      rewrite Rplus_0_l. apply IHd; [lia| | |exact Hc]; intros i Hi.
      1:{ unfold ra. rewrite nth_fmap_seq by exact Hi. destruct (Ha i Hi) as (Ua & Va).
          destruct (Nat.leb_spec (S left) i), (Nat.ltb_spec i (S (left + S (S d)))), (Nat.leb_spec i (S left + S d)); cbn [andb]; try lia; try apply unit_f0.
          destruct (mul_0_1 _ f1 1 Ua) as (U & V); auto; [|apply unit_f1|].
          - rewrite Va. destruct (Nat.leb_spec left i), (Nat.leb_spec i (left + S (S d))); cbn [andb]; try lia; reflexivity.
          - split; [exact U|]. rewrite V. destruct unit_f1 as (_ & ->). ring. }
      destruct (R1 i Hi) as (U & V). split; [exact U|]. rewrite V. apply Hp, Hi.
    + assert (A : forall c, (c < n)%nat -> in_unit (nth c ra f0) /\ val (nth c ra f0) = 0).
      { intros i Hi. unfold ra. rewrite nth_fmap_seq by exact Hi. destruct (Nat.leb (S left) i && Nat.ltb i (S (left + S (S d))))%bool; [|apply unit_f0].
        destruct (Ha i Hi) as (Ua & Va).
        destruct (mul_0_1 _ f0 _ Ua Va) as (U & V); [destruct (_ && _)%bool; auto|apply unit_f0|].
        split; [exact U|]. rewrite V. replace (val f0) with 0 by reflexivity. ring. }
      assert (B : forall c, (c < n)%nat -> in_unit (nth c la f0) /\
         val (nth c la f0) = if (Nat.leb left c && Nat.leb c (left + S d))%bool then 1 else 0).
      { intros i Hi. unfold la. rewrite nth_fmap_seq by exact Hi. destruct (Ha i Hi) as (Ua & Va).
        destruct (Nat.leb_spec left i), (Nat.ltb_spec i (left + S (S d))), (Nat.leb_spec i (left + S d)); cbn [andb]; try lia; try apply unit_f0.
        destruct (mul_0_1 _ f1 1 Ua) as (U & V); auto; [|apply unit_f1|].
        - rewrite Va. destruct (Nat.leb_spec left i), (Nat.leb_spec i (left + S (S d))); cbn [andb]; try lia; reflexivity.
        - split; [exact U|]. rewrite V. destruct unit_f1 as (_ & ->). ring. }
      pose proof (IHd left la probs ltac:(lia) B Hp) as R1.
      destruct (unreached (S d) (S left) ra _ ltac:(lia) A (fun c Hc => proj1 (R1 c Hc)) c Hc) as (U & V).
      split; [exact U|]. rewrite V, Rplus_0_r. apply R1, Hc.
Qed.

Lemma DDAG_winner_exact c : (2 <= n)%nat -> (c < n)%nat ->
  in_unit (nth c (DDAG_float WinnerNode n (ovo_rows n pair)) f0) /\
  val (nth c (DDAG_float WinnerNode n (ovo_rows n pair)) f0) =
    dag_probability (ddag_decision WinnerNode (fun l r => vals (pair l r))) (n - 1) 0 c.
Proof.
  intros Hn Hc. unfold DDAG_float. replace (n - 1)%nat with (S (n - 2)) by lia.
  apply reached; [lia| | |exact Hc].
  - intros i Hi. rewrite nth_repeat_lt by exact Hi. destruct unit_f1 as (U & V). split; [exact U|]. rewrite V.
    destruct (Nat.leb_spec 0 i), (Nat.leb_spec i (0 + S (n - 2))); cbn [andb]; try lia; reflexivity.
  - intros i Hi. rewrite nth_repeat_lt by exact Hi. apply unit_f0.
Qed.
End Winner.

(** scikit-learn's usual rows: the first column is computed from the second one. *)
Lemma complement_decided q : in_unit q -> decided (fsub f1 q, q).
Proof.
  intros U. destruct (one_minus_unit q U) as (U1 & V & _). split; [split; assumption|]. cbn [fst snd].
  assert (Fh : format (1/2)). { replace (1/2) with (bpow radix2 (-1)) by (cbn; lra). apply format_bpow. lia. }
  rewrite V. split; intros H.
  - apply Rnot_le_lt. intros L. assert (1/2 <= nearest (1 - val q)); [|lra]. apply nearest_ge_format; [exact Fh|lra].
  - assert (E : nearest (1 - val q) = 1 - val q).
    { apply nearest_id. destruct U as (Fq & Bq). destruct (multiple_of_ulp (val q) (format_val q) ltac:(lra)) as (k & Ek & Hk).
      rewrite Ek. assert (B1 : IZR (2 ^ 53) * bpow radix2 (-53) = 1) by (change (IZR (2 ^ 53)) with (bpow radix2 53); rewrite <- bpow_plus; reflexivity).
      replace (1 - IZR k * bpow radix2 (-53)) with (IZR (2 ^ 53 - k) * bpow radix2 (-53)) by (rewrite minus_IZR; lra).
      apply format_scaled; lia. }
    rewrite E. lra.
Qed.

(** The other way round it fails: the double just below one half has the complement one half. *)
Definition below_half : float := fsub f_half (fdiv f1 (of_Z (2 ^ 54))).

Lemma winner_zero_refuted : exists p : float, in_unit p /\ complementary_pair (p, fsub f1 p) /\
  Forall (fun x => val x = 0) (DDAG_float WinnerNode 3 (ovo_rows 3 (fun _ _ => (p, fsub f1 p)))).
Proof.
  exists below_half.
  assert (U : in_unit below_half).
  { split; [reflexivity|]. unfold val, below_half. vm_compute. lra. }
  split; [exact U|]. split.
  - split; [exact U|]. split; [apply one_minus_unit, U|]. cbn [fst snd]. unfold val. vm_compute. lra.
  - vm_compute. repeat constructor.
Qed.

(** ** full_probabilistic *)

Section Full.
Context (n : nat) (pair : nat -> nat -> float * float) (D : forall l r, (l < r < n)%nat -> unit_pair (pair l r)) (Hn : (n <= 50)%nat).

Lemma pow_format k : (k <= 50)%nat -> format (2 ^ k).
Proof.
  intros H. replace (2 ^ k) with (pow2 (Z.of_nat k)); [apply format_bpow; lia|].
  rewrite bpow_powerRZ. change (IZR radix2) with 2. rewrite <- pow_powerRZ. reflexivity.
Qed.

Lemma pow_big k : (k <= 50)%nat -> 2 ^ k <= pow2 100.
Proof.
  intros H. replace (2 ^ k) with (pow2 (Z.of_nat k)); [apply bpow_le; lia|].
  rewrite bpow_powerRZ. change (IZR radix2) with 2. rewrite <- pow_powerRZ. reflexivity.
Qed.

Lemma full_spec : forall d left accum probs A P K L E, (left + d < n)%nat -> (K + d <= n)%nat -> 0 <= L -> L + 2 ^ d <= 2 ^ n ->
  (forall m, (m <= 2 ^ d)%nat -> format (L + INR m)) ->
  (forall c, (c < n)%nat -> near (nth c accum f0) (A c) K /\ ((c < left \/ left + d < c)%nat -> val (nth c accum f0) = 0)) ->
  (forall c, (c < n)%nat -> finite (nth c probs f0) /\ 0 <= val (nth c probs f0) <= L /\ Rabs (val (nth c probs f0) - P c) <= E) ->
  forall c, (c < n)%nat ->
    finite (nth c (ddag_float FullProbabilistic n (ovo_rows n pair) d left accum probs) f0) /\
    0 <= val (nth c (ddag_float FullProbabilistic n (ovo_rows n pair) d left accum probs) f0) <= L + 2 ^ d /\
    Rabs (val (nth c (ddag_float FullProbabilistic n (ovo_rows n pair) d left accum probs) f0) -
          (P c + A c * dag_probability (fun l r => vals (pair l r)) d left c))
      <= E + 2 ^ d * (2 ^ n * pow2 (-53) + INR n * pow2 (-54)).
Proof.
  assert (Pn : 0 < 2 ^ n) by (apply pow_lt; lra). pose proof (pow_big n Hn) as Bn.
  pose proof (bpow_gt_0 radix2 (-53)) as P53. pose proof (bpow_gt_0 radix2 (-54)) as P54.
  induction d; intros left accum probs A P K L E Hb HK HL Hs HF Ha Hp c Hc; cbn [ddag_float].
  - rewrite nth_fmap_seq by exact Hc. destruct (Ha c Hc) as (((Fa & Ba) & Br & Da) & Oa). destruct (Hp c Hc) as (Fp & Bp & Dp).
    set (x := nth c probs f0) in *. set (a := nth c accum f0) in *. simpl pow in *. rewrite Rmult_1_l.
    destruct (fadd_ok x a Fp Fa) as (F & V).
    { rewrite Rabs_pos_eq by lra. apply Rle_trans with (pow2 100); [lra|apply bpow_le; lia]. }
    split; [exact F|]. split.
    { rewrite V. split; [apply nearest_ge_format; [apply format_0|lra]|]. apply nearest_le_format; [apply (HF 1%nat); simpl; lia|lra]. }
    cbn [dag_probability]. pose proof (pos_INR n).
    destruct (Nat.eqb_spec c left) as [->|Ne].
    + destruct (add_error x a) as (e & He & Ee). unfold ulp1 in He. rewrite V, Ee, Rmult_1_r.
      assert (G : Rabs ((val x + val a) * e) <= 2 ^ n * pow2 (-53)).
      { rewrite Rabs_mult, (Rabs_pos_eq (val x + val a)) by lra. apply Rmult_le_compat; try lra. apply Rabs_pos. }
      assert (GK : INR K * pow2 (-54) <= INR n * pow2 (-54)) by (apply Rmult_le_compat_r; [lra|apply le_INR; lia]).
      apply Rabs_le_inv in G. apply Rabs_le_inv in Da. apply Rabs_le_inv in Dp. apply Rabs_le. lra.
    + rewrite V, (Oa ltac:(lia)), Rplus_0_r, Rmult_0_r, Rplus_0_r, nearest_id by apply format_val.
      apply Rle_trans with (1 := Dp). nra.
  - cbv zeta. rewrite ovo_rows_nth by lia. cbn [node_probs_float].
    destruct (D left (left + S d)%nat ltac:(lia)) as (Ul & Ur).
    set (p := pair left (left + S d)%nat) in *.
    set (ra := map _ (seq 0 n)). set (la := map _ (seq 0 n)).
    assert (P2 : 0 < 2 ^ d) by (apply pow_lt; lra). simpl (2 ^ S d) in *.
    set (Al := fun c => if (Nat.leb left c && Nat.ltb c (left + S d))%bool then A c * val (fst p) else 0).
    set (Ar := fun c => if (Nat.leb (S left) c && Nat.ltb c (S (left + S d)))%bool then A c * val (snd p) else 0).
    assert (N0 : near f0 0 (S K)).
    { destruct unit_f0 as (U & V). split; [exact U|]. split; [lra|]. rewrite V, Rminus_0_r, Rabs_R0. apply Rmult_le_pos; [apply pos_INR|lra]. }
    assert (HA : forall c, (c < n)%nat -> near (nth c la f0) (Al c) (S K) /\ ((c < left \/ left + d < c)%nat -> val (nth c la f0) = 0)).
    { intros i Hi. unfold la, Al. rewrite nth_fmap_seq by exact Hi. destruct (Ha i Hi) as (Na & _). split.
      - destruct (Nat.leb left i && Nat.ltb i (left + S d))%bool; [|exact N0]. apply near_mul; [exact Na|exact Ul].
      - intros Ho. destruct (Nat.leb_spec left i), (Nat.ltb_spec i (left + S d)); cbn [andb]; try lia; reflexivity. }
    assert (HB : forall c, (c < n)%nat -> near (nth c ra f0) (Ar c) (S K) /\ ((c < S left \/ S left + d < c)%nat -> val (nth c ra f0) = 0)).
    { intros i Hi. unfold ra, Ar. rewrite nth_fmap_seq by exact Hi. destruct (Ha i Hi) as (Na & _). split.
      - destruct (Nat.leb (S left) i && Nat.ltb i (S (left + S d)))%bool; [|exact N0]. apply near_mul; [exact Na|exact Ur].
      - intros Ho. destruct (Nat.leb_spec (S left) i), (Nat.ltb_spec i (S (left + S d))); cbn [andb]; try lia; reflexivity. }
    assert (I2 : INR (2 ^ d) = 2 ^ d) by (rewrite pow_INR; reflexivity).
    pose proof (IHd left la probs Al P (S K) L E ltac:(lia) ltac:(lia) HL ltac:(lra)
                  ltac:(intros m Hm; apply HF; simpl; lia) HA Hp) as R1.
    destruct (IHd (S left) ra _ Ar _ (S K) (L + 2 ^ d) _ ltac:(lia) ltac:(lia) ltac:(lra) ltac:(lra)
                  ltac:(intros m Hm; rewrite <- I2, Rplus_assoc, <- plus_INR; apply HF; simpl; lia) HB R1 c Hc) as (F & B & G).
    split; [exact F|]. split; [lra|].
    replace (P c + A c * dag_probability (fun l r => vals (pair l r)) (S d) left c) with
      (P c + Al c * dag_probability (fun l r => vals (pair l r)) d left c + Ar c * dag_probability (fun l r => vals (pair l r)) d (S left) c).
    { apply Rle_trans with (1 := G). lra. }
    cbn [dag_probability]. fold p. change (fst (vals p)) with (val (fst p)). change (snd (vals p)) with (val (snd p)). unfold Al, Ar.
    destruct (Nat.leb_spec left c); destruct (Nat.ltb_spec c (left + S d));
      destruct (Nat.leb_spec (S left) c); destruct (Nat.ltb_spec c (S (left + S d))); cbn [andb]; try lia;
      try (rewrite (dag_outside _ d left c) by lia); try (rewrite (dag_outside _ d (S left) c) by lia); ring.
Qed.

Lemma DDAG_full_accuracy c : (1 <= n)%nat -> (c < n)%nat ->
  finite (nth c (DDAG_float FullProbabilistic n (ovo_rows n pair)) f0) /\
  0 <= val (nth c (DDAG_float FullProbabilistic n (ovo_rows n pair)) f0) /\
  Rabs (val (nth c (DDAG_float FullProbabilistic n (ovo_rows n pair)) f0) -
        dag_probability (fun l r => vals (pair l r)) (n - 1) 0 c) <= 4 ^ n * pow2 (-53).
Proof.
  intros H1 Hc. unfold DDAG_float.
  assert (En : 2 ^ n = 2 * 2 ^ (n - 1)) by (replace n with (S (n - 1)) at 1 by lia; reflexivity).
  assert (P2 : 0 < 2 ^ (n - 1)) by (apply pow_lt; lra).
  destruct (full_spec (n - 1) 0 (repeat f1 n) (repeat f0 n) (fun _ => 1) (fun _ => 0) 0 0 0) with (c := c) as (F & B & G);
    [lia|lia|lra|lra| | | |exact Hc|].
  - intros m Hm. rewrite Rplus_0_l, INR_IZR_INZ. apply format_Z.
    assert (H : (Z.of_nat m <= Z.of_nat 2 ^ Z.of_nat (n - 1))%Z) by (rewrite <- Nat2Z.inj_pow; apply inj_le, Hm).
    assert (H' : (Z.of_nat 2 ^ Z.of_nat (n - 1) <= 2 ^ 53)%Z) by (apply Z.pow_le_mono_r; lia).
    rewrite Z.abs_eq by apply Nat2Z.is_nonneg. apply Z.le_trans with (1 := H). exact H'.
  - intros i Hi. rewrite nth_repeat_lt by exact Hi. split; [|lia]. destruct unit_f1 as (U & V). split; [exact U|]. split; [lra|].
    rewrite V, Rminus_diag_eq, Rabs_R0 by reflexivity. simpl. lra.
  - intros i Hi. rewrite nth_repeat_lt by exact Hi. destruct unit_f0 as ((U & _) & V). split; [exact U|]. rewrite V.
    split; [lra|]. rewrite Rminus_0_r, Rabs_R0. lra.
  - split; [exact F|]. split; [apply B|]. rewrite Rplus_0_l, Rmult_1_l in G. apply Rle_trans with (1 := G). rewrite Rplus_0_l.
    destruct pow54 as (E53 & P54 & _). rewrite E53.
    assert (E4 : 4 ^ n = 2 ^ n * 2 ^ n) by (rewrite <- Rpow_mult_distr; f_equal; ring).
    assert (Ln : INR n <= 2 ^ n).
    { clear. induction n; [simpl; lra|]. rewrite S_INR. simpl. assert (1 <= 2 ^ n0) by (apply pow_R1_Rle; lra). lra. }
    rewrite E4. set (N := 2 ^ n) in *. set (h := 2 ^ (n - 1)) in *. replace h with (N / 2) by lra.
    assert (0 < N) by lra. replace (N * N * (2 * pow2 (-54))) with (N / 2 * (N * (2 * pow2 (-54)) + N * (2 * pow2 (-54)))) by field.
    apply Rmult_le_compat_l; [lra|]. apply Rplus_le_compat_l. nra.
Qed.
End Full.

Lemma C128_example :
  let q := fdiv f1 (of_Z 3) in
  let p := (fsub f1 q, q) in
  NoDup [1; 2; 5]%Z /\ length [1; 2; 5]%Z = S (length [1; 2]) /\ Forall unit_pair [p; p] /\ Forall complementary_pair [p; p] /\
  length [p; p] = length [1; 2] /\ Forall in_unit [q; q] /\ adds_in_some_order M_Float.left_to_right /\
  (forall l r, (l < r < 3)%nat -> decided ((fun _ _ => p) l r)).
Proof.
  intros q p. assert (U : in_unit q) by (split; [reflexivity|unfold val, q; vm_compute; lra]).
  assert (C : complementary_pair p) by (apply complement_ok, U).
  assert (V : unit_pair p) by (destruct C as (A & B & _); split; assumption).
  split; [repeat constructor; cbn; intuition discriminate|]. split; [reflexivity|].
  split; [constructor; [exact V|constructor; [exact V|constructor]]|]. split; [constructor; [exact C|constructor; [exact C|constructor]]|]. split; [reflexivity|].
  split; [constructor; [exact U|constructor; [exact U|constructor]]|]. split; [exact left_to_right_summed|].
  intros. apply complement_decided, U.
Qed.
