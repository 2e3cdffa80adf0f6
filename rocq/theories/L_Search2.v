(** * Proofs about global_search. *)

From Coq Require Import Reals List ZArith Lia Lra Psatz Bool Wf_nat.
From Verif Require Import Num Spec M_Search Spec_Search L_Num L_Search.
Import ListNotations.
Open Scope R_scope.

(** What the loop takes for a minimum. *)
Definition taken (losses : nat -> R) (i : nat) : Prop := losses (i - 1)%nat < losses i /\ losses i < losses (i + 1)%nat.
Definition around (f : R -> R) (tol : R) (i : nat) : out (R * R) :=
  golden_section_search f tol (grid (Nat.max (i - 2) 0)) (grid (Nat.min (i + 2) 100)).

Lemma grid_le : forall i j, (i <= j)%nat -> grid i <= grid j.
Proof. intros. unfold grid. apply le_INR in H. lra. Qed.
Lemma grid_lt : forall i j, (i < j)%nat -> grid i < grid j.
Proof. intros. unfold grid. apply lt_INR in H. lra. Qed.
Lemma grid_S : forall i, grid (S i) = grid i + 1/100.
Proof. intros. unfold grid. rewrite S_INR. lra. Qed.
Lemma grid_0 : grid 0 = 0.
Proof. unfold grid. simpl. lra. Qed.
Lemma grid_100 : grid 100 = 1.
Proof. unfold grid. replace (INR 100) with 100; [lra|]. rewrite INR_IZR_INZ. auto. Qed.
Lemma grid_98 : grid 98 = 98/100.
Proof. unfold grid. replace (INR 98) with 98; [lra|]. rewrite INR_IZR_INZ. auto. Qed.
Lemma grid_range : forall i, (i <= 100)%nat -> 0 <= grid i <= 1.
Proof. intros. rewrite <- grid_0 at 1. rewrite <- grid_100. split; apply grid_le; lia. Qed.

Lemma around_bounds : forall i, (1 <= i)%nat -> (i <= 99)%nat ->
  grid (Nat.max (i - 2) 0) < grid (Nat.min (i + 2) 100) /\ 0 <= grid (Nat.max (i - 2) 0) /\ grid (Nat.min (i + 2) 100) <= 1.
Proof.
  intros. split; [apply grid_lt; lia|]. split; [apply grid_range; lia|]. apply grid_range; lia.
Qed.

Lemma around_inside : forall f tol i, 0 < tol -> (1 <= i)%nat -> (i <= 99)%nat ->
  exists loss p z, around f tol i = Val (loss, p) /\ grid (Nat.max (i - 2) 0) < p < grid (Nat.min (i + 2) 100) /\
    grid (Nat.max (i - 2) 0) < z < grid (Nat.min (i + 2) 100) /\ loss = f z.
Proof. intros f tol i T H1 H2. apply golden_inside; auto. apply around_bounds; auto. Qed.

Lemma search_minima_spec : forall f tol losses is best, 0 < tol -> (forall i, In i is -> (1 <= i <= 99)%nat) ->
  exists r, search_minima f tol losses is best = Val r /\
    match r with
    | None => best = None /\ forall i, In i is -> ~ taken losses i
    | Some b => (best = Some b \/ exists i, In i is /\ taken losses i /\ around f tol i = Val b) /\
                (forall i bi, In i is -> taken losses i -> around f tol i = Val bi -> fst b <= fst bi) /\
                (forall b0, best = Some b0 -> fst b <= fst b0)
    end.
Proof.
  intros f tol losses is best T. revert best. induction is as [|i is IH]; intros best R.
  - exists best. split; auto. destruct best as [b|].
    + split; [auto|]. split; [intros ? ? []|]. intros b0 E. inversion E. lra.
    + split; [auto|intros ? []].
  - assert (R' : forall j, In j is -> (1 <= j <= 99)%nat) by (intros; apply R; right; auto).
    destruct (R i (or_introl eq_refl)) as [I1 I2].
    destruct (around_inside f tol i T I1 I2) as [l [p [z [E _]]]]. cbn [search_minima].
    assert (Not : ~ taken losses i -> exists r, search_minima f tol losses is best = Val r /\
      match r with
      | None => best = None /\ forall j, In j (i :: is) -> ~ taken losses j
      | Some b => (best = Some b \/ exists j, In j (i :: is) /\ taken losses j /\ around f tol j = Val b) /\
                (forall j bj, In j (i :: is) -> taken losses j -> around f tol j = Val bj -> fst b <= fst bj) /\
                (forall b0, best = Some b0 -> fst b <= fst b0)
      end).
    { intros N. destruct (IH best R') as [r [Er Hr]]. exists r. split; auto. destruct r as [b|].
      - destruct Hr as [[H1|[j [H1 [H2 H3]]]] [H4 H5]].
        + split; [left; auto|]. split; auto. intros j bj [<-|Hj] Tj Ej; [contradiction|eauto].
        + split; [right; exists j; split; [right; auto|auto]|]. split; auto. intros k bk [<-|Hk] Tk Ek; [contradiction|eauto].
      - destruct Hr as [H1 H2]. split; auto. intros j [<-|Hj]; auto. }
    destruct (Rlt_dec (losses (i - 1)%nat) (losses i)) as [L1|L1]; [|apply Not; unfold taken; tauto].
    destruct (Rlt_dec (losses i) (losses (i + 1)%nat)) as [L2|L2]; [|apply Not; unfold taken; tauto]. clear Not.
    assert (Ti : taken losses i) by (split; auto).
    unfold around in E. rewrite E. cbn [obind]. fold (around f tol i) in E.
    assert (Yes : forall (Hb : forall b0, best = Some b0 -> l < fst b0), exists r, search_minima f tol losses is (Some (l, p)) = Val r /\
      match r with
      | None => best = None /\ forall j, In j (i :: is) -> ~ taken losses j
      | Some b => (best = Some b \/ exists j, In j (i :: is) /\ taken losses j /\ around f tol j = Val b) /\
                (forall j bj, In j (i :: is) -> taken losses j -> around f tol j = Val bj -> fst b <= fst bj) /\
                (forall b0, best = Some b0 -> fst b <= fst b0)
      end).
    { intros Hb. destruct (IH (Some (l, p)) R') as [r [Er Hr]]. exists r. split; auto. destruct r as [b|].
      - destruct Hr as [H1 [H4 H5]]. specialize (H5 _ eq_refl). simpl in H5. split; [right|split].
        + destruct H1 as [H1|[j [H1 [H2 H3]]]].
          * exists i. split; [left; auto|]. split; auto. rewrite E. congruence.
          * exists j. split; [right; auto|auto].
        + intros j bj [<-|Hj] Tj Ej; [|eauto]. rewrite E in Ej. inversion Ej; subst. simpl. auto.
        + intros b0 E0. specialize (Hb _ E0). lra.
      - destruct Hr; discriminate. }
    destruct best as [b|].
    + cbn [fst]. destruct (Rlt_dec l (fst b)) as [L|L].
      * apply Yes. intros b0 E0. inversion E0; subst; auto.
      * destruct (IH (Some b) R') as [r [Er Hr]]. exists r. split; auto. destruct r as [b'|].
        -- destruct Hr as [H1 [H4 H5]]. pose proof (H5 b eq_refl). split; [|split; auto].
           ++ destruct H1 as [H1|[j [H1 H2]]]; [left; auto|right; exists j; split; [right; auto|auto]].
           ++ intros j bj [<-|Hj] Tj Ej; [|eauto]. rewrite E in Ej. inversion Ej; subst. simpl. lra.
        -- destruct Hr; discriminate.
    + apply Yes. intros b0 E0. discriminate.
Qed.

Lemma seq_1_99 : forall i, In i (seq 1 99) <-> (1 <= i <= 99)%nat.
Proof. intros. rewrite in_seq. lia. Qed.

(** The possible outcomes of the search. *)
Lemma global_cases : forall f tol losses, 0 < tol ->
  (exists i b, (1 <= i <= 99)%nat /\ taken losses i /\ around f tol i = Val b /\ global_search_from f tol losses = Val (snd b) /\
     forall j bj, (1 <= j <= 99)%nat -> taken losses j -> around f tol j = Val bj -> fst b <= fst bj) \/
  ((forall i, (1 <= i <= 99)%nat -> ~ taken losses i) /\
     (losses O = losses 100%nat -> global_search_from f tol losses = Err ValueError) /\
     (losses O < losses 100%nat -> global_search_from f tol losses = omap snd (golden_section_search f tol 0 (2/100))) /\
     (losses 100%nat < losses O -> global_search_from f tol losses = omap snd (golden_section_search f tol (98/100) 1))).
Proof.
  intros f tol losses T. destruct (search_minima_spec f tol losses (seq 1 99) None T) as [r [E H]].
  { intros i Hi. apply seq_1_99; auto. }
  unfold global_search_from. rewrite E. cbn [obind]. destruct r as [b|].
  - left. destruct H as [[H|[i [H1 [H2 H3]]]] [H4 _]]; [discriminate|]. exists i, b. rewrite seq_1_99 in H1. split; auto.
    split; auto. split; auto. split; auto. intros j bj Hj. apply H4. apply seq_1_99; auto.
  - right. destruct H as [_ H]. split; [intros i Hi; apply H, seq_1_99; auto|].
    destruct (Req_EM_T (losses O) (losses 100%nat)) as [Q|Q].
    + split; [auto|]. split; intros; lra.
    + split; [intros; lra|]. destruct (Rlt_dec (losses O) (losses 100%nat)) as [L|L]; split; intros; auto; lra.
Qed.

(** The result is a prevalence, or ValueError if no minimum was taken and both ends tie. *)
Theorem global_valid : forall f tol losses, 0 < tol ->
  (exists p, global_search_from f tol losses = Val p /\ 0 < p < 1) \/
  (global_search_from f tol losses = Err ValueError /\ losses O = losses 100%nat /\
   forall i, (1 <= i <= 99)%nat -> ~ (losses (i - 1)%nat < losses i /\ losses i < losses (i + 1)%nat)).
Proof.
  intros f tol losses T. destruct (global_cases f tol losses T) as [[i [b [[I1 I2] [Ti [E [G _]]]]]]|[N [G1 [G2 G3]]]].
  - left. exists (snd b). split; auto. destruct (around_inside f tol i T I1 I2) as [l [p [z [E2 [B _]]]]]. rewrite E in E2.
    inversion E2; subst b. simpl. pose proof (around_bounds i I1 I2). lra.
  - destruct (total_order_T (losses O) (losses 100%nat)) as [[L|L]|L].
    + left. rewrite (G2 L). destruct (golden_inside f tol 0 (2/100) ltac:(lra) T) as [l [p [z [E2 [B _]]]]].
      rewrite E2. exists p. split; [reflexivity|lra].
    + right. auto.
    + left. rewrite (G3 L). destruct (golden_inside f tol (98/100) 1 ltac:(lra) T) as [l [p [z [E2 [B _]]]]].
      rewrite E2. exists p. split; [reflexivity|lra].
Qed.

Lemma least : forall P : nat -> Prop, (forall i, P i \/ ~ P i) -> (exists i, P i) -> exists i, P i /\ forall j, (j < i)%nat -> ~ P j.
Proof.
  intros P D [i Hi]. revert Hi. induction i as [i IH] using lt_wf_ind. intros Hi.
  assert (C : (exists j, (j < i)%nat /\ P j) \/ (forall j, (j < i)%nat -> ~ P j)).
  { clear -D. induction i as [|i [[j [H1 H2]]|H]].
    - right. intros; lia.
    - left. exists j. split; [lia|auto].
    - destruct (D i) as [Pi|Pi]; [left; exists i; split; [lia|auto]|]. right. intros j Hj.
      destruct (Nat.eq_dec j i) as [->|]; [auto|apply H; lia]. }
  destruct C as [[j [H1 H2]]|C]; [eapply IH; eauto|exists i; auto].
Qed.

(** A strictly unimodal loss. *)
Theorem global_unimodal : forall f tol m, 0 < tol <= 1/100 -> strictly_unimodal f 0 1 m -> m <= 98/100 \/ f 1 < f 0 ->
  exists p, global_search_from f tol (fun i => f (grid i)) = Val p /\ Rabs (p - m) <= 2 * tol.
Proof.
  intros f tol m [T T1] U Hm. set (losses := fun i => f (grid i)).
  assert (Below : forall i, (1 <= i <= 99)%nat -> taken losses i -> m < grid i).
  { intros i Hi [L1 L2]. destruct (Rlt_le_dec m (grid i)) as [|G]; auto. destruct U as [U1 [U2 U3]].
    specialize (U2 (grid (i - 1)) (grid i) ltac:(apply grid_range; lia) ltac:(apply grid_lt; lia) G). unfold losses in L1. lra. }
  assert (Above : forall i, (1 <= i <= 99)%nat -> m <= grid (i - 1) -> taken losses i).
  { intros i Hi G. destruct U as [U1 [U2 U3]]. unfold taken, losses. split.
    - apply U3; [auto|apply grid_lt; lia|apply grid_range; lia].
    - apply U3; [|apply grid_lt; lia|apply grid_range; lia]. apply Rle_trans with (grid (i - 1)); auto. apply grid_le; lia. }
  destruct (global_cases f tol losses T) as [[i [b [Hi [Ti [E [G Best]]]]]]|[N [G1 [G2 G3]]]].
  - exists (snd b). split; auto.
    destruct (least (fun j => (1 <= j <= 99)%nat /\ taken losses j)) as [i0 [[Hi0 T0] Min]].
    { intros j. destruct (le_dec 1 j), (le_dec j 99); try (right; intros [[] _]; contradiction).
      destruct (Rlt_dec (losses (j - 1)%nat) (losses j)), (Rlt_dec (losses j) (losses (j + 1)%nat));
        unfold taken; [left; tauto| | |]; right; tauto. }
    { exists i. auto. }
    assert (Lo : grid (Nat.max (i0 - 2) 0) <= m).
    { destruct (le_lt_dec i0 1) as [L|L].
      - replace (Nat.max (i0 - 2) 0) with O by lia. rewrite grid_0. apply U.
      - rewrite Nat.max_0_r. destruct (Rle_lt_dec (grid (i0 - 2)) m) as [|Gt]; auto. exfalso.
        apply (Min (i0 - 1)%nat ltac:(lia)). split; [lia|]. apply Above; [lia|]. replace (i0 - 1 - 1)%nat with (i0 - 2)%nat by lia. lra. }
    assert (Hi0m : m < grid i0) by (apply Below; auto).
    assert (Hhi : grid i0 + 1/100 <= grid (Nat.min (i0 + 2) 100)) by (rewrite <- grid_S; apply grid_le; lia).
    destruct (around_bounds i0 ltac:(lia) ltac:(lia)) as [B1 [B2 B3]].
    destruct (golden_right f 0 1 m tol _ _ U B2 B3 B1 Lo T ltac:(lra)) as [l0 [p0 [E0 [D0 R0]]]].
    change (around f tol i0 = Val (l0, p0)) in E0.
    pose proof (Best i0 _ Hi0 T0 E0) as Le. simpl in Le.
    pose proof (Below i Hi Ti) as Him.
    destruct (around_bounds i ltac:(lia) ltac:(lia)) as [C1 [C2 C3]].
    destruct (Rle_lt_dec (grid (Nat.max (i - 2) 0)) m) as [In|Out].
    + assert (Hh : m <= grid (Nat.min (i + 2) 100)) by (assert (grid i <= grid (Nat.min (i + 2) 100)) by (apply grid_le; lia); lra).
      destruct (golden_unimodal f tol _ _ m C1 T (sub_unimodal _ _ _ _ _ _ U C2 C3 (conj In Hh))) as [l [p [E1 D]]].
      change (around f tol i = Val (l, p)) in E1. rewrite E in E1. inversion E1; subst b. simpl. lra.
    + set (lo := grid (Nat.max (i - 2) 0)) in *.
      assert (Ul : strictly_unimodal f lo (grid (Nat.min (i + 2) 100)) lo).
      { destruct U as [U1 [U2 U3]]. split; [lra|]. split; [intros; lra|]. intros x y Hx Hxy Hy. apply U3; lra. }
      destruct (golden_unimodal f tol _ _ lo C1 T Ul) as [l [p [E1 D]]].
      change (around f tol i = Val (l, p)) in E1. rewrite E in E1. inversion E1; subst b. simpl in *.
      destruct (around_inside f tol i T ltac:(lia) ltac:(lia)) as [l' [p' [z [E2 [_ [Z1 Z2]]]]]]. rewrite E in E2. inversion E2; subst l' p'.
      fold lo in Z1. destruct U as [U1 [U2 U3]]. assert (f lo < f z) by (apply U3; lra).
      pose proof (R0 lo ltac:(lra) ltac:(lra)). apply Rabs_le.
      assert (D' : - (tol / 2) <= p - lo <= tol / 2) by (revert D; unfold Rabs; destruct (Rcase_abs _); lra). lra.
  - assert (M98 : 98/100 < m).
    { destruct (Rlt_le_dec (98/100) m) as [|Gt]; auto. exfalso. apply (N 99%nat ltac:(lia)). apply Above; [lia|].
      change (99 - 1)%nat with 98%nat. rewrite grid_98. auto. }
    destruct Hm as [Hm|Hm]; [lra|].
    assert (F : losses 100%nat < losses O) by (unfold losses; rewrite grid_0, grid_100; auto).
    rewrite (G3 F). destruct U as [U1 U2].
    destruct (golden_unimodal f tol (98/100) 1 m ltac:(lra) T (sub_unimodal f 0 1 (98/100) 1 m (conj U1 U2) ltac:(lra) ltac:(lra) ltac:(lra))) as [l [p [E1 D]]].
    rewrite E1. exists p. split; [reflexivity|]. lra.
Qed.

(** ** Where it fails *)

(** Strictly unimodal, minimum at 0.99. *)
Definition steep (x : R) : R := if Rle_dec x (99/100) then 1 - x else 1/100 + 200 * (x - 99/100).

Lemma steep_unimodal : strictly_unimodal steep 0 1 (99/100).
Proof.
  split; [lra|]. unfold steep. split.
  - intros x y H1 H2 H3. destruct (Rle_dec x _), (Rle_dec y _); lra.
  - intros x y H1 H2 H3. destruct (Rle_dec x _), (Rle_dec y _); lra.
Qed.

Theorem global_unimodal_fails : forall tol, 0 < tol -> exists f m, strictly_unimodal f 0 1 m /\ m = 99/100 /\
  exists p, global_search_from f tol (fun i => f (grid i)) = Val p /\ p < 2/100.
Proof.
  intros tol T. exists steep, (99/100). split; [apply steep_unimodal|]. split; auto.
  destruct (global_cases steep tol (fun i => steep (grid i)) T) as [[i [b [Hi [[L1 L2] _]]]]|[N [G1 [G2 G3]]]].
  - exfalso. assert (grid (i - 1) < grid i) by (apply grid_lt; lia).
    assert (grid i <= 99/100).
    { assert (grid i <= grid 99) by (apply grid_le; lia). assert (grid 99 + 1/100 = 1) by (rewrite <- grid_S; apply grid_100). lra. }
    unfold steep in L1. destruct (Rle_dec (grid (i - 1)) _), (Rle_dec (grid i) _); lra.
  - rewrite G2.
    + destruct (golden_inside steep tol 0 (2/100) ltac:(lra) T) as [l [p [z [E [B _]]]]]. rewrite E. exists p. split; [reflexivity|lra].
    + rewrite grid_0, grid_100. unfold steep. destruct (Rle_dec 0 _), (Rle_dec 1 _); lra.
Qed.

(** Several minima: the deepest, at 1/2, is not looked at. *)
Definition notch (x : R) : R := if Rlt_dec x (1/2) then 1 - x else if Req_EM_T x (1/2) then -5 else 3 - x.

Theorem global_minimum_missed : forall tol, 0 < tol -> exists f m, minimises f 0 1 m /\ (forall x, 0 <= x <= 1 -> x <> m -> f m + 5 < f x) /\ m = 1/2 /\
  exists p, global_search_from f tol (fun i => f (grid i)) = Val p /\ p < 2/100.
Proof.
  intros tol T. exists notch, (1/2). split; [|split; [|split; [reflexivity|]]].
  - split; [lra|]. intros x Hx. unfold notch at 1. destruct (Rlt_dec (1/2) (1/2)); [lra|]. destruct (Req_EM_T (1/2) (1/2)); [|lra].
    unfold notch. destruct (Rlt_dec x (1/2)); [lra|]. destruct (Req_EM_T x (1/2)); lra.
  - intros x Hx Hn. unfold notch at 1. destruct (Rlt_dec (1/2) (1/2)); [lra|]. destruct (Req_EM_T (1/2) (1/2)); [|lra].
    unfold notch. destruct (Rlt_dec x (1/2)); [lra|]. destruct (Req_EM_T x (1/2)); [contradiction|lra].
  - destruct (global_cases notch tol (fun i => notch (grid i)) T) as [[i [b [Hi [[L1 L2] _]]]]|[N [G1 [G2 G3]]]].
    + exfalso. assert (H1 : grid (i - 1) < grid i) by (apply grid_lt; lia). assert (H2 : grid i < grid (i + 1)) by (apply grid_lt; lia).
      assert (H50 : grid 50 = 1/2) by (unfold grid; replace (INR 50) with 50 by (rewrite INR_IZR_INZ; auto); lra).
      destruct (le_lt_dec i 50) as [Le|Gt].
      * assert (grid i <= 1/2) by (rewrite <- H50; apply grid_le; auto). unfold notch in L1.
        destruct (Rlt_dec (grid (i - 1)) (1/2)); [|lra]. destruct (Rlt_dec (grid i) (1/2)); [lra|]. destruct (Req_EM_T (grid i) (1/2)); lra.
      * assert (1/2 < grid i) by (rewrite <- H50; apply grid_lt; auto). unfold notch in L2.
        destruct (Rlt_dec (grid i) (1/2)); [lra|]. destruct (Req_EM_T (grid i) (1/2)); [lra|].
        destruct (Rlt_dec (grid (i + 1)) (1/2)); [lra|]. destruct (Req_EM_T (grid (i + 1)) (1/2)); lra.
    + rewrite G2.
      * destruct (golden_inside notch tol 0 (2/100) ltac:(lra) T) as [l [p [z [E [B _]]]]]. rewrite E. exists p. split; [reflexivity|lra].
      * rewrite grid_0, grid_100. unfold notch. destruct (Rlt_dec 0 (1/2)); [|lra]. destruct (Rlt_dec 1 (1/2)); [lra|].
        destruct (Req_EM_T 1 (1/2)); lra.
Qed.
