(** * Proofs about data_utils.py *)

From Coq Require Import Reals List ZArith Bool Lia Lra.
From Verif Require Import Num M_Data L_Num.
Import ListNotations.
Open Scope R_scope.

Lemma scale_row_nth means scales row j : length row = length means -> length means = length scales -> (j < length row)%nat ->
  nth j (scale_row means scales row) 0 = (nth j row 0 - nth j means 0) / nth j scales 0.
Proof.
  unfold scale_row. revert means scales j. induction row as [|v row IH]; intros [|m means] [|s scales] [|j] H1 H2 H3; cbn in *; try lia; auto.
  apply IH; lia.
Qed.
Lemma scale_row_length means scales row : length row = length means -> length means = length scales ->
  length (scale_row means scales row) = length row.
Proof.
  unfold scale_row. revert means scales. induction row as [|v row IH]; intros [|m means] [|s scales] H1 H2; cbn in *; try lia; auto.
Qed.

Lemma nth_map_seq (f : nat -> R) k j : (j < k)%nat -> nth j (map f (seq 0 k)) 0 = f j.
Proof.
  intros H. rewrite (nth_indep _ _ (f O)) by (rewrite map_length, seq_length; lia).
  now rewrite (map_nth f), seq_nth by lia.
Qed.

Lemma normalize_val k train test : train <> [] -> test <> [] -> (0 < k)%nat ->
  Forall (fun r => length r = k) train -> Forall (fun r => length r = k) test ->
  exists means scales, length means = k /\ length scales = k /\
    (forall j, (j < k)%nat -> nth j means 0 = column_mean (col j train) /\ nth j scales 0 = column_scale (col j train)) /\
    normalize train test = Val (map (scale_row means scales) train, map (scale_row means scales) test).
Proof.
  intros H1 H2 Hk F1 F2. destruct train as [|first train]; [easy|]. inversion F1 as [|? ? L F1']; subst.
  exists (map (fun j => column_mean (col j (first :: train))) (seq 0 (length first))),
         (map (fun j => column_scale (col j (first :: train))) (seq 0 (length first))).
  rewrite !map_length, !seq_length. repeat split; auto.
  1,2: rewrite nth_map_seq by assumption; reflexivity.
  unfold normalize. destruct test as [|t test]; [easy|]. destruct first as [|v first]; [cbn in Hk; lia|]. cbv zeta.
  rewrite (proj2 (forallb_forall _ _)); [reflexivity|]. intros r Hr. rewrite Forall_forall in F2. now apply Nat.eqb_eq, F2.
Qed.

Lemma rsum_shift (c : list R) m : rsum (map (fun v => v - m) c) = rsum c - INR (length c) * m.
Proof. induction c; cbn [map rsum length]; [cbn; lra|]. rewrite IHc, S_INR. lra. Qed.
Lemma rsum_scaled (c : list R) s : rsum (map (fun v => v / s) c) = rsum c / s.
Proof. induction c; cbn [map rsum]; [unfold Rdiv; lra|]. rewrite IHc. unfold Rdiv. lra. Qed.
Lemma rsum_nonneg c : Forall (fun v => 0 <= v) c -> 0 <= rsum c.
Proof. induction 1; cbn; lra. Qed.
Lemma rsum_zero c : Forall (fun v => 0 <= v) c -> rsum c = 0 -> Forall (fun v => v = 0) c.
Proof.
  induction 1 as [|v c Hv F IH]; intros Hs; [constructor|]. pose proof (rsum_nonneg c F) as P. cbn [rsum] in Hs.
  constructor; [lra|]. apply IH. lra.
Qed.

Lemma column_var_nonneg c : 0 <= column_var c.
Proof.
  unfold column_var, rmean. destruct c as [|v c]; [cbn; unfold Rdiv; rewrite Rmult_0_l; lra|].
  apply Rmult_le_pos; [|left; apply Rinv_0_lt_compat, lt_0_INR; cbn; lia].
  apply rsum_nonneg, Forall_forall. intros r Hr. apply in_map_iff in Hr. destruct Hr as (u & <- & _). apply Rle_0_sqr.
Qed.
Lemma column_scale_pos c : 0 < column_scale c.
Proof.
  unfold column_scale. destruct (Req_EM_T (column_var c) 0); [lra|]. apply sqrt_lt_R0. pose proof (column_var_nonneg c). lra.
Qed.

Lemma standard_mean c : c <> [] -> rmean (map (fun v => (v - column_mean c) / column_scale c) c) = 0.
Proof.
  intros H. assert (P : 0 < INR (length c)) by (apply lt_0_INR; destruct c; [easy|cbn; lia]).
  unfold rmean. rewrite map_length.
  rewrite <- (map_map (fun v => v - column_mean c) (fun v => v / column_scale c)), rsum_scaled, rsum_shift.
  unfold column_mean, rmean. replace (rsum c - INR (length c) * (rsum c / INR (length c))) with 0 by (field; lra).
  unfold Rdiv. rewrite !Rmult_0_l. reflexivity.
Qed.
Lemma standard_square c : c <> [] -> column_var c <> 0 ->
  rmean (map (fun v => (v - column_mean c) / column_scale c * ((v - column_mean c) / column_scale c)) c) = 1.
Proof.
  intros H HV. unfold column_scale. destruct (Req_EM_T (column_var c) 0); [contradiction|].
  assert (P : 0 < column_var c) by (pose proof (column_var_nonneg c); lra).
  assert (PL : 0 < INR (length c)) by (apply lt_0_INR; destruct c; [easy|cbn; lia]).
  transitivity (column_var c / column_var c); [|field; lra].
  unfold rmean. rewrite map_length.
  assert (Q : forall l, rsum (map (fun v => (v - column_mean c) / sqrt (column_var c) * ((v - column_mean c) / sqrt (column_var c))) l) =
              rsum (map (fun v => (v - column_mean c) * (v - column_mean c)) l) / column_var c).
  { induction l; cbn [map rsum]; [unfold Rdiv; lra|]. rewrite IHl.
    assert (D : (a - column_mean c) / sqrt (column_var c) * ((a - column_mean c) / sqrt (column_var c)) =
                (a - column_mean c) * (a - column_mean c) / (sqrt (column_var c) * sqrt (column_var c)))
      by (field; apply Rgt_not_eq, sqrt_lt_R0, P).
    rewrite D, sqrt_sqrt by lra. unfold Rdiv. lra. }
  rewrite Q. unfold column_var at 2, rmean. rewrite map_length. field. split; lra.
Qed.
Lemma constant_column c : column_var c = 0 -> forall v, In v c -> v = column_mean c.
Proof.
  intros H v Hv. assert (P : 0 < INR (length c)) by (apply lt_0_INR; destruct c; [easy|cbn; lia]).
  unfold column_var, rmean at 1 in H. rewrite map_length in H.
  assert (Z0 : rsum (map (fun v => (v - column_mean c) * (v - column_mean c)) c) = 0).
  { apply (Rmult_eq_reg_r (/ INR (length c))); [|apply Rinv_neq_0_compat; lra]. unfold Rdiv in H. lra. }
  apply rsum_zero in Z0.
  - rewrite Forall_forall in Z0. assert (W : (v - column_mean c) * (v - column_mean c) = 0).
    { apply Z0, in_map_iff. exists v. auto. }
    nra.
  - apply Forall_forall. intros r Hr. apply in_map_iff in Hr. destruct Hr as (u & <- & _). apply Rle_0_sqr.
Qed.
Lemma same_mean (c : list R) a : c <> [] -> (forall v, In v c -> v = a) -> column_mean c = a.
Proof.
  intros H F. assert (P : 0 < INR (length c)) by (apply lt_0_INR; destruct c; [easy|cbn; lia]).
  unfold column_mean, rmean. assert (S : rsum c = INR (length c) * a).
  { clear H P. induction c; [cbn; lra|]. cbn [rsum length]. rewrite S_INR, IHc by (intros; apply F; now right).
    rewrite (F a0) by now left. lra. }
  rewrite S. field. lra.
Qed.
Lemma not_constant c a b : In a c -> In b c -> a <> b -> column_var c <> 0.
Proof. intros Ha Hb D Z0. apply D. rewrite (constant_column c Z0 a Ha), (constant_column c Z0 b Hb). reflexivity. Qed.

Lemma col_map_scale means scales k m j : length means = k -> length scales = k -> (j < k)%nat -> Forall (fun r => length r = k) m ->
  col j (map (scale_row means scales) m) = map (fun v => (v - nth j means 0) / nth j scales 0) (col j m).
Proof.
  intros H1 H2 Hj F. unfold col. rewrite !map_map. apply map_ext_in. intros r Hr. rewrite Forall_forall in F.
  specialize (F r Hr). apply scale_row_nth; lia.
Qed.

Theorem normalize_result k train test : train <> [] -> test <> [] -> (0 < k)%nat ->
  Forall (fun r => length r = k) train -> Forall (fun r => length r = k) test ->
  exists ntrain ntest, normalize train test = Val (ntrain, ntest) /\
    length ntrain = length train /\ length ntest = length test /\
    Forall (fun r => length r = k) ntrain /\ Forall (fun r => length r = k) ntest /\
    forall j, (j < k)%nat ->
      rmean (col j ntrain) = 0 /\
      ((exists a b, In a (col j train) /\ In b (col j train) /\ a <> b) -> rmean (map (fun v => v * v) (col j ntrain)) = 1) /\
      ((forall a b, In a (col j train) -> In b (col j train) -> a = b) -> Forall (fun v => v = 0) (col j ntrain)) /\
      exists m s, 0 < s /\
        col j ntrain = map (fun v => (v - m) / s) (col j train) /\ col j ntest = map (fun v => (v - m) / s) (col j test) /\
        ((forall a b, In a (col j train) -> In b (col j train) -> a = b) -> s = 1).
Proof.
  intros H1 H2 Hk F1 F2. destruct (normalize_val k train test H1 H2 Hk F1 F2) as (means & scales & L1 & L2 & V & ->).
  exists (map (scale_row means scales) train), (map (scale_row means scales) test).
  split; [reflexivity|]. rewrite !map_length. repeat split.
  1,2: apply Forall_forall; intros r Hr; apply in_map_iff in Hr; destruct Hr as (u & <- & Hu);
    rewrite Forall_forall in F1, F2; rewrite scale_row_length; auto; try (rewrite (F1 u Hu); lia); try (rewrite (F2 u Hu); lia); lia.
  - rewrite (col_map_scale means scales k) by assumption. destruct (V j H) as (-> & ->). apply standard_mean.
    unfold col. destruct train; [easy|discriminate].
  - intros (a & b & Ha & Hb & D). rewrite (col_map_scale means scales k) by assumption. destruct (V j H) as (-> & ->).
    rewrite map_map. apply standard_square; [destruct train; [easy|discriminate]|]. exact (not_constant _ a b Ha Hb D).
  - intros C. rewrite (col_map_scale means scales k) by assumption. destruct (V j H) as (-> & ->).
    apply Forall_forall. intros w Hw. apply in_map_iff in Hw. destruct Hw as (v & <- & Hv).
    rewrite (same_mean (col j train) v); [unfold Rdiv; lra| |intros; apply C; assumption].
    intros W. rewrite W in Hv. easy.
  - exists (nth j means 0), (nth j scales 0). destruct (V j H) as (Hm & Hs). split; [rewrite Hs; apply column_scale_pos|].
    split; [now apply col_map_scale with (k := k)|]. split; [now apply col_map_scale with (k := k)|].
    intros C. rewrite Hs. unfold column_scale. destruct (Req_EM_T (column_var (col j train)) 0) as [Z0|Z0]; [reflexivity|].
    exfalso. apply Z0. destruct train as [|r train]; [easy|].
    assert (Im : forall v, In v (col j (r :: train)) -> v = nth j r 0) by (intros v Hv; apply C; [exact Hv|now left]).
    assert (Mv := same_mean (col j (r :: train)) (nth j r 0) ltac:(discriminate) Im).
    unfold column_var. rewrite Mv. unfold rmean.
    assert (S0 : forall l, (forall v, In v l -> v = nth j r 0) -> rsum (map (fun v => (v - nth j r 0) * (v - nth j r 0)) l) = 0).
    { induction l as [|v l IH]; intros G; [reflexivity|]. cbn [map rsum]. rewrite IH by (intros; apply G; now right).
      rewrite (G v) by now left. lra. }
    rewrite S0 by exact Im. unfold Rdiv. lra.
Qed.

Theorem normalize_no_leak train test1 test2 n1 t1 n2 t2 :
  normalize train test1 = Val (n1, t1) -> normalize train test2 = Val (n2, t2) ->
  n1 = n2 /\ (forall k1 k2 r, nth_error test1 k1 = Some r -> nth_error test2 k2 = Some r -> nth_error t1 k1 = nth_error t2 k2) /\
  (forall k1 k2 r, nth_error train k1 = Some r -> nth_error test1 k2 = Some r -> nth_error n1 k1 = nth_error t1 k2).
Proof.
  unfold normalize. destruct train as [|first train]; [discriminate|]. destruct test1 as [|u1 test1]; [destruct first; discriminate|].
  destruct test2 as [|u2 test2]; [intros _; destruct first; discriminate|]. destruct first as [|v first]; [discriminate|]. cbv zeta.
  destruct (forallb _ (u1 :: test1)); [|discriminate]. destruct (forallb _ (u2 :: test2)); [|discriminate].
  intros H1 H2. injection H1. injection H2. intros. subst t1 t2 n1 n2.
  set (g := scale_row _ _). split; [reflexivity|]. split; intros k1 k2 r Hk1 Hk2.
  - change (nth_error (map g (u1 :: test1)) k1 = nth_error (map g (u2 :: test2)) k2). now rewrite !nth_error_map, Hk1, Hk2.
  - change (nth_error (map g ((v :: first) :: train)) k1 = nth_error (map g (u1 :: test1)) k2). now rewrite !nth_error_map, Hk1, Hk2.
Qed.

(** ** load_data *)
Lemma Int_part_IZR z : Int_part (IZR z) = z.
Proof. unfold Int_part. rewrite <- (tech_up (IZR z) (z + 1)); [lia|rewrite plus_IZR; lra..]. Qed.
Lemma truncate_IZR z : truncate (IZR z) = z.
Proof.
  unfold truncate. destruct (Rlt_dec (IZR z) 0); [|apply Int_part_IZR]. rewrite <- opp_IZR, Int_part_IZR. lia.
Qed.
Lemma truncate_spec r : Rabs (IZR (truncate r)) <= Rabs r < Rabs (IZR (truncate r)) + 1 /\ 0 <= IZR (truncate r) * r.
Proof.
  unfold truncate. destruct (Rlt_dec r 0) as [H|H].
  - pose proof (base_Int_part (- r)) as [B1 B2]. rewrite opp_IZR, Rabs_Ropp, (Rabs_left r) by lra.
    assert (0 <= IZR (Int_part (- r))). { apply IZR_le. enough (-1 < Int_part (- r))%Z by lia. apply lt_IZR. lra. }
    rewrite Rabs_right by lra. split; [lra|nra].
  - pose proof (base_Int_part r) as [B1 B2].
    assert (0 <= IZR (Int_part r)). { apply IZR_le. enough (-1 < Int_part r)%Z by lia. apply lt_IZR. lra. }
    rewrite !Rabs_right by lra. split; [lra|nra].
Qed.

Theorem load_round_trip k x y : length x = length y -> (2 <= length x)%nat -> (0 < k)%nat -> Forall (fun r => length r = k) x ->
  load_data (map (fun p => fst p ++ [IZR (snd p)]) (combine x y)) = Val (x, y).
Proof.
  intros L L2 Hk F. set (lines := map _ _).
  assert (LL : Forall (fun r => length r = S k) lines).
  { apply Forall_forall. intros r Hr. apply in_map_iff in Hr. destruct Hr as ([a b] & <- & Hab). cbn [fst snd].
    rewrite app_length. rewrite Forall_forall in F. rewrite (F a) by (eapply in_combine_l, Hab). cbn. lia. }
  assert (A : map (fun row => removelast row) lines = x).
  { unfold lines. rewrite map_map. clear - L. revert y L. induction x as [|a x IH]; intros [|b y] L; try discriminate; [reflexivity|].
    cbn. rewrite removelast_last, IH; [reflexivity|cbn in L; lia]. }
  assert (B : map (fun row => truncate (last row 0)) lines = y).
  { unfold lines. rewrite map_map. clear - L. revert y L. induction x as [|a x IH]; intros [|b y] L; try discriminate; [reflexivity|].
    cbn. rewrite last_last, truncate_IZR, IH; [reflexivity|cbn in L; lia]. }
  assert (N : length lines = length x) by (unfold lines; rewrite map_length, combine_length; lia).
  unfold load_data. destruct lines as [|l0 [|l1 rest]] eqn:El; [cbn in N; lia|cbn in N; lia|].
  pose proof (Forall_inv LL) as L0. cbv beta in L0. rewrite (proj2 (forallb_forall _ _)).
  - rewrite L0. destruct k; [lia|]. cbn [Nat.leb]. rewrite A. f_equal. f_equal. exact B.
  - intros r Hr. rewrite Forall_forall in LL. rewrite (LL r Hr), L0. apply Nat.eqb_refl.
Qed.

Theorem load_labels lines x y : load_data lines = Val (x, y) -> length y = length lines /\ length x = length lines /\
  forall k row, nth_error lines k = Some row ->
    exists a c z, row = a ++ [c] /\ a <> [] /\ nth_error x k = Some a /\ nth_error y k = Some z /\
      Rabs (IZR z) <= Rabs c < Rabs (IZR z) + 1 /\ 0 <= IZR z * c.
Proof.
  unfold load_data. destruct lines as [|l0 [|l1 rest]]; [discriminate|discriminate|].
  destruct (forallb _ _) eqn:Fb; [|discriminate]. destruct (Nat.leb_spec (length l0) 1); [discriminate|].
  intros H1. injection H1. intros. subst x y.
  split; [now cbn; rewrite map_length|]. split; [now cbn; rewrite map_length|].
  intros k row Hr. rewrite forallb_forall in Fb. pose proof (Fb row (nth_error_In _ _ Hr)) as Lr. apply Nat.eqb_eq in Lr.
  assert (NE : row <> []) by (intros ->; cbn in Lr; lia).
  exists (removelast row), (last row 0), (truncate (last row 0)). split; [now apply app_removelast_last|]. split.
  - intros W. pose proof (app_removelast_last 0 NE) as Q. rewrite W in Q. rewrite Q in Lr. cbn in Lr. lia.
  - change (removelast l0 :: removelast l1 :: map (fun row => removelast row) rest) with (map (fun row => removelast row) (l0 :: l1 :: rest)).
    change (truncate (last l0 0) :: truncate (last l1 0) :: map (fun row => truncate (last row 0)) rest)
      with (map (fun row => truncate (last row 0)) (l0 :: l1 :: rest)).
    rewrite !nth_error_map, Hr. split; [reflexivity|]. split; [reflexivity|]. apply truncate_spec.
Qed.
