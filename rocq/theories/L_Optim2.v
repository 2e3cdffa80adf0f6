(** * Proofs about nearest_pd and the L2 program. *)

From Coq Require Import Reals List ZArith Lia Lra Bool Arith.
From Verif Require Import Num Spec L_Num M_Optim Spec_Optim L_Optim.
Import ListNotations.
Open Scope R_scope.

Lemma sumn_pick : forall n k v, (k < n)%nat ->
  sumn n (fun i => if Nat.eqb i k then v else 0) = v.
Proof.
  intros n k v Hk. rewrite (sumn_single n k); [now rewrite Nat.eqb_refl|auto|].
  intros i Hi Ne. now rewrite (proj2 (Nat.eqb_neq i k) Ne).
Qed.

(** ** nearest_pd *)

Lemma push_up_spec : forall N fuel n sp k A P,
  symmetric n A -> push_up N fuel n sp k A = Some P -> symmetric n P /\ is_pd n P = true.
Proof.
  induction fuel; intros n sp k A P Hs H; simpl in H; destruct (is_pd n A) eqn:E.
  - inversion H; subst; auto.
  - discriminate.
  - inversion H; subst; auto.
  - apply IHfuel in H; auto. intros i j Hi Hj. cbv beta. rewrite (Hs i j Hi Hj), (Nat.eqb_sym i j).
    reflexivity.
Qed.

Lemma average_transpose_sym : forall n A, symmetric n (average A (transpose A)).
Proof. intros n A i j _ _. unfold average, transpose. lra. Qed.

Lemma nearest_pd_spec : forall N fuel n A P, nearest_pd N fuel n A = Some P ->
  symmetric n P /\ is_pd n P = true.
Proof.
  intros N fuel n A P H. unfold nearest_pd in H. destruct (svd N n _) as [s V].
  destruct (is_pd n (average _ (transpose _))) eqn:E in H.
  - inversion H; subst. split; auto. apply average_transpose_sym.
  - eapply push_up_spec; [|exact H]. apply average_transpose_sym.
Qed.

Lemma nearest_pd_pd : forall N fuel n A P, nearest_pd N fuel n A = Some P ->
  symmetric n P /\ positive_definite n P.
Proof.
  intros N fuel n A P H. apply nearest_pd_spec in H. destruct H as [S H]. split; auto.
  apply is_pd_sym; auto.
Qed.

Lemma ensure_pd_pd : forall N fuel n A P, symmetric n A -> ensure_pd N fuel n A = Some P ->
  symmetric n P /\ positive_definite n P.
Proof.
  intros N fuel n A P S H. unfold ensure_pd in H. destruct (is_pd n A) eqn:E.
  - inversion H; subst. split; auto. apply is_pd_sym; auto.
  - eapply nearest_pd_pd; eauto.
Qed.

Lemma ensure_pd_same : forall N fuel n A, symmetric n A -> positive_definite n A ->
  ensure_pd N fuel n A = Some A.
Proof.
  intros N fuel n A S H. unfold ensure_pd. rewrite (proj2 (is_pd_sym n A S)); auto.
Qed.

Definition unit_shift (A : matrix) (c : R) : matrix :=
  fun i j => A i j + (if Nat.eqb i j then 1 else 0) * c.

Lemma quad_shift : forall n A c x,
  quad n (unit_shift A c) x = quad n A x + c * sumn n (fun i => x i * x i).
Proof.
  intros n A c x. unfold quad, unit_shift. rewrite <- sumn_scal, <- sumn_plus.
  apply sumn_ext. intros i Hi.
  rewrite (sumn_ext n _ (fun j => x i * A i j * x j +
             (if Nat.eqb j i then c * (x i * x i) else 0))).
  - rewrite sumn_plus. f_equal. apply sumn_pick. auto.
  - intros j Hj. rewrite (Nat.eqb_sym j i). destruct (Nat.eqb_spec i j); [subst|]; ring.
Qed.

Lemma norm_pos : forall n (x : nat -> R), (exists i, (i < n)%nat /\ x i <> 0) ->
  0 < sumn n (fun i => x i * x i).
Proof.
  intros n x (i & Hi & Hx).
  pose proof (sumn_ge_term n (fun i => x i * x i) i) as H. cbv beta in H.
  assert (x i * x i <= sumn n (fun i => x i * x i)).
  { apply H; auto. intros; apply Rle_0_sqr. }
  assert (0 < x i * x i) by (apply Rlt_0_sqr; auto). lra.
Qed.

Lemma norm_nonneg : forall n (x : nat -> R), 0 <= sumn n (fun i => x i * x i).
Proof. intros. apply sumn_nonneg. intros. apply Rle_0_sqr. Qed.

Lemma unit_shift_sym : forall n A c, symmetric n A -> symmetric n (unit_shift A c).
Proof.
  intros n A c Hs i j Hi Hj. unfold unit_shift. now rewrite (Hs i j Hi Hj), (Nat.eqb_sym i j).
Qed.

Lemma push_up_S : forall N fuel n sp k A, is_pd n A = false ->
  push_up N (S fuel) n sp k A =
  push_up N fuel n sp (S k) (unit_shift A (- min_eigenvalue N n A * INR k ^ 2 + sp)).
Proof. intros. simpl. rewrite H. reflexivity. Qed.

Lemma push_up_pd : forall N fuel n sp k A, is_pd n A = true -> push_up N fuel n sp k A = Some A.
Proof. intros. destruct fuel; simpl; now rewrite H. Qed.

Lemma nearest_pd_terminates : forall N fuel n A err,
  (1 <= fuel)%nat ->
  err < spacing N (frobenius n A) ->
  (forall M, symmetric n M -> eigenvalue_bound n M (min_eigenvalue N n M - err)) ->
  exists P, nearest_pd N fuel n A = Some P.
Proof.
  intros N fuel n A err Hf Hsp He. unfold nearest_pd. destruct (svd N n _) as [s V].
  set (A2 := average (average A (transpose A)) (recompose n s V)).
  set (A3 := average A2 (transpose A2)).
  assert (S3 : symmetric n A3) by apply average_transpose_sym.
  destruct (is_pd n A3) eqn:E; [eauto|].
  destruct fuel as [|fuel]; [lia|].
  rewrite push_up_S by auto. rewrite push_up_pd; [eauto|].
  apply is_pd_sym; [now apply unit_shift_sym|].
  intros x Hx. rewrite quad_shift. specialize (He A3 S3 x).
  pose proof (norm_pos n x Hx) as Hn. set (q := sumn n (fun i => x i * x i)) in *.
  set (m := min_eigenvalue N n A3) in *. set (sp := spacing N (frobenius n A)) in *.
  simpl. nra.
Qed.

(** ** Uniqueness of the positive semidefinite square root, as far as nearest_pd needs it *)

Definition bil (n : nat) (A : matrix) (x y : nat -> R) : R :=
  sumn n (fun i => sumn n (fun j => x i * A i j * y j)).

Lemma bil_sym : forall n A x y, symmetric n A -> bil n A x y = bil n A y x.
Proof.
  intros n A x y Hs. unfold bil. rewrite sumn_swap. apply sumn_ext. intros i Hi.
  apply sumn_ext. intros j Hj. rewrite (Hs j i) by auto. ring.
Qed.

Lemma quad_line : forall n A x y t, symmetric n A ->
  quad n A (fun i => x i + t * y i) = quad n A x + 2 * t * bil n A y x + t * t * quad n A y.
Proof.
  intros n A x y t Hs.
  assert (E : quad n A (fun i => x i + t * y i) =
    quad n A x + t * bil n A x y + t * bil n A y x + t * t * quad n A y).
  { unfold quad, bil. rewrite <- !sumn_scal, <- !sumn_plus. apply sumn_ext. intros i Hi.
    rewrite <- !sumn_scal, <- !sumn_plus. apply sumn_ext. intros j Hj. ring. }
  rewrite E, (bil_sym n A x y Hs). ring.
Qed.

Lemma psd_kernel : forall n A v, symmetric n A -> positive_semidefinite n A -> quad n A v = 0 ->
  forall i, (i < n)%nat -> sumn n (fun j => A i j * v j) = 0.
Proof.
  intros n A v Hs Hp Hv.
  set (w := fun i => sumn n (fun j => A i j * v j)).
  assert (Ew : bil n A w v = sumn n (fun i => w i * w i)).
  { unfold bil. apply sumn_ext. intros i Hi. unfold w at 3. rewrite <- sumn_scal.
    apply sumn_ext. intros; ring. }
  set (a := sumn n (fun i => w i * w i)) in *. set (q := quad n A w).
  assert (Hq : 0 <= q) by apply Hp.
  assert (Ha : 0 <= a) by apply norm_nonneg.
  assert (a = 0).
  { pose proof (Hp (fun i => v i + (- a / (q + 1)) * w i)) as H.
    rewrite quad_line in H by auto. rewrite Hv, Ew in H. fold q in H.
    replace (0 + 2 * (- a / (q + 1)) * a + - a / (q + 1) * (- a / (q + 1)) * q)
      with (- (a * a * ((q + 2) / ((q + 1) * (q + 1))))) in H by (field; lra).
    assert (0 < (q + 2) / ((q + 1) * (q + 1))).
    { apply Rdiv_lt_0_compat; nra. }
    assert (a * a <= 0) by nra. nra. }
  intros i Hi. pose proof (sumn_zero_all n (fun i => w i * w i)) as Z. cbv beta in Z.
  specialize (Z (fun i _ => Rle_0_sqr (w i)) H i Hi). apply Rsqr_0_uniq. exact Z.
Qed.

Definition tr3 (n : nat) (X Y Z : matrix) : R :=
  sumn n (fun i => sumn n (fun l => sumn n (fun k => X i l * Y l k * Z k i))).

Lemma tr3_cyc : forall n X Y Z, tr3 n X Y Z = tr3 n Y Z X.
Proof.
  intros n X Y Z. unfold tr3. rewrite sumn_swap. apply sumn_ext. intros l Hl.
  rewrite sumn_swap. apply sumn_ext. intros k Hk. apply sumn_ext. intros i Hi. ring.
Qed.

Lemma tr3_prod : forall n X Y Z,
  tr3 n X Y Z = sumn n (fun i => sumn n (fun k => sumn n (fun l => X i l * Y l k) * Z k i)).
Proof.
  intros. unfold tr3. apply sumn_ext. intros i Hi. rewrite sumn_swap. apply sumn_ext. intros k Hk.
  now rewrite <- sumn_scal_r.
Qed.

Definition prod (n : nat) (X Y : matrix) : matrix := fun i k => sumn n (fun l => X i l * Y l k).

Lemma tr3_ext : forall n X Y X' Y' Z,
  (forall i k, (i < n)%nat -> (k < n)%nat -> prod n X Y i k = prod n X' Y' i k) ->
  tr3 n X Y Z = tr3 n X' Y' Z.
Proof.
  intros. rewrite !tr3_prod. apply sumn_ext. intros i Hi. apply sumn_ext. intros k Hk.
  f_equal. apply (H i k); auto.
Qed.

Lemma tr3_expand : forall n B H,
  tr3 n (fun i j => B i j - H i j) (fun i j => B i j + H i j) (fun i j => B i j - H i j) =
  tr3 n B B B - tr3 n B B H + tr3 n B H B - tr3 n B H H
  - tr3 n H B B + tr3 n H B H - tr3 n H H B + tr3 n H H H.
Proof.
  intros n B H. unfold tr3.
  repeat (rewrite <- sumn_minus || rewrite <- sumn_plus). apply sumn_ext. intros i Hi.
  repeat (rewrite <- sumn_minus || rewrite <- sumn_plus). apply sumn_ext. intros l Hl.
  repeat (rewrite <- sumn_minus || rewrite <- sumn_plus). apply sumn_ext. intros k Hk. ring.
Qed.

Lemma psd_root_unique : forall n B H,
  symmetric n B -> symmetric n H -> positive_semidefinite n B -> positive_semidefinite n H ->
  (forall i k, (i < n)%nat -> (k < n)%nat -> prod n B B i k = prod n H H i k) ->
  forall i j, (i < n)%nat -> (j < n)%nat -> B i j = H i j.
Proof.
  intros n B H SB SH PB PH E.
  set (D := fun i j => B i j - H i j).
  assert (SD : symmetric n D).
  { intros i j Hi Hj. unfold D. rewrite (SB i j), (SH i j); auto. }
  assert (T0 : tr3 n D (fun i j => B i j + H i j) D = 0).
  { unfold D. rewrite tr3_expand.
    rewrite (tr3_cyc n H B B), (tr3_cyc n B H B), (tr3_cyc n H B B).
    rewrite (tr3_cyc n H B H), (tr3_cyc n H H B), (tr3_cyc n H B H).
    rewrite (tr3_ext n B B H H B), (tr3_ext n B B H H H) by auto.
    rewrite (tr3_cyc n H H B), (tr3_cyc n H B H). ring. }
  assert (Q : forall j, (j < n)%nat ->
    quad n B (fun a => D a j) = 0 /\ quad n H (fun a => D a j) = 0).
  { assert (S0 : sumn n (fun j => quad n B (fun a => D a j) + quad n H (fun a => D a j)) = 0).
    { rewrite <- T0. unfold tr3. apply sumn_ext. intros j Hj. unfold quad.
      rewrite <- sumn_plus. apply sumn_ext. intros a Ha. rewrite <- sumn_plus.
      apply sumn_ext. intros b Hb. rewrite (SD a j) by auto. ring. }
    intros j Hj.
    pose proof (sumn_zero_all n (fun j => quad n B (fun a => D a j) + quad n H (fun a => D a j)))
      as Z. cbv beta in Z.
    assert (Z1 : quad n B (fun a => D a j) + quad n H (fun a => D a j) = 0).
    { apply Z; auto. intros i Hi. pose proof (PB (fun a => D a i)). pose proof (PH (fun a => D a i)).
      lra. }
    pose proof (PB (fun a => D a j)). pose proof (PH (fun a => D a j)). split; lra. }
  intros i j Hi Hj.
  destruct (Q j Hj) as [Q1 Q2].
  pose proof (psd_kernel n B _ SB PB Q1 j Hj) as K1.
  pose proof (psd_kernel n H _ SH PH Q2 j Hj) as K2. cbv beta in K1, K2.
  assert (K : sumn n (fun a => D a j * D a j) = 0).
  { rewrite <- (Rminus_diag_eq _ _ (eq_trans K1 (eq_sym K2))). rewrite <- sumn_minus.
    apply sumn_ext. intros a Ha. rewrite (SD a j) at 1 by auto. unfold D at 1. ring. }
  pose proof (sumn_zero_all n (fun a => D a j * D a j) (fun a _ => Rle_0_sqr (D a j)) K i Hi) as Z.
  apply Rsqr_0_uniq in Z. unfold D in Z. lra.
Qed.

(** ** The polar factor computed by nearest_pd *)

Lemma recompose_quad : forall n s V x,
  quad n (recompose n s V) x =
  sumn n (fun l => s l * (sumn n (fun j => V l j * x j) * sumn n (fun j => V l j * x j))).
Proof.
  intros n s V x. unfold quad, recompose.
  rewrite (sumn_ext n (fun l => s l * _)
     (fun l => sumn n (fun i => sumn n (fun j => s l * ((V l i * x i) * (V l j * x j)))))).
  - symmetry. rewrite sumn_swap. apply sumn_ext. intros i Hi.
    rewrite sumn_swap. apply sumn_ext. intros j Hj.
    rewrite <- sumn_scal, <- sumn_scal_r. apply sumn_ext. intros; ring.
  - intros l Hl. rewrite sumn_sq. rewrite <- sumn_scal. apply sumn_ext. intros i Hi.
    now rewrite <- sumn_scal.
Qed.

Lemma recompose_psd : forall n s V, (forall l, (l < n)%nat -> 0 <= s l) ->
  positive_semidefinite n (recompose n s V).
Proof.
  intros n s V Hs x. rewrite recompose_quad. apply sumn_nonneg. intros l Hl.
  apply Rmult_le_pos; [auto|apply Rle_0_sqr].
Qed.

Lemma recompose_sym : forall n s V, symmetric n (recompose n s V).
Proof. intros n s V i j Hi Hj. unfold recompose. apply sumn_ext. intros; ring. Qed.

Lemma delta_sum : forall n (f : nat -> R) k, (k < n)%nat -> sumn n (fun l => delta k l * f l) = f k.
Proof.
  intros n f k Hk. rewrite (sumn_ext n _ (fun l => if Nat.eqb l k then f k else 0)).
  - apply sumn_pick. auto.
  - intros l Hl. unfold delta. rewrite (Nat.eqb_sym k l).
    destruct (Nat.eqb_spec l k); [subst|]; ring.
Qed.

(** [(sum_l W l i s_l V l j)] composed: X = W^T S V with rows of V orthonormal. *)
Lemma prod_through : forall n (P Q : matrix) s t W,
  (forall k l, (k < n)%nat -> (l < n)%nat -> sumn n (fun a => W k a * W l a) = delta k l) ->
  forall i j, sumn n (fun a => sumn n (fun k => P i k * (s k * W k a)) *
                               sumn n (fun l => Q j l * (t l * W l a)))
            = sumn n (fun k => P i k * (s k * t k) * Q j k).
Proof.
  intros n P Q s t W HW i j.
  rewrite (sumn_ext n _ (fun a => sumn n (fun k => sumn n (fun l =>
     (P i k * s k * (Q j l * t l)) * (W k a * W l a))))).
  - rewrite sumn_swap. apply sumn_ext. intros k Hk. rewrite sumn_swap.
    rewrite (sumn_ext n _ (fun l => delta k l * (P i k * s k * (Q j l * t l)))).
    + rewrite (delta_sum n (fun l => P i k * s k * (Q j l * t l))) by auto. ring.
    + intros l Hl. rewrite sumn_scal, HW by auto. ring.
  - intros a Ha. rewrite <- sumn_scal_r. apply sumn_ext. intros k Hk. rewrite <- sumn_scal.
    apply sumn_ext. intros l Hl. ring.
Qed.

Lemma polar_square : forall n B s V, symmetric n B -> singular_values n B s V ->
  forall i k, (i < n)%nat -> (k < n)%nat ->
    prod n B B i k = prod n (recompose n s V) (recompose n s V) i k.
Proof.
  intros n B s V SB (Hs & OV & U & OU & HB) i k Hi Hk. unfold prod.
  (* H H = V^T S^2 V *)
  assert (EH : sumn n (fun l => recompose n s V i l * recompose n s V l k) =
               sumn n (fun l => V l i * (s l * s l) * V l k)).
  { rewrite (sumn_ext n _ (fun a => sumn n (fun l => V l i * (s l * V l a)) *
                                    sumn n (fun l => V l k * (s l * V l a)))).
    - apply (prod_through n (fun i l => V l i) (fun k l => V l k) s s V).
      intros a b Ha Hb. apply (OV a b Ha Hb).
    - intros a Ha. f_equal. rewrite (recompose_sym n s V a k Ha Hk). reflexivity. }
  rewrite EH.
  (* B B = B^T B = V^T S^2 V *)
  rewrite (sumn_ext n _ (fun a => sumn n (fun l => V l i * (s l * U a l)) *
                                  sumn n (fun l => V l k * (s l * U a l)))).
  - apply (prod_through n (fun i l => V l i) (fun k l => V l k) s s (fun l a => U a l)).
    intros a b Ha Hb. apply (OU a b Ha Hb).
  - intros a Ha. rewrite (SB i a) by auto. rewrite (HB a i), (HB a k) by auto.
    f_equal; apply sumn_ext; intros; ring.
Qed.

Lemma polar_psd : forall n B s V, symmetric n B -> positive_semidefinite n B ->
  singular_values n B s V ->
  forall i j, (i < n)%nat -> (j < n)%nat -> recompose n s V i j = B i j.
Proof.
  intros n B s V SB PB HS i j Hi Hj. symmetry. apply (psd_root_unique n B); auto.
  - apply recompose_sym.
  - apply recompose_psd. apply HS.
  - apply polar_square; auto.
Qed.

Lemma is_pd_ext : forall n A B, (forall i j, (i < n)%nat -> (j < n)%nat -> A i j = B i j) ->
  is_pd n A = is_pd n B.
Proof.
  intros n A B H.
  assert (W : forall A B, (forall i j, (i < n)%nat -> (j < n)%nat -> A i j = B i j) ->
    is_pd n A = true -> is_pd n B = true).
  { clear. intros A B H E. apply is_pd_upper. apply is_pd_upper in E. revert E. apply pd_ext.
    intros i j Hi Hj. unfold from_upper_triangle. apply H; lia. }
  destruct (is_pd n A) eqn:EA, (is_pd n B) eqn:EB; auto.
  - rewrite <- EB. symmetry. apply (W A B); auto.
  - rewrite <- EA. apply (W B A); auto. intros. symmetry. auto.
Qed.

Lemma smallest_zero : forall n A m, symmetric n A -> positive_semidefinite n A ->
  ~ positive_definite n A -> smallest_eigenvalue n A m -> m = 0.
Proof.
  intros n A m Hs Hp Hn (Hb & x & Hx & He).
  assert (Q : quad n A x = m * sumn n (fun i => x i * x i)).
  { unfold quad. rewrite <- sumn_scal. apply sumn_ext. intros i Hi.
    rewrite (sumn_ext n _ (fun j => x i * (A i j * x j))) by (intros; ring).
    rewrite sumn_scal, He by auto. ring. }
  pose proof (norm_pos n x Hx) as Px. pose proof (Hp x) as Qx. rewrite Q in Qx.
  destruct (Rtotal_order m 0) as [L|[E|G]]; [nra|auto|].
  exfalso. apply Hn. intros z Hz. pose proof (norm_pos n z Hz). pose proof (Hb z). nra.
Qed.

(** On a singular positive semidefinite matrix, with exact linear algebra, nearest_pd adds the
    spacing to the diagonal. *)
Lemma nearest_pd_psd : forall N fuel n A,
  (1 <= fuel)%nat ->
  symmetric n A -> positive_semidefinite n A -> ~ positive_definite n A ->
  0 < spacing N (frobenius n A) ->
  (forall B, agree n B A -> singular_values n B (fst (svd N n B)) (snd (svd N n B))) ->
  (forall M, agree n M A -> smallest_eigenvalue n M (min_eigenvalue N n M)) ->
  exists P, nearest_pd N fuel n A = Some P /\
    forall i j, (i < n)%nat -> (j < n)%nat ->
      P i j = unit_shift A (spacing N (frobenius n A)) i j.
Proof.
  intros N fuel n A Hf SA PA NA Hsp Hsvd Heig. unfold nearest_pd.
  set (B := average A (transpose A)).
  assert (SB : symmetric n B) by apply average_transpose_sym.
  assert (EB : forall i j, (i < n)%nat -> (j < n)%nat -> B i j = A i j).
  { intros i j Hi Hj. unfold B, average, transpose. rewrite (SA j i) by auto. lra. }
  assert (PB : positive_semidefinite n B).
  { intros x. rewrite (quad_ext n B A x x); auto. }
  specialize (Hsvd B EB). destruct (svd N n B) as [s V]. simpl in Hsvd.
  pose proof (polar_psd n B s V SB PB Hsvd) as EH.
  set (A2 := average B (recompose n s V)).
  set (A3 := average A2 (transpose A2)).
  assert (S3 : symmetric n A3) by apply average_transpose_sym.
  assert (E3 : forall i j, (i < n)%nat -> (j < n)%nat -> A3 i j = A i j).
  { intros i j Hi Hj. unfold A3, A2, average, transpose. rewrite !EH, !EB by auto.
    rewrite (SA j i) by auto. lra. }
  assert (N3 : is_pd n A3 = false).
  { rewrite (is_pd_ext n A3 A) by auto. destruct (is_pd n A) eqn:E; auto.
    exfalso. apply NA. apply is_pd_sym; auto. }
  rewrite N3. destruct fuel as [|fuel]; [lia|]. rewrite push_up_S by auto.
  assert (M0 : min_eigenvalue N n A3 = 0).
  { apply (smallest_zero n A3); auto.
    - intros x. rewrite (quad_ext n A3 A x x); auto.
    - intros Q. apply NA. revert Q. apply pd_ext. auto. }
  rewrite M0.
  rewrite push_up_pd.
  - eexists. split; [reflexivity|]. intros i j Hi Hj. unfold unit_shift. rewrite E3 by auto.
    simpl. ring.
  - apply is_pd_sym; [now apply unit_shift_sym|]. intros x Hx. rewrite quad_shift.
    rewrite (quad_ext n A3 A x x) by auto. pose proof (PA x). pose proof (norm_pos n x Hx).
    simpl. nra.
Qed.

(** ** The L2 program *)

Lemma l2_constraints : forall n x,
  qp_feasible n (S n) l2_C l2_b 1 x <-> distribution_over n x.
Proof.
  intros n x. unfold qp_feasible, distribution_over, distribution.
  assert (E0 : length x = n -> sumn n (fun i => l2_C i O * nth i x 0) = rsum x).
  { intros L. rewrite <- sumn_nth, L. apply sumn_ext. intros; simpl; ring. }
  assert (ES : forall j, (j < n)%nat -> sumn n (fun i => l2_C i (S j) * nth i x 0) = nth j x 0).
  { intros j Hj. simpl. rewrite (sumn_ext n _ (fun i => if Nat.eqb i j then nth j x 0 else 0)).
    - apply sumn_pick. auto.
    - intros i Hi. destruct (Nat.eqb_spec i j); [subst|]; ring. }
  split.
  - intros (L & H). split; [auto|]. split.
    + apply Forall_forall. intros v Hv. apply (In_nth x v 0) in Hv. destruct Hv as (j & Hj & <-).
      rewrite L in Hj. destruct (H (S j)) as [H1 _]; [lia|]. rewrite ES in H1 by auto. exact H1.
    + destruct (H O) as [_ H1]; [lia|]. rewrite E0 in H1 by auto. simpl in H1. apply H1. lia.
  - intros (L & Hn & Hs). split; [auto|]. intros j Hj. destruct j as [|j].
    + rewrite E0 by auto. simpl. split; [lra|intros; lra].
    + rewrite ES by lia. simpl. split; [|lia].
      rewrite Forall_forall in Hn. apply Hn. apply nth_In. lia.
Qed.

Lemma gram2_sym : forall d n T, symmetric n (gram2 d T).
Proof. intros d n T i j _ _. unfold gram2. f_equal. apply sumn_ext. intros; ring. Qed.

Lemma gram2_quad : forall d n T x, quad n (gram2 d T) x =
  2 * sumn d (fun r => sumn n (fun j => T r j * x j) * sumn n (fun j => T r j * x j)).
Proof.
  intros d n T x. rewrite <- quad_gram. unfold quad, gram2. rewrite <- sumn_scal.
  apply sumn_ext. intros i Hi. rewrite <- sumn_scal. apply sumn_ext. intros j Hj. ring.
Qed.

Lemma gram2_psd : forall d n T, positive_semidefinite n (gram2 d T).
Proof.
  intros d n T x. rewrite gram2_quad. apply Rmult_le_pos; [lra|].
  apply sumn_nonneg. intros. apply Rle_0_sqr.
Qed.

(** No non-trivial combination of the [n] columns is zero. *)
Lemma gram2_pd : forall d n T,
  (forall x, (exists i, (i < n)%nat /\ x i <> 0) ->
     exists r, (r < d)%nat /\ sumn n (fun j => T r j * x j) <> 0) ->
  positive_definite n (gram2 d T).
Proof.
  intros d n T H x Hx. rewrite gram2_quad. apply Rmult_lt_0_compat; [lra|].
  apply (norm_pos d (fun r => sumn n (fun j => T r j * x j))). auto.
Qed.

Lemma l2_objective : forall d n T t x,
  qp_objective n (gram2 d T) (fun i => 2 * sumn d (fun r => T r i * nth r t 0)) x =
  squared_l2 d n T t x - sumn d (fun r => nth r t 0 * nth r t 0).
Proof.
  intros d n T t x. unfold qp_objective. rewrite gram2_quad. unfold squared_l2, mixture_at.
  rewrite (sumn_ext n _ (fun i => sumn d (fun r => 2 * (T r i * nth i x 0) * nth r t 0))).
  - rewrite (sumn_swap n d). rewrite <- Rmult_assoc, Rinv_l, Rmult_1_l by lra.
    rewrite <- !sumn_minus. apply sumn_ext. intros r Hr.
    rewrite sumn_scal_r, sumn_scal. ring.
  - intros i Hi. rewrite <- sumn_scal, <- sumn_scal_r. apply sumn_ext. intros; ring.
Qed.

Lemma qp_objective_ext : forall n G G' a x,
  (forall i j, (i < n)%nat -> (j < n)%nat -> G i j = G' i j) ->
  qp_objective n G a x = qp_objective n G' a x.
Proof. intros. unfold qp_objective. rewrite (quad_ext n G G' _ (fun i => nth i x 0)); auto. Qed.

Lemma qp_objective_shift : forall n G c a x,
  qp_objective n (unit_shift G c) a x =
  qp_objective n G a x + c / 2 * sumn n (fun i => nth i x 0 * nth i x 0).
Proof. intros. unfold qp_objective. rewrite quad_shift. lra. Qed.

Lemma l2_any : forall N fuel d n T t G C b p,
  exact_qp (solve_qp N) ->
  compute_l2_param_train N fuel d n T = Some (G, C, b) ->
  solve_l2 N d n T t G C b = Val p ->
  distribution_over n p /\
  forall q, distribution_over n q ->
    qp_objective n G (fun i => 2 * sumn d (fun r => T r i * nth r t 0)) p <=
    qp_objective n G (fun i => 2 * sumn d (fun r => T r i * nth r t 0)) q.
Proof.
  intros N fuel d n T t G C b p HQ HT HS.
  unfold compute_l2_param_train in HT. destruct (ensure_pd N fuel n (gram2 d T)) as [P|] eqn:E;
    [|discriminate].
  inversion HT; subst G C b. clear HT.
  destruct (ensure_pd_pd N fuel n _ P (gram2_sym d n T) E) as [SP PP].
  unfold solve_l2 in HS. destruct (Nat.eqb (length t) d); [|discriminate].
  destruct (solve_qp N n (S n) P _ l2_C l2_b 1) as [x|] eqn:EQ; [|discriminate].
  inversion HS; subst x. apply HQ in EQ; auto. destruct EQ as [F O]. split.
  - now apply l2_constraints.
  - intros q Hq. apply O. now apply l2_constraints.
Qed.

Lemma l2_best : forall N fuel d n T t G C b p,
  exact_qp (solve_qp N) ->
  positive_definite n (gram2 d T) ->
  compute_l2_param_train N fuel d n T = Some (G, C, b) ->
  solve_l2 N d n T t G C b = Val p ->
  best_distribution n (squared_l2 d n T t) p.
Proof.
  intros N fuel d n T t G C b p HQ HP HT HS.
  destruct (l2_any N fuel d n T t G C b p HQ HT HS) as [D O]. split; [auto|].
  unfold compute_l2_param_train in HT. rewrite ensure_pd_same in HT; auto using gram2_sym.
  inversion HT; subst G C b. intros q Hq. specialize (O q Hq). rewrite !l2_objective in O. lra.
Qed.

Lemma distribution_norm : forall n p, distribution_over n p ->
  0 <= sumn n (fun i => nth i p 0 * nth i p 0) <= 1.
Proof.
  intros n p (L & Hn & Hs). split; [apply norm_nonneg|].
  rewrite <- Hs, <- sumn_nth, L. apply sumn_le. intros i Hi.
  rewrite Forall_forall in Hn.
  assert (0 <= nth i p 0) by (apply Hn; apply nth_In; lia).
  assert (nth i p 0 <= 1).
  { rewrite <- Hs. apply rsum_in_le; [now apply Forall_forall|]. apply nth_In. lia. }
  nra.
Qed.

Lemma l2_nearly_best : forall N fuel d n T t G C b p,
  (1 <= fuel)%nat ->
  exact_qp (solve_qp N) ->
  0 < spacing N (frobenius n (gram2 d T)) ->
  (forall B, agree n B (gram2 d T) -> singular_values n B (fst (svd N n B)) (snd (svd N n B))) ->
  (forall M, agree n M (gram2 d T) -> smallest_eigenvalue n M (min_eigenvalue N n M)) ->
  compute_l2_param_train N fuel d n T = Some (G, C, b) ->
  solve_l2 N d n T t G C b = Val p ->
  nearly_best_distribution n (spacing N (frobenius n (gram2 d T)) / 2) (squared_l2 d n T t) p.
Proof.
  intros N fuel d n T t G C b p Hf HQ Hsp Hsvd Heig HT HS.
  destruct (l2_any N fuel d n T t G C b p HQ HT HS) as [D O]. split; [auto|].
  intros q Hq.
  destruct (is_pd n (gram2 d T)) eqn:E.
  - apply is_pd_sym in E; [|apply gram2_sym].
    pose proof (proj2 (l2_best N fuel d n T t G C b p HQ E HT HS) q Hq). lra.
  - assert (NP : ~ positive_definite n (gram2 d T)).
    { intros P. apply is_pd_sym in P; [congruence|apply gram2_sym]. }
    destruct (nearest_pd_psd N fuel n (gram2 d T) Hf (gram2_sym d n T) (gram2_psd d n T) NP Hsp
                Hsvd Heig) as (P & HP & EP).
    unfold compute_l2_param_train, ensure_pd in HT. rewrite E, HP in HT. inversion HT; subst G C b.
    specialize (O q Hq).
    set (sp := spacing N (frobenius n (gram2 d T))) in *.
    rewrite !(qp_objective_ext n P (unit_shift (gram2 d T) sp)) in O by auto.
    rewrite !qp_objective_shift, !l2_objective in O.
    pose proof (distribution_norm n p D). pose proof (distribution_norm n q Hq). nra.
Qed.
