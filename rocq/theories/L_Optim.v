(** * Proofs about dpofa / is_pd (Cholesky factorisation). *)

From Coq Require Import Reals List ZArith Lia Lra Bool Arith.
From Verif Require Import Num Spec L_Num M_Optim Spec_Optim.
Import ListNotations.
Open Scope R_scope.

Lemma set_entry_same : forall r i j x, set_entry r i j x i j = x.
Proof. intros. unfold set_entry. now rewrite !Nat.eqb_refl. Qed.
Lemma set_entry_other : forall r i j x a b, (a <> i \/ b <> j) -> set_entry r i j x a b = r a b.
Proof.
  intros r i j x a b H. unfold set_entry.
  destruct (Nat.eqb_spec a i), (Nat.eqb_spec b j); simpl; auto. lia.
Qed.

Lemma column_inv : forall k (r : matrix) j, (j <= k)%nat ->
  (forall i, (i < k)%nat -> r i i <> 0) ->
  let res := fold_left (dpofa_step k) (seq 0 j) (0, r) in
  let s := fst res in let r' := snd res in
  (forall a b, ~ (b = k /\ (a < j)%nat) -> r' a b = r a b) /\
  s = sumn j (fun i => r' i k * r' i k) /\
  (forall i, (i < j)%nat -> sumn i (fun l => r l i * r' l k) + r i i * r' i k = r i k).
Proof.
  intros k r j Hj Hd. induction j as [|j IH].
  - simpl. repeat split; auto. intros; lia.
  - cbv zeta in *. rewrite seq_S, fold_left_app. simpl plus.
    destruct (fold_left (dpofa_step k) (seq 0 j) (0, r)) as [s r'].
    destruct IH as (I1 & I2 & I3); [lia|]. simpl in I1, I2, I3.
    cbn [fold_left dpofa_step fst snd].
    set (t := (r' j k - sumn j (fun l => r' l j * r' l k)) / r' j j).
    assert (S1 : forall l, (l < j)%nat -> set_entry r' j k t l k = r' l k).
    { intros l Hl. apply set_entry_other. lia. }
    assert (Et : sumn j (fun l => r l j * r' l k) + r j j * t = r j k).
    { unfold t. rewrite (I1 j k) by lia. rewrite (I1 j j) by lia.
      rewrite (sumn_ext j (fun l => r' l j * r' l k) (fun l => r l j * r' l k)).
      - field. apply Hd. lia.
      - intros l Hl. rewrite (I1 l j) by lia. reflexivity. }
    split; [|split].
    + intros a b H. rewrite set_entry_other; [apply I1; lia|]. lia.
    + simpl. rewrite set_entry_same. rewrite I2. f_equal. apply sumn_ext.
      intros l Hl. now rewrite S1.
    + intros i Hi. destruct (Nat.eq_dec i j) as [->|Ne].
      * rewrite set_entry_same. rewrite <- Et. f_equal. apply sumn_ext. intros l Hl. now rewrite S1.
      * rewrite S1 by lia. rewrite <- (I3 i) by lia. f_equal. apply sumn_ext. intros l Hl.
        now rewrite S1 by lia.
Qed.

(** Invariant of the outer loop before column [k]. *)
Definition cholesky_inv (m : matrix) (k : nat) (r : matrix) : Prop :=
  (forall i j, (i <= j)%nat -> (j < k)%nat -> sumn (S i) (fun l => r l i * r l j) = m i j) /\
  (forall i, (i < k)%nat -> 0 < r i i) /\
  (forall i j, (k <= j)%nat \/ (j < i)%nat -> r i j = m i j).

Lemma inv_start : forall m, cholesky_inv m 0 m.
Proof. intros m. split; [|split]; intros; try lia; auto. Qed.

Lemma column_spec : forall m k r s r', cholesky_inv m k r -> dpofa_column k r = (s, r') ->
  s = sumn k (fun i => r' i k * r' i k) /\
  (forall a b, b <> k \/ (k <= a)%nat -> r' a b = r a b) /\
  (forall i, (i < k)%nat -> sumn (S i) (fun l => r l i * r' l k) = m i k).
Proof.
  intros m k r s r' (I1 & I2 & I3) E. unfold dpofa_column in E.
  pose proof (column_inv k r k (le_n k)) as H. cbv zeta in H. rewrite E in H. simpl in H.
  destruct H as (H1 & H2 & H3).
  { intros i Hi. specialize (I2 i Hi). lra. }
  split; [auto|]. split.
  - intros a b Hab. apply H1. lia.
  - intros i Hi. simpl. rewrite <- (I3 i k) by lia. apply H3. auto.
Qed.

Lemma inv_step : forall m k r s r', cholesky_inv m k r -> dpofa_column k r = (s, r') ->
  0 < r' k k - s -> cholesky_inv m (S k) (set_entry r' k k (sqrt (r' k k - s))).
Proof.
  intros m k r s r' I E Hs. pose proof (column_spec m k r s r' I E) as (C1 & C2 & C3).
  destruct I as (I1 & I2 & I3).
  assert (Hkk : r' k k = m k k). { rewrite C2 by lia. apply I3. lia. }
  set (v := sqrt (r' k k - s)).
  assert (Hv : v * v = r' k k - s). { unfold v. apply sqrt_sqrt. lra. }
  assert (Hvp : 0 < v). { unfold v. apply sqrt_lt_R0. auto. }
  split; [|split].
  - intros i j Hij Hj. destruct (Nat.eq_dec j k) as [->|Nj].
    + destruct (Nat.eq_dec i k) as [->|Ni].
      * simpl. rewrite set_entry_same, Hv, <- Hkk.
        rewrite (sumn_ext k _ (fun i => r' i k * r' i k)); [rewrite <- C1; lra|].
        intros l Hl. now rewrite set_entry_other by lia.
      * rewrite <- (C3 i) by lia. apply sumn_ext. intros l Hl.
        rewrite !set_entry_other by lia. now rewrite (C2 l i) by lia.
    + rewrite <- (I1 i j) by lia. apply sumn_ext. intros l Hl.
      rewrite !set_entry_other by lia. now rewrite !C2 by lia.
  - intros i Hi. destruct (Nat.eq_dec i k) as [->|Ni].
    + now rewrite set_entry_same.
    + rewrite set_entry_other by lia. rewrite C2 by lia. apply I2. lia.
  - intros i j Hij. rewrite set_entry_other by lia. rewrite C2 by lia. apply I3. lia.
Qed.

(** Failure at column [k]. *)
Definition pivot_fails (m : matrix) (k : nat) : Prop :=
  exists r u, cholesky_inv m k r /\
    (forall i, (i < k)%nat -> sumn (S i) (fun l => r l i * u l) = m i k) /\
    m k k - sumn k (fun i => u i * u i) <= 0.

Lemma dpofa_from_spec : forall todo k m r, cholesky_inv m k r ->
  let res := dpofa_from todo k r in
  (fst res = O -> cholesky_inv m (k + todo) (snd res)) /\
  (forall e, fst res = S e -> (k <= e < k + todo)%nat /\ pivot_fails m e).
Proof.
  induction todo as [|todo IH]; intros k m r I; cbv zeta.
  - simpl. rewrite Nat.add_0_r. split; auto. intros; lia.
  - simpl. destruct (dpofa_column k r) as [s r'] eqn:E.
    pose proof (column_spec m k r s r' I E) as (C1 & C2 & C3).
    destruct (Rle_dec (r' k k - s) 0) as [Hs|Hs].
    + simpl. split; [discriminate|]. intros e He. inversion He; subst e. split; [lia|].
      exists r, (fun l => r' l k). split; [auto|]. split; [auto|].
      rewrite <- C1. replace (m k k) with (r' k k); [auto|].
      rewrite C2 by lia. destruct I as (_ & _ & I3). apply I3. lia.
    + apply Rnot_le_lt in Hs. pose proof (inv_step m k r s r' I E Hs) as I'.
      specialize (IH (S k) m _ I'). cbv zeta in IH. destruct IH as [A B].
      split.
      * intros H. rewrite <- Nat.add_succ_comm. auto.
      * intros e He. destruct (B e He). split; [lia|auto].
Qed.

Lemma dpofa_0 : forall n m, fst (dpofa n m) = O -> cholesky_inv m n (snd (dpofa n m)).
Proof. intros n m H. apply (proj1 (dpofa_from_spec n 0 m m (inv_start m))); auto. Qed.
Lemma dpofa_S : forall n m e, fst (dpofa n m) = S e -> (e < n)%nat /\ pivot_fails m e.
Proof.
  intros n m e H. destruct (proj2 (dpofa_from_spec n 0 m m (inv_start m)) e H). split; [lia|auto].
Qed.

(** ** From the factor to the quadratic form *)

Lemma sumn_upper : forall n i f, (i < n)%nat ->
  (forall l, (i < l)%nat -> (l < n)%nat -> f l = 0) -> sumn n f = sumn (S i) f.
Proof.
  induction n; intros i f Hi H; [lia|].
  destruct (Nat.eq_dec i n) as [->|Ne]; [reflexivity|].
  change (sumn n f + f n = sumn (S i) f). rewrite (IHn i f); [|lia|intros; apply H; lia].
  rewrite (H n) by lia. lra.
Qed.

Lemma factor_entry : forall m n r i j, cholesky_inv m n r -> (i < n)%nat -> (j < n)%nat ->
  sumn n (fun l => upper_part r l i * upper_part r l j) = from_upper_triangle m i j.
Proof.
  intros m n r i j (I1 & _ & _) Hi Hj.
  assert (W : forall i j, (i <= j)%nat -> (j < n)%nat ->
    sumn n (fun l => upper_part r l i * upper_part r l j) = m i j).
  { clear i j Hi Hj. intros i j Hij Hj. rewrite (sumn_upper n i).
    - rewrite <- (I1 i j Hij Hj). apply sumn_ext. intros l Hl. unfold upper_part.
      rewrite !(proj2 (Nat.leb_le _ _)) by lia. reflexivity.
    - lia.
    - intros l Hl _. unfold upper_part. rewrite (proj2 (Nat.leb_gt _ _)) by lia. lra. }
  unfold from_upper_triangle. destruct (Nat.le_gt_cases i j).
  - rewrite Nat.min_l, Nat.max_r by lia. auto.
  - rewrite Nat.min_r, Nat.max_l by lia. rewrite <- W by lia.
    apply sumn_ext. intros; lra.
Qed.

Lemma quad_ext : forall n A B x y,
  (forall i j, (i < n)%nat -> (j < n)%nat -> A i j = B i j) ->
  (forall i, (i < n)%nat -> x i = y i) -> quad n A x = quad n B y.
Proof.
  intros n A B x y H Hx. unfold quad. apply sumn_ext. intros i Hi. apply sumn_ext. intros j Hj.
  rewrite H, !Hx; auto.
Qed.

Lemma sumn_sq : forall n f, sumn n f * sumn n f = sumn n (fun i => sumn n (fun j => f i * f j)).
Proof.
  intros n f. rewrite <- sumn_scal_r. apply sumn_ext. intros i _. now rewrite <- sumn_scal.
Qed.

(** [x^T (F^T F) x = |F x|^2]. *)
Lemma quad_gram : forall d n F x,
  quad n (fun i j => sumn d (fun l => F l i * F l j)) x =
  sumn d (fun l => sumn n (fun j => F l j * x j) * sumn n (fun j => F l j * x j)).
Proof.
  intros d n F x. unfold quad.
  rewrite (sumn_ext d (fun l => sumn n (fun j => F l j * x j) * sumn n (fun j => F l j * x j))
            (fun l => sumn n (fun i => sumn n (fun j => (F l i * x i) * (F l j * x j)))))
    by (intros; apply sumn_sq).
  symmetry. rewrite sumn_swap. apply sumn_ext. intros i Hi.
  rewrite sumn_swap. apply sumn_ext. intros j Hj.
  rewrite <- sumn_scal, <- sumn_scal_r. apply sumn_ext. intros; ring.
Qed.

Lemma last_nonzero : forall n (x : nat -> R), (exists i, (i < n)%nat /\ x i <> 0) ->
  exists i, (i < n)%nat /\ x i <> 0 /\ forall j, (i < j)%nat -> (j < n)%nat -> x j = 0.
Proof.
  induction n; intros x (i & Hi & Hx); [lia|].
  destruct (Req_EM_T (x n) 0) as [E|E].
  - destruct (IHn x) as (k & Hk & Hxk & Hl).
    { exists i. split; auto. destruct (Nat.eq_dec i n); [subst; contradiction|lia]. }
    exists k. split; [lia|]. split; [auto|]. intros j Hj Hj'.
    destruct (Nat.eq_dec j n); [subst; auto|]. apply Hl; lia.
  - exists n. split; [lia|]. split; auto. intros; lia.
Qed.

Lemma factor_pd : forall m n r, cholesky_inv m n r ->
  positive_definite n (from_upper_triangle m).
Proof.
  intros m n r I x Hx.
  rewrite (quad_ext n _ (fun i j => sumn n (fun l => upper_part r l i * upper_part r l j)) x x)
    by (intros; try symmetry; auto using factor_entry; apply factor_entry; auto).
  rewrite quad_gram.
  destruct (last_nonzero n x Hx) as (i & Hi & Hxi & Hl).
  set (g := fun l => sumn n (fun j => upper_part r l j * x j)).
  change (0 < sumn n (fun l => g l * g l)).
  assert (Hg : g i = r i i * x i).
  { unfold g. rewrite (sumn_upper n i); [|auto|].
    - simpl. rewrite sumn_0.
      + unfold upper_part. rewrite Nat.leb_refl. lra.
      + intros l Hl'. unfold upper_part. rewrite (proj2 (Nat.leb_gt _ _)) by lia. lra.
    - intros l H1 H2. rewrite (Hl l H1 H2). lra. }
  assert (0 < g i * g i).
  { destruct I as (_ & I2 & _). specialize (I2 i Hi). apply Rlt_0_sqr. rewrite Hg.
    apply Rmult_integral_contrapositive. split; [lra|auto]. }
  pose proof (sumn_ge_term n (fun l => g l * g l) i) as Q. cbv beta in Q.
  assert (g i * g i <= sumn n (fun l => g l * g l)).
  { apply Q; auto. intros. apply Rle_0_sqr. }
  lra.
Qed.

(** ** Completeness: a failing pivot gives a vector on which the form is not positive. *)

Lemma back_substitution : forall k U c, (forall i, (i < k)%nat -> U i i <> 0) ->
  (forall i j, (j < i)%nat -> U i j = 0) ->
  exists y, forall i, (i < k)%nat -> sumn k (fun j => U i j * y j) = c i.
Proof.
  induction k; intros U c Hd Hu; [exists (fun _ => 0); intros; lia|].
  set (yk := c k / U k k).
  destruct (IHk U (fun i => c i - U i k * yk)) as (y & Hy); auto.
  exists (fun j => if Nat.eqb j k then yk else y j).
  assert (E : forall i, sumn k (fun j => U i j * (if Nat.eqb j k then yk else y j)) =
                        sumn k (fun j => U i j * y j)).
  { intros i. apply sumn_ext. intros j Hj. destruct (Nat.eqb_spec j k); [lia|auto]. }
  intros i Hi. simpl. rewrite E, Nat.eqb_refl. destruct (Nat.eq_dec i k) as [->|Ne].
  - rewrite sumn_0; [unfold yk; field; auto|]. intros j Hj. rewrite Hu by lia. lra.
  - rewrite Hy by lia. lra.
Qed.

Lemma quad_S : forall k A x, symmetric (S k) A ->
  quad (S k) A x = quad k A x + 2 * (x k * sumn k (fun i => A i k * x i)) + x k * A k k * x k.
Proof.
  intros k A x Hs. unfold quad. simpl. rewrite sumn_plus.
  rewrite (sumn_ext k (fun i => x i * A i k * x k) (fun i => x k * (A i k * x i)))
    by (intros; ring).
  rewrite (sumn_ext k (fun j => x k * A k j * x j) (fun i => x k * (A i k * x i)))
    by (intros; rewrite (Hs i k) by lia; ring).
  rewrite !sumn_scal. ring.
Qed.

Lemma from_upper_sym : forall n m, symmetric n (from_upper_triangle m).
Proof. intros n m i j _ _. unfold from_upper_triangle. now rewrite Nat.min_comm, Nat.max_comm. Qed.

Lemma pivot_not_pd : forall m k, pivot_fails m k ->
  exists x, x k = 1 /\ quad (S k) (from_upper_triangle m) x <= 0.
Proof.
  intros m k (r & u & I & Hu & Hf).
  destruct (back_substitution k (upper_part r) (fun i => - u i)) as (y & Hy).
  { intros i Hi. unfold upper_part. rewrite Nat.leb_refl. destruct I as (_ & I2 & _).
    specialize (I2 i Hi). lra. }
  { intros i j Hij. unfold upper_part. now rewrite (proj2 (Nat.leb_gt _ _)) by lia. }
  exists (fun i => if Nat.eqb i k then 1 else y i). rewrite Nat.eqb_refl. split; [auto|].
  set (x := fun i => if Nat.eqb i k then 1 else y i).
  assert (Ex : forall i, (i < k)%nat -> x i = y i).
  { intros i Hi. unfold x. destruct (Nat.eqb_spec i k); [lia|auto]. }
  rewrite quad_S by apply from_upper_sym.
  assert (Xk : x k = 1) by (unfold x; now rewrite Nat.eqb_refl).
  rewrite Xk.
  rewrite (quad_ext k _ (fun i j => sumn k (fun l => upper_part r l i * upper_part r l j)) x y)
    by (intros; first [solve [auto] | symmetry; apply factor_entry; auto]).
  rewrite quad_gram.
  assert (E1 : sumn k (fun l => sumn k (fun j => upper_part r l j * y j) *
                          sumn k (fun j => upper_part r l j * y j)) =
               sumn k (fun i => u i * u i)).
  { apply sumn_ext. intros l Hl. rewrite Hy by auto. ring. }
  assert (E2 : sumn k (fun i => from_upper_triangle m i k * x i) = - sumn k (fun i => u i * u i)).
  { rewrite (sumn_ext k _ (fun i => sumn k (fun l => upper_part r l i * u l * y i))).
    - rewrite sumn_swap. rewrite <- (Rmult_1_l (sumn k (fun i => u i * u i))).
      rewrite <- Ropp_mult_distr_l_reverse, <- sumn_scal. apply sumn_ext. intros l Hl.
      rewrite (sumn_ext k _ (fun j => u l * (upper_part r l j * y j))) by (intros; ring).
      rewrite sumn_scal, Hy by auto. ring.
    - intros i Hi. rewrite Ex by auto. rewrite sumn_scal_r. f_equal.
      unfold from_upper_triangle. rewrite Nat.min_l, Nat.max_r by lia.
      rewrite <- (Hu i Hi). rewrite (sumn_upper k i); auto.
      + apply sumn_ext. intros l Hl. unfold upper_part.
        now rewrite (proj2 (Nat.leb_le _ _)) by lia.
      + intros l H1 _. unfold upper_part. rewrite (proj2 (Nat.leb_gt _ _)) by lia. lra. }
  rewrite E1, E2. unfold from_upper_triangle. rewrite Nat.min_id, Nat.max_id. lra.
Qed.

Lemma quad_leading : forall n k A x, (k <= n)%nat -> (forall i, (k <= i)%nat -> x i = 0) ->
  quad n A x = quad k A x.
Proof.
  intros n k A x Hk Hx. unfold quad.
  assert (T : forall f, (forall i, (k <= i)%nat -> f i = 0) -> sumn n f = sumn k f).
  { intros f Hf. replace n with (k + (n - k))%nat by lia. rewrite sumn_split.
    rewrite (sumn_0 (n - k)); [lra|]. intros; apply Hf; lia. }
  rewrite T.
  - apply sumn_ext. intros i _. apply T. intros j Hj. rewrite (Hx j Hj). ring.
  - intros i Hi. apply sumn_0. intros. rewrite (Hx i Hi). ring.
Qed.

Lemma leading_pd : forall n k A, (k <= n)%nat -> positive_definite n A -> positive_definite k A.
Proof.
  intros n k A Hk H x (i & Hi & Hx).
  assert (0 < quad n A (fun j => if Nat.ltb j k then x j else 0)).
  { apply H. exists i. split; [lia|]. now rewrite (proj2 (Nat.ltb_lt _ _)). }
  rewrite (quad_leading n k) in H0; auto.
  - rewrite (quad_ext k A A x (fun j => if Nat.ltb j k then x j else 0)); auto.
    intros j Hj. now rewrite (proj2 (Nat.ltb_lt _ _)).
  - intros j Hj. now rewrite (proj2 (Nat.ltb_ge _ _)).
Qed.

Lemma is_pd_upper : forall n A,
  is_pd n A = true <-> positive_definite n (from_upper_triangle A).
Proof.
  intros n A. unfold is_pd. rewrite Nat.eqb_eq. split.
  - intros H. apply dpofa_0 in H. eapply factor_pd; eauto.
  - intros H. destruct (fst (dpofa n A)) as [|e] eqn:E; [auto|]. exfalso.
    apply dpofa_S in E. destruct E as (He & F).
    destruct (pivot_not_pd A e F) as (x & Hx & Hq).
    apply (leading_pd n (S e)) in H; [|lia].
    assert (0 < quad (S e) (from_upper_triangle A) x).
    { apply H. exists e. split; [lia|]. rewrite Hx. lra. }
    lra.
Qed.

Lemma from_upper_of_sym : forall n A i j, symmetric n A -> (i < n)%nat -> (j < n)%nat ->
  from_upper_triangle A i j = A i j.
Proof.
  intros n A i j Hs Hi Hj. unfold from_upper_triangle.
  destruct (Nat.le_gt_cases i j).
  - now rewrite Nat.min_l, Nat.max_r by lia.
  - rewrite Nat.min_r, Nat.max_l by lia. apply Hs; auto.
Qed.

Lemma pd_ext : forall n A B, (forall i j, (i < n)%nat -> (j < n)%nat -> A i j = B i j) ->
  positive_definite n A -> positive_definite n B.
Proof.
  intros n A B H P x Hx. rewrite <- (quad_ext n A B x x); auto.
Qed.

Lemma is_pd_sym : forall n A, symmetric n A -> (is_pd n A = true <-> positive_definite n A).
Proof.
  intros n A Hs. rewrite is_pd_upper. split; apply pd_ext; intros i j Hi Hj.
  - apply (from_upper_of_sym n); auto.
  - symmetry. apply (from_upper_of_sym n); auto.
Qed.

Lemma dpofa_factor : forall n A, symmetric n A -> fst (dpofa n A) = O ->
  forall i j, (i < n)%nat -> (j < n)%nat ->
    sumn n (fun l => upper_part (snd (dpofa n A)) l i * upper_part (snd (dpofa n A)) l j) = A i j.
Proof.
  intros n A Hs H i j Hi Hj. apply dpofa_0 in H.
  rewrite (factor_entry A n) by auto. apply (from_upper_of_sym n); auto.
Qed.

Lemma dpofa_diag : forall n A, fst (dpofa n A) = O ->
  forall i, (i < n)%nat -> 0 < snd (dpofa n A) i i.
Proof. intros n A H i Hi. apply dpofa_0 in H. destruct H as (_ & H & _). auto. Qed.

Lemma dpofa_info : forall n A e, symmetric n A -> fst (dpofa n A) = S e ->
  (e < n)%nat /\ positive_definite e A /\ ~ positive_definite (S e) A.
Proof.
  intros n A e Hs H. apply dpofa_S in H. destruct H as (He & F). split; [auto|].
  assert (Hse : symmetric (S e) A) by (intros i j Hi Hj; apply Hs; lia).
  split.
  - destruct F as (r & u & I & _). apply factor_pd in I. revert I. apply pd_ext.
    intros i j Hi Hj. apply (from_upper_of_sym (S e)); auto.
  - intros P. destruct (pivot_not_pd A e F) as (x & Hx & Hq).
    assert (0 < quad (S e) A x). { apply P. exists e. split; [lia|]. rewrite Hx; lra. }
    rewrite (quad_ext (S e) _ A x x) in Hq; auto; [lra|].
    intros i j Hi Hj. apply (from_upper_of_sym (S e)); auto.
Qed.
