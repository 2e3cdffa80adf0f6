(** * Proofs about the energy distance with the Manhattan distance. *)

From Coq Require Import Reals List ZArith Lia Lra Psatz.
From Coquelicot Require Import Rcomplements Hierarchy RInt Continuity.
From Verif Require Import Num Spec Spec_Optim Spec_Energy L_Num.
Import ListNotations.
Open Scope R_scope.

(** ** Bilinearity of the expected distance *)

Section Bilinear.
Context {A : Type}.
Implicit Types (P Q S : weighted A) (f g : A -> A -> R).

Lemma expected_nil_l : forall f Q, expected f [] Q = 0.
Proof. reflexivity. Qed.

Lemma expected_cons_l : forall f p P Q,
  expected f (p :: P) Q = rsum (map (fun q => fst p * fst q * f (snd p) (snd q)) Q) + expected f P Q.
Proof. reflexivity. Qed.

Lemma expected_app_l : forall f P P' Q, expected f (P ++ P') Q = expected f P Q + expected f P' Q.
Proof.
  intros f P P' Q. induction P as [|p P IH].
  - simpl. rewrite expected_nil_l. ring.
  - simpl. rewrite !expected_cons_l, IH. ring.
Qed.

Lemma rsum_app' : forall l l', rsum (l ++ l') = rsum l + rsum l'.
Proof.
  induction l as [|x l IH]; intros; simpl.
  - change (rsum []) with 0. ring.
  - change (rsum (x :: l ++ l')) with (x + rsum (l ++ l')).
    change (rsum (x :: l)) with (x + rsum l). rewrite IH. ring.
Qed.

Lemma expected_app_r : forall f P Q Q', expected f P (Q ++ Q') = expected f P Q + expected f P Q'.
Proof.
  intros f P Q Q'. induction P as [|p P IH].
  - rewrite !expected_nil_l. ring.
  - rewrite !expected_cons_l, IH, map_app, rsum_app'. ring.
Qed.

Definition negated Q : weighted A := map (fun q => (- fst q, snd q)) Q.

Lemma rsum_opp : forall (l : list A) (h : A -> R), rsum (map (fun x => - h x) l) = - rsum (map h l).
Proof.
  induction l as [|x l IH]; intros; simpl.
  - change (rsum []) with 0. ring.
  - change (rsum (- h x :: map (fun x => - h x) l)) with (- h x + rsum (map (fun x => - h x) l)).
    change (rsum (h x :: map h l)) with (h x + rsum (map h l)). rewrite IH. ring.
Qed.

End Bilinear.

Section Bilinear2.
Context {A : Type}.
Implicit Types (P Q S : weighted A) (f g : A -> A -> R).

Lemma expected_neg_l : forall f P Q, expected f (negated P) Q = - expected f P Q.
Proof.
  intros f P Q. induction P as [|p P IH].
  - simpl. rewrite expected_nil_l. ring.
  - change (negated (p :: P)) with ((- fst p, snd p) :: negated P). rewrite !expected_cons_l, IH.
    simpl. rewrite (rsum_map_ext _ (fun q => - (fst p * fst q * f (snd p) (snd q)))).
    + rewrite rsum_opp. ring.
    + intros; ring.
Qed.

Lemma expected_neg_r : forall f P Q, expected f P (negated Q) = - expected f P Q.
Proof.
  intros f P Q. induction P as [|p P IH].
  - rewrite !expected_nil_l. ring.
  - rewrite !expected_cons_l, IH. unfold negated. rewrite map_map. simpl.
    rewrite (rsum_map_ext _ (fun q => - (fst p * fst q * f (snd p) (snd q)))).
    + rewrite rsum_opp. ring.
    + intros; ring.
Qed.

Lemma expected_sym : forall f P Q, (forall u v, f u v = f v u) -> expected f P Q = expected f Q P.
Proof.
  intros f P Q Hf. induction P as [|p P IH].
  - rewrite expected_nil_l. induction Q; auto. rewrite expected_cons_l, <- IHQ.
    simpl. change (rsum []) with 0. ring.
  - rewrite expected_cons_l, IH. clear IH. induction Q as [|q Q IHQ].
    + rewrite !expected_nil_l. simpl. change (rsum []) with 0. ring.
    + rewrite !expected_cons_l, <- IHQ. simpl.
      change (rsum (?x :: ?l)) with (x + rsum l).
      change (rsum (fst p * fst q * f (snd p) (snd q)
         :: map (fun q0 => fst p * fst q0 * f (snd p) (snd q0)) Q)) with
        (fst p * fst q * f (snd p) (snd q) + rsum (map (fun q0 => fst p * fst q0 * f (snd p) (snd q0)) Q)).
      change (rsum (fst q * fst p * f (snd q) (snd p)
         :: map (fun q0 => fst q * fst q0 * f (snd q) (snd q0)) P)) with
        (fst q * fst p * f (snd q) (snd p) + rsum (map (fun q0 => fst q * fst q0 * f (snd q) (snd q0)) P)).
      rewrite (Hf (snd q)). ring.
Qed.

(** The energy distance is minus the quadratic form of the difference. *)
Lemma energy_signed : forall f P Q, (forall u v, f u v = f v u) ->
  energy f P Q = - expected f (P ++ negated Q) (P ++ negated Q).
Proof.
  intros f P Q Hf. rewrite expected_app_l, !expected_app_r, !expected_neg_l, !expected_neg_r.
  rewrite (expected_sym f Q P Hf). unfold energy. ring.
Qed.

Lemma expected_ext : forall f g P Q,
  (forall p q, In p P -> In q Q -> f (snd p) (snd q) = g (snd p) (snd q)) ->
  expected f P Q = expected g P Q.
Proof.
  intros f g P Q H. unfold expected. apply rsum_map_ext. intros p Hp. apply rsum_map_ext.
  intros q Hq. now rewrite H.
Qed.

Lemma expected_plus : forall f g P Q,
  expected (fun u v => f u v + g u v) P Q = expected f P Q + expected g P Q.
Proof.
  intros f g P Q. induction P as [|p P IH].
  - rewrite !expected_nil_l. ring.
  - rewrite !expected_cons_l, IH.
    rewrite (rsum_map_ext _ (fun q => fst p * fst q * f (snd p) (snd q) + fst p * fst q * g (snd p) (snd q)))
      by (intros; ring).
    rewrite rsum_map_plus. ring.
Qed.

Lemma expected_scal : forall c f P Q, expected (fun u v => c * f u v) P Q = c * expected f P Q.
Proof.
  intros c f P Q. unfold expected. rewrite <- rsum_map_scal. apply rsum_map_ext. intros p _.
  rewrite <- rsum_map_scal. apply rsum_map_ext. intros; ring.
Qed.

Lemma expected_0 : forall P Q, expected (fun _ _ => 0) P Q = 0.
Proof. intros. rewrite (expected_ext _ (fun u v => 0 * 0)) by (intros; ring). rewrite (expected_scal 0 (fun _ _ => 0)). ring. Qed.

Lemma expected_sumn : forall n (f : nat -> A -> A -> R) P Q,
  expected (fun u v => sumn n (fun j => f j u v)) P Q = sumn n (fun j => expected (f j) P Q).
Proof.
  induction n; intros.
  - simpl. apply expected_0.
  - simpl. rewrite expected_plus, IHn. reflexivity.
Qed.

(** A function of each point separately. *)
Lemma expected_product : forall (a b : A -> R) P Q,
  expected (fun u v => a u * b v) P Q =
  rsum (map (fun p => fst p * a (snd p)) P) * rsum (map (fun q => fst q * b (snd q)) Q).
Proof.
  intros a b P Q. unfold expected. rewrite Rmult_comm, <- rsum_map_scal. apply rsum_map_ext.
  intros p _. rewrite Rmult_comm, <- rsum_map_scal. apply rsum_map_ext. intros; ring.
Qed.

(** The integral of a quadratic form is the quadratic form of the integrals. *)
Lemma expected_RInt : forall (f : A -> A -> R -> R) (F : A -> A -> R) P Q a b,
  (forall p q, In p P -> In q Q -> is_RInt (f (snd p) (snd q)) a b (F (snd p) (snd q))) ->
  is_RInt (fun t => expected (fun u v => f u v t) P Q) a b (expected F P Q).
Proof.
  intros f F P Q a b H.
  assert (Z : is_RInt (fun _ : R => 0) a b 0).
  { pose proof (is_RInt_const a b 0) as C. change (scal (b - a) 0) with ((b - a) * 0) in C.
    rewrite Rmult_0_r in C. exact C. }
  induction P as [|p P IH].
  - apply Z.
  - apply (is_RInt_plus (fun t => rsum (map (fun q => fst p * fst q * f (snd p) (snd q) t) Q))).
    + assert (Hp : forall q, In q Q -> is_RInt (f (snd p) (snd q)) a b (F (snd p) (snd q)))
        by (intros; apply H; simpl; auto).
      clear H IH. induction Q as [|q Q IHQ].
      * apply Z.
      * apply (is_RInt_plus (fun t => fst p * fst q * f (snd p) (snd q) t)).
        -- apply (is_RInt_scal (f (snd p) (snd q)) a b (fst p * fst q)). apply Hp. simpl; auto.
        -- apply IHQ. intros. apply Hp. simpl; auto.
    + apply IH. intros. apply H; simpl; auto.
Qed.

End Bilinear2.

(** ** The Manhattan distance *)

Definition upto (x t : R) : R := if Rle_dec x t then 1 else 0.

Lemma step_const : forall (f : R -> R) c a b, a <= b -> (forall t, a < t < b -> f t = c) ->
  is_RInt f a b ((b - a) * c).
Proof.
  intros f c a b Hab H. apply (is_RInt_ext (fun _ => c)).
  - intros t. rewrite Rmin_left, Rmax_right by auto. intros. symmetry; auto.
  - apply (is_RInt_const a b c).
Qed.

Lemma steps_ordered : forall x y a b, a <= x -> x <= y -> y <= b ->
  is_RInt (fun t => (upto x t - upto y t) ^ 2) a b (y - x).
Proof.
  intros x y a b Ha Hxy Hb.
  replace (y - x) with ((x - a) * 0 + ((y - x) * 1 + (b - y) * 0)) by ring.
  apply (is_RInt_Chasles _ a x b ((x - a) * 0) ((y - x) * 1 + (b - y) * 0)).
  2: apply (is_RInt_Chasles _ x y b ((y - x) * 1) ((b - y) * 0)).
  all: apply step_const; auto; unfold upto; intros t Ht; destruct (Rle_dec x t), (Rle_dec y t); lra.
Qed.

Lemma steps : forall x y a b, a <= x <= b -> a <= y <= b ->
  is_RInt (fun t => (upto x t - upto y t) ^ 2) a b (Rabs (x - y)).
Proof.
  intros x y a b Hx Hy. destruct (Rle_dec x y) as [L|L].
  - rewrite Rabs_left1 by lra. replace (- (x - y)) with (y - x) by ring.
    apply steps_ordered; lra.
  - rewrite Rabs_right by lra. apply (is_RInt_ext (fun t => (upto y t - upto x t) ^ 2)).
    + intros t _. assert (X : forall u v : R, (u - v) ^ 2 = (v - u) ^ 2) by (intros; ring). apply X.
    + apply steps_ordered; lra.
Qed.

Lemma total_signed : forall {A} (P Q : weighted A), total_weight P = total_weight Q ->
  rsum (map fst (P ++ negated Q)) = 0.
Proof.
  intros A P Q H. unfold total_weight in H. rewrite map_app, rsum_app'.
  unfold negated. rewrite map_map. simpl. rewrite rsum_opp. lra.
Qed.

Lemma weight_upto_upto : forall P j t,
  weight_upto P j t = rsum (map (fun p => fst p * upto (nth j (snd p) 0) t) P).
Proof.
  intros. apply rsum_map_ext. intros p _. unfold upto. destruct Rle_dec; ring.
Qed.

Lemma weight_upto_signed : forall P Q j t,
  weight_upto (P ++ negated Q) j t = weight_upto P j t - weight_upto Q j t.
Proof.
  intros. rewrite !weight_upto_upto, map_app, rsum_app'. unfold negated. rewrite map_map. simpl.
  rewrite (rsum_map_ext (fun x => - fst x * upto (nth j (snd x) 0) t)
     (fun x => - (fst x * upto (nth j (snd x) 0) t))) by (intros; ring).
  rewrite rsum_opp. ring.
Qed.

Lemma square_form : forall (S : weighted (list R)) j t, rsum (map fst S) = 0 ->
  expected (fun u v => (upto (nth j u 0) t - upto (nth j v 0) t) ^ 2) S S =
  -2 * weight_upto S j t ^ 2.
Proof.
  intros S j t H. rewrite weight_upto_upto.
  rewrite (expected_ext _ (fun u v =>
     (upto (nth j u 0) t ^ 2 * 1 + 1 * upto (nth j v 0) t ^ 2)
     + (-2 * upto (nth j u 0) t) * upto (nth j v 0) t)) by (intros; ring).
  rewrite !expected_plus.
  rewrite (expected_product (fun u => upto (nth j u 0) t ^ 2) (fun _ => 1)).
  rewrite (expected_product (fun _ => 1) (fun u => upto (nth j u 0) t ^ 2)).
  rewrite (expected_product (fun u => -2 * upto (nth j u 0) t) (fun u => upto (nth j u 0) t)).
  rewrite (rsum_map_ext (fun q => fst q * 1) fst) by (intros; ring).
  rewrite H.
  rewrite (rsum_map_ext (fun p => fst p * (-2 * upto (nth j (snd p) 0) t))
    (fun p => -2 * (fst p * upto (nth j (snd p) 0) t))) by (intros; ring).
  rewrite rsum_map_scal. ring.
Qed.

Lemma within_negated : forall k a b P, within k a b P -> within k a b (negated P).
Proof.
  intros k a b P H p j Hp Hj. unfold negated in Hp. apply in_map_iff in Hp.
  destruct Hp as (q & <- & Hq). simpl. now apply H.
Qed.

Lemma within_app : forall k a b P Q, within k a b P -> within k a b Q -> within k a b (P ++ Q).
Proof. intros k a b P Q H H' p j Hp Hj. apply in_app_or in Hp. destruct Hp; [apply H|apply H']; auto. Qed.

Lemma column_area : forall k P Q a b j, within k a b P -> within k a b Q ->
  total_weight P = total_weight Q -> (j < k)%nat ->
  is_RInt (fun t => (weight_upto P j t - weight_upto Q j t) ^ 2) a b
    (energy (fun u v => Rabs (nth j u 0 - nth j v 0)) P Q / 2).
Proof.
  intros k P Q a b j HP HQ HT Hj. set (S := P ++ negated Q).
  assert (HS : within k a b S) by (apply within_app; auto using within_negated).
  rewrite energy_signed by (intros; apply Rabs_minus_sym). fold S.
  replace (- expected (fun u v => Rabs (nth j u 0 - nth j v 0)) S S / 2) with
    (scal (- / 2) (expected (fun u v => Rabs (nth j u 0 - nth j v 0)) S S))
    by (unfold scal; simpl; unfold mult; simpl; lra).
  apply (is_RInt_ext (fun t => scal (- / 2)
     (expected (fun u v => (upto (nth j u 0) t - upto (nth j v 0) t) ^ 2) S S))).
  - intros t _. rewrite square_form by (apply total_signed; auto).
    unfold S. rewrite weight_upto_signed. unfold scal; simpl; unfold mult; simpl. field.
  - apply (is_RInt_scal (fun t => expected (fun u v => (upto (nth j u 0) t - upto (nth j v 0) t) ^ 2) S S)).
    apply (expected_RInt (fun u v t => (upto (nth j u 0) t - upto (nth j v 0) t) ^ 2)
       (fun u v => Rabs (nth j u 0 - nth j v 0))).
    intros p q Hp Hq. apply steps; auto.
Qed.

Lemma manhattan_columns : forall k P Q,
  energy (manhattan k) P Q = sumn k (fun j => energy (fun u v => Rabs (nth j u 0 - nth j v 0)) P Q).
Proof.
  intros. unfold energy, manhattan.
  rewrite !(expected_sumn k (fun j u v => Rabs (nth j u 0 - nth j v 0))).
  rewrite <- sumn_scal, <- !sumn_minus. reflexivity.
Qed.

Lemma manhattan_area : forall k P Q a b, within k a b P -> within k a b Q ->
  total_weight P = total_weight Q ->
  (forall j, (j < k)%nat ->
     ex_RInt (fun t => (weight_upto P j t - weight_upto Q j t) ^ 2) a b) /\
  energy (manhattan k) P Q =
  2 * sumn k (fun j => RInt (fun t => (weight_upto P j t - weight_upto Q j t) ^ 2) a b).
Proof.
  intros k P Q a b HP HQ HT. split.
  - intros j Hj. eexists. apply (column_area k); auto.
  - rewrite manhattan_columns, <- sumn_scal. apply sumn_ext. intros j Hj.
    rewrite (is_RInt_unique _ _ _ _ (column_area k P Q a b j HP HQ HT Hj)).
    assert (X : forall x : R, x = 2 * (x / 2)) by (intros; field). apply X.
Qed.

(** ** Non-negativity and the null energies *)

Lemma bounded_exists : forall k (P : weighted (list R)), exists a b, a <= b /\ within k a b P.
Proof.
  intros k P. induction P as [|p P (a & b & L & IH)].
  - exists 0, 0. split; [lra|]. intros p j [].
  - assert (E : exists c, 0 <= c /\ forall j, (j < k)%nat -> - c <= nth j (snd p) 0 <= c).
    { clear. induction k as [|k (c & C & H)].
      - exists 0. split; [lra|]. intros; lia.
      - exists (Rmax c (Rabs (nth k (snd p) 0))). pose proof (Rmax_l c (Rabs (nth k (snd p) 0))).
        pose proof (Rmax_r c (Rabs (nth k (snd p) 0))). split; [lra|].
        intros j Hj. destruct (Nat.eq_dec j k) as [->|Ne].
        + unfold Rabs in *. destruct Rcase_abs; lra.
        + specialize (H j ltac:(lia)). lra. }
    destruct E as (c & C & H). exists (Rmin a (-c)), (Rmax b c).
    pose proof (Rmin_l a (-c)). pose proof (Rmin_r a (-c)).
    pose proof (Rmax_l b c). pose proof (Rmax_r b c). split; [lra|].
    intros q j [<-|Hq] Hj.
    + specialize (H j Hj). lra.
    + specialize (IH q j Hq Hj). lra.
Qed.

Lemma within_wider : forall k a b a' b' P, a' <= a -> b <= b' -> within k a b P -> within k a' b' P.
Proof. intros k a b a' b' P Ha Hb H p j Hp Hj. specialize (H p j Hp Hj). lra. Qed.

Lemma both_bounded : forall k P Q, exists a b, a < b /\ within k a b P /\ within k a b Q.
Proof.
  intros k P Q. destruct (bounded_exists k P) as (a & b & L & H), (bounded_exists k Q) as (c & d & L' & H').
  exists (Rmin a c), (Rmax b d + 1).
  pose proof (Rmin_l a c). pose proof (Rmin_r a c). pose proof (Rmax_l b d). pose proof (Rmax_r b d).
  split; [lra|]. split; [apply (within_wider k a b)|apply (within_wider k c d)]; auto; lra.
Qed.

Lemma column_nonneg : forall k P Q j, total_weight P = total_weight Q -> (j < k)%nat ->
  0 <= energy (fun u v => Rabs (nth j u 0 - nth j v 0)) P Q.
Proof.
  intros k P Q j HT Hj. destruct (both_bounded k P Q) as (a & b & L & HP & HQ).
  pose proof (column_area k P Q a b j HP HQ HT Hj) as I.
  assert (0 <= energy (fun u v => Rabs (nth j u 0 - nth j v 0)) P Q / 2).
  { apply (is_RInt_le (fun _ => 0) _ a b ((b - a) * 0)) in I.
    - lra.
    - lra.
    - apply (is_RInt_const a b 0).
    - intros. apply pow2_ge_0. }
  lra.
Qed.

Lemma manhattan_nonneg : forall k P Q, total_weight P = total_weight Q ->
  0 <= energy (manhattan k) P Q.
Proof.
  intros. rewrite manhattan_columns. apply sumn_nonneg. intros j Hj. now apply (column_nonneg k).
Qed.

(** Steps are constant just after each point. *)
Lemma constant_after : forall (P : weighted (list R)) j t,
  exists d, 0 < d /\ forall s, t <= s <= t + d -> weight_upto P j s = weight_upto P j t.
Proof.
  intros P j t. induction P as [|p P (d & D & IH)].
  - exists 1. split; [lra|]. reflexivity.
  - set (x := nth j (snd p) 0).
    assert (E : exists e, 0 < e /\ forall s, t <= s <= t + e ->
        (if Rle_dec x s then fst p else 0) = (if Rle_dec x t then fst p else 0)).
    { destruct (Rle_dec x t) as [L|L].
      - exists 1. split; [lra|]. intros s Hs. destruct (Rle_dec x s); lra.
      - exists ((x - t) / 2). split; [lra|]. intros s Hs. destruct (Rle_dec x s); lra. }
    destruct E as (e & He & E). exists (Rmin d e). split; [now apply Rmin_glb_lt|].
    pose proof (Rmin_l d e). pose proof (Rmin_r d e).
    intros s Hs. unfold weight_upto in *. simpl. fold x.
    rewrite E, IH by lra. reflexivity.
Qed.

Lemma weight_upto_before : forall k P a b j t, within k a b P -> (j < k)%nat -> t < a -> weight_upto P j t = 0.
Proof.
  intros k P a b j t H Hj Ht. unfold weight_upto. induction P as [|p P IH]; auto.
  simpl.
  rewrite IH by (intros q i Hq; apply H; simpl; auto).
  assert (a <= nth j (snd p) 0 <= b) by (apply H; simpl; auto).
  destruct Rle_dec; lra.
Qed.

Lemma weight_upto_after : forall k P a b j t, within k a b P -> (j < k)%nat -> b <= t ->
  weight_upto P j t = total_weight P.
Proof.
  intros k P a b j t H Hj Ht. unfold weight_upto, total_weight. induction P as [|p P IH]; auto.
  simpl.
  rewrite IH by (intros q i Hq; apply H; simpl; auto).
  assert (a <= nth j (snd p) 0 <= b) by (apply H; simpl; auto).
  destruct Rle_dec; lra.
Qed.

Lemma column_zero : forall k P Q j, total_weight P = total_weight Q -> (j < k)%nat ->
  energy (fun u v => Rabs (nth j u 0 - nth j v 0)) P Q = 0 ->
  forall t, weight_upto P j t = weight_upto Q j t.
Proof.
  intros k P Q j HT Hj HE t. destruct (both_bounded k P Q) as (a & b & L & HP & HQ).
  destruct (Rlt_le_dec t a) as [Ha|Ha].
  { now rewrite (weight_upto_before k P a b), (weight_upto_before k Q a b). }
  destruct (Rle_dec b t) as [Hb|Hb].
  { now rewrite (weight_upto_after k P a b), (weight_upto_after k Q a b). }
  destruct (Req_dec (weight_upto P j t) (weight_upto Q j t)) as [|Ne]; auto. exfalso.
  pose proof (column_area k P Q a b j HP HQ HT Hj) as I. rewrite HE in I.
  set (f := fun t => (weight_upto P j t - weight_upto Q j t) ^ 2) in *.
  destruct (constant_after P j t) as (d & D & Cd), (constant_after Q j t) as (e & E & Ce).
  set (h := Rmin (Rmin d e) (b - t)).
  assert (Hh : 0 < h) by (unfold h; repeat apply Rmin_glb_lt; lra).
  assert (h <= d /\ h <= e /\ h <= b - t).
  { unfold h. pose proof (Rmin_l (Rmin d e) (b - t)). pose proof (Rmin_r (Rmin d e) (b - t)).
    pose proof (Rmin_l d e). pose proof (Rmin_r d e). lra. }
  assert (Ex : ex_RInt f a b) by (eexists; exact I).
  assert (X1 : ex_RInt f a t) by (apply (ex_RInt_Chasles_1 f a t b); auto; lra).
  assert (X2 : ex_RInt f t b) by (apply (ex_RInt_Chasles_2 f a t b); auto; lra).
  assert (X3 : ex_RInt f t (t + h)) by (apply (ex_RInt_Chasles_1 f t (t + h) b); auto; lra).
  assert (X4 : ex_RInt f (t + h) b) by (apply (ex_RInt_Chasles_2 f t (t + h) b); auto; lra).
  assert (Pos : forall u v, u <= v -> ex_RInt f u v -> 0 <= RInt f u v).
  { intros u v Huv X. apply RInt_ge_0; auto. intros. apply pow2_ge_0. }
  assert (Mid : RInt f t (t + h) = (t + h - t) * f t).
  { apply is_RInt_unique. apply step_const; [lra|]. intros s Hs. unfold f.
    rewrite Cd, Ce by lra. reflexivity. }
  apply (is_RInt_unique f a b (0 / 2)) in I.
  rewrite <- (RInt_Chasles f a t b), <- (RInt_Chasles f t (t + h) b) in I by auto.
  pose proof (Pos a t Ha X1). pose proof (Pos (t + h) b ltac:(lra) X4).
  assert (0 < f t).
  { unfold f. assert (0 < Rsqr (weight_upto P j t - weight_upto Q j t)) by (apply Rsqr_pos_lt; lra).
    unfold Rsqr in *. lra. }
  unfold plus in I; simpl in I. rewrite Mid in I. assert (0 < (t + h - t) * f t) by (apply Rmult_lt_0_compat; lra).
  lra.
Qed.

Lemma manhattan_zero : forall k P Q, total_weight P = total_weight Q ->
  (energy (manhattan k) P Q = 0 <->
   forall j t, (j < k)%nat -> weight_upto P j t = weight_upto Q j t).
Proof.
  intros k P Q HT. split.
  - intros E j t Hj. rewrite manhattan_columns in E.
    apply (column_zero k); auto.
    apply (sumn_zero_all k (fun j => energy (fun u v => Rabs (nth j u 0 - nth j v 0)) P Q)); auto.
    intros. now apply (column_nonneg k).
  - intros H. destruct (both_bounded k P Q) as (a & b & L & HP & HQ).
    destruct (manhattan_area k P Q a b HP HQ HT) as [_ ->].
    rewrite (sumn_ext k _ (fun _ => 0)).
    + rewrite sumn_0 by auto. ring.
    + intros j Hj. apply is_RInt_unique.
      replace 0 with ((b - a) * 0) by ring. apply step_const; [lra|].
      intros. rewrite H by auto. ring.
Qed.
