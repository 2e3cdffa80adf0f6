(** * Proofs about masked writes, quantiles, Cholesky and the nodes of a DDAG. *)

From Coq Require Import Reals List ZArith Lia Lra Bool R_Ifp.
From Verif Require Import Num Spec M_Baselines M_Base M_Metrics M_Ordinal M_Estimators M_Optim M_Search M_Bags M_Arrays Spec_Arrays
  L_Num L_Estimators L_Arrays.
Import ListNotations.
Open Scope R_scope.

(** ** Masked writes *)

Lemma write_where_map : forall (A : Type) (g : A -> bool) (f : A -> R) v (l : list A),
  write_where (map g l) v (map f l) = map (fun x => if g x then v else f x) l.
Proof. induction l; simpl; auto. now rewrite IHl. Qed.

Lemma write_where_length : forall mask v l, length (write_where mask v l) = length l.
Proof. induction mask; intros v [|x l]; simpl; auto. Qed.

Lemma repeat_map : forall (A : Type) (v : R) (l : list A), repeat v (length l) = map (fun _ => v) l.
Proof. induction l; simpl; auto. now rewrite IHl. Qed.

Lemma rleb_true : forall x y, rleb x y = true <-> x <= y.
Proof. intros. unfold rleb. destruct (Rle_dec x y); split; auto; discriminate. Qed.
Lemma rltb_true : forall x y, rltb x y = true <-> x < y.
Proof. intros. unfold rltb. destruct (Rlt_dec x y); split; auto; discriminate. Qed.

(** A program that makes one new array and writes masks into it. *)
Lemma store_where_new : forall (A : Type) (h : heap) (labels : list A) (f : A -> R) (g : A -> bool) v,
  store_where (length h) (map g labels) v (h ++ [Floats (map f labels)]) =
  Some (tt, h ++ [Floats (map (fun x => if g x then v else f x) labels)]).
Proof.
  intros. rewrite (store_where_ok _ _ (map f labels)); [|apply nth_error_new|now rewrite !map_length].
  rewrite set_nth_new, write_where_map. reflexivity.
Qed.

Lemma Int_part_0 : Int_part 0 = 0%Z.
Proof. change 0 with (INR 0). now rewrite Int_part_INR. Qed.
Lemma Int_part_1 : Int_part 1 = 1%Z.
Proof. change 1 with (INR 1). now rewrite Int_part_INR. Qed.

Lemma threshold_program_ok : forall h a p, nth_error h a = Some (Floats p) ->
  returns_new (threshold_program a) h (Ints (threshold p)).
Proof.
  intros h a p H. unfold returns_new, threshold_program. rewrite (bind_val _ _ _ _ _ _ _ (floats_ok _ _ _ H)).
  rewrite (bind_val _ _ _ _ _ (length h) (h ++ [Floats p])) by reflexivity.
  rewrite (bind_val _ _ _ _ _ p (h ++ [Floats p])) by (apply floats_ok, nth_error_new).
  assert (E1 := store_where_new R h p (fun x => x) (fun x => rleb (1/2) x) 1). rewrite map_id in E1.
  rewrite (bind_val _ _ _ _ _ _ _ E1). clear E1. set (p1 := map (fun x => if rleb (1 / 2) x then 1 else x) p).
  rewrite (bind_val _ _ _ _ _ p1 (h ++ [Floats p1])) by (apply floats_ok, nth_error_new).
  assert (E1 := store_where_new R h p1 (fun x => x) (fun x => rltb x (1/2)) 0). rewrite map_id in E1.
  rewrite (bind_val _ _ _ _ _ _ _ E1). clear E1. set (p2 := map (fun x => if rltb x (1 / 2) then 0 else x) p1).
  rewrite (bind_val _ _ _ _ _ p2 (h ++ [Floats p2])) by (apply floats_ok, nth_error_new).
  assert (E : map Int_part p2 = threshold p).
  { unfold p2, p1, threshold. rewrite !map_map. apply map_ext. intros x. unfold rleb. destruct (Rle_dec (1/2) x).
    - unfold rltb. destruct (Rlt_dec 1 (1/2)); [lra|]. apply Int_part_1.
    - unfold rltb. destruct (Rlt_dec x (1/2)); [|lra]. apply Int_part_0. }
  rewrite E. eexists _, _. split; [reflexivity|]. split; [|split].
  - apply nth_error_new.
  - rewrite <- app_assoc. apply untouched_app.
  - apply nth_error_None. rewrite app_length. lia.
Qed.

Lemma quantile_weights_program_ok : forall h a labels prevalence c0 c1, nth_error h a = Some (Ints labels) ->
  returns_new (quantile_weights_program prevalence (length labels) a c0 c1) h
    (Floats (quantile_weights prevalence (length labels) labels c0 c1)).
Proof.
  intros h a labels prevalence c0 c1 H. unfold returns_new, quantile_weights_program, quantile_weights.
  rewrite (bind_val _ _ _ _ _ (length h) (h ++ [Floats (repeat 1 (length labels))])) by reflexivity.
  destruct prevalence as [p|].
  2:{ eexists _, _. split; [reflexivity|]. split; [apply nth_error_new|].
      split; [apply untouched_app|apply nth_error_None; lia]. }
  rewrite (bind_val _ _ _ _ _ labels (h ++ [Floats (repeat 1 (length labels))])) by (apply ints_ok, untouched_app; auto).
  rewrite (repeat_map _ 1 labels).
  rewrite (bind_val _ _ _ _ _ _ _ (store_where_new _ _ _ _ _ _)).
  rewrite (bind_val _ _ _ _ _ _ _ (store_where_new _ _ _ _ _ _)).
  eexists _, _. split; [reflexivity|]. split; [apply nth_error_new|].
  split; [apply untouched_app|apply nth_error_None; lia].
Qed.

Lemma sord_weights_program_ok : forall h a labels p c0 c1, nth_error h a = Some (Ints labels) ->
  returns_new (sord_weights_program p a [c0; c1]) h (Floats (sord_weights p labels c0 c1)).
Proof.
  intros h a labels p c0 c1 H. unfold returns_new, sord_weights_program, sord_weights.
  rewrite (bind_val _ _ _ _ _ _ _ (ints_ok _ _ _ H)).
  rewrite (bind_val _ _ _ _ _ (length h) (h ++ [Floats (repeat 0 (length labels))])) by reflexivity.
  rewrite (repeat_map _ 0 labels). cbn [length seq combine for_each Nat.eqb].
  erewrite bind_val.
  2:{ rewrite (bind_val _ _ _ _ _ _ _ (store_where_new _ _ _ _ _ _)).
      rewrite (bind_val _ _ _ _ _ _ _ (store_where_new _ _ _ _ _ _)). reflexivity. }
  rewrite (bind_val _ _ _ _ _ _ _ (store_where_new _ _ _ _ _ _)).
  eexists _, _. split; [reflexivity|]. split; [apply nth_error_new|].
  split; [apply untouched_app|apply nth_error_None; lia].
Qed.

Lemma pwk_loop : forall (h : heap) labels (w : Z -> R) classes f,
  exists g, for_each classes tt (fun cls _ => store_where (length h) (map (fun c => Z.eqb c cls) labels) (w cls))
              (h ++ [Floats (map f labels)]) = Some (tt, h ++ [Floats (map g labels)]) /\
            (forall c, In c classes -> g c = w c) /\ (forall c, ~ In c classes -> g c = f c).
Proof.
  intros h labels w. induction classes as [|cls classes IH]; intros f.
  - exists f. split; [reflexivity|]. split; [intros c []|auto].
  - cbn [for_each]. rewrite (bind_val _ _ _ _ _ _ _ (store_where_new _ _ _ _ _ _)).
    destruct (IH (fun x => if Z.eqb x cls then w cls else f x)) as [g [E [A B]]]. exists g. split; [exact E|].
    split; intros c Hc.
    + destruct (in_dec Z.eq_dec c classes) as [I|I]; auto. destruct Hc as [->|Hc]; [|contradiction].
      rewrite B by auto. now rewrite Z.eqb_refl.
    + rewrite B by (intro; apply Hc; now right). destruct (Z.eqb_spec c cls); auto. exfalso. apply Hc. now left.
Qed.

Lemma pwk_weights_program_ok : forall h a labels, nth_error h a = Some (Ints labels) ->
  exists h', pwk_weights_program a h = Some (length h, h') /\ h' = h ++ [Floats (PWK_weights labels)].
Proof.
  intros h a labels H. unfold pwk_weights_program, PWK_weights.
  rewrite (bind_val _ _ _ _ _ _ _ (ints_ok _ _ _ H)).
  rewrite (bind_val _ _ _ _ _ (length h) (h ++ [Floats (repeat 1 (length labels))])) by reflexivity.
  rewrite (repeat_map _ 1 labels).
  destruct (pwk_loop h labels (fun cls => 1 - INR (zcount cls labels) / INR (length labels)) (np_unique labels) (fun _ => 1))
    as [g [E [A _]]].
  rewrite (bind_val _ _ _ _ _ _ _ E). eexists. split; [reflexivity|].
  f_equal. f_equal. f_equal. apply map_ext_in. intros c Hc. apply A. now apply np_unique_in.
Qed.

Lemma pwk_weights_program_new : forall h a labels, nth_error h a = Some (Ints labels) ->
  returns_new (pwk_weights_program a) h (Floats (PWK_weights labels)).
Proof.
  intros h a labels H. destruct (pwk_weights_program_ok h a labels H) as [h' [E ->]]. eexists _, _. split; [exact E|].
  split; [apply nth_error_new|]. split; [apply untouched_app|apply nth_error_None; lia].
Qed.

(** ** Recalls *)

Lemma recall_program_ok : forall h a b correction y_true y_pred classes,
  nth_error h a = Some (Floats (map (fun c => INR (tp_count c y_true y_pred)) classes)) ->
  nth_error h b = Some (Floats (map (fun c => INR (zcount c y_true)) classes)) ->
  returns_new (recall_program correction a b) h (Floats (map (recall correction y_true y_pred) classes)).
Proof.
  intros h a b correction y_true y_pred classes Ha Hb. unfold returns_new, recall_program.
  set (tp := map (fun c => INR (tp_count c y_true y_pred)) classes) in *.
  set (t := map (fun c => INR (zcount c y_true)) classes) in *.
  rewrite (bind_val _ _ _ _ _ _ _ (floats_ok _ _ _ Ha)).
  rewrite (bind_val _ _ _ _ _ (length h) (h ++ [Floats tp])) by reflexivity. set (h1 := h ++ [Floats tp]).
  rewrite (bind_val _ _ _ _ _ t h1) by (apply floats_ok, untouched_app; auto).
  rewrite (bind_val _ _ _ _ _ (length h1) (h1 ++ [Floats t])) by reflexivity.
  rewrite (bind_val _ _ _ _ _ t (h1 ++ [Floats t])) by (apply floats_ok, nth_error_new).
  set (zero := fun x : R => if Req_EM_T x 0 then true else false).
  assert (M : map zero t = map (fun c => zero (INR (zcount c y_true))) classes) by (unfold t; now rewrite map_map).
  rewrite M. unfold t at 1.
  rewrite (bind_val _ _ _ _ _ _ _ (store_where_new _ h1 classes _ _ _)).
  set (t' := map (fun c => if zero (INR (zcount c y_true)) then 1 else INR (zcount c y_true)) classes).
  set (h2 := h1 ++ [Floats t']).
  rewrite (bind_val _ _ _ _ _ tp h2).
  2:{ apply floats_ok. unfold h2, h1. rewrite <- app_assoc. rewrite nth_error_app2, Nat.sub_diag; auto. }
  rewrite (bind_val _ _ _ _ _ t' h2) by (apply floats_ok, nth_error_new).
  assert (V : vmap2 Rdiv tp t' = map (fun c => INR (tp_count c y_true y_pred) /
                (if zero (INR (zcount c y_true)) then 1 else INR (zcount c y_true))) classes).
  { unfold tp, t'. clear. induction classes; simpl; auto. now rewrite IHclasses. }
  rewrite V. rewrite (bind_val _ _ _ _ _ (length h2) (h2 ++ [Floats (map (fun c => INR (tp_count c y_true y_pred) /
                (if zero (INR (zcount c y_true)) then 1 else INR (zcount c y_true))) classes)])) by reflexivity.
  rewrite (bind_val _ _ _ _ _ _ _ (store_where_new _ h2 classes _ _ _)).
  set (r := fun c => if zero (INR (zcount c y_true)) then 0 else
              INR (tp_count c y_true y_pred) / (if zero (INR (zcount c y_true)) then 1 else INR (zcount c y_true))).
  rewrite (bind_val _ _ _ _ _ (map r classes) (h2 ++ [Floats (map r classes)])) by (apply floats_ok, nth_error_new).
  fold zero. rewrite map_map.
  rewrite (bind_val _ _ _ _ _ _ _ (store_where_new _ h2 classes r (fun c => zero (r c)) correction)).
  eexists _, _. split; [reflexivity|]. split; [|split].
  - rewrite nth_error_new. f_equal. f_equal. apply map_ext. intros c. unfold recall, zero, r.
    destruct (Nat.eqb_spec (zcount c y_true) 0) as [E0|E0].
    + rewrite E0. unfold zero. destruct (Req_EM_T (INR 0) 0) as [_|N]; [|simpl in N; congruence]. now destruct (Req_EM_T 0 0).
    + unfold zero. destruct (Req_EM_T (INR (zcount c y_true)) 0) as [E|_].
      * exfalso. apply (not_0_INR _ E0). exact E.
      * now destruct (Req_EM_T (_ / _) 0).
  - unfold h2, h1. rewrite <- !app_assoc. apply untouched_app.
  - apply nth_error_None. unfold h2, h1. rewrite !app_length. lia.
Qed.

(** ** Quantiles *)

Lemma add_nth_set : forall l j v, (j < length l)%nat -> set_nth j (nth j l 0 + v) l = add_nth j v l.
Proof. induction l; intros [|j] v H; simpl in *; try lia; auto. rewrite IHl; auto. lia. Qed.

Lemma add_nth_len : forall l j v, length (add_nth j v l) = length l.
Proof. induction l; intros [|j] v; simpl; auto. Qed.

Lemma add_program : forall a h l j v, nth_error h a = Some (Floats l) -> (j < length l)%nat ->
  (q <- get a j;; store a j (q + v)) h = Some (tt, set_nth a (Floats (add_nth j v l)) h).
Proof.
  intros a h l j v H L. rewrite (bind_val _ _ _ _ _ _ _ (get_ok _ _ _ _ H L)), (store_ok _ _ _ _ _ H L).
  now rewrite add_nth_set.
Qed.

Lemma add_program_then : forall (B : Type) (k : prog B) a h l j v, nth_error h a = Some (Floats l) -> (j < length l)%nat ->
  (q <- get a j;; store a j (q + v);; k) h = k (set_nth a (Floats (add_nth j v l)) h).
Proof.
  intros B k a h l j v H L. rewrite (bind_val _ _ _ _ _ _ _ (get_ok _ _ _ _ H L)).
  rewrite (bind_val _ _ _ _ _ _ _ (store_ok _ _ _ _ _ H L)). now rewrite add_nth_set.
Qed.

Lemma spread_length : forall fuel q n p rest j Q, (j < q)%nat ->
  length (fst (spread fuel q n p rest j Q)) = length Q /\ (snd (spread fuel q n p rest j Q) < q)%nat.
Proof.
  induction fuel; intros q n p rest j Q L; [simpl; auto|]. cbn [spread]. destruct (Rlt_dec _ _); [|simpl; auto].
  destruct (Nat.ltb_spec j (q - 1)); [|simpl; auto]. cbv zeta. destruct (IHfuel q n p (rest - Rmin rest (cutpoint q n (j + 1) - cutpoint q n (j + 1 - 1))) (j + 1)%nat
    (add_nth (j + 1) (p * Rmin rest (cutpoint q n (j + 1) - cutpoint q n (j + 1 - 1))) Q) ltac:(lia)) as [A B].
  rewrite add_nth_len in A. auto.
Qed.

Definition spread_body (a : address) (q n : nat) (p : R) (r : R * nat) : prog (R * nat) :=
  let '(withoutassign, j) := r in
  let j := (j + 1)%nat in
  let assign := Rmin withoutassign (cutpoint q n j - cutpoint q n (j - 1)) in
  x <- get a j;; store a j (x + p * assign);; ret (withoutassign - assign, j).
Definition spread_test (q : nat) (r : R * nat) : bool := rltb (1/10000) (fst r) && Nat.ltb (snd r) (q - 1).

Lemma spread_program : forall a q n p fuel rest j Q h, (j < q)%nat -> (q - 1 - j <= fuel)%nat -> length Q = q ->
  nth_error h a = Some (Floats Q) ->
  exists rest', while_loop fuel (spread_test q) (spread_body a q n p) (rest, j) h =
    Some ((rest', snd (spread fuel q n p rest j Q)), set_nth a (Floats (fst (spread fuel q n p rest j Q))) h).
Proof.
  intros a q n p. induction fuel; intros rest j Q h Lj Lf LQ H.
  - exists rest. cbn [while_loop spread fst snd]. unfold spread_test. cbn [fst snd].
    rewrite (proj2 (Nat.ltb_ge j (q - 1)) ltac:(lia)), andb_false_r. unfold ret. now rewrite set_nth_id.
  - cbn [while_loop spread]. unfold spread_test at 1. cbn [fst snd]. unfold rltb. destruct (Rlt_dec (1/10000) rest).
    + destruct (Nat.ltb_spec j (q - 1)); cbn [andb].
      * cbv zeta. set (assign := Rmin rest (cutpoint q n (j + 1) - cutpoint q n (j + 1 - 1))).
        assert (E : spread_body a q n p (rest, j) h =
          Some ((rest - assign, (j + 1)%nat), set_nth a (Floats (add_nth (j + 1) (p * assign) Q)) h)).
        { unfold spread_body. cbv zeta. fold assign. rewrite (add_program_then _ _ _ _ Q); auto. lia. }
        rewrite (bind_val _ _ _ _ _ _ _ E).
        destruct (IHfuel (rest - assign) (j + 1)%nat (add_nth (j + 1) (p * assign) Q)
          (set_nth a (Floats (add_nth (j + 1) (p * assign) Q)) h)) as [rest' E']; try lia.
        { now rewrite add_nth_len. }
        { apply set_nth_same. eapply some_lt; eauto. }
        exists rest'. rewrite E', set_nth_twice. reflexivity.
      * exists rest. cbn [fst snd]. unfold ret. now rewrite set_nth_id.
    + exists rest. cbn [andb fst snd]. unfold ret. now rewrite set_nth_id.
Qed.

Lemma fold_left_ext_in : forall (A S : Type) (f g : S -> A -> S) l s, (forall s x, In x l -> f s x = g s x) ->
  fold_left f l s = fold_left g l s.
Proof. induction l; intros s H; simpl; auto. rewrite H by now left. apply IHl. intros. apply H. now right. Qed.

Lemma fold_seq_nth : forall (A S : Type) (g : S -> A -> S) (d : A) (l pre : list A) s,
  fold_left (fun s i => g s (nth i (pre ++ l) d)) (seq (length pre) (length l)) s = fold_left g l s.
Proof.
  induction l as [|x l IH]; intros pre s; [reflexivity|]. cbn [length seq fold_left]. rewrite nth_at.
  specialize (IH (pre ++ [x]) (g s x)). rewrite <- app_assoc in IH. cbn [app] in IH.
  rewrite app_length in IH. cbn [length] in IH. rewrite Nat.add_1_r in IH. exact IH.
Qed.

(** The body of the main loop. *)
Definition quantile_body (a pr w : address) (q n : nat) (i : nat) (s : R * nat) : prog (R * nat) :=
    let '(cumweight, j) := s in
    w <- get w i;; p <- get pr i;;
    let cumweight := cumweight + w in
    if rleb cumweight (cutpoint q n j) then
      x <- get a j;; store a j (x + p * w);; ret (cumweight, j)
    else
      x <- get a j;; store a j (x + p * (w - (cumweight - cutpoint q n j)));;
      r <- while_loop q (spread_test q) (spread_body a q n p) (cumweight - cutpoint q n j, j);;
      ret (cumweight, snd r).

Lemma quantile_body_ok : forall a pr wa q n scores weights i cum j Q h, a <> pr -> a <> wa ->
  nth_error h pr = Some (Floats scores) -> nth_error h wa = Some (Floats weights) ->
  (i < length scores)%nat -> (i < length weights)%nat -> (j < q)%nat -> length Q = q -> nth_error h a = Some (Floats Q) ->
  exists Q' cum' j', quantile_step q n (Q, cum, j) (nth i scores 0, nth i weights 0) = (Q', cum', j') /\
    quantile_body a pr wa q n i (cum, j) h = Some ((cum', j'), set_nth a (Floats Q') h) /\ length Q' = q /\ (j' < q)%nat.
Proof.
  intros a pr wa q n scores weights i cum j Q h N1 N2 Hp Hw Li Li' Lj LQ H. unfold quantile_body, quantile_step.
  rewrite (bind_val _ _ _ _ _ _ _ (get_ok _ _ _ _ Hw Li')). rewrite (bind_val _ _ _ _ _ _ _ (get_ok _ _ _ _ Hp Li)). cbv zeta.
  set (p := nth i scores 0). set (w := nth i weights 0). unfold rleb. destruct (Rle_dec (cum + w) (cutpoint q n j)).
  - exists (add_nth j (p * w) Q), (cum + w), j. split; auto. split; [|rewrite add_nth_len; auto].
    rewrite (add_program_then _ _ _ _ Q); auto. lia.
  - set (v := p * (w - (cum + w - cutpoint q n j))). set (rest := cum + w - cutpoint q n j).
    destruct (spread_length q q n p rest j (add_nth j v Q) Lj) as [L1 L2].
    destruct (spread_program a q n p q rest j (add_nth j v Q) (set_nth a (Floats (add_nth j v Q)) h)) as [rest' E]; auto; try lia.
    { now rewrite add_nth_len. }
    { apply set_nth_same. eapply some_lt; eauto. }
    destruct (spread q q n p rest j (add_nth j v Q)) as [Q' j']. cbn [fst snd] in *.
    exists Q', (cum + w), j'. split; auto. split; [|rewrite add_nth_len in L1; split; [congruence|auto]].
    fold rest. rewrite (add_program_then _ _ _ _ Q); auto; [|lia]. rewrite (bind_val _ _ _ _ _ _ _ E), set_nth_twice. reflexivity.
Qed.

Lemma quantile_loop : forall a pr wa q n scores weights xs cum j Q h, a <> pr -> a <> wa ->
  nth_error h pr = Some (Floats scores) -> nth_error h wa = Some (Floats weights) -> length scores = length weights ->
  Forall (fun i => (i < length scores)%nat) xs -> (j < q)%nat -> length Q = q -> nth_error h a = Some (Floats Q) ->
  exists Q' cum' j', fold_left (fun s i => quantile_step q n s (nth i scores 0, nth i weights 0)) xs (Q, cum, j) = (Q', cum', j') /\
    for_each xs (cum, j) (quantile_body a pr wa q n) h = Some ((cum', j'), set_nth a (Floats Q') h).
Proof.
  intros a pr wa q n scores weights. induction xs as [|i xs IH]; intros cum j Q h N1 N2 Hp Hw L F Lj LQ H.
  - exists Q, cum, j. split; auto. cbn [for_each]. unfold ret. now rewrite set_nth_id.
  - inversion F; subst. cbn [fold_left for_each].
    destruct (quantile_body_ok a pr wa (length Q) n scores weights i cum j Q h) as [Q1 [cum1 [j1 [E1 [E2 [E3 E4]]]]]]; auto; [congruence|].
    rewrite E1, (bind_val _ _ _ _ _ _ _ E2).
    destruct (IH cum1 j1 Q1 (set_nth a (Floats Q1) h)) as [Q' [cum' [j' [E5 E6]]]]; auto.
    + now rewrite set_nth_other.
    + now rewrite set_nth_other.
    + apply set_nth_same. eapply some_lt; eauto.
    + exists Q', cum', j'. split; auto. now rewrite E6, set_nth_twice.
Qed.

Lemma quantiles_program_ok : forall h pr wa q scores weights, (1 <= q)%nat ->
  nth_error h pr = Some (Floats scores) -> nth_error h wa = Some (Floats weights) -> length scores = length weights ->
  returns_new (quantiles_program q pr wa) h (Floats (quantiles_of q scores weights)).
Proof.
  intros h pr wa q scores weights Hq Hp Hw L. unfold returns_new, quantiles_program.
  rewrite (bind_val _ _ _ _ _ _ _ (floats_ok _ _ _ Hp)). cbv zeta. set (n := length scores).
  rewrite (bind_val _ _ _ _ _ (length h) (h ++ [Floats (repeat 0 q)])) by reflexivity.
  change (for_each (seq 0 n) (0, O) _) with (for_each (seq 0 n) (0, O) (quantile_body (length h) pr wa q n)).
  assert (B1 := some_lt _ _ _ _ Hp). assert (B2 := some_lt _ _ _ _ Hw).
  destruct (quantile_loop (length h) pr wa q n scores weights (seq 0 n) 0 0%nat (repeat 0 q) (h ++ [Floats (repeat 0 q)]))
    as [Q [cum [j [E1 E2]]]]; try lia; auto using untouched_app, nth_error_new.
  { apply untouched_app; auto. }
  { apply untouched_app; auto. }
  { apply Forall_forall. intros i Hi. apply in_seq in Hi. unfold n in Hi. lia. }
  { apply repeat_length. }
  rewrite (bind_val _ _ _ _ _ _ _ E2), set_nth_new.
  rewrite (bind_val _ _ _ _ _ Q (h ++ [Floats Q])) by (apply floats_ok, nth_error_new).
  assert (EQ : quantiles_of q scores weights = vdiv Q (cutpoint q n 0)).
  { unfold quantiles_of. fold n.
    rewrite <- (fold_seq_nth _ _ (quantile_step q n) (0, 0) (combine scores weights) [] (repeat 0 q, 0, 0%nat)).
    cbn [length app]. rewrite combine_length, <- L, Nat.min_id. fold n.
    rewrite (fold_left_ext_in _ _ _ (fun s i => quantile_step q n s (nth i scores 0, nth i weights 0))).
    - rewrite E1. reflexivity.
    - intros s i _. now rewrite combine_nth. }
  rewrite EQ. eexists _, _. split; [reflexivity|]. split; [apply nth_error_new|].
  split; [rewrite <- app_assoc; apply untouched_app|apply nth_error_None; rewrite app_length; lia].
Qed.

(** ** Cholesky *)

Lemma get2_ok : forall a h n m i k, nth_error h a = Some (Grid n m) -> get2 a i k h = Some (m i k, h).
Proof. intros a h n m i k H. unfold get2. rewrite (bind_val _ _ _ _ _ _ _ (grid_ok _ _ _ _ H)). reflexivity. Qed.

Lemma store2_ok : forall a h n m i k t, nth_error h a = Some (Grid n m) ->
  store2 a i k t h = Some (tt, set_nth a (Grid n (set_entry m i k t)) h).
Proof.
  intros a h n m i k t H. unfold store2. rewrite (bind_val _ _ _ _ _ _ _ (grid_ok _ _ _ _ H)). cbn [fst snd].
  eapply put_ok; eauto.
Qed.

Lemma dpofa_inner : forall a n k xs s m h, nth_error h a = Some (Grid n m) ->
  for_each xs s (fun i s =>
             t <- get2 a i k;; nm <- grid a;;
             let t := if Nat.ltb 0 i then t - sumn i (fun l => snd nm l i * snd nm l k) else t in
             d <- get2 a i i;;
             let t := t / d in
             store2 a i k t;; ret (s + t * t)) h =
  Some (fst (fold_left (dpofa_step k) xs (s, m)), set_nth a (Grid n (snd (fold_left (dpofa_step k) xs (s, m)))) h).
Proof.
  intros a n k. induction xs as [|i xs IH]; intros s m h H.
  - cbn [for_each fold_left fst snd]. unfold ret. now rewrite set_nth_id.
  - cbn [for_each fold_left]. set (t := (m i k - sumn i (fun l => m l i * m l k)) / m i i).
    erewrite bind_val.
    2:{ rewrite (bind_val _ _ _ _ _ _ _ (get2_ok _ _ _ _ _ _ H)). rewrite (bind_val _ _ _ _ _ _ _ (grid_ok _ _ _ _ H)). cbv zeta. cbn [snd].
        rewrite (bind_val _ _ _ _ _ _ _ (get2_ok _ _ _ _ _ _ H)).
        assert (E : (if Nat.ltb 0 i then m i k - sumn i (fun l => m l i * m l k) else m i k) = m i k - sumn i (fun l => m l i * m l k)).
        { destruct i; [|reflexivity]. cbn [Nat.ltb Nat.leb sumn]. now rewrite Rminus_0_r. }
        rewrite E. fold t. rewrite (bind_val _ _ _ _ _ _ _ (store2_ok _ _ _ _ _ _ _ H)). reflexivity. }
    unfold dpofa_step at 2 4. fold t. rewrite (IH (s + t * t) (set_entry m i k t)).
    + now rewrite set_nth_twice.
    + apply set_nth_same. eapply some_lt; eauto.
Qed.

Lemma dpofa_columns_ok : forall a n todo k m h, nth_error h a = Some (Grid n m) ->
  dpofa_columns a todo k h = Some (fst (dpofa_from todo k m), set_nth a (Grid n (snd (dpofa_from todo k m))) h).
Proof.
  intros a n. induction todo as [|todo IH]; intros k m h H.
  - cbn [dpofa_columns dpofa_from fst snd]. unfold ret. now rewrite set_nth_id.
  - cbn [dpofa_columns dpofa_from]. assert (Ei := dpofa_inner a n k (seq 0 k) 0 m h H).
    change (fold_left (dpofa_step k) (seq 0 k) (0, m)) with (dpofa_column k m) in Ei.
    rewrite (bind_val _ _ _ _ _ _ _ Ei). destruct (dpofa_column k m) as [s0 r']. cbn [fst snd].
    assert (H' : nth_error (set_nth a (Grid n r') h) a = Some (Grid n r')) by (apply set_nth_same; eapply some_lt; eauto).
    rewrite (bind_val _ _ _ _ _ _ _ (get2_ok _ _ _ _ _ _ H')). cbv zeta. unfold rleb.
    destruct (Rle_dec (r' k k - s0) 0); [reflexivity|].
    rewrite (bind_val _ _ _ _ _ _ _ (store2_ok _ _ _ _ _ _ _ H')). rewrite set_nth_twice.
    rewrite (IH (S k) (set_entry r' k k (sqrt (r' k k - s0)))).
    + now rewrite set_nth_twice.
    + apply set_nth_same. eapply some_lt; eauto.
Qed.

Lemma dpofa_program_ok : forall h a n m, nth_error h a = Some (Grid n m) ->
  exists r h', dpofa_program a h = Some ((fst (dpofa n m), r), h') /\ nth_error h' r = Some (Grid n (snd (dpofa n m))) /\
    untouched h h' /\ nth_error h r = None.
Proof.
  intros h a n m H. unfold dpofa_program. rewrite (bind_val _ _ _ _ _ _ _ (grid_ok _ _ _ _ H)). cbn [fst snd].
  rewrite (bind_val _ _ _ _ _ (length h) (h ++ [Grid n m])) by reflexivity.
  rewrite (bind_val _ _ _ _ _ _ _ (dpofa_columns_ok (length h) n n 0 m _ (nth_error_new _ _))).
  rewrite set_nth_new. eexists _, _. split; [reflexivity|]. split; [apply nth_error_new|].
  split; [apply untouched_app|apply nth_error_None; lia].
Qed.

(** ** The nodes of a DDAG *)

Lemma store_column_ok : forall a h rows j test v, nth_error h a = Some (Table rows) ->
  store_column_where a j test v h =
  Some (tt, set_nth a (Table (map (fun r => set_nth j (if test (nth j r 0) then v else nth j r 0) r) rows)) h).
Proof.
  intros a h rows j test v H. unfold store_column_where. rewrite (bind_val _ _ _ _ _ _ _ (table_ok _ _ _ H)).
  rewrite (put_ok _ _ _ _ H). do 4 f_equal. unfold col. rewrite !map_map, write_where_map. unfold set_column.
  clear. induction rows; simpl; auto. now rewrite IHrows.
Qed.

Definition pairs (rows : list (R * R)) : list (list R) := map (fun p => [fst p; snd p]) rows.

Lemma winner_node_program_ok : forall h a ps left right, nth_error h a = Some (Table (pairs ps)) -> (right - left <> 1)%nat ->
  winner_node_program a h = Some (tt, set_nth a (Table (pairs (map (node_probs WinnerNode left right) ps))) h).
Proof.
  intros h a ps left right H E. unfold winner_node_program. assert (La := some_lt _ _ _ _ H).
  rewrite (bind_val _ _ _ _ _ _ _ (store_column_ok _ _ _ _ _ _ H)).
  rewrite (bind_val _ _ _ _ _ _ _ (store_column_ok a _ _ _ _ _ (set_nth_same _ _ _ _ La))), set_nth_twice.
  rewrite (bind_val _ _ _ _ _ _ _ (store_column_ok a _ _ _ _ _ (set_nth_same _ _ _ _ La))), set_nth_twice.
  rewrite (store_column_ok a _ _ _ _ _ (set_nth_same _ _ _ _ La)), set_nth_twice.
  do 4 f_equal. unfold pairs. rewrite !map_map. apply map_ext. intros [x y]. unfold node_probs.
  rewrite (proj2 (Nat.eqb_neq _ _) E). cbn [fst snd set_nth nth]. unfold rltb, rleb.
  apply f_equal2; [|apply f_equal2; auto].
  - destruct (Rlt_dec x (1/2)); [destruct (Rle_dec (1/2) 0); auto; lra|]. destruct (Rle_dec (1/2) x); auto; lra.
  - destruct (Rle_dec y (1/2)); [destruct (Rlt_dec (1/2) 0); auto; lra|]. destruct (Rlt_dec (1/2) y); auto; lra.
Qed.
