(** * Proofs about the programs that write into arrays in place. *)

From Coq Require Import Reals List ZArith Lia Lra Bool R_Ifp.
From Verif Require Import Num Spec M_Baselines M_Base M_Metrics M_Ordinal M_Estimators M_Optim M_Search M_Bags M_Arrays Spec_Arrays
  L_Num L_Estimators.
Import ListNotations.
Open Scope R_scope.

(** ** Heaps *)

Lemma set_nth_id : forall (A : Type) (l : list A) i v, nth_error l i = Some v -> set_nth i v l = l.
Proof.
  induction l; intros [|i] v H; simpl in *; try discriminate; [now injection H as ->|].
  now rewrite IHl.
Qed.

Lemma set_nth_twice : forall (A : Type) (l : list A) i v w, set_nth i v (set_nth i w l) = set_nth i v l.
Proof. induction l; intros [|i] v w; simpl; auto. now rewrite IHl. Qed.

Lemma some_lt : forall (A : Type) (l : list A) i v, nth_error l i = Some v -> (i < length l)%nat.
Proof. intros. apply nth_error_Some. congruence. Qed.

Lemma nth_error_new : forall (h : heap) x, nth_error (h ++ [x]) (length h) = Some x.
Proof. intros. rewrite nth_error_app2, Nat.sub_diag; auto. Qed.

Lemma set_nth_new : forall (h : heap) x y, set_nth (length h) y (h ++ [x]) = h ++ [y].
Proof. induction h; intros; simpl; auto. now rewrite IHh. Qed.

Lemma set_nth_at : forall (h : heap) a x y, a = length h -> set_nth a y (h ++ [x]) = h ++ [y].
Proof. intros. subst. apply set_nth_new. Qed.

Lemma untouched_refl : forall h, untouched h h.
Proof. intros h a x H. exact H. Qed.

Lemma untouched_trans : forall h1 h2 h3, untouched h1 h2 -> untouched h2 h3 -> untouched h1 h3.
Proof. intros h1 h2 h3 A B a x H. auto. Qed.

Lemma untouched_app : forall h l, untouched h (h ++ l).
Proof. intros h l a x H. rewrite nth_error_app1; auto. eapply some_lt; eauto. Qed.

Lemma untouched_set : forall h h' a x, untouched h h' -> (length h <= a)%nat -> untouched h (set_nth a x h').
Proof.
  intros h h' a x U L b y H. assert (B := some_lt _ _ _ _ H). rewrite set_nth_other by lia. auto.
Qed.

(** ** Programs *)

Lemma bind_val : forall (A B : Type) (p : prog A) (f : A -> prog B) h x h',
  p h = Some (x, h') -> bind p f h = f x h'.
Proof. intros A B p f h x h' H. unfold bind. now rewrite H. Qed.

Lemma floats_ok : forall a h l, nth_error h a = Some (Floats l) -> floats a h = Some (l, h).
Proof. intros a h l H. unfold floats, bind, contents. now rewrite H. Qed.
Lemma ints_ok : forall a h l, nth_error h a = Some (Ints l) -> ints a h = Some (l, h).
Proof. intros a h l H. unfold ints, bind, contents. now rewrite H. Qed.
Lemma table_ok : forall a h l, nth_error h a = Some (Table l) -> table a h = Some (l, h).
Proof. intros a h l H. unfold table, bind, contents. now rewrite H. Qed.
Lemma grid_ok : forall a h n m, nth_error h a = Some (Grid n m) -> grid a h = Some ((n, m), h).
Proof. intros a h n m H. unfold grid, bind, contents. now rewrite H. Qed.

Lemma put_ok : forall a h x y, nth_error h a = Some y -> put a x h = Some (tt, set_nth a x h).
Proof. intros a h x y H. unfold put. now rewrite (proj2 (Nat.ltb_lt _ _) (some_lt _ _ _ _ H)). Qed.

Lemma get_ok : forall a h l i, nth_error h a = Some (Floats l) -> (i < length l)%nat ->
  get a i h = Some (nth i l 0, h).
Proof.
  intros a h l i H L. unfold get. rewrite (bind_val _ _ _ _ _ _ _ (floats_ok _ _ _ H)).
  now rewrite (nth_error_nth' l 0 L).
Qed.

Lemma store_ok : forall a h l i v, nth_error h a = Some (Floats l) -> (i < length l)%nat ->
  store a i v h = Some (tt, set_nth a (Floats (set_nth i v l)) h).
Proof.
  intros a h l i v H L. unfold store. rewrite (bind_val _ _ _ _ _ _ _ (floats_ok _ _ _ H)).
  rewrite (proj2 (Nat.ltb_lt _ _) L). eapply put_ok; eauto.
Qed.

Lemma store_where_ok : forall a h l mask v, nth_error h a = Some (Floats l) -> length mask = length l ->
  store_where a mask v h = Some (tt, set_nth a (Floats (write_where mask v l)) h).
Proof.
  intros a h l mask v H L. unfold store_where. rewrite (bind_val _ _ _ _ _ _ _ (floats_ok _ _ _ H)).
  rewrite (proj2 (Nat.eqb_eq _ _) L). eapply put_ok; eauto.
Qed.

(** A loop whose body only changes the array [a] and the local variables. *)
Lemma for_each_local : forall (A S : Type) (a : address) (f : S * array -> A -> S * array) (P : S * array -> Prop)
    (body : A -> S -> prog S) (xs : list A),
  (forall x s y h, In x xs -> P (s, y) -> nth_error h a = Some y ->
     body x s h = Some (fst (f (s, y) x), set_nth a (snd (f (s, y) x)) h) /\ P (f (s, y) x)) ->
  forall s y h, P (s, y) -> nth_error h a = Some y ->
  for_each xs s body h = Some (fst (fold_left f xs (s, y)), set_nth a (snd (fold_left f xs (s, y))) h) /\
  P (fold_left f xs (s, y)).
Proof.
  induction xs as [|x xs IH]; intros Hb s y h Hp Hy.
  - simpl. rewrite set_nth_id by auto. split; auto.
  - cbn [for_each fold_left]. destruct (Hb x s y h (or_introl eq_refl) Hp Hy) as [E Q].
    rewrite (bind_val _ _ _ _ _ _ _ E). destruct (f (s, y) x) as [s' y']. cbn [fst snd] in *.
    assert (Hb' : forall x0 s y h, In x0 xs -> P (s, y) -> nth_error h a = Some y ->
      body x0 s h = Some (fst (f (s, y) x0), set_nth a (snd (f (s, y) x0)) h) /\ P (f (s, y) x0)).
    { intros. apply Hb; auto. now right. }
    destruct (IH Hb' s' y' (set_nth a y' h) Q) as [E' Q'].
    + apply set_nth_same. eapply some_lt; eauto.
    + rewrite E', set_nth_twice. auto.
Qed.

(** The same when the array holds floats and there are no local variables. *)
Lemma for_each_floats : forall (A : Type) (a : address) (f : list R -> A -> list R) (P : list R -> Prop)
    (body : A -> unit -> prog unit) (xs : list A),
  (forall x l h, In x xs -> P l -> nth_error h a = Some (Floats l) ->
     body x tt h = Some (tt, set_nth a (Floats (f l x)) h) /\ P (f l x)) ->
  forall l h, P l -> nth_error h a = Some (Floats l) ->
  for_each xs tt body h = Some (tt, set_nth a (Floats (fold_left f xs l)) h) /\ P (fold_left f xs l).
Proof.
  induction xs as [|x xs IH]; intros Hb l h Hp Hy.
  - simpl. rewrite set_nth_id by auto. split; auto.
  - cbn [for_each fold_left]. destruct (Hb x l h (or_introl eq_refl) Hp Hy) as [E Q].
    rewrite (bind_val _ _ _ _ _ _ _ E).
    assert (Hb' : forall x l h, In x xs -> P l -> nth_error h a = Some (Floats l) ->
      body x tt h = Some (tt, set_nth a (Floats (f l x)) h) /\ P (f l x)).
    { intros. apply Hb; auto. now right. }
    destruct (IH Hb' (f l x) (set_nth a (Floats (f l x)) h) Q) as [E' Q'].
    + apply set_nth_same. eapply some_lt; eauto.
    + rewrite E', set_nth_twice. auto.
Qed.

(** ** The monotone correction *)

Definition lower_step (l : list R) (i : nat) : list R :=
  if rltb (nth i l 0) (nth (i - 1) l 0) then set_nth i (nth (i - 1) l 0) l else l.
Definition upper_step (l : list R) (i : nat) : list R :=
  if rltb (nth i l 0) (nth (i - 1) l 0) then set_nth (i - 1) (nth i l 0) l else l.

Lemma set_nth_app : forall (A : Type) (pre : list A) v x t, set_nth (length pre) v (pre ++ x :: t) = pre ++ v :: t.
Proof. induction pre; intros; simpl; auto. now rewrite IHpre. Qed.

Lemma nth_at : forall (A : Type) (pre : list A) x t d, nth (length pre) (pre ++ x :: t) d = x.
Proof. intros. rewrite app_nth2, Nat.sub_diag; auto. Qed.

Lemma lower_loop : forall rest pre prev,
  fold_left lower_step (seq (S (length pre)) (length rest)) (pre ++ prev :: rest) = pre ++ prev :: raise_from prev rest.
Proof.
  induction rest as [|x rest IH]; intros pre prev; [reflexivity|]. cbn [length seq fold_left raise_from].
  assert (E : lower_step (pre ++ prev :: x :: rest) (S (length pre)) =
              (pre ++ [prev]) ++ (if Rlt_dec x prev then prev else x) :: rest).
  { unfold lower_step. replace (S (length pre) - 1)%nat with (length pre) by lia. rewrite nth_at.
    change (prev :: x :: rest) with ([prev] ++ x :: rest). rewrite app_assoc.
    replace (S (length pre)) with (length (pre ++ [prev])) by (rewrite app_length; simpl; lia).
    rewrite nth_at. unfold rltb. destruct (Rlt_dec x prev); auto. now rewrite set_nth_app. }
  rewrite E. replace (S (S (length pre))) with (S (length (pre ++ [prev]))) by (rewrite app_length; simpl; lia).
  rewrite IH, <- app_assoc. reflexivity.
Qed.

Lemma lower_loop_all : forall l, fold_left lower_step (seq 1 (length l - 1)) l = left_to_right l.
Proof.
  intros [|x t]; [reflexivity|]. cbn [length]. replace (S (length t) - 1)%nat with (length t) by lia.
  apply (lower_loop t [] x).
Qed.

Lemma upper_shift : forall idx x t, Forall (fun i => (1 <= i)%nat) idx ->
  fold_left upper_step (map S idx) (x :: t) = x :: fold_left upper_step idx t.
Proof.
  induction idx as [|i idx IH]; intros x t F; [reflexivity|]. inversion F; subst. cbn [map fold_left].
  assert (E : upper_step (x :: t) (S i) = x :: upper_step t i).
  { unfold upper_step. destruct i; [lia|]. replace (S (S i) - 1)%nat with (S i) by lia.
    replace (S i - 1)%nat with i by lia. cbn [nth]. destruct (rltb _ _); auto. }
  rewrite E. now apply IH.
Qed.

Lemma right_to_left_nil : forall l, right_to_left l = [] -> l = [].
Proof. intros [|x t] H; auto. simpl in H. destruct (right_to_left t); discriminate. Qed.

Lemma upper_loop_all : forall l, fold_left upper_step (rev (seq 1 (length l - 1))) l = right_to_left l.
Proof.
  induction l as [|x t IH]; [reflexivity|]. cbn [length]. replace (S (length t) - 1)%nat with (length t) by lia.
  destruct t as [|y t]; [reflexivity|]. cbn [length seq]. cbn [rev]. rewrite fold_left_app.
  rewrite <- (seq_shift (length t) 1), <- map_rev.
  rewrite upper_shift.
  - cbn [length] in IH. replace (S (length t) - 1)%nat with (length t) in IH by lia. rewrite IH.
    cbn [fold_left]. change (right_to_left (x :: y :: t)) with
      (match right_to_left (y :: t) with [] => [x] | y' :: r => (if Rlt_dec y' x then y' else x) :: y' :: r end).
    destruct (right_to_left (y :: t)) as [|y' r] eqn:E.
    + apply right_to_left_nil in E. discriminate.
    + unfold upper_step, rltb. cbn [nth Nat.sub]. destruct (Rlt_dec y' x); reflexivity.
  - apply Forall_forall. intros i Hi. apply in_rev, in_seq in Hi. lia.
Qed.

Lemma fold_length : forall (A : Type) (f : list R -> A -> list R) xs l, (forall l x, length (f l x) = length l) ->
  length (fold_left f xs l) = length l.
Proof. intros A f xs l H. revert l. induction xs; intros; simpl; auto. now rewrite IHxs. Qed.

Lemma lower_length : forall l i, length (lower_step l i) = length l.
Proof. intros. unfold lower_step. destruct (rltb _ _); auto using set_nth_length. Qed.
Lemma upper_length : forall l i, length (upper_step l i) = length l.
Proof. intros. unfold upper_step. destruct (rltb _ _); auto using set_nth_length. Qed.

Lemma correct_program_ok : forall h a p, nth_error h a = Some (Floats p) -> is_ascending p = false ->
  returns_new (correct_program a) h (Floats (correct_asc p)).
Proof.
  intros h a p H E. unfold returns_new, correct_program. rewrite (bind_val _ _ _ _ _ _ _ (floats_ok _ _ _ H)), E.
  set (n := length p). set (a1 := length h).
  rewrite (bind_val _ _ _ _ _ a1 (h ++ [Floats p])) by reflexivity.
  assert (H1 : nth_error (h ++ [Floats p]) a1 = Some (Floats p)) by apply nth_error_new.
  edestruct (for_each_floats nat a1 lower_step (fun l => length l = n)
    (fun i _ => x <- get a1 i;; y <- get a1 (i - 1);; if rltb x y then store a1 i y else ret tt)
    (seq 1 (n - 1))) as [E1 _]; [|reflexivity|exact H1|].
  { intros i l h' Hi L Hl. apply in_seq in Hi. rewrite lower_length. split; auto.
    rewrite (bind_val _ _ _ _ _ _ _ (get_ok _ _ l i Hl ltac:(lia))).
    rewrite (bind_val _ _ _ _ _ _ _ (get_ok _ _ l (i - 1) Hl ltac:(lia))). unfold lower_step.
    destruct (rltb _ _); [apply store_ok; auto; lia|]. unfold ret. now rewrite set_nth_id. }
  rewrite (bind_val _ _ _ _ _ _ _ E1). assert (EL := lower_loop_all p). fold n in EL. rewrite EL. clear EL.
  rewrite set_nth_at by reflexivity. clear E1 H1.
  set (h1 := h ++ [Floats (left_to_right p)]). set (a2 := length h1).
  rewrite (bind_val _ _ _ _ _ a2 (h1 ++ [Floats p])) by reflexivity.
  assert (H2 : nth_error (h1 ++ [Floats p]) a2 = Some (Floats p)) by apply nth_error_new.
  edestruct (for_each_floats nat a2 upper_step (fun l => length l = n)
    (fun i _ => x <- get a2 i;; y <- get a2 (i - 1);; if rltb x y then store a2 (i - 1) x else ret tt)
    (rev (seq 1 (n - 1)))) as [E2 _]; [|reflexivity|exact H2|].
  { intros i l h' Hi L Hl. apply in_rev, in_seq in Hi. rewrite upper_length. split; auto.
    rewrite (bind_val _ _ _ _ _ _ _ (get_ok _ _ l i Hl ltac:(lia))).
    rewrite (bind_val _ _ _ _ _ _ _ (get_ok _ _ l (i - 1) Hl ltac:(lia))). unfold upper_step.
    destruct (rltb _ _); [apply store_ok; auto; lia|]. unfold ret. now rewrite set_nth_id. }
  rewrite (bind_val _ _ _ _ _ _ _ E2). assert (EL := upper_loop_all p). fold n in EL. rewrite EL. clear EL.
  rewrite set_nth_at by reflexivity. clear E2 H2.
  set (h2 := h1 ++ [Floats (right_to_left p)]).
  rewrite (bind_val _ _ _ _ _ (left_to_right p) h2).
  2:{ apply floats_ok. unfold h2, h1. rewrite <- app_assoc. cbn [app]. unfold a1.
      rewrite nth_error_app2, Nat.sub_diag; auto. }
  rewrite (bind_val _ _ _ _ _ (right_to_left p) h2).
  2:{ apply floats_ok. apply nth_error_new. }
  eexists _, _. split; [reflexivity|]. split; [|split].
  - unfold correct_asc. rewrite E. apply nth_error_new.
  - unfold h2, h1. rewrite <- !app_assoc. apply untouched_app.
  - unfold h2, h1. apply nth_error_None. rewrite !app_length. simpl. lia.
Qed.

Lemma correct_program_same : forall h a p, nth_error h a = Some (Floats p) -> is_ascending p = true ->
  correct_program a h = Some (a, h).
Proof.
  intros h a p H E. unfold correct_program. rewrite (bind_val _ _ _ _ _ _ _ (floats_ok _ _ _ H)), E. reflexivity.
Qed.

Lemma correct_program_returns : forall h a p, nth_error h a = Some (Floats p) ->
  returns (correct_program a) h (Floats (correct_asc p)).
Proof.
  intros h a p H. destruct (is_ascending p) eqn:E.
  - exists a, h. rewrite (correct_program_same _ _ _ H E). split; auto. unfold correct_asc. rewrite E.
    split; auto using untouched_refl.
  - destruct (correct_program_ok h a p H E) as [r [h' [A [B [C _]]]]]. now exists r, h'.
Qed.

(** ** Cumulative sums *)

Definition cumulative_step (l : list R) (i : nat) : list R := set_nth i (nth i l 0 + nth (i - 1) l 0) l.

Lemma cumulative_loop : forall rest pre prev,
  fold_left cumulative_step (seq (S (length pre)) (length rest)) (pre ++ prev :: rest) = pre ++ prev :: cumsum_from prev rest.
Proof.
  induction rest as [|x rest IH]; intros pre prev; [reflexivity|]. cbn [length seq fold_left cumsum_from].
  assert (E : cumulative_step (pre ++ prev :: x :: rest) (S (length pre)) = (pre ++ [prev]) ++ (prev + x) :: rest).
  { unfold cumulative_step. replace (S (length pre) - 1)%nat with (length pre) by lia. rewrite nth_at.
    change (prev :: x :: rest) with ([prev] ++ x :: rest). rewrite app_assoc.
    replace (S (length pre)) with (length (pre ++ [prev])) by (rewrite app_length; simpl; lia).
    rewrite nth_at, set_nth_app, (Rplus_comm x). reflexivity. }
  rewrite E. replace (S (S (length pre))) with (S (length (pre ++ [prev]))) by (rewrite app_length; simpl; lia).
  rewrite IH, <- app_assoc. reflexivity.
Qed.

Lemma cumulative_program_ok : forall h a p, nth_error h a = Some (Floats p) ->
  returns_new (cumulative_program a) h (Floats (cumsum p)).
Proof.
  intros h a p H. unfold returns_new, cumulative_program. rewrite (bind_val _ _ _ _ _ _ _ (floats_ok _ _ _ H)).
  rewrite (bind_val _ _ _ _ _ (length h) (h ++ [Floats p])) by reflexivity.
  edestruct (for_each_floats nat (length h) cumulative_step (fun l => length l = length p)
    (fun i _ => x <- get (length h) i;; y <- get (length h) (i - 1);; store (length h) i (x + y))
    (seq 1 (length p - 1))) as [E1 _]; [|reflexivity|apply nth_error_new|].
  { intros i l h' Hi L Hl. apply in_seq in Hi. unfold cumulative_step at 2. rewrite set_nth_length. split; auto.
    rewrite (bind_val _ _ _ _ _ _ _ (get_ok _ _ l i Hl ltac:(lia))).
    rewrite (bind_val _ _ _ _ _ _ _ (get_ok _ _ l (i - 1) Hl ltac:(lia))). apply store_ok; auto; lia. }
  rewrite (bind_val _ _ _ _ _ _ _ E1). rewrite set_nth_new. eexists _, _. split; [reflexivity|].
  split; [|split; [apply untouched_app|apply nth_error_None; lia]]. rewrite nth_error_new. f_equal. f_equal.
  destruct p as [|x t]; [reflexivity|]. cbn [length]. replace (S (length t) - 1)%nat with (length t) by lia.
  assert (EL := cumulative_loop t [] x). cbn [app length] in EL. rewrite EL. unfold cumsum. cbn [cumsum_from app]. now rewrite Rplus_0_l.
Qed.

(** ** From left groups to prevalences *)

Lemma skipn_tl : forall (A : Type) n (l : list A), skipn (S n) l = tl (skipn n l).
Proof. induction n; intros [|x l]; simpl; auto. rewrite <- IHn. reflexivity. Qed.

Definition fill_step (left : list R) (l : list R) (c : nat) : list R :=
  set_nth c (clip01 (nth c left 0 - rsum (firstn c l))) l.

Lemma fill_loop : forall t left front m, length left = (length front + length t)%nat ->
  skipn (length front) left = t ->
  fold_left (fill_step left) (seq (length front) (length t)) (front ++ repeat 0 (length t + m)) =
  front ++ increments (rsum front) t ++ repeat 0 m.
Proof.
  induction t as [|p t IH]; intros left front m L Sk; [reflexivity|]. cbn [length seq fold_left increments].
  assert (E : fill_step left (front ++ repeat 0 (S (length t) + m)) (length front) =
              (front ++ [clip01 (p - rsum front)]) ++ repeat 0 (length t + m)).
  { unfold fill_step. rewrite firstn_app, Nat.sub_diag, firstn_all. cbn [firstn]. rewrite app_nil_r.
    assert (N : nth (length front) left 0 = p).
    { rewrite <- (firstn_skipn (length front) left), Sk, app_nth2; rewrite firstn_length_le by (simpl in L; lia); [|lia].
      now rewrite Nat.sub_diag. }
    rewrite N. cbn [Nat.add repeat]. rewrite set_nth_app, <- app_assoc. reflexivity. }
  rewrite E. replace (S (length front)) with (length (front ++ [clip01 (p - rsum front)])) by (rewrite app_length; simpl; lia).
  rewrite IH.
  - rewrite rsum_app. cbn [rsum]. rewrite Rplus_0_r, <- app_assoc. reflexivity.
  - rewrite app_length. simpl in *. lia.
  - rewrite app_length. cbn [length]. replace (length front + 1)%nat with (1 + length front)%nat by lia.
    cbn [Nat.add]. rewrite skipn_tl, Sk. reflexivity.
Qed.

Lemma increments_length : forall t s, length (increments s t) = length t.
Proof. induction t; intros; simpl; auto. Qed.

Lemma prevalences_program_ok : forall h a left p, nth_error h a = Some (Floats left) ->
  from_left_groups left = Val p -> returns_new (prevalences_program (S (length left)) a) h (Floats p).
Proof.
  intros h a left p H E. destruct left as [|p0 t]; [discriminate|]. cbn [from_left_groups] in E. cbv zeta in E.
  injection E as <-. set (left := p0 :: t) in *. unfold returns_new, prevalences_program.
  set (n := S (length left)). set (b := length h).
  rewrite (bind_val _ _ _ _ _ b (h ++ [Floats (repeat 0 n)])) by reflexivity.
  set (h0 := h ++ [Floats (repeat 0 n)]).
  assert (Ha : forall x, nth_error (h ++ [x]) a = Some (Floats left)) by (intros; apply untouched_app; auto).
  rewrite (bind_val _ _ _ _ _ _ _ (get_ok a h0 left 0 (Ha _) ltac:(unfold left; simpl; lia))). cbn [nth left].
  assert (Hb : nth_error h0 b = Some (Floats (repeat 0 n))) by apply nth_error_new.
  rewrite (bind_val _ _ _ _ _ _ _ (store_ok b h0 _ 0 p0 Hb ltac:(rewrite repeat_length; unfold n; lia))).
  unfold h0. rewrite set_nth_at by reflexivity.
  replace (set_nth 0 p0 (repeat 0 n)) with ([p0] ++ repeat 0 (length t + 1)).
  2:{ unfold n, left. replace (length t + 1)%nat with (S (length t)) by lia. reflexivity. }
  assert (Hne : a <> b) by (apply some_lt in H; unfold b; lia).
  assert (Hfe : forall h1, nth_error h1 b = Some (Floats ([p0] ++ repeat 0 (length t + 1))) ->
    nth_error h1 a = Some (Floats left) ->
    for_each (seq 1 (n - 2)) tt (fun c _ => p_left <- get a c;; l <- floats b;; store b c (clip01 (p_left - rsum (firstn c l)))) h1 =
    Some (tt, set_nth b (Floats (fold_left (fill_step left) (seq 1 (n - 2)) ([p0] ++ repeat 0 (length t + 1)))) h1)).
  { assert (Lt : (n - 2 = length t)%nat) by (unfold n, left; simpl; lia). rewrite Lt.
    assert (G : forall xs, Forall (fun c => (c < length left)%nat) xs -> forall l h1, length l = n -> nth_error h1 b = Some (Floats l) ->
      nth_error h1 a = Some (Floats left) ->
      for_each xs tt (fun c _ => p_left <- get a c;; l <- floats b;; store b c (clip01 (p_left - rsum (firstn c l)))) h1 =
      Some (tt, set_nth b (Floats (fold_left (fill_step left) xs l)) h1)).
    { induction xs as [|c xs IH]; intros F l h1 Ll Hl Hla; [simpl; now rewrite set_nth_id|]. inversion F; subst.
      cbn [for_each fold_left].
      assert (Es : (p_left <- get a c;; l <- floats b;; store b c (clip01 (p_left - rsum (firstn c l)))) h1 =
                   Some (tt, set_nth b (Floats (fill_step left l c)) h1)).
      { rewrite (bind_val _ _ _ _ _ _ _ (get_ok a h1 left c Hla H2)).
        rewrite (bind_val _ _ _ _ _ _ _ (floats_ok _ _ _ Hl)). apply store_ok; auto. rewrite Ll. unfold n. lia. }
      rewrite (bind_val _ _ _ _ _ _ _ Es). rewrite (IH H3 (fill_step left l c)); auto.
      - now rewrite set_nth_twice.
      - unfold fill_step. rewrite set_nth_length. auto.
      - apply set_nth_same. eapply some_lt; eauto.
      - rewrite set_nth_other; auto. }
    intros h1 Hl Hla. apply G; auto.
    - apply Forall_forall. intros c Hc. apply in_seq in Hc. unfold left. simpl. lia.
    - rewrite app_length, repeat_length. unfold n, left. simpl. lia. }
  erewrite bind_val by (apply Hfe; [apply nth_error_new|apply Ha]).
  rewrite set_nth_at by reflexivity. replace (n - 2)%nat with (length t) by (unfold n, left; simpl; lia).
  assert (EF := fill_loop t left [p0] 1 ltac:(unfold left; simpl; lia) eq_refl). cbn [length] in EF. rewrite EF. clear EF.
  cbn [rsum]. rewrite Rplus_0_r. set (front := p0 :: increments p0 t).
  change ([p0] ++ increments p0 t ++ repeat 0 1) with (front ++ [0]).
  assert (Lf : length front = length left) by (unfold front, left; simpl; now rewrite increments_length).
  set (h3 := h ++ [Floats (front ++ [0])]).
  assert (H3 : nth_error h3 b = Some (Floats (front ++ [0]))) by apply nth_error_new.
  rewrite (bind_val _ _ _ _ _ _ _ (floats_ok _ _ _ H3)).
  replace (n - 1)%nat with (length front) by (unfold n; lia).
  rewrite (bind_val _ _ _ _ _ _ _ (store_ok b h3 _ (length front) _ H3 ltac:(rewrite app_length; simpl; lia))).
  rewrite firstn_app, firstn_all, Nat.sub_diag, set_nth_app. cbn [firstn]. rewrite app_nil_r.
  unfold h3. rewrite set_nth_at by reflexivity. eexists _, _. split; [reflexivity|].
  split; [apply nth_error_new|]. split; [apply untouched_app|apply nth_error_None; lia].
Qed.
