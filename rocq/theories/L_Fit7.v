(** * Proofs about DFX after failing fits (C129). *)

From Coq Require Import Reals List ZArith Lia Lra Bool Arith.
From Verif Require Import Num Spec L_Num M_Baselines L_Baselines M_Bags L_Bags M_Search M_Optim Spec_Optim L_Optim2 L_Optim4 L_Optim5 M_Match
  Spec_Match L_Match L_Match2 L_Match3 L_Match6 M_Fit3 Spec_Fit Spec_Fit3.
Import ListNotations.
Open Scope R_scope.

(** ** Loops that fill arrays *)

Lemma fill_val : forall {A} (blank : A) f l vs, fill_rows blank f l = (vs, Val tt) <-> collect (map f l) = Val vs.
Proof.
  intros A blank f l. induction l as [|a l IH]; intros vs.
  - cbn. split; intros H; inversion H; reflexivity.
  - cbn [fill_rows map collect]. destruct (f a) as [v| |]; cbn [obind]; [|split; discriminate..].
    destruct (fill_rows blank f l) as [ws r]. destruct (collect (map f l)) as [us| |] eqn:E; cbn [omap].
    + pose proof (proj2 (IH us) eq_refl) as K. inversion K. subst. split; intros H; inversion H; reflexivity.
    + split; [|discriminate]. intros H. inversion H. subst. discriminate (proj1 (IH ws) eq_refl).
    + split; [|discriminate]. intros H. inversion H. subst. discriminate (proj1 (IH ws) eq_refl).
Qed.

Lemma fill_err : forall {A} (blank : A) f l, l <> [] -> (forall a, exists e, f a = Err e) ->
  exists e, fill_rows blank f l = (repeat blank (length l), Err e).
Proof.
  intros A blank f [|a l] Hl H; [congruence|]. destruct (H a) as [e E]. exists e. cbn [fill_rows]. now rewrite E.
Qed.

Lemma fill_all : forall {A} (blank : A) f l, (forall a, In a l -> exists v, f a = Val v) -> exists vs, fill_rows blank f l = (vs, Val tt).
Proof. intros A blank f l H. destruct (collect_all f l H) as [vs E]. exists vs. now apply fill_val. Qed.

Lemma fill_nth : forall {A} (blank d : A) f k vs, fill_rows blank f (seq 0 k) = (vs, Val tt) -> forall i, (i < k)%nat -> f i = Val (nth i vs d).
Proof.
  intros A blank d f k vs H i Hi. apply fill_val, collect_inv in H.
  assert (L : length vs = k) by (apply (f_equal (@length _)) in H; rewrite !map_length, seq_length in H; congruence).
  assert (E : nth i (map f (seq 0 k)) (f (i)%nat) = nth i (map Val vs) (f i)) by (now rewrite H).
  rewrite (nth_indep _ _ (f O)) in E by (rewrite map_length, seq_length; lia).
  rewrite (map_nth f), seq_nth in E by lia. cbn [Nat.add] in E. rewrite E.
  rewrite (nth_indep _ _ (Val d)) by (rewrite map_length; lia). apply (map_nth Val).
Qed.

Lemma fill_train_val : forall blank column classes cols, DFX_fill_train blank column classes = (cols, Val tt) <->
  map column classes = map (fun v => (v, Val tt)) cols.
Proof.
  intros blank column classes. induction classes as [|c t IH]; intros cols.
  - cbn. split; intros H; [inversion H; reflexivity|]. destruct cols; [reflexivity|discriminate].
  - cbn [DFX_fill_train map]. destruct (column c) as [v [[]| |]].
    + destruct (DFX_fill_train blank column t) as [vs r]. split.
      * intros H. inversion H. subst. cbn [map]. f_equal. now apply IH.
      * destruct cols as [|w cols]; [discriminate|]. cbn [map]. intros H. inversion H as [[H1 H2]]. subst w.
        apply IH in H2. inversion H2. reflexivity.
    + split; [discriminate|]. destruct cols; discriminate.
    + split; [discriminate|]. destruct cols; discriminate.
Qed.

(** ** Cut points: for all the attributes, or for none *)

Lemma equal_count_half : forall ppf x y classes n range, (0 < n)%nat -> (2 * length x = n)%nat -> Nat.even (length x) = true ->
  compute_bincuts ppf x y classes n EqualCount range = Err IndexError.
Proof.
  intros ppf x y classes n range Hn0 Hl He. unfold compute_bincuts. destruct n as [|n']; [lia|].
  set (n := S n') in *. set (s := rsort x).
  assert (Ls : length s = length x) by apply rsort_length.
  rewrite (collect_err (equal_count_cut s n) IndexError); [reflexivity| |].
  - intros i Hi. unfold equal_count_cut. destruct (Nat.leb _ _); eauto.
  - exists (n - 1)%nat. split; [apply in_seq; lia|]. unfold equal_count_cut. rewrite Ls.
    assert (E : INR (length x * (n - 1)) / INR n = INR (length x) - 1/2).
    { rewrite <- Hl. rewrite mult_INR, minus_INR, mult_INR by lia. change (INR 2) with 2. change (INR 1) with 1.
      assert (0 < INR (length x)) by (apply INR_pos; lia). field. lra. }
    rewrite E. assert (ER : round_even (INR (length x) - 1/2) = Z.of_nat (length x)).
    { unfold round_even. replace (INR (length x) - 1/2 + 1/2) with (IZR (Z.of_nat (length x))) by (rewrite INR_IZR_INZ; lra).
      assert (I : Int_part (IZR (Z.of_nat (length x))) = Z.of_nat (length x)).
      { rewrite <- INR_IZR_INZ. apply Int_part_INR. }
      rewrite I. destruct (Req_EM_T _ _) as [_|C]; [|destruct (C eq_refl)].
      assert (Ze : Z.even (Z.of_nat (length x)) = true).
      { apply Nat.even_spec in He. destruct He as [m Hm]. rewrite Hm, Nat2Z.inj_mul. apply Z.even_mul. }
      now rewrite Ze. }
    rewrite ER, Nat2Z.id, Nat.leb_refl. reflexivity.
Qed.

(** What compute_bincuts does depends on the values only if it returns. *)
Lemma one_fate : forall ppf y n strat len, increasing_ppf ppf -> (strat = EqualCount -> n mod 4 <> 2)%nat -> (0 < len)%nat -> length y = len ->
  (forall x, length x = len -> exists cuts, compute_bincuts ppf x y (np_unique y) n strat None = Val cuts /\ ascending_edges cuts) \/
  (forall x, length x = len -> exists e, compute_bincuts ppf x y (np_unique y) n strat None = Err e).
Proof.
  intros ppf y n strat len HP HM Hl Hy. destruct (Nat.eq_dec n 0) as [->|Hn].
  { right. intros x _. exists ValueError. reflexivity. }
  assert (G : forall mu std, exists cuts, gaussian_cuts ppf n mu std = Val cuts /\ ascending_edges cuts).
  { intros mu std. destruct (Rlt_dec 0 std) as [P|P].
    - destruct (gaussian_covering ppf n mu std ltac:(lia) P HP) as (cuts & E & C). exists cuts. split; [exact E|]. apply C.
    - unfold gaussian_cuts. destruct n as [|n']; [lia|]. destruct (Rlt_dec 0 std); [contradiction|]. eexists. split; [reflexivity|].
      intros i Hi. rewrite map_length in Hi.
      rewrite !(nth_indep (map Fin _) PosInf (Fin 0)) by (rewrite map_length; lia). rewrite !(map_nth Fin). cbn.
      apply (uniform_edges_ascending (S n') 0 0); [lia|lra|exact Hi]. }
  destruct strat.
  - left. intros x Hx. destruct (equal_width_cuts ppf x y (np_unique y) n None) as (cuts & E & C); [lia|destruct x; [cbn in Hx; lia|discriminate]|].
    exists cuts. split; [exact E|]. apply C.
  - destruct (lt_eq_lt_dec n (2 * len)) as [[L|E]|L].
    + left. intros x Hx. destruct (equal_count_cuts ppf x y (np_unique y) n None) as (cuts & E & C); [lia|lia|].
      exists cuts. split; [exact E|]. apply C.
    + right. intros x Hx. exists IndexError. apply equal_count_half; [lia|lia|]. rewrite Hx.
      destruct (Nat.even len) eqn:Ev; [reflexivity|]. exfalso. apply HM; [reflexivity|]. subst n.
      assert (Nat.odd len = true) as O by (unfold Nat.odd; now rewrite Ev). apply Nat.odd_spec in O. destruct O as [m ->].
      replace (2 * (2 * m + 1))%nat with (2 + m * 4)%nat by lia. rewrite Nat.mod_add by lia. reflexivity.
    + right. intros x Hx. exists IndexError. apply equal_count_few; lia.
  - destruct (Nat.eqb (length (np_unique y)) 2) eqn:E2.
    + left. intros x Hx. unfold compute_bincuts. destruct n as [|n']; [lia|]. rewrite E2. cbn [negb].
      rewrite Hy, Hx, Nat.eqb_refl. cbn [negb].
      match goal with |- context [if ?b then NotANumber else _] => assert (EB : b = false) end.
      { rewrite <- not_true_iff_false. intros H. apply existsb_exists in H. destruct H as (l & Hin & H0). apply in_map_iff in Hin.
        destruct Hin as (c & <- & Hc). apply Nat.eqb_eq in H0. apply length_zero_iff_nil in H0.
        assert (In c y) by (apply np_unique_in; exact Hc).
        revert H0. apply select_nonempty; [congruence|assumption]. }
      rewrite EB. apply G.
    + right. intros x Hx. exists ValueError. unfold compute_bincuts. destruct n as [|n']; [lia|]. now rewrite E2.
  - left. intros x Hx. unfold compute_bincuts. destruct n as [|n']; [lia|]. rewrite Hy, Hx, Nat.eqb_refl. cbn [negb].
    destruct x as [|v x]; [cbn in Hx; lia|]. apply G.
  - right. intros x _. exists ValueError. unfold compute_bincuts. destruct n; [lia|reflexivity].
Qed.
