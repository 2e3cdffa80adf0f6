(** * Proofs about the plots. *)

From Coq Require Import Reals List ZArith Lra Lia Bool Permutation Sorted.
From Verif Require Import Num Spec L_Num M_Match L_Match M_Plot Spec_Plot.
Import ListNotations.
Open Scope R_scope.

(** ** Lines *)

Lemma row_segments_length : forall prevs x y, length (row_segments x y prevs) = length prevs.
Proof. induction prevs as [|p t IH]; intros x y; cbn; [reflexivity|now rewrite IH]. Qed.

Lemma row_segments_nth : forall prevs x y c s, nth_error (row_segments x y prevs) c = Some s ->
  s_y s = y /\ s_x1 s - s_x0 s = 100 * nth c prevs 0 /\ s_x0 s = x + 100 * rsum (firstn c prevs) /\
  match c with
  | O => s_x0 s = x
  | S b => exists before, nth_error (row_segments x y prevs) b = Some before /\ s_x0 s = s_x1 before
  end.
Proof.
  induction prevs as [|p t IH]; intros x y c s H; [destruct c; discriminate|]. destruct c as [|c]; cbn [row_segments nth_error] in *.
  - inversion H; subst. cbn. repeat split; lra.
  - destruct (IH _ _ _ _ H) as (H1 & H2 & H3 & H4). split; [auto|]. split; [auto|]. split; [cbn [firstn rsum]; cbn in *; lra|].
    destruct c as [|b]; [eexists; split; [reflexivity|]; exact H4|]. exact H4.
Qed.

Lemma line_drawn : forall y prevs, line_of y prevs (row_segments 0 y prevs).
Proof.
  intros y prevs. split; [apply row_segments_length|]. intros c s H.
  destruct (row_segments_nth _ _ _ _ _ H) as (H1 & H2 & _ & H4). auto.
Qed.

Lemma lines_drawn : forall m, draws m (map (fun i => row_segments 0 (INR (i + 1)) (nth i m [])) (seq 0 (length m))).
Proof.
  intros m. split; [now rewrite map_length, seq_length|]. intros i Hi.
  rewrite (nth_indep _ _ (row_segments 0 (INR (0 + 1)) (nth 0 m []))) by (rewrite map_length, seq_length; auto).
  rewrite (map_nth (fun i => row_segments 0 (INR (i + 1)) (nth i m [])) (seq 0 (length m)) 0%nat i), seq_nth by auto.
  apply line_drawn.
Qed.

(** What the specification of a line fixes. *)
Lemma line_positions : forall y prevs segs, line_of y prevs segs ->
  forall c s, nth_error segs c = Some s -> s_x0 s = 100 * rsum (firstn c prevs) /\ s_x1 s = 100 * rsum (firstn (S c) prevs).
Proof.
  intros y prevs segs [L H].
  assert (N : forall l c, (c < length l)%nat -> rsum (firstn (S c) l) = rsum (firstn c l) + nth c l 0).
  { clear. intros l. induction l as [|a l IH]; intros c Hc; [cbn in Hc; lia|]. destruct c as [|c]; [cbn; lra|].
    cbn [length] in Hc. change (a + rsum (firstn (S c) l) = (a + rsum (firstn c l)) + nth c l 0). rewrite IH by lia. lra. }
  induction c as [|c IH]; intros s Hs.
  - destruct (H _ _ Hs) as (_ & H2 & H3). assert (0 < length segs)%nat by (apply nth_error_Some; congruence).
    rewrite N by lia. cbn [firstn rsum]. cbn [nth] in *. cbn. lra.
  - destruct (H _ _ Hs) as (_ & H2 & before & Hb & E). destruct (IH _ Hb) as [_ I].
    assert (S c < length segs)%nat by (apply nth_error_Some; congruence). rewrite (N prevs (S c)) by lia. split; lra.
Qed.

Lemma rsum_firstn_le : forall l c, Forall (fun v => 0 <= v) l -> 0 <= rsum (firstn c l) <= rsum l.
Proof.
  intros l. induction l as [|a l IH]; intros c H; [destruct c; cbn; lra|].
  pose proof (Forall_inv H) as Ha. apply Forall_inv_tail in H. cbv beta in Ha. destruct c as [|c].
  - cbn. destruct (IH 0%nat H) as [_ I]. cbn in I. lra.
  - cbn. specialize (IH c H). lra.
Qed.

Lemma line_inside : forall y prevs segs, line_of y prevs segs -> distribution prevs ->
  (forall s, In s segs -> 0 <= s_x0 s <= s_x1 s /\ s_x1 s <= 100) /\
  (forall s, nth_error segs (length prevs - 1) = Some s -> s_x1 s = 100).
Proof.
  intros y prevs segs HL [HP HS]. split.
  - intros s Hs. apply In_nth_error in Hs. destruct Hs as [c Hc]. destruct (line_positions _ _ _ HL _ _ Hc) as [E0 E1].
    destruct HL as [L H]. destruct (H _ _ Hc) as (_ & E & _).
    assert (0 <= nth c prevs 0).
    { destruct (Nat.lt_ge_cases c (length prevs)) as [Hlt|Hge]; [|rewrite nth_overflow by auto; lra].
      rewrite Forall_forall in HP. apply HP. now apply nth_In. }
    pose proof (rsum_firstn_le prevs c HP). pose proof (rsum_firstn_le prevs (S c) HP). lra.
  - intros s Hs. destruct (line_positions _ _ _ HL _ _ Hs) as [_ E1]. rewrite E1.
    rewrite firstn_all2 by lia. lra.
Qed.

(** ** Sorting *)

Section Stable.
Variables (before : nat -> nat -> Prop) (key : nat -> R).
Definition key_then (i j : nat) : Prop := key i < key j \/ (key i = key j /\ before i j).

Lemma insert_perm : forall x l, Permutation (insert_by key x l) (x :: l).
Proof.
  intros x l. induction l as [|h t IH]; cbn; [reflexivity|]. destruct (Rle_dec _ _); [reflexivity|]. rewrite IH. apply perm_swap.
Qed.

Lemma insert_sorted : forall x l, Forall (before x) l -> StronglySorted key_then l -> StronglySorted key_then (insert_by key x l).
Proof.
  intros x l. induction l as [|h t IH]; intros HB HS; cbn; [repeat constructor|].
  inversion HS as [|? ? HS' HF]; subst. pose proof (Forall_inv HB) as Hb. apply Forall_inv_tail in HB.
  destruct (Rle_dec (key x) (key h)) as [Hle|Hgt].
  - constructor; [auto|]. apply Forall_cons.
    + destruct (Rle_lt_or_eq_dec _ _ Hle); [left|right]; auto.
    + rewrite Forall_forall in *. intros z Hz. specialize (HF z Hz). specialize (HB z Hz).
      assert (K : key x <= key z) by (destruct HF as [K|[K _]]; lra).
      destruct (Rle_lt_or_eq_dec _ _ K); [left|right]; auto.
  - constructor; [auto|]. apply (Permutation_Forall (Permutation_sym (insert_perm x t))). apply Forall_cons; [left; lra|auto].
Qed.

Lemma stable_perm : forall l, Permutation (stable_sort key l) l.
Proof. induction l as [|x l IH]; cbn; [reflexivity|]. rewrite insert_perm. now apply perm_skip. Qed.

Lemma stable_sorted : forall l, StronglySorted before l -> StronglySorted key_then (stable_sort key l).
Proof.
  induction l as [|x l IH]; intros H; cbn; [constructor|]. inversion H; subst. apply insert_sorted; [|auto].
  apply (Permutation_Forall (Permutation_sym (stable_perm l))). auto.
Qed.
End Stable.

Fixpoint lex (row : nat -> list R) (cols : list nat) (i j : nat) : Prop :=
  match cols with
  | [] => (i < j)%nat
  | c :: t => key_then (lex row t) (fun i => nth c (row i) 0) i j
  end.

Lemma seq_sorted : forall n a, StronglySorted lt (seq a n).
Proof.
  induction n as [|n IH]; intros a; cbn; constructor; [auto|]. apply Forall_forall. intros z Hz. apply in_seq in Hz. lia.
Qed.

Lemma lexsort_sorted : forall (row : nat -> list R) cols n,
  let idx := fold_left (fun idx key => stable_sort key idx) (map (fun c i => nth c (row i) 0) (rev cols)) (seq 0 n) in
  Permutation idx (seq 0 n) /\ StronglySorted (lex row cols) idx.
Proof.
  intros row cols n. cbv zeta. rewrite map_rev, fold_left_rev_right || rewrite map_rev. rewrite <- fold_left_rev_right, rev_involutive.
  induction cols as [|c t [IH1 IH2]]; cbn [map fold_right lex].
  - split; [reflexivity|apply seq_sorted].
  - split; [now rewrite stable_perm|]. now apply (stable_sorted (lex row t)).
Qed.

Lemma lex_not_after : forall row cols i j, lex row cols i j -> not_after cols (row i) (row j) /\
  (equal_on cols (row i) (row j) -> (i < j)%nat).
Proof.
  intros row cols i j. induction cols as [|c t IH]; cbn [lex not_after equal_on]; [auto|].
  intros [H|[H1 H2]].
  - split; [auto|]. intros [E _]. lra.
  - destruct (IH H2). split; [right; auto|]. intros [_ E]. auto.
Qed.

Lemma sorted_nth : forall (P : nat -> nat -> Prop) l, StronglySorted P l ->
  forall a b, (a < b < length l)%nat -> P (nth a l 0%nat) (nth b l 0%nat).
Proof.
  intros P l H. induction H as [|x l H IH HF]; intros a b Hab; [cbn in Hab; lia|].
  destruct b as [|b]; [lia|]. cbn [length] in Hab. destruct a as [|a]; cbn [nth].
  - rewrite Forall_forall in HF. apply HF. apply nth_In. lia.
  - apply IH. lia.
Qed.

Definition lex_order (m : list (list R)) (cols : list nat) : list nat :=
  fold_left (fun idx key => stable_sort key idx) (map (fun c i => nth c (nth i m []) 0) (rev cols)) (seq 0 (length m)).

Lemma sort_rows_val : forall k m cols o, cols <> [] -> Forall (fun c => (c < k)%nat) cols ->
  sort_rows k m cols o =
  (Val (map (fun i => nth i m []) (match o with Descending => rev (lex_order m cols) | _ => lex_order m cols end)), rev cols).
Proof.
  intros k m cols o Hc HF. unfold sort_rows.
  assert (E : forallb (fun c => Nat.ltb c k) (rev cols) = true).
  { apply forallb_forall. intros c H. apply in_rev in H. rewrite Forall_forall in HF. apply Nat.ltb_lt. auto. }
  rewrite E. unfold lexsort, lex_order. destruct (map (fun c i => nth c (nth i m []) 0) (rev cols)) as [|kk ks] eqn:EM.
  - exfalso. apply map_eq_nil in EM. apply (f_equal (@rev _)) in EM. rewrite rev_involutive in EM. cbn in EM. congruence.
  - reflexivity.
Qed.

Lemma lex_order_sorted : forall m cols, sorted_by cols m (map (fun i => nth i m []) (lex_order m cols)) (lex_order m cols).
Proof.
  intros m cols. destruct (lexsort_sorted (fun i => nth i m []) cols (length m)) as [HP HS]. fold (lex_order m cols) in *.
  split; [auto|]. split; [auto|]. intros a b Hab. rewrite map_length in Hab.
  assert (N : forall c, (c < length (lex_order m cols))%nat ->
            nth c (map (fun i => nth i m []) (lex_order m cols)) [] = nth (nth c (lex_order m cols) 0%nat) m []).
  { intros c Hc. rewrite (nth_indep _ [] (nth 0 m [])) by (rewrite map_length; auto).
    now rewrite (map_nth (fun i => nth i m []) (lex_order m cols) 0%nat c). }
  rewrite !N by lia. apply (lex_not_after (fun i => nth i m [])). now apply (sorted_nth _ _ HS).
Qed.

Lemma sort_ascending : forall k m cols o, cols <> [] -> Forall (fun c => (c < k)%nat) cols -> o <> Descending ->
  exists m' idx, fst (sort_rows k m cols o) = Val m' /\ sorted_by cols m m' idx.
Proof.
  intros k m cols o Hc HF Ho. rewrite sort_rows_val by auto. eexists _, _. split; [|apply lex_order_sorted].
  destruct o; try reflexivity. congruence.
Qed.

Lemma sort_descending : forall k m cols m', fst (sort_rows k m cols Ascending) = Val m' ->
  fst (sort_rows k m cols Descending) = Val (rev m').
Proof.
  intros k m cols m' H. unfold sort_rows in *. destruct (forallb _ _); [|discriminate]. cbn [fst] in *.
  destruct (lexsort _ _) as [idx| |]; try discriminate. cbn [omap] in *. inversion H; subst. apply (f_equal Val). apply map_rev.
Qed.

Lemma sort_list_after : forall k m cols o, snd (sort_rows k m cols o) = rev cols.
Proof. reflexivity. Qed.

Lemma default_stays : forall calls, default_after calls [0%nat] = [0%nat].
Proof.
  intros calls. unfold default_after. induction calls as [|c t IH]; cbn [fold_left]; [reflexivity|].
  replace (snd (plot_line_prevalences (pc_k c) (pc_matrix c) (pc_order c) (pc_colors c) [0%nat])) with [0%nat]; [exact IH|].
  unfold plot_line_prevalences. destruct (pc_order c); reflexivity.
Qed.

(** ** Drawings *)

Lemma plain_drawing : forall k m colors d, exists p, fst (plot_line_prevalences k m None colors d) = Val p /\
  draws m (d_lines p) /\ d_xlim p = (0, 100) /\ d_ylim p = (0, INR (length m + 1)).
Proof. intros k m colors d. eexists. split; [reflexivity|]. cbn. split; [apply lines_drawn|auto]. Qed.

Lemma ascending_drawing : forall k m colors o, (0 < k)%nat -> o <> Descending ->
  exists p m' idx, fst (plot_line_prevalences k m (Some o) colors [0%nat]) = Val p /\ draws m' (d_lines p) /\ sorted_by [0%nat] m m' idx.
Proof.
  intros k m colors o Hk Ho.
  destruct (sort_ascending k m [0%nat] o) as (m' & idx & E & HS); [discriminate|repeat constructor; auto|auto|].
  unfold plot_line_prevalences. destruct (sort_rows k m [0%nat] o) as [s d]. cbn [fst] in *. subst s. eexists _, m', idx.
  split; [reflexivity|]. split; [apply lines_drawn|auto].
Qed.

Lemma descending_drawing : forall k m colors, (0 < k)%nat ->
  exists p m' idx, fst (plot_line_prevalences k m (Some Descending) colors [0%nat]) = Val p /\ draws (rev m') (d_lines p) /\
    sorted_by [0%nat] m m' idx.
Proof.
  intros k m colors Hk.
  destruct (sort_ascending k m [0%nat] Ascending) as (m' & idx & E & HS); [discriminate|repeat constructor; auto|discriminate|].
  apply sort_descending in E. unfold plot_line_prevalences. destruct (sort_rows k m [0%nat] Descending) as [s d].
  cbn [fst] in *. subst s. eexists _, m', idx. split; [reflexivity|]. split; [apply lines_drawn|auto].
Qed.

Lemma colours : forall k m o colors d p, fst (plot_line_prevalences k m o colors d) = Val p ->
  d_colors p = match colors with Some c => c | None => tableau end.
Proof.
  intros k m o colors d p H. unfold plot_line_prevalences in H.
  destruct (match o with Some o' => sort_rows k m d o' | None => (Val m, d) end) as [s d']. cbn [fst] in H.
  destruct s; try discriminate. inversion H. reflexivity.
Qed.

Lemma colours_differ : forall k m o colors d p a b, fst (plot_line_prevalences k m o colors d) = Val p ->
  let cs := match colors with Some c => c | None => tableau end in
  NoDup cs -> (a < length cs)%nat -> (b < length cs)%nat -> color_of p a = color_of p b -> a = b.
Proof.
  intros k m o colors d p a b H cs ND Ha Hb E. unfold color_of in E. rewrite (colours _ _ _ _ _ _ H) in E. fold cs in E.
  rewrite !Nat.mod_small in E by auto. rewrite NoDup_nth_error in ND. apply ND; auto.
Qed.

Lemma tableau_distinct : NoDup tableau.
Proof. unfold tableau. cbn. repeat (constructor; [cbn; intuition discriminate|]). constructor. Qed.

Lemma colour_given : forall k m o colors d p c, fst (plot_line_prevalences k m o colors d) = Val p ->
  let cs := match colors with Some l => l | None => tableau end in
  (c < length cs)%nat -> color_of p c = nth_error cs c.
Proof.
  intros k m o colors d p c H cs Hc. unfold color_of. rewrite (colours _ _ _ _ _ _ H). fold cs. now rewrite Nat.mod_small by auto.
Qed.

(** ** The list of the caller *)

Lemma caller_list_changes : exists m m1 m2 cols, 
  fst (sort_rows 2 m cols Ascending) = Val m1 /\
  fst (sort_rows 2 m (snd (sort_rows 2 m cols Ascending)) Ascending) = Val m2 /\ m1 <> m2 /\ snd (sort_rows 2 m cols Ascending) <> cols.
Proof.
  exists [[0; 1]; [1; 0]], [[0; 1]; [1; 0]], [[1; 0]; [0; 1]], [0; 1]%nat.
  split; [|split; [|split]].
  - rewrite sort_rows_val by (discriminate || (repeat constructor)). cbn [fst]. unfold lex_order. cbn.
    repeat (destruct (Rle_dec _ _); try lra; cbn). reflexivity.
  - cbn [sort_rows snd]. change (rev [0; 1]%nat) with [1; 0]%nat.
    rewrite sort_rows_val by (discriminate || (repeat constructor)). cbn [fst]. unfold lex_order. cbn.
    repeat (destruct (Rle_dec _ _); try lra; cbn). reflexivity.
  - intros E. inversion E. lra.
  - cbn. discriminate.
Qed.

Lemma list_unchanged : forall k m cols o, snd (sort_rows k m cols o) = cols <-> rev cols = cols.
Proof. intros. cbn. reflexivity. Qed.

(** ** Colours *)

Lemma colour_repeats : forall k m o colors d p c, fst (plot_line_prevalences k m o colors d) = Val p ->
  let cs := match colors with Some l => l | None => tableau end in
  cs <> [] -> color_of p (c + length cs) = color_of p c.
Proof.
  intros k m o colors d p c H cs Hc. unfold color_of. rewrite (colours _ _ _ _ _ _ H). fold cs.
  assert (length cs <> 0%nat) by (destruct cs; [congruence|discriminate]).
  replace (c + length cs)%nat with (c + 1 * length cs)%nat by lia. now rewrite Nat.mod_add.
Qed.

Lemma boxes_coloured : forall n cs i, (i < n)%nat ->
  length (fst (plot_boxes n (Some cs))) = n /\ nth i (fst (plot_boxes n (Some cs))) None = nth_error cs i.
Proof.
  intros n cs i Hi. cbn [plot_boxes fst]. rewrite map_length, seq_length. split; [auto|].
  rewrite (nth_indep _ None (nth_error cs 0)) by (rewrite map_length, seq_length; auto).
  rewrite (map_nth (fun i => nth_error cs i) (seq 0 n) 0%nat i). now rewrite seq_nth by auto.
Qed.

Lemma sort_missing_column : forall k m cols o, Exists (fun c => (k <= c)%nat) cols -> sort_rows k m cols o = (Err IndexError, rev cols).
Proof.
  intros k m cols o H. unfold sort_rows. replace (forallb _ _) with false; [reflexivity|]. symmetry.
  apply Exists_exists in H. destruct H as (c & Hc & Hk). apply not_true_is_false. intros E. rewrite forallb_forall in E.
  specialize (E c ltac:(now rewrite <- in_rev)). apply Nat.ltb_lt in E. lia.
Qed.
