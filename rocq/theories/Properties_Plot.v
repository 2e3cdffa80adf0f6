(** * Properties of the plots (C67, C94). *)

From Coq Require Import Reals List ZArith Lra Lia Permutation.
From Verif Require Import Num Spec M_Plot Spec_Plot L_Plot.
Import ListNotations.
Open Scope R_scope.

(** ** C67.  [k]: number of classes; the last argument of plot_line_prevalences is the default list of columns of the
    sorting function, [[0]] in the source and after any number of calls. *)

Theorem C67_lines : forall k m colors d, exists p, fst (plot_line_prevalences k m None colors d) = Val p /\
  draws m (d_lines p) /\ d_xlim p = (0, 100) /\ d_ylim p = (0, INR (length m + 1)).
Proof. exact plain_drawing. Qed.
Print Assumptions C67_lines.

(** Segment [c] goes from 100 times the sum of the prevalences before it to 100 times the sum with its own. *)
Theorem C67_positions : forall y prevs segs, line_of y prevs segs ->
  forall c s, nth_error segs c = Some s -> s_x0 s = 100 * rsum (firstn c prevs) /\ s_x1 s = 100 * rsum (firstn (S c) prevs).
Proof. exact line_positions. Qed.
Print Assumptions C67_positions.

Theorem C67_distribution : forall y prevs segs, line_of y prevs segs -> distribution prevs ->
  (forall s, In s segs -> 0 <= s_x0 s <= s_x1 s /\ s_x1 s <= 100) /\
  (forall s, nth_error segs (length prevs - 1) = Some s -> s_x1 s = 100).
Proof. exact line_inside. Qed.
Print Assumptions C67_distribution.

Theorem C67_ascending : forall k m colors o, (0 < k)%nat -> o <> Descending ->
  exists p m' idx, fst (plot_line_prevalences k m (Some o) colors [0%nat]) = Val p /\ draws m' (d_lines p) /\
    sorted_by [0%nat] m m' idx.
Proof. exact ascending_drawing. Qed.
Print Assumptions C67_ascending.

Theorem C67_descending : forall k m colors, (0 < k)%nat ->
  exists p m' idx, fst (plot_line_prevalences k m (Some Descending) colors [0%nat]) = Val p /\ draws (rev m') (d_lines p) /\
    sorted_by [0%nat] m m' idx.
Proof. exact descending_drawing. Qed.
Print Assumptions C67_descending.

Theorem C67_default_list : forall calls, default_after calls [0%nat] = [0%nat].
Proof. exact default_stays. Qed.
Print Assumptions C67_default_list.

(** Sorting by explicit columns. *)
Theorem C67_sort : forall k m cols o, cols <> [] -> Forall (fun c => (c < k)%nat) cols -> o <> Descending ->
  exists m' idx, fst (sort_rows k m cols o) = Val m' /\ sorted_by cols m m' idx.
Proof. exact sort_ascending. Qed.
Print Assumptions C67_sort.

Theorem C67_sort_descending : forall k m cols m', fst (sort_rows k m cols Ascending) = Val m' ->
  fst (sort_rows k m cols Descending) = Val (rev m').
Proof. exact sort_descending. Qed.
Print Assumptions C67_sort_descending.

Theorem C67_sort_missing : forall k m cols o, Exists (fun c => (k <= c)%nat) cols ->
  sort_rows k m cols o = (Err IndexError, rev cols).
Proof. exact sort_missing_column. Qed.
Print Assumptions C67_sort_missing.

(** The list of the caller is reversed, so a second call with it sorts in another way. *)
Theorem C67_list_reversed : forall k m cols o, snd (sort_rows k m cols o) = cols <-> rev cols = cols.
Proof. exact list_unchanged. Qed.
Print Assumptions C67_list_reversed.

Theorem C67_same_list_refuted : exists m m1 m2 cols,
  fst (sort_rows 2 m cols Ascending) = Val m1 /\
  fst (sort_rows 2 m (snd (sort_rows 2 m cols Ascending)) Ascending) = Val m2 /\ m1 <> m2 /\
  snd (sort_rows 2 m cols Ascending) <> cols.
Proof. exact caller_list_changes. Qed.
Print Assumptions C67_same_list_refuted.

Example C67_hypotheses : distribution [1/4; 3/4] /\ line_of 1 [1/4; 3/4] (row_segments 0 1 [1/4; 3/4]) /\
  nth_error (row_segments 0 1 [1/4; 3/4]) 1 = Some {| s_x0 := 0 + 100 * (1/4); s_x1 := 0 + 100 * (1/4) + 100 * (3/4); s_y := 1 |} /\
  Forall (fun c => (c < 2)%nat) [1; 0]%nat /\ Exists (fun c => (2 <= c)%nat) [0; 5]%nat.
Proof.
  split; [split; [repeat (apply Forall_cons; [lra|]); apply Forall_nil|cbn; lra]|]. split; [apply line_drawn|].
  split; [reflexivity|]. split; [repeat constructor|]. apply Exists_cons_tl, Exists_cons_hd. lia.
Qed.

(** ** C94 *)

(** The colour of class [c] is colour [c] in every line. *)
Theorem C94_colour : forall k m o colors d p c, fst (plot_line_prevalences k m o colors d) = Val p ->
  let cs := match colors with Some l => l | None => tableau end in
  (c < length cs)%nat -> color_of p c = nth_error cs c.
Proof. exact colour_given. Qed.
Print Assumptions C94_colour.

Theorem C94_distinct : forall k m o colors d p a b, fst (plot_line_prevalences k m o colors d) = Val p ->
  let cs := match colors with Some c => c | None => tableau end in
  NoDup cs -> (a < length cs)%nat -> (b < length cs)%nat -> color_of p a = color_of p b -> a = b.
Proof. exact colours_differ. Qed.
Print Assumptions C94_distinct.

Theorem C94_repeated : forall k m o colors d p c, fst (plot_line_prevalences k m o colors d) = Val p ->
  let cs := match colors with Some l => l | None => tableau end in
  cs <> [] -> color_of p (c + length cs) = color_of p c.
Proof. exact colour_repeats. Qed.
Print Assumptions C94_repeated.

Theorem C94_boxes : forall n cs i, (i < n)%nat ->
  length (fst (plot_boxes n (Some cs))) = n /\ nth i (fst (plot_boxes n (Some cs))) None = nth_error cs i.
Proof. exact boxes_coloured. Qed.
Print Assumptions C94_boxes.

Example C94_hypotheses : exists p, fst (plot_line_prevalences 2 [[1/4; 3/4]] None (Some [7; 3]%Z) [0%nat]) = Val p /\
  NoDup [7; 3]%Z /\ color_of p 1 = Some 3%Z /\ NoDup tableau /\ length tableau = 10%nat.
Proof.
  eexists. split; [reflexivity|]. split; [|split; [reflexivity|split; [exact tableau_distinct|reflexivity]]].
  constructor; [cbn; intuition discriminate|]. constructor; [cbn; tauto|constructor].
Qed.
