(** * Proofs about ensembles.py and weighted_knn.py. *)

From Coq Require Import Reals List ZArith Lia Lra Bool Permutation Sorted.
From Verif Require Import Num Spec M_Estimators Spec_Estimators L_Num L_Estimators L_Estimators2.
Import ListNotations.
Open Scope R_scope.

(** ** EnsembleOfClassifiers *)

Section Ensemble.
  Context {X M : Type} (A : learner X M) (x : list X) (y : list Z).
  Let trained (bag : list nat) : M := p_learn A (pick x bag) (pick y bag).

  Lemma heap_last : forall bags h b, fold_left (fun h bag => heap_set h 0 (trained bag)) (bags ++ [b]) h O = Some (trained b).
  Proof. intros. rewrite fold_left_app. reflexivity. Qed.

  Lemma heap_keep : forall l (h : nat -> option M) r, (forall p, In p l -> fst p <> r) ->
    fold_left (fun h p => heap_set h (fst p) (trained (snd p))) l h r = h r.
  Proof.
    induction l as [|p l IH]; intros h r H; auto. cbn [fold_left]. rewrite IH by (intros; apply H; right; auto).
    unfold heap_set. destruct (Nat.eqb_spec r (fst p)); auto. exfalso. apply (H p); auto. left; auto.
  Qed.

  Lemma heap_nth : forall bags s h i b, nth_error bags i = Some b ->
    fold_left (fun h p => heap_set h (fst p) (trained (snd p))) (combine (seq s (length bags)) bags) h (s + i)%nat = Some (trained b).
  Proof.
    induction bags as [|b0 bags IH]; intros s h i b H; [destruct i; discriminate|]. cbn [length seq combine fold_left fst snd].
    destruct i; simpl in H.
    - inversion H; subst. rewrite heap_keep.
      + unfold heap_set. rewrite Nat.add_0_r, Nat.eqb_refl. auto.
      + intros [p1 p2] Hp. apply in_combine_l in Hp. apply in_seq in Hp. simpl. lia.
    - rewrite <- Nat.add_succ_comm. apply IH; auto.
  Qed.

  Lemma answers : forall (h : nat -> option M) k t refs (bs : list (list nat)),
    (forall b v, In b bs -> In v t -> length (p_row A (trained b) v) = k) ->
    Forall2 (fun r b => h r = Some (trained b)) refs bs ->
    fold_right (fun r acc => match h r with
                             | Some m => if forallb (fun row => Nat.eqb (length row) k) (map (p_row A m) t)
                                         then omap (cons (map (p_row A m) t)) acc else Err ValueError
                             | None => Err NotFittedError
                             end) (Val []) refs = Val (map (fun b => bag_answer A x y b t) bs).
  Proof.
    intros h k t refs bs L F. induction F as [|r b refs bs Hr F IH]; auto. cbn [fold_right map]. rewrite Hr.
    replace (forallb _ _) with true.
    - rewrite IH; [reflexivity|]. intros. apply L; auto. right; auto.
    - symmetry. apply forallb_forall. intros row Hin. apply in_map_iff in Hin. destruct Hin as [v [<- Hv]].
      apply Nat.eqb_eq. apply L; auto. left; auto.
  Qed.

  (** In one process, every column of the ensemble comes from the model of the last bag. *)
  Theorem ensemble_in_process : forall bags last_bag t,
    (forall v, In v t -> length (p_row A (trained last_bag) v) = length (np_unique y)) ->
    EoC_predict_proba A (EoC_fit A true fresh_ensemble x y (bags ++ [last_bag])) t =
    Val (repeat (bag_answer A x y last_bag t) (length (bags ++ [last_bag]))).
  Proof.
    intros bags b t L. unfold EoC_fit, EoC_predict_proba. cbn [fresh_ensemble e_classes e_refs e_heap].
    assert (E : repeat O (length (bags ++ [b])) = O :: repeat O (length bags)).
    { rewrite app_length. simpl. rewrite Nat.add_1_r. reflexivity. }
    rewrite E. cbv iota. rewrite <- E.
    rewrite (answers _ (length (np_unique y)) t (repeat O (length (bags ++ [b]))) (repeat b (length (bags ++ [b])))).
    - f_equal. generalize (length (bags ++ [b])). induction n; simpl; congruence.
    - intros b' v Hb Hv. apply repeat_spec in Hb. subst b'. auto.
    - generalize (length (bags ++ [b])). induction n; simpl; constructor; auto. apply heap_last.
  Qed.

  (** With copies in other processes, column i comes from the model of bag i. *)
  Theorem ensemble_other_processes : forall bags t, bags <> [] ->
    (forall b v, In b bags -> In v t -> length (p_row A (trained b) v) = length (np_unique y)) ->
    EoC_predict_proba A (EoC_fit A false fresh_ensemble x y bags) t = Val (map (fun b => bag_answer A x y b t) bags).
  Proof.
    intros bags t Hb L. unfold EoC_fit, EoC_predict_proba. cbn [fresh_ensemble e_classes e_refs e_heap].
    assert (E : exists r l, seq 1 (length bags) = r :: l).
    { destruct bags; [congruence|]. simpl. eauto. }
    destruct E as [r [l E]]. rewrite E at 1. cbv iota.
    transitivity (fold_right (fun r acc => match fold_left (fun h p => heap_set h (fst p) (trained (snd p)))
                                              (combine (seq 1 (length bags)) bags) (fun _ => None) r with
                             | Some m => if forallb (fun row => Nat.eqb (length row) (length (np_unique y))) (map (p_row A m) t)
                                         then omap (cons (map (p_row A m) t)) acc else Err ValueError
                             | None => Err NotFittedError
                             end) (Val []) (seq 1 (length bags))).
    { rewrite E. reflexivity. }
    apply answers; auto.
    assert (G : forall s bs (h : nat -> option M), (forall i b, nth_error bs i = Some b -> h (s + i)%nat = Some (trained b)) ->
       Forall2 (fun r b => h r = Some (trained b)) (seq s (length bs)) bs).
    { clear. intros s bs. revert s. induction bs as [|b bs IH]; intros s h H; simpl; constructor.
      - rewrite <- (Nat.add_0_r s). apply H. auto.
      - apply IH. intros i b' Hi. rewrite Nat.add_succ_comm. apply H. auto. }
    apply G. intros i b Hi. apply heap_nth; auto.
  Qed.

  (** A second fit trains nothing: it only changes the classes. *)
  Theorem ensemble_second_fit : forall in_process in_process2 bags x2 y2 bags2,
    let s1 := EoC_fit A in_process fresh_ensemble x y bags in
    let s2 := EoC_fit A in_process2 s1 x2 y2 bags2 in
    e_heap s2 = e_heap s1 /\ e_refs s2 = e_refs s1 /\ e_classes s2 = Some (np_unique y2).
  Proof. intros [|] in2 bags x2 y2 bags2; repeat split. Qed.
End Ensemble.

Theorem ensemble_not_one_per_bag : exists (X M : Type) (A : learner X M) x y bags t,
  length bags = 2%nat /\
  EoC_predict_proba A (EoC_fit A true fresh_ensemble x y bags) t <> Val (map (fun b => bag_answer A x y b t) bags).
Proof.
  exists nat, (list nat), memory, [7; 8]%nat, [0; 1]%Z, [[0]; [1]]%nat, [7]%nat. split; auto.
  change [[0]; [1]]%nat with ([[0]] ++ [[1]])%nat at 1.
  rewrite (ensemble_in_process memory [7; 8]%nat [0; 1]%Z [[0]]%nat [1]%nat [7]%nat).
  - simpl. unfold bag_answer. simpl. intro H. inversion H. lra.
  - intros v _. cbn [p_row memory]. destruct (in_dec Nat.eq_dec v _); reflexivity.
Qed.

(** ** PWK *)

(** The weight of example [i]. *)
Lemma weights_nth : forall y i, (i < length y)%nat -> nth i (PWK_weights y) 0 = 1 - fraction (nth i y 0%Z) y.
Proof.
  intros y i H. unfold PWK_weights. rewrite (nth_indep _ 0 (1 - INR (zcount 0%Z y) / INR (length y))) by (rewrite map_length; auto).
  rewrite (map_nth (fun c => 1 - INR (zcount c y) / INR (length y)) y 0%Z). auto.
Qed.

Theorem rarer_weigh_more : forall y i j, (i < length y)%nat -> (j < length y)%nat ->
  (zcount (nth i y 0%Z) y < zcount (nth j y 0%Z) y)%nat -> nth j (PWK_weights y) 0 < nth i (PWK_weights y) 0.
Proof.
  intros y i j Hi Hj H. rewrite !weights_nth by auto. unfold fraction. apply lt_INR in H.
  assert (0 < INR (length y)) by (apply lt_0_INR; lia).
  apply (Rmult_lt_compat_r (/ INR (length y))) in H; [|apply Rinv_0_lt_compat; auto]. unfold Rdiv. lra.
Qed.

Lemma zcount_lt_length : forall y c d, In d y -> c <> d -> (zcount c y < length y)%nat.
Proof.
  induction y as [|a y IH]; intros c d Hd Hc; [destruct Hd|]. unfold zcount in *. simpl.
  destruct Hd as [->|Hd].
  - destruct (Z.eq_dec d c); [congruence|]. pose proof (count_occ_bound Z.eq_dec c y). lia.
  - specialize (IH c d Hd Hc). destruct (Z.eq_dec a c); lia.
Qed.

Lemma two_labels : forall y c, (2 <= length (np_unique y))%nat -> exists d, In d y /\ c <> d.
Proof.
  intros y c H. pose proof (np_unique_NoDup y) as N. destruct (np_unique y) as [|a [|b t]] eqn:E; simpl in H; try lia.
  assert (In a y /\ In b y).
  { split; apply np_unique_in; rewrite E; simpl; auto. }
  inversion N as [|? ? Na _]; subst. destruct (Z.eq_dec c a) as [->|]; [|exists a; tauto].
  exists b. split; [tauto|]. intro; subst. apply Na. left; auto.
Qed.

Lemma weights_pos : forall y i, (2 <= length (np_unique y))%nat -> (i < length y)%nat -> 0 < nth i (PWK_weights y) 0.
Proof.
  intros y i H Hi. rewrite weights_nth by auto. unfold fraction.
  destruct (two_labels y (nth i y 0%Z) H) as [d [Hd Hn]]. pose proof (zcount_lt_length y _ d Hd Hn) as L. apply lt_INR in L.
  assert (0 < INR (length y)) by (apply lt_0_INR; lia).
  apply (Rmult_lt_compat_r (/ INR (length y))) in L; [|apply Rinv_0_lt_compat; auto].
  rewrite Rinv_r in L by lra. unfold Rdiv. lra.
Qed.

Lemma has_element : forall l : list nat, l <> [] -> exists i, In i l.
Proof. intros [|i l] H; [congruence|]. exists i. left; auto. Qed.

Section Row.
  Context (y : list Z) (H2 : (2 <= length (np_unique y))%nat) (nb : list nat) (Hnb : nb <> [])
          (F : Forall (fun i => (i < length y)%nat) nb).
  Let w : Z -> R := class_weight y (PWK_weights y) nb.

  Lemma w_nonneg : forall c, 0 <= w c.
  Proof.
    intros c. unfold w, class_weight. apply rsum_nonneg. apply Forall_forall. intros v Hv. apply in_map_iff in Hv.
    destruct Hv as [i [<- Hi]]. apply filter_In in Hi. rewrite Forall_forall in F. left. apply weights_pos; auto. apply F; tauto.
  Qed.

  Lemma w_pos : forall i, In i nb -> 0 < w (nth i y 0%Z).
  Proof.
    intros i Hi. unfold w, class_weight. rewrite Forall_forall in F.
    assert (G : forall l, (forall j, In j l -> (j < length y)%nat) -> In i l ->
      0 < rsum (map (fun j => nth j (PWK_weights y) 0) (filter (fun j => Z.eqb (nth j y 0%Z) (nth i y 0%Z)) l))).
    { clear - H2. induction l as [|a l IH]; intros Fl Hi; [destruct Hi|]. cbn [filter].
      assert (P : 0 <= rsum (map (fun j => nth j (PWK_weights y) 0) (filter (fun j => Z.eqb (nth j y 0%Z) (nth i y 0%Z)) l))).
      { apply rsum_nonneg. apply Forall_forall. intros v Hv. apply in_map_iff in Hv. destruct Hv as [j [<- Hj]].
        apply filter_In in Hj. left. apply weights_pos; auto. apply Fl. right; tauto. }
      destruct (Z.eqb_spec (nth a y 0%Z) (nth i y 0%Z)) as [E|E].
      - cbn [map rsum]. assert (0 < nth a (PWK_weights y) 0) by (apply weights_pos; auto; apply Fl; left; auto). simpl. lra.
      - destruct Hi as [->|Hi]; [congruence|]. apply IH; auto. intros; apply Fl; right; auto. }
    apply G; auto.
  Qed.

  Lemma w_absent : forall c, (forall i, In i nb -> nth i y 0%Z <> c) -> w c = 0.
  Proof.
    intros c H. unfold w, class_weight. replace (filter _ nb) with (@nil nat); auto.
    clear -H. induction nb as [|a l IH]; auto. simpl. destruct (Z.eqb_spec (nth a y 0%Z) c) as [E|E].
    - exfalso. apply (H a); auto. left; auto.
    - apply IH. intros; apply H; right; auto.
  Qed.

  Lemma total_pos : 0 < rsum (map w (np_unique y)).
  Proof.
    destruct (has_element nb Hnb) as [i Hi].
    assert (Hc : In (nth i y 0%Z) (np_unique y)).
    { apply np_unique_in. apply nth_In. rewrite Forall_forall in F. apply F; auto. }
    apply in_split in Hc. destruct Hc as [l1 [l2 Ec]]. rewrite Ec, map_app, rsum_app. cbn [map rsum].
    pose proof (w_pos i Hi). assert (N : forall l, 0 <= rsum (map w l)).
    { intros l. apply rsum_nonneg. apply Forall_forall. intros v Hv. apply in_map_iff in Hv. destruct Hv as [c [<- _]]. apply w_nonneg. }
    pose proof (N l1). pose proof (N l2). simpl. lra.
  Qed.

  Lemma row_eq : PWK_row y nb = vdiv (map w (np_unique y)) (rsum (map w (np_unique y))).
  Proof.
    unfold PWK_row. fold w. pose proof total_pos as T. unfold w in *. destruct (Req_EM_T _ 0) as [E|E]; [|reflexivity].
    rewrite E in T. lra.
  Qed.

  Theorem PWK_row_distribution : distribution_over (length (np_unique y)) (PWK_row y nb).
  Proof.
    rewrite row_eq. pose proof total_pos as T. split; [unfold vdiv; rewrite !map_length; auto|]. split.
    - apply Forall_forall. intros v Hv. unfold vdiv in Hv. rewrite map_map in Hv. apply in_map_iff in Hv. destruct Hv as [c [<- _]].
      apply Rmult_le_pos; [apply w_nonneg|left; apply Rinv_0_lt_compat; auto].
    - rewrite vdiv_sum. unfold Rdiv. apply Rinv_r. lra.
  Qed.

  Lemma row_nth : forall j, (j < length (np_unique y))%nat ->
    nth j (PWK_row y nb) 0 = w (nth j (np_unique y) 0%Z) / rsum (map w (np_unique y)).
  Proof.
    intros j Hj. rewrite row_eq. unfold vdiv. rewrite map_map.
    rewrite (nth_indep _ 0 (w 0%Z / rsum (map w (np_unique y)))) by (rewrite map_length; auto).
    exact (map_nth (fun c => w c / rsum (map w (np_unique y))) (np_unique y) 0%Z j).
  Qed.

  Lemma mode_stays : forall scores best bc, (forall d, In d scores -> w d <= bc) ->
    weighted_mode y (PWK_weights y) nb scores best bc = best.
  Proof.
    induction scores as [|c t IH]; intros best bc H; auto. cbn [weighted_mode]. fold (w c).
    destruct (Rlt_dec bc (w c)) as [L|L]; [specialize (H c (or_introl eq_refl)); lra|].
    apply IH. intros; apply H; right; auto.
  Qed.

  Lemma mode_spec : forall scores best bc, StronglySorted Z.lt scores -> (exists d, In d scores /\ bc < w d) ->
    let r := weighted_mode y (PWK_weights y) nb scores best bc in
    In r scores /\ bc < w r /\ (forall d, In d scores -> w d <= w r) /\ (forall d, In d scores -> (d < r)%Z -> w d < w r).
  Proof.
    induction scores as [|c t IH]; intros best bc S [d [Hd Hw]] r; [destruct Hd|].
    inversion S as [|? ? S1 S2]; subst. rewrite Forall_forall in S2. unfold r. cbn [weighted_mode]. fold (w c).
    destruct (Rlt_dec bc (w c)) as [L|L].
    - assert (D : (exists d, In d t /\ w c < w d) \/ (forall d, In d t -> w d <= w c)).
      { clear -t. induction t as [|a t [[d [H1 H2']]|IH]]; [right; intros ? []| |].
        - left. exists d. split; auto. right; auto.
        - destruct (Rlt_dec (w c) (w a)) as [La|La].
          + left. exists a. split; auto. left; auto.
          + right. intros d [->|Hd]; [lra|auto]. }
      destruct D as [D|D].
      + destruct (IH c (w c) S1 D) as [R1 [R2 [R3 R4]]]. split; [right; auto|]. split; [lra|]. split.
        * intros e [<-|He]; [lra|auto].
        * intros e [<-|He] Hlt; [lra|auto].
      + rewrite mode_stays by auto. split; [left; auto|]. split; [auto|]. split.
        * intros e [<-|He]; [lra|auto].
        * intros e [<-|He] Hlt; [lia|]. specialize (S2 e He). lia.
    - destruct Hd as [<-|Hd]; [lra|].
      destruct (IH best bc S1 (ex_intro _ d (conj Hd Hw))) as [R1 [R2 [R3 R4]]]. split; [right; auto|]. split; [auto|]. split.
      + intros e [<-|He]; [lra|auto].
      + intros e [<-|He] Hlt; [lra|auto].
  Qed.

  Theorem mode_first_max : forall scores best, StronglySorted Z.lt scores ->
    (forall i, In i nb -> In (nth i y 0%Z) scores) -> (forall c, In c scores -> In c y) ->
    StronglySorted Z.lt (np_unique y) ->
    exists j, first_max (PWK_row y nb) j /\ weighted_mode y (PWK_weights y) nb scores best 0 = nth j (np_unique y) 0%Z.
  Proof.
    intros scores best S Hin Hsub SU.
    assert (D : exists d, In d scores /\ 0 < w d).
    { destruct (has_element nb Hnb) as [i Hi]. exists (nth i y 0%Z). split; [auto|]. apply w_pos; auto. }
    destruct (mode_spec scores best 0 S D) as [R1 [R2 [R3 R4]]]. set (r := weighted_mode _ _ _ _ _ _) in *.
    assert (Hr : In r (np_unique y)) by (apply np_unique_in; auto).
    apply (In_nth _ _ 0%Z) in Hr. destruct Hr as [j [Hj Ej]]. exists j. split; [|auto].
    assert (Lr : length (PWK_row y nb) = length (np_unique y)) by apply PWK_row_distribution.
    pose proof total_pos as T. assert (IT := Rinv_0_lt_compat _ T).
    assert (G : forall c, In c scores \/ w c = 0).
    { intros c. destruct (in_dec Z.eq_dec c scores) as [I|I]; auto. right. apply w_absent. intros i Hi E. subst c. auto. }
    unfold first_max. rewrite Lr. split; [auto|]. split.
    - intros i Hi. rewrite !row_nth by auto. rewrite Ej. apply Rmult_le_compat_r; [lra|].
      destruct (G (nth i (np_unique y) 0%Z)) as [I|Z0]; [auto|]. rewrite Z0. lra.
    - intros i Hi. rewrite !row_nth by lia. rewrite Ej. apply Rmult_lt_compat_r; [lra|].
      destruct (G (nth i (np_unique y) 0%Z)) as [I|Z0]; [|rewrite Z0; lra].
      apply R4; auto. rewrite <- Ej. clear -SU Hi Hj. revert i j Hi Hj. induction SU as [|a l SU IH Fa]; intros i j Hi Hj; simpl in *; [lia|].
      rewrite Forall_forall in Fa. destruct i, j; try lia.
      + apply Fa. apply nth_In. lia.
      + apply IH; lia.
  Qed.
End Row.

Lemma np_unique_ssorted : forall y, StronglySorted Z.lt (np_unique y).
Proof. exact np_unique_sorted. Qed.

Theorem PWK_predict_first_max : forall y all i, (2 <= length (np_unique y))%nat ->
  Forall (fun nb => nb <> [] /\ Forall (fun i => (i < length y)%nat) nb) all -> (i < length all)%nat ->
  length (PWK_predict y all) = length all /\
  exists j, first_max (PWK_row y (nth i all [])) j /\ nth i (PWK_predict y all) 0%Z = nth j (np_unique y) 0%Z.
Proof.
  intros y all i H2 F Hi. unfold PWK_predict. rewrite map_length. split; [auto|].
  set (scores := np_unique (map (fun i => nth i y 0%Z) (concat all))).
  pose proof F as F0. rewrite Forall_forall in F0.
  destruct (F0 _ (@nth_In _ i all [] Hi)) as [N1 N2].
  destruct (mode_first_max y H2 (nth i all []) N1 N2 scores 0%Z) as [j [Hj Ej]].
  - apply np_unique_ssorted.
  - intros k Hk. apply np_unique_in. apply in_map_iff. exists k. split; auto. apply in_concat. exists (nth i all []). split; auto.
    apply nth_In; auto.
  - intros c Hc. unfold scores in Hc. rewrite np_unique_in in Hc. apply in_map_iff in Hc. destruct Hc as [k [<- Hk]].
    apply in_concat in Hk. destruct Hk as [nb [Hnb Hk]]. destruct (F0 _ Hnb) as [_ N3]. rewrite Forall_forall in N3. apply nth_In. auto.
  - apply np_unique_ssorted.
  - exists j. split; auto. rewrite <- Ej.
    rewrite (nth_indep _ 0%Z (weighted_mode y (PWK_weights y) [] scores 0 0)) by (rewrite map_length; auto).
    exact (map_nth (fun nb => weighted_mode y (PWK_weights y) nb scores 0 0) all [] i).
Qed.

(** With a single class every weight is zero. *)
Lemma np_unique_repeat : forall c n, np_unique (repeat c (Datatypes.S n)) = [c].
Proof.
  intros c n. pose proof (np_unique_NoDup (repeat c (Datatypes.S n))) as N.
  assert (I : forall d, In d (np_unique (repeat c (Datatypes.S n))) <-> d = c).
  { intros d. rewrite np_unique_in. split; [apply repeat_spec|]. intros ->. left; auto. }
  destruct (np_unique (repeat c (Datatypes.S n))) as [|a [|b t]].
  - exfalso. apply (proj2 (I c) eq_refl).
  - f_equal. apply I. left; auto.
  - exfalso. assert (a = c) by (apply I; simpl; auto). assert (b = c) by (apply I; simpl; auto). subst.
    inversion N; subst. apply H1. left; auto.
Qed.

Lemma single_class_weight : forall c n nb d, class_weight (repeat c n) (PWK_weights (repeat c n)) nb d = 0.
Proof.
  intros c n nb d. unfold class_weight. induction nb as [|i nb IH]; auto. cbn [filter].
  assert (W : nth i (PWK_weights (repeat c n)) 0 = 0).
  { destruct (le_lt_dec n i) as [L|L].
    - apply nth_overflow. unfold PWK_weights. rewrite map_length, repeat_length. auto.
    - rewrite weights_nth by (rewrite repeat_length; auto). unfold fraction.
      replace (nth i (repeat c n) 0%Z) with c.
      + rewrite repeat_length. unfold zcount. rewrite count_occ_repeat_eq by auto. unfold Rdiv. rewrite Rinv_r; [lra|].
        apply not_0_INR. lia.
      + symmetry. assert (I := @nth_In _ i (repeat c n) 0%Z). rewrite repeat_length in I. apply (repeat_spec n). auto. }
  destruct (Z.eqb _ _); auto. cbn [map rsum]. rewrite W. simpl in *. rewrite IH. lra.
Qed.

Theorem PWK_single_class : forall c n nb all, nb <> [] ->
  PWK_row (repeat c (Datatypes.S n)) nb = [0] /\
  PWK_predict (repeat c (Datatypes.S n)) all = repeat 0%Z (length all).
Proof.
  intros c n nb all Hnb. split.
  - unfold PWK_row. rewrite np_unique_repeat. cbn [map]. rewrite single_class_weight.
    replace (rsum [0]) with 0 by (simpl; lra). destruct (Req_EM_T 0 0); [|congruence]. unfold vdiv. simpl. f_equal. lra.
  - generalize (Datatypes.S n) as m. intros m. unfold PWK_predict. set (scores := np_unique _). clearbody scores. induction all as [|a all IH]; auto. cbn [map length repeat].
    rewrite IH. f_equal. clear. induction scores as [|s t IH]; auto. cbn [weighted_mode]. rewrite single_class_weight.
    destruct (Rlt_dec 0 0); [lra|auto].
Qed.

(** ** The value of each entry *)
Lemma class_weight_value : forall y nb c, Forall (fun i => (i < length y)%nat) nb ->
  class_weight y (PWK_weights y) nb c = INR (zcount c (map (fun i => nth i y 0%Z) nb)) * (1 - fraction c y).
Proof.
  intros y nb c F. unfold class_weight. induction F as [|i nb Hi F IH]; [simpl; lra|]. cbn [filter map]. unfold zcount in *. cbn [count_occ].
  destruct (Z.eqb_spec (nth i y 0%Z) c) as [E|E].
  - cbn [map]. change (nth i (PWK_weights y) 0 + rsum (map (fun i0 => nth i0 (PWK_weights y) 0) (filter (fun i0 => Z.eqb (nth i0 y 0%Z) c) nb)) =
      INR (if Z.eq_dec (nth i y 0%Z) c then Datatypes.S (count_occ Z.eq_dec (map (fun i0 => nth i0 y 0%Z) nb) c) else count_occ Z.eq_dec (map (fun i0 => nth i0 y 0%Z) nb) c) * (1 - fraction c y)).
    rewrite IH, weights_nth by auto. destruct (Z.eq_dec _ c); [|congruence]. rewrite S_INR, E. ring.
  - rewrite IH. destruct (Z.eq_dec _ c); [congruence|auto].
Qed.

Theorem PWK_row_value : forall y nb j, (2 <= length (np_unique y))%nat -> nb <> [] ->
  Forall (fun i => (i < length y)%nat) nb -> (j < length (np_unique y))%nat ->
  let labels := map (fun i => nth i y 0%Z) nb in
  let score c := INR (zcount c labels) * (1 - fraction c y) in
  0 < rsum (map score (np_unique y)) /\
  nth j (PWK_row y nb) 0 = score (nth j (np_unique y) 0%Z) / rsum (map score (np_unique y)).
Proof.
  intros y nb j H2 Hnb F Hj labels score.
  assert (E : map score (np_unique y) = map (class_weight y (PWK_weights y) nb) (np_unique y)).
  { apply map_ext. intros c. unfold score, labels. symmetry. apply class_weight_value; auto. }
  rewrite E. split; [apply total_pos; auto|]. rewrite row_nth by auto. f_equal. apply class_weight_value; auto.
Qed.
