(** * How many draws of the uniform method give each prevalence. *)

From Coq Require Import Reals List ZArith Lra Lia Bool Permutation Sorted Arith.
From Verif Require Import Num Spec M_Bags Spec_Bags Spec_Uniform L_Num L_Bags.
Import ListNotations.
Open Scope R_scope.

(** ** Counting the orders of a list *)

Definition prod_over (D c : list Z) : nat := fold_right (fun v acc => (fact (zcount v c) * acc)%nat) 1%nat D.

Lemma zcount_cons : forall v a c, zcount v (a :: c) = ((if Z.eq_dec a v then 1 else 0) + zcount v c)%nat.
Proof. intros. unfold zcount. simpl. destruct (Z.eq_dec a v); auto. Qed.

Lemma prod_over_notin : forall D a c, ~ In a D -> prod_over D (a :: c) = prod_over D c.
Proof.
  intros D a c H. unfold prod_over. induction D as [|v D IH]; simpl; auto.
  rewrite zcount_cons. destruct (Z.eq_dec a v) as [->|]; [exfalso; apply H; now left|]. simpl.
  rewrite IH; auto. intros Hi. apply H. now right.
Qed.

Lemma prod_over_cons : forall D a c, NoDup D -> In a D ->
  prod_over D (a :: c) = (prod_over D c * S (zcount a c))%nat.
Proof.
  intros D a c ND Ha. induction ND as [|v D Hv ND IH]; [destruct Ha|].
  change (prod_over (v :: D) (a :: c)) with (fact (zcount v (a :: c)) * prod_over D (a :: c))%nat.
  change (prod_over (v :: D) c) with (fact (zcount v c) * prod_over D c)%nat.
  rewrite zcount_cons. destruct (Z.eq_dec a v) as [->|Ne].
  - rewrite prod_over_notin by auto. change (1 + zcount v c)%nat with (S (zcount v c)).
    change (fact (S (zcount v c))) with (S (zcount v c) * fact (zcount v c))%nat. ring.
  - destruct Ha as [->|Ha]; [congruence|]. rewrite IH by auto. simpl (0 + zcount v c)%nat. ring.
Qed.

Lemma zcount_permutation : forall a c c', Permutation c c' -> zcount a c = zcount a c'.
Proof. intros a c c' H. unfold zcount. induction H; simpl; auto; repeat destruct Z.eq_dec; lia. Qed.

Lemma prod_over_perm : forall D c c', Permutation c c' -> prod_over D c = prod_over D c'.
Proof.
  intros D c c' H. unfold prod_over. induction D as [|v D IH]; simpl; auto.
  now rewrite IH, (zcount_permutation v c c' H).
Qed.

Fixpoint total_in (D c : list Z) : nat :=
  match D with [] => 0%nat | v :: D' => (zcount v c + total_in D' c)%nat end.

Lemma total_in_cons : forall D a c, NoDup D ->
  total_in D (a :: c) = ((if in_dec Z.eq_dec a D then 1 else 0) + total_in D c)%nat.
Proof.
  intros D a c ND. induction ND as [|v D Hv ND IH]; simpl total_in; auto.
  rewrite zcount_cons, IH.
  destruct (Z.eq_dec a v) as [->|Ne].
  - destruct (in_dec Z.eq_dec v D); [tauto|]. destruct (in_dec Z.eq_dec v (v :: D)) as [|nn]; [lia|].
    exfalso. apply nn. now left.
  - destruct (in_dec Z.eq_dec a D) as [i|n], (in_dec Z.eq_dec a (v :: D)) as [i'|n']; try lia.
    + exfalso. apply n'. now right.
    + exfalso. destruct i' as [->|i']; [congruence|auto].
Qed.

Lemma total_in_all : forall D c, NoDup D -> (forall v, In v c -> In v D) -> total_in D c = length c.
Proof.
  intros D c ND H. induction c as [|a c IH].
  - induction D; simpl; auto. apply IHD. now inversion ND. intros v [].
  - rewrite total_in_cons by auto. rewrite IH by (intros v Hv; apply H; now right).
    destruct (in_dec Z.eq_dec a D) as [|n]; [reflexivity|]. exfalso. apply n, H. now left.
Qed.

Lemma orders : forall D, NoDup D -> forall n c, length c = n -> (forall v, In v c -> In v D) ->
  exists L, NoDup L /\ (forall d, In d L <-> Permutation d c) /\ (length L * prod_over D c = fact n)%nat.
Proof.
  intros D ND. induction n as [|n IH]; intros c Lc HD.
  - destruct c; [|discriminate]. exists [[]]. split; [repeat constructor; simpl; auto|]. split.
    + intros d. simpl. split.
      * intros [<-|[]]. constructor.
      * intros H. left. symmetry. apply Permutation_nil. now symmetry.
    + assert (E : forall D, prod_over D [] = 1%nat).
      { unfold prod_over. clear. induction D as [|v D IHD]; [reflexivity|]. cbn [fold_right]. rewrite IHD. reflexivity. }
      rewrite E. reflexivity.
  - assert (H : forall E, NoDup E -> (forall v, In v E -> In v D) -> exists L, NoDup L /\
      (forall d, In d L <-> exists a d', In a E /\ d = a :: d' /\ Permutation d c) /\
      (length L * prod_over D c = fact n * total_in E c)%nat).
    { induction E as [|a E IHE]; intros NE HE.
      - exists []. split; [constructor|]. split; [|simpl; lia]. intros d. simpl. split; [tauto|].
        intros (a & d' & [] & _).
      - inversion NE as [|? ? Na NE']; subst.
        destruct IHE as (L & NL & HL & CL); auto. { intros v Hv. apply HE. now right. }
        destruct (in_dec Z.eq_dec a c) as [Hin|Hout].
        + destruct (in_split a c Hin) as (c1 & c2 & Ec).
          assert (Pc : Permutation c (a :: c1 ++ c2)) by (rewrite Ec; symmetry; apply Permutation_middle).
          assert (Lc' : length (c1 ++ c2) = n).
          { apply Permutation_length in Pc. simpl in Pc. lia. }
          destruct (IH (c1 ++ c2) Lc') as (La & NLa & HLa & CLa).
          { intros v Hv. apply HD. apply (Permutation_in v (Permutation_sym Pc)). now right. }
          exists (map (cons a) La ++ L). split; [|split].
          *
            assert (NM : NoDup (map (cons a) La)).
            { apply FinFun.Injective_map_NoDup; auto. intros x y Hxy. now injection Hxy. }
            clear - NM NL HL Na. induction La as [|x La IHLa]; simpl in *; auto. inversion NM; subst.
            constructor; auto. rewrite in_app_iff. intros [Hx|Hx]; [contradiction|].
            apply HL in Hx. destruct Hx as (b & d' & Hb & E1 & _). injection E1 as <- _. contradiction.
          * intros d. rewrite in_app_iff, in_map_iff. split.
            -- intros [(d' & <- & Hd')|Hd].
               ++ apply HLa in Hd'. exists a, d'. split; [now left|]. split; auto. rewrite Pc. now constructor.
               ++ apply HL in Hd. destruct Hd as (b & d' & Hb & Ed & Pd). exists b, d'. split; [now right|auto].
            -- intros (b & d' & [<-|Hb] & Ed & Pd).
               ++ left. exists d'. split; auto. apply HLa. subst d. rewrite Pc in Pd.
                  now apply Permutation_cons_inv in Pd.
               ++ right. apply HL. exists b, d'. auto.
          * rewrite app_length, map_length. simpl total_in.
            assert (CA : (length La * prod_over D c = fact n * zcount a c)%nat).
            { rewrite (prod_over_perm D c _ Pc), (zcount_permutation a c _ Pc), zcount_cons.
              rewrite prod_over_cons by (auto; apply HE; now left).
              destruct (Z.eq_dec a a); [|congruence]. rewrite Nat.mul_assoc, CLa. reflexivity. }
            nia.
        + exists L. split; auto. split.
          * intros d. rewrite HL. split.
            -- intros (b & d' & Hb & R). exists b, d'. split; [now right|auto].
            -- intros (b & d' & [<-|Hb] & Ed & Pd).
               ++ exfalso. apply Hout. apply (Permutation_in a Pd). subst. now left.
               ++ exists b, d'. auto.
          * simpl total_in. replace (zcount a c) with 0%nat; [exact CL|].
            symmetry. unfold zcount. now apply count_occ_not_In. }
    destruct (H D ND ltac:(auto)) as (L & NL & HL & CL). exists L. split; auto. split.
    + intros d. rewrite HL. split.
      * intros (a & d' & _ & _ & P). auto.
      * intros P. destruct d as [|a d'].
        { apply Permutation_length in P. simpl in P. lia. }
        exists a, d'. split; auto. apply HD. apply (Permutation_in a P). now left.
    + rewrite CL, total_in_all by auto. rewrite Lc. simpl fact. ring.
Qed.

Lemma orders_repetitions : forall c : list Z, exists L, NoDup L /\ (forall d, In d L <-> Permutation d c) /\
  (length L * repetitions c = fact (length c))%nat.
Proof.
  intros c. apply (orders (nodup Z.eq_dec c) (NoDup_nodup _ _) (length c) c eq_refl).
  intros v Hv. now apply nodup_In.
Qed.

Lemma prod_over_pos : forall D c, (0 < prod_over D c)%nat.
Proof.
  intros D c. unfold prod_over. induction D as [|v D IH]; simpl; [lia|].
  pose proof (lt_O_fact (zcount v c)). nia.
Qed.

Lemma repetitions_nodup : forall c, NoDup c -> repetitions c = 1%nat.
Proof.
  intros c H. unfold repetitions.
  assert (E : forall D, fold_right (fun v acc => (fact (zcount v c) * acc)%nat) 1%nat D = 1%nat).
  { induction D as [|v D IH]; simpl; auto. rewrite IH.
    pose proof (proj1 (NoDup_count_occ Z.eq_dec c) H v) as K. unfold zcount.
    destruct (count_occ Z.eq_dec c v) as [|[|k]]; simpl; auto. lia. }
  apply E.
Qed.

Lemma fact_two : forall k, (2 <= k)%nat -> (2 <= fact k)%nat.
Proof. intros [|[|k]] H; try lia. pose proof (lt_O_fact (S k)). change (fact (S (S k))) with (S (S k) * fact (S k))%nat. nia. Qed.

Lemma repetitions_dup : forall c, ~ NoDup c -> (2 <= repetitions c)%nat.
Proof.
  intros c H.
  assert (E : exists v, (2 <= zcount v c)%nat).
  { clear - H. induction c as [|a c IH]; [exfalso; apply H; constructor|].
    destruct (in_dec Z.eq_dec a c) as [Hi|Hn].
    - exists a. rewrite zcount_cons. destruct (Z.eq_dec a a); [|congruence].
      unfold zcount. apply (count_occ_In Z.eq_dec) in Hi. lia.
    - destruct IH as [v Hv]. { intros N. apply H. constructor; auto. }
      exists v. rewrite zcount_cons. lia. }
  destruct E as [v Hv]. unfold repetitions.
  assert (Hin : In v (nodup Z.eq_dec c)).
  { apply nodup_In. apply (count_occ_In Z.eq_dec). unfold zcount in Hv. lia. }
  revert Hin. generalize (nodup Z.eq_dec c). induction l as [|w l IH]; intros Hin; [destruct Hin|].
  cbn [fold_right]. pose proof (prod_over_pos l c) as P. unfold prod_over in P.
  destruct Hin as [->|Hin].
  - pose proof (fact_two _ Hv). nia.
  - specialize (IH Hin). pose proof (lt_O_fact (zcount w c)). nia.
Qed.

(** ** The draws that give a bag *)

Lemma zdiff_inj : forall l l' a, zdiff (a :: l) = zdiff (a :: l') -> l = l'.
Proof.
  induction l as [|b l IH]; intros [|b' l'] a H; auto; try discriminate.
  rewrite !zdiff_cons2 in H. injection H as E H. assert (b = b') by lia. subst. f_equal. eauto.
Qed.

Lemma cuts_from : forall counts s,
  zdiff (Z.of_nat s :: map (fun i => Z.of_nat (s + list_sum (firstn (S i) counts))) (seq 0 (length counts))) =
  map Z.of_nat counts.
Proof.
  induction counts as [|c counts IH]; intros s; [reflexivity|].
  cbn [length seq map]. rewrite <- seq_shift, map_map.
  rewrite zdiff_cons2. cbn [map]. f_equal.
  - cbn [firstn list_sum fold_right]. unfold list_sum. simpl. lia.
  - rewrite <- (IH (s + c)%nat). f_equal. f_equal.
    + unfold list_sum. simpl. f_equal. lia.
    + apply map_ext. intros i. f_equal. cbn [firstn]. unfold list_sum. simpl. lia.
Qed.

Lemma cuts_counts : forall counts, counts <> [] ->
  zdiff (0%Z :: cut_points counts ++ [Z.of_nat (list_sum counts)]) = map Z.of_nat counts.
Proof.
  intros counts H. rewrite <- (cuts_from counts 0) at 1. f_equal. simpl Z.of_nat. f_equal. unfold cut_points.
  destruct counts as [|c counts]; [congruence|]. cbn [length]. rewrite Nat.sub_succ, Nat.sub_0_r.
  rewrite seq_S, map_app. f_equal. cbn [map]. rewrite Nat.add_0_l. do 3 f_equal. symmetry. f_equal. apply firstn_all2.
  lia.
Qed.

Lemma list_sum_firstn_S : forall l i, (i < length l)%nat ->
  list_sum (firstn (S i) l) = (list_sum (firstn i l) + nth i l 0)%nat.
Proof.
  induction l as [|a l IH]; intros i Hi; simpl in Hi; [lia|]. destruct i as [|i].
  - simpl. lia.
  - change (nth (S i) (a :: l) 0%nat) with (nth i l 0%nat).
    change (list_sum (firstn (S (S i)) (a :: l))) with (a + list_sum (firstn (S i) l))%nat.
    change (list_sum (firstn (S i) (a :: l))) with (a + list_sum (firstn i l))%nat.
    rewrite IH by lia. lia.
Qed.

Lemma list_sum_firstn_mono : forall l i j, (i <= j)%nat -> (list_sum (firstn i l) <= list_sum (firstn j l))%nat.
Proof.
  induction l as [|a l IH]; intros i j H; [rewrite !firstn_nil; auto|].
  destruct i as [|i]; [simpl; lia|]. destruct j as [|j]; [lia|]. cbn [firstn].
  specialize (IH i j ltac:(lia)). unfold list_sum in *. simpl. lia.
Qed.

Lemma sorted_tabulate : forall (f : nat -> Z) n, (forall i j, (i <= j)%nat -> (f i <= f j)%Z) ->
  StronglySorted Z.le (map f (seq 0 n)).
Proof.
  intros f n Hf. assert (H : forall k s, StronglySorted Z.le (map f (seq s k))).
  { induction k as [|k IH]; intros s; simpl; constructor; auto. apply Forall_forall. intros x Hx.
    apply in_map_iff in Hx. destruct Hx as (i & <- & Hi). apply in_seq in Hi. apply Hf. lia. }
  apply H.
Qed.

Lemma cut_points_sorted : forall counts, StronglySorted Z.le (cut_points counts).
Proof.
  intros counts. unfold cut_points. apply sorted_tabulate. intros i j H. apply Nat2Z.inj_le.
  apply list_sum_firstn_mono. lia.
Qed.

Lemma cut_points_length : forall counts, length (cut_points counts) = (length counts - 1)%nat.
Proof. intros. unfold cut_points. now rewrite map_length, seq_length. Qed.

Lemma sort_is : forall d c, StronglySorted Z.le c -> (zsort d = c <-> Permutation d c).
Proof.
  intros d c Hc. split.
  - intros <-. apply zsort_perm.
  - intros P. apply sorted_perm_unique; auto using zsort_sorted. rewrite <- P. symmetry. apply zsort_perm.
Qed.

Lemma prevalences_inj : forall bs ps counts, (0 < bs)%nat ->
  map (fun n => IZR n / INR bs) ps = prevalences_of counts bs -> ps = map Z.of_nat counts.
Proof.
  intros bs ps counts Hb. assert (P : 0 < INR bs) by (apply lt_0_INR; auto). unfold prevalences_of. revert counts.
  induction ps as [|p ps IH]; intros [|c counts] H; simpl in *; try discriminate; auto.
  injection H as E H. f_equal; auto. apply eq_IZR. rewrite <- INR_IZR_INZ.
  apply (Rmult_eq_reg_r (/ INR bs)); [exact E|]. apply Rinv_neq_0_compat. lra.
Qed.

Lemma gives_iff : forall {G} (RG : rng G) y bs mp mins low high counts d (g0 : G),
  check_min_prevalence mp = Val tt -> limits mp bs (length (np_unique y)) = (mins, low, high) ->
  (0 < bs)%nat -> (low < high)%Z -> (0 <= low)%Z -> (high <= Z.of_nat bs)%Z ->
  length counts = length (np_unique y) -> counts <> [] -> list_sum counts = bs ->
  possible_draw low high (length (np_unique y) - 1) d ->
  (draw_gives RG low high y bs mp d (prevalences_of counts bs) <->
   Permutation d (cut_points counts) /\ accepted mins (map Z.of_nat counts) = true).
Proof.
  intros G RG y bs mp mins low high counts d g0 C Lim Hb Hlh H0 Hh Lc Nc Sc [Ld Fd].
  assert (Fd' : Forall (fun v => (0 <= v <= Z.of_nat bs)%Z) d).
  { eapply Forall_impl; [|exact Fd]. simpl. intros; lia. }
  assert (Z1 : forall g, generate_uniform (answering RG low high d) y 1 bs mp 1 g =
    let ps := zdiff (0%Z :: zsort d ++ [Z.of_nat bs]) in
    if accepted mins ps then
      Some (Val [(map (fun n => IZR n / INR bs) ps,
                  fst (fill (answering RG low high d) y (combine (np_unique y) ps) 0 (repeat O bs) g))],
            snd (fill (answering RG low high d) y (combine (np_unique y) ps) 0 (repeat O bs) g))
    else None).
  { intros g. unfold generate_uniform. rewrite C, Lim. cbn [uniform_loop].
    destruct (Z.ltb_spec low high) as [_|]; [|lia]. cbn [r_randint answering]. rewrite <- Ld, !Z.eqb_refl, Nat.eqb_refl. cbn [andb].
    rewrite (zsort_cut d (Z.of_nat bs) Fd') by lia. cbv zeta.
    destruct (accepted mins _); auto.
    destruct (fill _ _ _ _ _ _) as [idx g2]. reflexivity. }
  rewrite <- (sort_is d (cut_points counts)) by apply cut_points_sorted.
  unfold draw_gives. split.
  - intros H. destruct (H g0) as (idx & g' & E). rewrite Z1 in E. cbv zeta in E.
    remember (zdiff (0%Z :: zsort d ++ [Z.of_nat bs])) as ps eqn:Eps.
    destruct (accepted mins ps) eqn:A; [|discriminate].
    injection E as E _ _. apply prevalences_inj in E; auto. rewrite E in A. split; auto.
    rewrite <- (cuts_counts counts Nc), Sc, Eps in E. apply zdiff_inj in E.
    apply app_inj_tail in E. tauto.
  - intros [Ed A] g. rewrite Z1. cbv zeta. rewrite Ed, <- Sc, cuts_counts, A by auto.
    assert (EP : map (fun n => IZR n / INR (list_sum counts)) (map Z.of_nat counts) =
                 prevalences_of counts (list_sum counts)).
    { unfold prevalences_of. rewrite map_map. apply map_ext. intros c. now rewrite <- INR_IZR_INZ. }
    rewrite EP. eexists. eexists. reflexivity.
Qed.

Lemma draws_count : forall {G} (RG : rng G) y bs mp mins low high counts (g0 : G),
  check_min_prevalence mp = Val tt -> limits mp bs (length (np_unique y)) = (mins, low, high) ->
  (0 < bs)%nat -> (low < high)%Z -> (0 <= low)%Z -> (high <= Z.of_nat bs)%Z ->
  length counts = length (np_unique y) -> counts <> [] -> list_sum counts = bs ->
  Forall (fun v => (low <= v < high)%Z) (cut_points counts) -> accepted mins (map Z.of_nat counts) = true ->
  exists k, exactly k (fun d => possible_draw low high (length counts - 1) d /\
                                draw_gives RG low high y bs mp d (prevalences_of counts bs)) /\
    (k * repetitions (cut_points counts) = fact (length counts - 1))%nat.
Proof.
  intros G RG y bs mp mins low high counts g0 C Lim Hb Hlh H0 Hh Lc Nc Sc Fc A.
  destruct (orders_repetitions (cut_points counts)) as (L & NL & HL & CL).
  exists (length L). split; [|rewrite CL, cut_points_length; reflexivity].
  exists L. split; auto. split; auto. intros d. rewrite HL. split.
  - intros P. assert (PD : possible_draw low high (length counts - 1) d).
    { split; [rewrite (Permutation_length P); apply cut_points_length|].
      apply (Permutation_Forall (Permutation_sym P)). auto. }
    split; auto. rewrite Lc in PD. apply (gives_iff RG y bs mp mins low high counts d g0); auto.
  - intros [PD H]. rewrite Lc in PD. apply (gives_iff RG y bs mp mins low high counts d g0) in H; auto. tauto.
Qed.

(** ** All the draws *)

Lemma all_draws : forall low high k, (low <= high)%Z ->
  exactly (Nat.pow (Z.to_nat (high - low)) k) (possible_draw low high k).
Proof.
  intros low high k H. unfold exactly. induction k as [|k (L & NL & CL & HL)].
  - exists [[]]. split; [repeat constructor; simpl; auto|]. split; auto. intros d. unfold possible_draw. simpl. split.
    + intros [<-|[]]. split; auto.
    + intros [E _]. left. destruct d; [auto|discriminate].
  - set (vs := map (fun i => (low + Z.of_nat i)%Z) (seq 0 (Z.to_nat (high - low)))).
    assert (Nv : NoDup vs).
    { apply FinFun.Injective_map_NoDup; [|apply seq_NoDup]. intros i j E. lia. }
    assert (Hv : forall v, In v vs <-> (low <= v < high)%Z).
    { intros v. unfold vs. rewrite in_map_iff. split.
      - intros (i & <- & Hi). apply in_seq in Hi. lia.
      - intros Hr. exists (Z.to_nat (v - low)). split; [lia|]. apply in_seq. lia. }
    assert (Cv : length vs = Z.to_nat (high - low)) by (unfold vs; now rewrite map_length, seq_length).
    exists (map (fun p => fst p :: snd p) (list_prod vs L)). split; [|split].
    + apply FinFun.Injective_map_NoDup.
      * intros [a x] [b z] E. simpl in E. injection E as -> ->. reflexivity.
      * clear - Nv NL. induction Nv as [|v vs Hv Nv IH]; simpl; [constructor|].
        assert (NM : NoDup (map (fun x => (v, x)) L)).
        { apply FinFun.Injective_map_NoDup; auto. intros x z E. now injection E. }
        assert (Dis : forall p, In p (map (fun x => (v, x)) L) -> ~ In p (list_prod vs L)).
        { intros p Hp Hq. apply in_map_iff in Hp. destruct Hp as (x & <- & _). apply in_prod_iff in Hq. tauto. }
        revert NM Dis. generalize (map (fun x => (v, x)) L). induction l as [|p l IHl]; intros NM Dis; simpl; auto.
        inversion NM; subst. constructor.
        -- rewrite in_app_iff. intros [Hp|Hp]; [contradiction|]. apply (Dis p); simpl; auto.
        -- apply IHl; auto. intros q Hq. apply Dis. now right.
    + rewrite map_length, prod_length, Cv, CL. simpl. reflexivity.
    + intros d. rewrite in_map_iff. unfold possible_draw. split.
      * intros ([v x] & <- & Hp). apply in_prod_iff in Hp. destruct Hp as [Hp Hx]. apply Hv in Hp. apply HL in Hx.
        destruct Hx as [Lx Fx]. simpl. split; [lia|]. constructor; auto.
      * intros [Ld Fd]. destruct d as [|v x]; [discriminate|]. exists (v, x). split; auto.
        inversion Fd; subst. apply in_prod_iff. split; [now apply Hv|]. apply HL. split; auto.
Qed.

(** ** Ranges of the cut points *)

Lemma list_sum_last : forall l, l <> [] -> list_sum l = (list_sum (firstn (length l - 1) l) + last l 0)%nat.
Proof.
  intros l H. rewrite <- (firstn_all l) at 1.
  replace (length l) with (S (length l - 1)) at 1 by (destruct l; simpl; [congruence|lia]).
  rewrite list_sum_firstn_S by (destruct l; simpl; [congruence|lia]). f_equal.
  clear H. induction l as [|a l IH]; auto. destruct l as [|b l]; auto.
  change (last (a :: b :: l) 0%nat) with (last (b :: l) 0%nat). rewrite <- IH. simpl. now rewrite Nat.sub_0_r.
Qed.

Lemma cut_points_range : forall counts low high, counts <> [] -> (low <= Z.of_nat (hd 0%nat counts))%Z ->
  (Z.of_nat (list_sum counts) - Z.of_nat (last counts 0%nat) < high)%Z ->
  Forall (fun v => (low <= v < high)%Z) (cut_points counts).
Proof.
  intros counts low high Nc Hl Hh. apply Forall_forall. intros v Hv. unfold cut_points in Hv.
  apply in_map_iff in Hv. destruct Hv as (i & <- & Hi). apply in_seq in Hi.
  pose proof (list_sum_last counts Nc) as E.
  pose proof (list_sum_firstn_mono counts (S i) (length counts - 1) ltac:(lia)) as M.
  pose proof (list_sum_firstn_mono counts 1 (S i) ltac:(lia)) as M1.
  assert (E1 : list_sum (firstn 1 counts) = hd 0%nat counts).
  { destruct counts; [congruence|]. simpl. lia. }
  lia.
Qed.

Lemma cut_points_nth : forall counts i, (S i < length counts)%nat ->
  nth i (cut_points counts) 0%Z = Z.of_nat (list_sum (firstn (S i) counts)).
Proof.
  intros counts i H. unfold cut_points.
  rewrite (nth_indep _ 0%Z ((fun i => Z.of_nat (list_sum (firstn (S i) counts))) 0%nat))
    by (rewrite map_length, seq_length; lia).
  rewrite (map_nth (fun i => Z.of_nat (list_sum (firstn (S i) counts)))). now rewrite seq_nth by lia.
Qed.

Lemma cut_points_nodup : forall counts, middle_at_least 1 counts -> NoDup (cut_points counts).
Proof.
  intros counts H. apply (NoDup_nth (cut_points counts) 0%Z). rewrite cut_points_length.
  assert (Mono : forall i j, (i < j)%nat -> (S j < length counts)%nat ->
    (list_sum (firstn (S i) counts) < list_sum (firstn (S j) counts))%nat).
  { intros i j Hij Hj. pose proof (list_sum_firstn_mono counts (S i) j ltac:(lia)).
    rewrite (list_sum_firstn_S counts j) by lia. specialize (H j ltac:(lia) Hj). lia. }
  intros i j Hi Hj E. rewrite !cut_points_nth in E by lia. apply Nat2Z.inj in E.
  destruct (lt_eq_lt_dec i j) as [[L|L]|L]; auto.
  - specialize (Mono i j L ltac:(lia)). lia.
  - specialize (Mono j i L ltac:(lia)). lia.
Qed.

Lemma cut_points_dup : forall counts i, (0 < i)%nat -> (S i < length counts)%nat -> nth i counts 0%nat = 0%nat ->
  ~ NoDup (cut_points counts).
Proof.
  intros counts i H0 Hi E N. destruct i as [|i]; [lia|].
  pose proof (proj1 (NoDup_nth (cut_points counts) 0%Z) N i (S i)) as K. rewrite cut_points_length in K.
  rewrite !cut_points_nth in K by lia. rewrite (list_sum_firstn_S counts (S i)) in K by lia.
  rewrite E in K. specialize (K ltac:(lia) ltac:(lia)). rewrite Nat.add_0_r in K. specialize (K eq_refl). lia.
Qed.

Lemma one_class_at_least : forall y : list Z, y <> [] -> (1 <= length (np_unique y))%nat.
Proof.
  intros [|a y] H; [congruence|]. destruct (np_unique (a :: y)) as [|b l] eqn:E; [|simpl; lia]. exfalso.
  assert (I : In a (np_unique (a :: y))) by (apply np_unique_in; now left). rewrite E in I. destruct I.
Qed.

(** ** Without min_prevalence *)

Section WithoutMinimum.
Context {G : Type} (RG : rng G) (g0 : G) (y : list Z) (bs : nat) (counts : list nat).
Hypothesis (Hb : (0 < bs)%nat) (Lc : length counts = length (np_unique y)) (Sc : list_sum counts = bs).

Let gives d := possible_draw 0 (Z.of_nat bs) (length counts - 1) d /\
  draw_gives RG 0 (Z.of_nat bs) y bs MPNone d (prevalences_of counts bs).

Lemma counts_nonempty : counts <> [].
Proof using Hb Lc Sc. intros E. rewrite E in Sc. simpl in Sc. lia. Qed.

Lemma none_draws : (0 < last counts 0)%nat ->
  exists k, exactly k gives /\ (k * repetitions (cut_points counts) = fact (length counts - 1))%nat.
Proof using g0 Hb Lc Sc.
  intros H. pose proof counts_nonempty as Nc.
  apply (draws_count RG y bs MPNone None 0 (Z.of_nat bs) counts g0); auto; try lia.
  apply cut_points_range; auto; try lia.
Qed.

Lemma none_impossible : last counts 0%nat = 0%nat -> exactly 0 gives.
Proof using g0 Hb Lc Sc.
  intros H. pose proof counts_nonempty as Nc. exists []. split; [constructor|]. split; auto. intros d. split; [intros []|].
  intros [PD DG]. pose proof PD as PD'. rewrite Lc in PD'.
  apply (gives_iff RG y bs MPNone None 0 (Z.of_nat bs) counts d g0) in DG; auto; try lia.
  destruct DG as [P _]. pose proof (list_sum_last counts Nc) as E. rewrite H, Sc, Nat.add_0_r in E.
  destruct (Nat.eq_dec (length counts) 1) as [E1|E1].
  - rewrite E1 in E. simpl in E. lia.
  - assert (L2 : (2 <= length counts)%nat) by (destruct counts as [|? [|? ?]]; simpl in *; lia).
    assert (I : In (Z.of_nat bs) (cut_points counts)).
    { rewrite E. unfold cut_points. apply in_map_iff. exists (length counts - 2)%nat. split.
      - do 2 f_equal. f_equal. lia.
      - apply in_seq. lia. }
    apply (Permutation_in _ (Permutation_sym P)) in I. destruct PD as [_ F]. rewrite Forall_forall in F.
    specialize (F _ I). lia.
Qed.

Lemma none_middle : (0 < last counts 0)%nat -> middle_at_least 1 counts -> exactly (fact (length counts - 1)) gives.
Proof using g0 Hb Lc Sc.
  intros H M. destruct (none_draws H) as (k & Ek & C). rewrite repetitions_nodup in C by now apply cut_points_nodup.
  rewrite Nat.mul_1_r in C. now rewrite <- C.
Qed.

Lemma none_empty_middle : (0 < last counts 0)%nat -> ~ middle_at_least 1 counts ->
  exists k, exactly k gives /\ (2 * k <= fact (length counts - 1))%nat.
Proof using g0 Hb Lc Sc.
  intros H M. destruct (none_draws H) as (k & Ek & C). exists k. split; auto.
  assert (R2 : (2 <= repetitions (cut_points counts))%nat).
  { apply repetitions_dup. intros N. apply M. intros i H0 Hi.
    destruct (Nat.eq_dec (nth i counts 0%nat) 0) as [E|E]; [|lia]. exfalso.
    now apply (cut_points_dup counts i H0 Hi E). }
  nia.
Qed.
End WithoutMinimum.

(** ** Two classes *)

Lemma round_zero : round_even 0 = 0%Z.
Proof.
  pose proof (round_even_nonneg 0 ltac:(lra)). pose proof (Rabs_le_both _ _ (round_even_near 0)) as B.
  assert (round_even 0 < 1)%Z; [|lia]. apply lt_IZR. lra.
Qed.
Lemma trunc_nat : forall n, trunc (INR n) = Z.of_nat n.
Proof.
  intros n. unfold trunc. pose proof (Int_part_bounds (INR n)) as B. rewrite INR_IZR_INZ in *.
  destruct B as [B1 B2]. apply le_IZR in B1.
  assert (IZR (Z.of_nat n) < IZR (Int_part (IZR (Z.of_nat n)) + 1)) as B3 by (rewrite plus_IZR; lra).
  apply lt_IZR in B3. lia.
Qed.

Lemma limits_two : forall mp bs, limits mp bs 2 =
  (None, round_even (INR bs * minimum_for mp 0), trunc (INR bs * (1 - minimum_for mp 1))).
Proof.
  intros [|v|v] bs; simpl limits; cbn [minimum_for]; auto.
  rewrite Rmult_0_r, round_zero, Rminus_0_r, Rmult_1_r, trunc_nat. reflexivity.
Qed.

Lemma two_classes : forall {G} (RG : rng G) (g0 : G) y bs mp a b,
  check_min_prevalence mp = Val tt -> one_per_class mp 2 -> length (np_unique y) = 2%nat -> (0 < bs)%nat ->
  (a + b = bs)%nat ->
  (round_even (INR bs * minimum_for mp 0) <= Z.of_nat a < trunc (INR bs * (1 - minimum_for mp 1)))%Z ->
  exactly 1 (fun d =>
    possible_draw (round_even (INR bs * minimum_for mp 0)) (trunc (INR bs * (1 - minimum_for mp 1))) 1 d /\
    draw_gives RG (round_even (INR bs * minimum_for mp 0)) (trunc (INR bs * (1 - minimum_for mp 1)))
      y bs mp d (prevalences_of [a; b] bs)).
Proof.
  intros G RG g0 y bs mp a b C O Ly Hb Sab Ha.
  destruct (limits_range mp bs 2 _ _ _ C O ltac:(lia) (limits_two mp bs)) as [H0 Hh].
  destruct (draws_count RG y bs mp None (round_even (INR bs * minimum_for mp 0))
    (trunc (INR bs * (1 - minimum_for mp 1))) [a; b] g0) as (k & Ek & Ck); auto; try lia.
  - rewrite Ly. apply limits_two.
  - congruence.
  - simpl. lia.
  - apply cut_points_range; simpl; try lia. congruence.
  - rewrite repetitions_nodup in Ck by (apply cut_points_nodup; intros i; simpl; lia).
    rewrite Nat.mul_1_r in Ck. cbn in Ck. now subst k.
Qed.

(** ** Three or more classes with min_prevalence *)

Lemma limits_many : forall mp bs n, mp <> MPNone -> (3 <= n)%nat -> one_per_class mp n ->
  limits mp bs n =
  (Some (map (fun i => round_even (minimum_for mp i * INR bs)) (seq 0 n)),
   round_even (minimum_for mp 0 * INR bs), (Z.of_nat bs - round_even (minimum_for mp (n - 1) * INR bs))%Z).
Proof.
  intros mp bs n Hm Hn O. destruct mp as [|v|v]; [congruence| |]; unfold limits; cbn [minimum_for].
  - destruct (Nat.eqb_spec n 2); [lia|]. rewrite Rmult_1_l.
    assert (E : repeat (round_even (v * INR bs)) n = map (fun _ => round_even (v * INR bs)) (seq 0 n)).
    { clear. generalize 0%nat. induction n; intros s; simpl; auto. now rewrite <- IHn. }
    rewrite last_nth, E, map_length, seq_length.
    rewrite (nth_indep _ 0%Z (round_even (v * INR bs))) by (rewrite map_length, seq_length; lia).
    rewrite (map_nth (fun _ => round_even (v * INR bs)) _ 0%nat).
    destruct n; [lia|]. reflexivity.
  - simpl in O. destruct (Nat.eqb_spec n 2); [lia|].
    assert (E : map (fun x => round_even (x * INR bs)) v = map (fun i => round_even (nth i v 0 * INR bs)) (seq 0 n)).
    { subst n. clear. apply (nth_ext _ _ 0%Z 0%Z); [now rewrite !map_length, seq_length|].
      intros i Hi. rewrite map_length in Hi.
      rewrite (nth_indep _ 0%Z ((fun x => round_even (x * INR bs)) 0)) by now rewrite map_length.
      rewrite (map_nth (fun x => round_even (x * INR bs))).
      rewrite (nth_indep (map _ (seq _ _)) 0%Z ((fun i => round_even (nth i v 0 * INR bs)) 0%nat))
        by now rewrite map_length, seq_length.
      rewrite (map_nth (fun i => round_even (nth i v 0 * INR bs))). now rewrite seq_nth by auto. }
    rewrite last_nth, E, map_length, seq_length.
    rewrite (nth_indep _ 0%Z ((fun i => round_even (nth i v 0 * INR bs)) 0%nat)) by (rewrite map_length, seq_length; lia).
    rewrite (map_nth (fun i => round_even (nth i v 0 * INR bs))), seq_nth by lia.
    destruct n; [lia|]. reflexivity.
Qed.

Lemma accepted_iff : forall m ps, length m = length ps ->
  (accepted (Some m) ps = true <->
   forall i, (0 < i)%nat -> (S i < length ps)%nat -> (nth i m 0 <= nth i ps 0)%Z).
Proof.
  intros m ps L. split.
  - intros A i H0 Hi. now apply accepted_middle.
  - intros H. simpl. apply forallb_forall. intros p Hp. apply (In_nth _ _ (0%Z, 0%Z)) in Hp.
    destruct Hp as (i & Hi & <-). rewrite combine_length, !middle_length in Hi.
    rewrite combine_nth by (rewrite !middle_length; lia). simpl. rewrite !middle_nth by lia.
    apply Z.leb_le. apply H; lia.
Qed.

Lemma nth_minima : forall f n i, (i < n)%nat -> nth i (map f (seq 0 n)) 0%Z = f i.
Proof.
  intros f n i H. rewrite (nth_indep _ 0%Z (f 0%nat)) by now rewrite map_length, seq_length.
  rewrite map_nth. now rewrite seq_nth.
Qed.

Section WithMinimum.
Context {G : Type} (RG : rng G) (g0 : G) (y : list Z) (bs : nat) (mp : min_prevalence) (counts : list nat).
Let minimum i := round_even (minimum_for mp i * INR bs).
Let low := minimum 0%nat.
Let high := (Z.of_nat bs - minimum (length counts - 1)%nat)%Z.
Let gives d := possible_draw low high (length counts - 1) d /\ draw_gives RG low high y bs mp d (prevalences_of counts bs).
Hypothesis (C : check_min_prevalence mp = Val tt) (Nm : mp <> MPNone) (O : one_per_class mp (length counts)).
Hypothesis (L3 : (3 <= length counts)%nat) (Hb : (0 < bs)%nat) (Lc : length counts = length (np_unique y)).
Hypothesis (Sc : list_sum counts = bs) (Hlh : (low < high)%Z).

Lemma many_draws :
  (forall i, (S i < length counts)%nat -> (minimum i <= Z.of_nat (nth i counts 0%nat))%Z) ->
  (minimum (length counts - 1)%nat < Z.of_nat (last counts 0%nat))%Z ->
  exists k, exactly k gives /\ (k * repetitions (cut_points counts) = fact (length counts - 1))%nat.
Proof using g0 C Nm O L3 Hb Lc Sc Hlh.
  intros Hm Hl.
  pose proof (limits_many mp bs (length counts) Nm L3 O) as Lim.
  destruct (limits_range mp bs (length counts) _ _ _ C O ltac:(lia) Lim) as [H0 Hh].
  assert (Nc : counts <> []) by (destruct counts; [simpl in L3; lia|congruence]).
  assert (Lim' : limits mp bs (length (np_unique y)) =
    (Some (map (fun i => minimum i) (seq 0 (length counts))), low, high)) by (rewrite <- Lc; exact Lim).
  apply (draws_count RG y bs mp _ low high counts g0 C Lim'); auto.
  - apply cut_points_range; auto.
    + unfold low. replace (hd 0%nat counts) with (nth 0 counts 0%nat) by (destruct counts; auto). apply Hm. lia.
    + unfold high. lia.
  - apply accepted_iff; [rewrite !map_length, seq_length; auto|]. rewrite map_length. intros i Hi0 Hi.
    rewrite nth_minima by lia. rewrite (nth_indep _ 0%Z (Z.of_nat 0)) by (rewrite map_length; lia).
    rewrite (map_nth Z.of_nat). apply Hm. lia.
Qed.

Lemma many_uniform :
  (forall i, (S i < length counts)%nat -> (minimum i <= Z.of_nat (nth i counts 0%nat))%Z) ->
  (minimum (length counts - 1)%nat < Z.of_nat (last counts 0%nat))%Z ->
  (forall i, (0 < i)%nat -> (S i < length counts)%nat -> (1 <= minimum i)%Z) ->
  exactly (fact (length counts - 1)) gives.
Proof using g0 C Nm O L3 Hb Lc Sc Hlh.
  intros Hm Hl H1. destruct (many_draws Hm Hl) as (k & Ek & Ck).
  rewrite repetitions_nodup in Ck.
  - rewrite Nat.mul_1_r in Ck. now rewrite <- Ck.
  - apply cut_points_nodup. intros i Hi0 Hi. specialize (Hm i ltac:(lia)). specialize (H1 i Hi0 Hi). lia.
Qed.

Lemma many_impossible :
  (exists i, (S i < length counts)%nat /\ (Z.of_nat (nth i counts 0%nat) < minimum i)%Z) \/
  (Z.of_nat (last counts 0%nat) <= minimum (length counts - 1)%nat)%Z ->
  exactly 0 gives.
Proof using g0 C Nm O L3 Hb Lc Sc Hlh.
  intros H. pose proof (limits_many mp bs (length counts) Nm L3 O) as Lim.
  destruct (limits_range mp bs (length counts) _ _ _ C O ltac:(lia) Lim) as [H0 Hh].
  assert (Nc : counts <> []) by (destruct counts; [simpl in L3; lia|congruence]).
  exists []. split; [constructor|]. split; auto. intros d. split; [intros []|].
  intros [PD DG]. pose proof PD as PD'. rewrite Lc in PD'.
  assert (Lim' : limits mp bs (length (np_unique y)) =
    (Some (map (fun i => minimum i) (seq 0 (length counts))), low, high)) by (rewrite <- Lc; exact Lim).
  apply (gives_iff RG y bs mp _ low high counts d g0 C Lim') in DG; auto.
  destruct DG as [P A]. rewrite accepted_iff in A by (rewrite !map_length, seq_length; auto).
  rewrite map_length in A.
  assert (R : forall v, In v (cut_points counts) -> (low <= v < high)%Z).
  { intros v Hv. destruct PD as [_ F]. rewrite Forall_forall in F. apply F.
    now apply (Permutation_in _ (Permutation_sym P)). }
  destruct H as [(i & Hi & Hlt)|Hl].
  - destruct (Nat.eq_dec i 0) as [->|Ni].
    + specialize (R (nth 0 (cut_points counts) 0%Z)). rewrite cut_points_nth in R by lia.
      assert (I : In (Z.of_nat (list_sum (firstn 1 counts))) (cut_points counts)).
      { rewrite <- cut_points_nth by lia. apply nth_In. rewrite cut_points_length. lia. }
      specialize (R I). replace (list_sum (firstn 1 counts)) with (nth 0 counts 0%nat) in R.
      * unfold low in R. lia.
      * destruct counts; [congruence|]. simpl. lia.
    + specialize (A i ltac:(lia) ltac:(lia)). rewrite nth_minima in A by lia.
      rewrite (nth_indep _ 0%Z (Z.of_nat 0)) in A by (rewrite map_length; lia).
      rewrite (map_nth Z.of_nat) in A. lia.
  - pose proof (list_sum_last counts Nc) as E.
    assert (I : In (Z.of_nat (list_sum (firstn (length counts - 1) counts))) (cut_points counts)).
    { replace (length counts - 1)%nat with (S (length counts - 2)) by lia.
      rewrite <- cut_points_nth by lia. apply nth_In. rewrite cut_points_length. lia. }
    specialize (R _ I). unfold high in R. lia.
Qed.
End WithMinimum.

(** ** The prevalences are not uniform *)

Lemma not_uniform : forall {G} (RG : rng G) (g0 : G),
  let gives counts d := possible_draw 0 2 2 d /\ draw_gives RG 0 2 [0; 1; 2]%Z 2 MPNone d (prevalences_of counts 2) in
  exactly 4 (possible_draw 0 2 2) /\ exactly 2 (gives [0; 1; 1]%nat) /\
  exactly 1 (gives [0; 0; 2]%nat) /\ exactly 1 (gives [1; 0; 1]%nat) /\
  exactly 0 (gives [1; 1; 0]%nat) /\ exactly 0 (gives [0; 2; 0]%nat) /\ exactly 0 (gives [2; 0; 0]%nat).
Proof.
  intros G RG g0 gives. split; [exact (all_draws 0 2 2 ltac:(lia))|].
  assert (K : forall counts, length counts = 3%nat -> list_sum counts = 2%nat -> (0 < last counts 0)%nat ->
    exists k, exactly k (gives counts) /\ (k * repetitions (cut_points counts) = 2)%nat).
  { intros counts L S2 H. pose proof (none_draws RG g0 [0; 1; 2]%Z 2 counts ltac:(lia) L S2 H) as K.
    rewrite L in K. exact K. }
  assert (Z0 : forall counts, length counts = 3%nat -> list_sum counts = 2%nat -> last counts 0%nat = 0%nat ->
    exactly 0 (gives counts)).
  { intros counts L S2 H. pose proof (none_impossible RG g0 [0; 1; 2]%Z 2 counts ltac:(lia) L S2 H) as K0.
    rewrite L in K0. exact K0. }
  split; [|split; [|split; [|split; [|split]]]]; try (apply Z0; reflexivity).
  - destruct (K [0; 1; 1]%nat eq_refl eq_refl ltac:(simpl; lia)) as (k & Ek & Ck).
    change (k * 1 = 2)%nat in Ck. assert (E : k = 2%nat) by lia. subst k. exact Ek.
  - destruct (K [0; 0; 2]%nat eq_refl eq_refl ltac:(simpl; lia)) as (k & Ek & Ck).
    change (k * 2 = 2)%nat in Ck. assert (E : k = 1%nat) by lia. subst k. exact Ek.
  - destruct (K [1; 0; 1]%nat eq_refl eq_refl ltac:(simpl; lia)) as (k & Ek & Ck).
    change (k * 2 = 2)%nat in Ck. assert (E : k = 1%nat) by lia. subst k. exact Ek.
Qed.
