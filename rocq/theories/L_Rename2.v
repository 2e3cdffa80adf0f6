(** * Renaming the labels: energy distance, SORDy, QUANTy, generators, PWK, REGX, REGy and EoQ. *)

From Coq Require Import Reals List ZArith Lra Lia Bool Permutation Sorted Arith FunctionalExtensionality.
From Verif Require Import Num Spec M_Baselines M_Optim M_Match M_Bags M_Search M_Estimators M_Reg M_Eoq
  Spec_Bags Spec_Optim Spec_Estimators Spec_Rename L_Num L_Bags2 L_Estimators3 L_Rename.
Import ListNotations.
Open Scope R_scope.

(** ** The routines of optimization.py read only the entries below the dimensions *)

Lemma sumn_ext_lt : forall n g h, (forall i, (i < n)%nat -> g i = h i) -> sumn n g = sumn n h.
Proof. induction n; intros g h H; simpl; auto. rewrite (IHn g h), H; auto. Qed.

Lemma set_agree : forall n A B i j x, agree n A B -> agree n (set_entry A i j x) (set_entry B i j x).
Proof. intros n A B i j x H a b La Lb. unfold set_entry. destruct (_ && _); auto. Qed.

Lemma column_agree : forall n k A B, (k < n)%nat -> agree n A B ->
  fst (dpofa_column k A) = fst (dpofa_column k B) /\ agree n (snd (dpofa_column k A)) (snd (dpofa_column k B)).
Proof.
  intros n k A B Hk. unfold dpofa_column.
  assert (G : forall m st s A B, (st + m <= k)%nat -> agree n A B ->
    fst (fold_left (dpofa_step k) (seq st m) (s, A)) = fst (fold_left (dpofa_step k) (seq st m) (s, B)) /\
    agree n (snd (fold_left (dpofa_step k) (seq st m) (s, A))) (snd (fold_left (dpofa_step k) (seq st m) (s, B)))).
  { clear A B. induction m as [|m IH]; intros st s A B L H; [simpl; auto|]. cbn [seq fold_left dpofa_step].
    assert (E : (A st k - sumn st (fun l => A l st * A l k)) / A st st =
                (B st k - sumn st (fun l => B l st * B l k)) / B st st).
    { rewrite (H st k), (H st st) by lia. do 2 f_equal. apply sumn_ext_lt. intros i Hi. rewrite !H by lia. auto. }
    rewrite E. apply IH; [lia|]. now apply set_agree. }
  intros H. apply G; auto.
Qed.

Lemma dpofa_agree : forall n A B, agree n A B -> fst (dpofa n A) = fst (dpofa n B).
Proof.
  intros n A B. unfold dpofa.
  assert (G : forall todo k A B, (k + todo <= n)%nat -> agree n A B -> fst (dpofa_from todo k A) = fst (dpofa_from todo k B)).
  { clear A B. induction todo as [|todo IH]; intros k A B L H; auto. cbn [dpofa_from].
    destruct (column_agree n k A B ltac:(lia) H) as [E F].
    destruct (dpofa_column k A) as [s A'], (dpofa_column k B) as [s' B']. cbn [fst snd] in *. subst s'.
    rewrite (F k k) by lia. destruct (Rle_dec _ 0); auto. apply IH; [lia|]. now apply set_agree. }
  intros H. apply G; auto.
Qed.

Lemma is_pd_agree : forall n A B, agree n A B -> is_pd n A = is_pd n B.
Proof. intros n A B H. unfold is_pd. now rewrite (dpofa_agree n A B H). Qed.

Definition agree_option (n : nat) (a b : option matrix) : Prop :=
  match a, b with Some A, Some B => agree n A B | None, None => True | _, _ => False end.

Lemma push_agree : forall N, reads_dimensions N -> forall fuel n sp k A B, agree n A B ->
  agree_option n (push_up N fuel n sp k A) (push_up N fuel n sp k B).
Proof.
  intros N RN. induction fuel as [|fuel IH]; intros n sp k A B H; cbn [push_up];
    rewrite (is_pd_agree n A B H); destruct (is_pd n B); simpl; auto.
  apply IH. intros i j Hi Hj. rewrite (H i j Hi Hj). now rewrite (reads_eigenvalue N RN n A B H).
Qed.

Lemma average_agree : forall n A B A' B', agree n A A' -> agree n B B' -> agree n (average A B) (average A' B').
Proof. intros n A B A' B' H1 H2 i j Hi Hj. unfold average. now rewrite H1, H2. Qed.
Lemma transpose_agree : forall n A B, agree n A B -> agree n (transpose A) (transpose B).
Proof. intros n A B H i j Hi Hj. unfold transpose. auto. Qed.

Lemma nearest_agree : forall N, reads_dimensions N -> forall fuel n A B, agree n A B ->
  agree_option n (nearest_pd N fuel n A) (nearest_pd N fuel n B).
Proof.
  intros N RN fuel n A B H. unfold nearest_pd.
  assert (H1 : agree n (average A (transpose A)) (average B (transpose B))).
  { apply average_agree; auto. now apply transpose_agree. }
  destruct (reads_svd N RN n _ _ H1) as [S1 S2].
  destruct (svd N n (average A (transpose A))) as [s V], (svd N n (average B (transpose B))) as [s' V'].
  cbn [fst snd] in S1, S2.
  assert (H2 : agree n (recompose n s V) (recompose n s' V')).
  { intros i j Hi Hj. unfold recompose. apply sumn_ext_lt. intros l Hl. rewrite S1, !S2; auto. }
  assert (H3 := average_agree n _ _ _ _ H1 H2).
  assert (H4 := average_agree n _ _ _ _ H3 (transpose_agree n _ _ H3)).
  rewrite (is_pd_agree n _ _ H4). destruct (is_pd n _); [exact H4|].
  replace (frobenius n A) with (frobenius n B); [now apply push_agree|].
  unfold frobenius. f_equal. apply sumn_ext_lt. intros i Hi. apply sumn_ext_lt. intros j Hj. now rewrite H.
Qed.

Lemma ensure_agree : forall N, reads_dimensions N -> forall fuel n A B, agree n A B ->
  agree_option n (ensure_pd N fuel n A) (ensure_pd N fuel n B).
Proof.
  intros N RN fuel n A B H. unfold ensure_pd. rewrite (is_pd_agree n A B H). destruct (is_pd n B); [exact H|].
  now apply nearest_agree.
Qed.

Lemma option_map_agree : forall n (a b : option matrix) {C} (g h : matrix -> C),
  agree_option n a b -> (forall A B, agree n A B -> g A = h B) -> option_map g a = option_map h b.
Proof. intros n [A|] [B|] C g h H K; simpl in *; try contradiction; auto. now rewrite (K A B). Qed.

Section Rename2.
Context (f : Z -> Z) (Hf : order_preserving f).

Lemma nth_map_label : forall l i, (i < length l)%nat -> nth i (map f l) 0%Z = f (nth i l 0%Z).
Proof using. clear Hf. intros. rewrite (nth_indep _ 0%Z (f 0%Z)) by now rewrite map_length. apply map_nth. Qed.

Lemma forallb_seq_ext : forall n g h, (forall i, (i < n)%nat -> g i = h i) -> forallb g (seq 0 n) = forallb h (seq 0 n).
Proof using.
  clear. intros n g h H. assert (F : Forall (fun i => g i = h i) (seq 0 n)).
  { apply Forall_forall. intros i Hi. apply in_seq in Hi. apply H. lia. }
  induction F; simpl; auto. now rewrite H0, IHF.
Qed.

Lemma ED_unfold : forall {A} N fuel (dist : A -> A -> R) classes y rows bag,
  option_map (fun m => ED_predict N m bag) (ED_fit N fuel dist classes y rows) =
  (let train := fun i => select (nth i classes 0%Z) y rows in
   let sizes := fun i => INR (length (train i)) in
   let K := ed_K dist train sizes in
   let n := length classes in
   option_map (fun G =>
     if forallb (fun i => negb (Nat.eqb (length (train i)) 0)) (seq 0 n) && negb (Nat.eqb (length bag) 0)
     then solve_ed N n G (compute_ed_param_test n dist train bag K sizes) ed_C ed_b else NotANumber)
     (ensure_pd N fuel (n - 1) (fun i j => 2 * ed_B n K i j))).
Proof using.
  clear. intros. unfold ED_fit, compute_ed_param_train. cbv zeta. destruct (ensure_pd _ _ _ _) as [G|]; reflexivity.
Qed.

Lemma ED_map : forall {A} N fuel (dist : A -> A -> R) y ye rows bag, reads_dimensions N ->
  option_map (fun m => ED_predict N m bag) (ED_fit N fuel dist (np_unique (map f y)) (map f ye) rows) =
  option_map (fun m => ED_predict N m bag) (ED_fit N fuel dist (np_unique y) ye rows).
Proof using Hf.
  intros A N fuel dist y ye rows bag RN. rewrite !ED_unfold. cbv zeta.
  rewrite (np_unique_map f Hf), map_length. set (n := length (np_unique y)).
  set (tr' := fun i => select (nth i (map f (np_unique y)) 0%Z) (map f ye) rows).
  set (tr := fun i => select (nth i (np_unique y) 0%Z) ye rows).
  assert (T : forall i, (i < n)%nat -> tr' i = tr i).
  { intros i Hi. unfold tr', tr. rewrite nth_map_label by exact Hi. apply (select_map_labels f Hf). }
  assert (K : forall i j, (i < n)%nat -> (j < n)%nat ->
    ed_K dist tr' (fun i => INR (length (tr' i))) i j = ed_K dist tr (fun i => INR (length (tr i))) i j).
  { intros i j Hi Hj. unfold ed_K. now rewrite (T i Hi), (T j Hj). }
  apply (option_map_agree (n - 1)).
  - apply ensure_agree; auto. intros i j Hi Hj. f_equal. unfold ed_B.
    destruct (Nat.eqb i j); rewrite !K by lia; reflexivity.
  - intros G H Ag.
    assert (Fb : forallb (fun i => negb (Nat.eqb (length (tr' i)) 0)) (seq 0 n) =
                 forallb (fun i => negb (Nat.eqb (length (tr i)) 0)) (seq 0 n)).
    { apply forallb_seq_ext. intros i Hi. now rewrite (T i Hi). }
    unfold tr', tr in Fb. rewrite Fb. fold tr.
    destruct (_ && _); auto. unfold solve_ed.
    rewrite (reads_qp N RN (n - 1) n G H _
      (compute_ed_param_test n dist tr bag (ed_K dist tr (fun i => INR (length (tr i)))) (fun i => INR (length (tr i))))
      ed_C ed_b 0 Ag); auto.
    intros i Hi. unfold compute_ed_param_test.
    change (select (nth i (map f (np_unique y)) 0%Z) (map f ye) rows) with (tr' i).
    change (select (nth (n - 1) (map f (np_unique y)) 0%Z) (map f ye) rows) with (tr' (n - 1)%nat).
    rewrite !K, (T i), (T (n - 1)%nat) by lia. reflexivity.
Qed.

Lemma CvMy_map : forall N fuel dist y ye k tr te, reads_dimensions N ->
  CvMy_predict N fuel dist (np_unique (map f y)) (map f ye) k tr te =
  CvMy_predict N fuel dist (np_unique y) ye k tr te.
Proof using Hf.
  intros N fuel dist y ye k tr te RN. unfold CvMy_predict.
  set (Htr := firstn _ _). set (Hte := skipn _ _).
  pose proof (ED_map N fuel dist y ye Htr Hte RN) as E. unfold option_map in E.
  destruct (ED_fit N fuel dist (np_unique (map f y)) (map f ye) Htr), (ED_fit N fuel dist (np_unique y) ye Htr); exact E.
Qed.

(** ** SORDy and QUANTy *)

Lemma pick_map : forall {A B} (g : A -> B) l idx, pick (map g l) idx = map g (pick l idx).
Proof using.
  clear. intros A B g l idx. unfold pick. induction idx as [|i idx IH]; simpl; auto. rewrite nth_error_map, IH.
  destruct (nth_error l i); reflexivity.
Qed.

Lemma pick_in : forall {A} (l : list A) idx x, In x (pick l idx) -> In x l.
Proof using.
  clear. intros A l idx x H. unfold pick in H. apply in_flat_map in H. destruct H as (i & _ & H).
  destruct (nth_error l i) eqn:E; [|contradiction]. destruct H as [<-|[]]. eapply nth_error_In; eauto.
Qed.
End Rename2.

Lemma zmax_map : forall g, order_preserving g -> forall l, l <> [] -> zmax (map g l) = g (zmax l).
Proof.
  intros g Hg l Hl. unfold zmax. destruct l as [|a l]; [congruence|]. change (hd 0%Z (map g (a :: l))) with (g a).
  change (hd 0%Z (a :: l)) with a. generalize (a :: l). intros m. induction m as [|b m IH]; auto. cbn [map fold_right].
  rewrite IH. destruct (Z.max_spec b (fold_right Z.max a m)) as [[L E]|[L E]]; rewrite E.
  - apply Z.max_r. apply Hg in L. lia.
  - apply Z.max_l. destruct (Z.eq_dec b (fold_right Z.max a m)) as [->|]; [lia|].
    assert (L2 : (fold_right Z.max a m < b)%Z) by lia. apply Hg in L2. lia.
Qed.

Lemma sord_weights_map : forall g, order_preserving g -> forall p labels c0 c1,
  sord_weights p (map g labels) (g c0) (g c1) = sord_weights p labels c0 c1.
Proof.
  intros g Hg p labels c0 c1. destruct labels as [|a l]; auto. remember (a :: l) as m. unfold sord_weights.
  rewrite (zmax_map g Hg) by (subst; discriminate). rewrite map_map, !(zcount_map g Hg). apply map_ext. intros c.
  now rewrite !(f_eqb g Hg).
Qed.

(** The renaming, extended to the label that SORDy gives to the test examples. *)
Definition extended (f : Z -> Z) (top c : Z) : Z := if (c <=? top)%Z then f c else (f top + (c - top))%Z.

Lemma extended_ok : forall f top, order_preserving f -> order_preserving (extended f top).
Proof.
  intros f top Hf a b L. unfold extended. destruct (Z.leb_spec a top), (Z.leb_spec b top); try lia.
  - now apply Hf.
  - destruct (Z.eq_dec a top) as [->|]; [lia|]. assert (M : (a < top)%Z) by lia. apply Hf in M. lia.
Qed.

Section Rename3.
Context (f : Z -> Z) (Hf : order_preserving f).

Lemma SORDy_map : forall argsort tol y c0 c1 scores test, np_unique y = [c0; c1] ->
  obind (sorted_fit argsort (np_unique (map f y)) (map f y) scores) (fun s => SORDy_predict argsort tol s test) =
  obind (sorted_fit argsort (np_unique y) y scores) (fun s => SORDy_predict argsort tol s test).
Proof using Hf.
  intros argsort tol y c0 c1 scores test U. rewrite (np_unique_map f Hf), U. unfold sorted_fit. cbn [map length Nat.ltb Nat.leb obind].
  unfold SORDy_predict. do 2 f_equal. apply functional_extensionality. intros p. unfold SORDy_loss, sord_union.
  cbn [b_scores b_labels b_classes nth].
  assert (L : (c0 < c1)%Z).
  { pose proof (np_unique_sorted y) as S. rewrite U in S. inversion S; subst. inversion H2; subst. auto. }
  assert (M : zmax [c0; c1] = c1) by (unfold zmax; simpl; lia).
  assert (M' : zmax [f c0; f c1] = f c1) by (unfold zmax; simpl; apply Hf in L; lia).
  rewrite M, M'. set (g := extended f c1).
  assert (Hg : order_preserving g) by now apply extended_ok.
  assert (E0 : f c0 = g c0) by (unfold g, extended; destruct (Z.leb_spec c0 c1); lia).
  assert (E1 : f c1 = g c1) by (unfold g, extended; destruct (Z.leb_spec c1 c1); lia).
  assert (E2 : (f c1 + 1)%Z = g (c1 + 1)%Z) by (unfold g, extended; destruct (Z.leb_spec (c1 + 1) c1); lia).
  assert (E3 : map f y = map g y).
  { apply map_ext_in. intros c Hc. apply np_unique_in in Hc. rewrite U in Hc. destruct Hc as [<-|[<-|[]]]; auto. }
  rewrite E3, E0, E1, <- E1, E2, pick_map.
  replace (repeat (g (c1 + 1)%Z) (length test)) with (map g (repeat (c1 + 1)%Z (length test)))
    by (clear; induction (length test); simpl; congruence).
  rewrite <- map_app, pick_map, E1. now rewrite (sord_weights_map g Hg).
Qed.

Lemma quantile_weights_map : forall p n y c0 c1,
  quantile_weights p n (map f y) (f c0) (f c1) = quantile_weights p n y c0 c1.
Proof using Hf.
  intros [p|] n y c0 c1; auto. unfold quantile_weights. rewrite map_map, !(zcount_map f Hf). apply map_ext. intros c.
  now rewrite !(f_eqb f Hf).
Qed.

Lemma QUANTy_map : forall argsort q distance tol y c0 c1 scores mixtures test, np_unique y = [c0; c1] ->
  obind (sorted_fit argsort (np_unique (map f y)) (map f y) scores)
        (fun s => QUANTy_predict argsort q distance tol s mixtures test) =
  obind (sorted_fit argsort (np_unique y) y scores) (fun s => QUANTy_predict argsort q distance tol s mixtures test).
Proof using Hf.
  intros argsort q distance tol y c0 c1 scores mixtures test U. rewrite (np_unique_map f Hf), U.
  unfold sorted_fit. cbn [map length Nat.ltb Nat.leb obind].
  unfold QUANTy_predict. cbn [b_scores b_labels b_classes nth]. f_equal. apply functional_extensionality. intros p.
  unfold compute_quantiles. now rewrite pick_map, quantile_weights_map.
Qed.

(** ** The other generators *)

Lemma bag_prevalences_map : forall classes y size idx, Forall (fun i => (i < length y)%nat) idx ->
  bag_prevalences (map f classes) (map f y) size idx = bag_prevalences classes y size idx.
Proof using Hf.
  intros classes y size idx F. unfold bag_prevalences. rewrite map_map. apply map_ext. intros c.
  replace (map (fun i => nth i (map f y) 0%Z) idx) with (map f (map (fun i => nth i y 0%Z) idx)).
  - now rewrite (zcount_map f Hf).
  - rewrite map_map. apply map_ext_in. intros i Hi. rewrite Forall_forall in F. symmetry. apply nth_map_label. auto.
Qed.

Lemma covariate_bags_map : forall {G} (RG : rng G) X y classes size, rng_ok RG -> X <> [] -> length X = length y ->
  forall centers g, covariate_bags RG X (map f y) (map f classes) size centers g =
                    covariate_bags RG X y classes size centers g.
Proof using Hf.
  intros G RG X y classes size OK HX L. induction centers as [|c t IH]; intros g; auto. cbn [covariate_bags].
  destruct (similarity_distribution X (nth (Z.to_nat c) X []) HX) as [[Lp D] _].
  destruct (ok_choice_p RG OK _ size g D) as [_ Fc].
  destruct (r_choice_p RG (similarity_probs X (nth (Z.to_nat c) X [])) size g) as [idx g1]. cbn [fst] in Fc.
  rewrite IH, bag_prevalences_map; auto. eapply Forall_impl; [|exact Fc]. intros i [Hi _]. rewrite Lp in Hi. lia.
Qed.

Lemma CS_map : forall {G} (RG : rng G) s X y, rng_ok RG -> CS_generate RG s X (map f y) = CS_generate RG s X y.
Proof using Hf.
  intros G RG s X y OK. unfold CS_generate. destruct (cs_bags s); auto. destruct (get_random _ _); auto.
  rewrite map_length, (np_unique_map f Hf).
  destruct (Nat.eqb_spec (length X) (length y)) as [L|]; auto. destruct (Nat.eqb_spec (length X) 0) as [|N]; auto.
  cbn [andb negb]. destruct (r_randint _ _ _ _ _) as [centers g1].
  rewrite covariate_bags_map; auto. intro; subst; simpl in N; lia.
Qed.

Lemma MS_map : forall {G} (RG : rng G) fuel s X y global, rng_ok RG ->
  MS_generate RG fuel s X (map f y) global = MS_generate RG fuel s X y global.
Proof using Hf.
  intros G RG fuel s X y global OK. unfold MS_generate. destruct (ms_bags s); auto. destruct (ms_bag_size s); auto.
  rewrite (PS_map f Hf), (np_unique_map f Hf), map_length.
  destruct (PS_generate _ _ _ _ _) as [[[[b1|e|] prior'] global']|]; auto. now rewrite CS_map.
Qed.

Lemma sources : forall {G} (RG : rng G) fuel, rng_ok RG ->
  label_free f (prior_source RG fuel) /\ label_free f (covariate_source RG) /\ label_free f (mixed_source RG fuel).
Proof using Hf.
  intros G RG fuel OK. split; [|split]; intros X y g; cbn [bs_generate prior_source covariate_source mixed_source].
  - now rewrite (PS_map f Hf).
  - now rewrite CS_map.
  - now rewrite MS_map.
Qed.

(** ** REGX and REGy *)

Lemma reg_cuts_map : forall ppf nb strat range k X y, reg_cuts ppf nb strat range k X (map f y) = reg_cuts ppf nb strat range k X y.
Proof using Hf.
  intros. unfold reg_cuts. rewrite (np_unique_map f Hf). f_equal. apply map_ext. intros a. apply (bincuts_map f Hf).
Qed.

Lemma REG_map : forall {S M} (B : bag_source S) (Q : regression M) ppf nb strat range labels k X y w, label_free f B ->
  REG_fit B Q ppf nb strat range labels k X (map f y) w = REG_fit B Q ppf nb strat range labels k X y w.
Proof using Hf.
  intros S M B Q ppf nb strat range labels k X y w LF. unfold REG_fit, create_training_set.
  now rewrite reg_cuts_map, LF, (np_unique_map f Hf), map_length.
Qed.

Lemma REGX_map : forall {S M} (B : bag_source S) (Q : regression M) ppf nb strat X y w, label_free f B ->
  REGX_fit B Q ppf nb strat X (map f y) w = REGX_fit B Q ppf nb strat X y w.
Proof using Hf.
  intros. unfold REGX_fit. destruct X; auto. now rewrite REG_map, (np_unique_map f Hf), map_length.
Qed.

Lemma REGy_map : forall {S M} (B : bag_source S) (Q : regression M) ppf nb strat y preds w, label_free f B ->
  REGy_fit B Q ppf nb strat (map f y) preds w = REGy_fit B Q ppf nb strat y preds w.
Proof using Hf.
  intros. unfold REGy_fit. now rewrite (np_unique_map f Hf), map_length, y_ext_map, !REG_map.
Qed.

(** ** PWK *)

Lemma class_weight_map : forall w y nb c, Forall (fun i => (i < length y)%nat) nb ->
  class_weight (map f y) w nb (f c) = class_weight y w nb c.
Proof using Hf.
  intros w y nb c F. unfold class_weight. do 2 f_equal. apply filter_ext_in. intros i Hi.
  rewrite Forall_forall in F. rewrite nth_map_label by auto. apply (f_eqb f Hf).
Qed.

Lemma PWK_weights_map : forall y, PWK_weights (map f y) = PWK_weights y.
Proof using Hf.
  intros y. unfold PWK_weights. rewrite map_map, map_length. apply map_ext. intros c. now rewrite (zcount_map f Hf).
Qed.

Lemma PWK_row_map : forall y nb, Forall (fun i => (i < length y)%nat) nb -> PWK_row (map f y) nb = PWK_row y nb.
Proof using Hf.
  intros y nb F. unfold PWK_row. rewrite PWK_weights_map, (np_unique_map f Hf), map_map.
  erewrite (map_ext (fun x => class_weight (map f y) (PWK_weights y) nb (f x))); [reflexivity|].
  intros c. now apply class_weight_map.
Qed.

Lemma first_max_unique : forall l i j, first_max l i -> first_max l j -> i = j.
Proof using.
  clear. intros l i j (Hi & Ai & Bi) (Hj & Aj & Bj). destruct (lt_eq_lt_dec i j) as [[L|E]|L]; auto.
  - specialize (Bj i L). specialize (Ai j Hj). lra.
  - specialize (Bi j L). specialize (Aj i Hi). lra.
Qed.

Lemma PWK_map : forall y all, (2 <= length (np_unique y))%nat ->
  Forall (fun nb => nb <> [] /\ Forall (fun i => (i < length y)%nat) nb) all ->
  PWK_predict (map f y) all = map f (PWK_predict y all).
Proof using Hf.
  intros y all H2 F.
  assert (H2' : (2 <= length (np_unique (map f y)))%nat) by now rewrite (np_unique_map f Hf), map_length.
  assert (F' : Forall (fun nb => nb <> [] /\ Forall (fun i => (i < length (map f y))%nat) nb) all)
    by (rewrite map_length; exact F).
  apply (nth_ext _ _ 0%Z (f 0%Z)).
  - unfold PWK_predict. now rewrite !map_length.
  - intros i Hi. assert (Li : (i < length all)%nat) by (unfold PWK_predict in Hi; now rewrite map_length in Hi).
    rewrite map_nth.
    destruct (PWK_predict_first_max y all i H2 F Li) as (_ & j & Mj & ->).
    destruct (PWK_predict_first_max (map f y) all i H2' F' Li) as (_ & j' & Mj' & ->).
    rewrite Forall_forall in F. destruct (F _ (nth_In all [] Li)) as [_ Fi].
    rewrite PWK_row_map in Mj' by exact Fi. rewrite (first_max_unique _ _ _ Mj' Mj).
    rewrite (np_unique_map f Hf). apply nth_map_label. destruct Mj as [Lj _]. unfold PWK_row, vdiv in Lj.
    now rewrite !map_length in Lj.
Qed.
End Rename3.
