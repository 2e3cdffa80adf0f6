(** * Blocks of DFy and DFX, successful fits, order of the examples, examples and counterexamples. *)

From Coq Require Import Reals List ZArith Lia Lra Bool Arith Permutation.
From Verif Require Import Num Spec L_Num M_Baselines L_Baselines M_Metrics L_Metrics M_Bags L_Bags M_Search
  M_Optim Spec_Optim L_Optim4 L_Optim5 M_Match Spec_Match L_Match L_Match2 L_Match3 L_Match4 L_Match5.
Import ListNotations.
Open Scope R_scope.

(** ** Blocks *)

Lemma pdf_blocks : forall nb cuts (T : nat -> R) s, (0 < nb)%nat -> Forall (covering_cuts nb) cuts -> s <> [] ->
  (forall r, (r < nb * length cuts)%nat -> T r = mean_of (pdf_phi nb cuts r) s) ->
  forall b, (b < length cuts)%nat ->
    distribution (tabulate nb (fun k => T (b * nb + k)%nat)) /\
    forall k, (k < nb)%nat -> fraction_in (in_bin (nth b cuts []) k) (col b s) (T (b * nb + k)%nat).
Proof.
  intros nb cuts T s Hnb HC Hs HT b Hb.
  assert (E : forall k, (k < nb)%nat -> T (b * nb + k)%nat = mean_of (bin_feature cuts b k) s).
  { intros k Hk. rewrite HT by (apply block_index; auto). now rewrite pdf_phi_block. }
  split.
  - rewrite (tabulate_ext nb _ (fun k => mean_of (bin_feature cuts b k) s)) by auto.
    apply block_distribution; auto.
  - intros k Hk. rewrite E by auto. apply bin_fraction.
Qed.

Lemma cdfx_blocks : forall nb cuts (T : nat -> R) s, (0 < nb)%nat -> Forall (covering_cuts nb) cuts ->
  (forall r, (r < nb * length cuts)%nat -> T r = mean_of (cdfx_phi nb cuts r) s) ->
  forall b k, (b < length cuts)%nat -> (k < nb)%nat ->
    fraction_in (fun x => value_below x (nth (S k) (nth b cuts []) PosInf)) (col b s) (T (b * nb + k)%nat).
Proof.
  intros nb cuts T s Hnb HC HT b k Hb Hk. rewrite HT by (apply block_index; auto).
  rewrite (mean_of_ext _ (fun row => sumn (S k) (fun i => bin_feature cuts b i row)))
    by (intros; now apply cdfx_phi_block).
  eapply cumulative_fraction; eauto.
Qed.

Lemma cdfy_blocks : forall nb cuts (T : nat -> R) s, (0 < nb)%nat -> Forall (covering_cuts nb) cuts -> s <> [] ->
  (forall r, (r < nb * length cuts)%nat -> T r = mean_of (cdfy_phi nb cuts r) s) ->
  forall b k, (b < length cuts)%nat -> (k < nb)%nat ->
    fraction_in (fun x => value_below x (nth (S k) (nth b cuts []) PosInf)) (col b s)
      (T (b * nb + k)%nat - INR b).
Proof.
  intros nb cuts T s Hnb HC Hs HT b k Hb Hk. rewrite HT by (apply block_index; auto).
  rewrite (mean_of_ext _ (fun row => INR b + sumn (S k) (fun i => bin_feature cuts b i row)))
    by (intros; now apply cdfy_phi_block).
  rewrite mean_of_plus, mean_of_const by auto.
  replace (INR b + _ - INR b) with (mean_of (fun row => sumn (S k) (fun i => bin_feature cuts b i row)) s) by ring.
  eapply cumulative_fraction; eauto.
Qed.

Lemma fraction_range : forall {A} (P : A -> Prop) l v, fraction_in P l v -> 0 <= v <= 1.
Proof.
  intros A P l v (k & H & ->).
  assert (K : (k <= length l)%nat) by (induction H; simpl; lia).
  destruct l as [|a l].
  - inversion H. simpl. unfold Rdiv. rewrite Rmult_0_l. lra.
  - assert (0 < INR (length (a :: l))) by (apply lt_0_INR; simpl; lia).
    apply le_INR in K. pose proof (pos_INR k). split.
    + apply Rmult_le_pos; [auto|]. left. now apply Rinv_0_lt_compat.
    + apply (Rmult_le_reg_r (INR (length (a :: l)))); [auto|].
      unfold Rdiv. rewrite Rmult_assoc, Rinv_l by lra. lra.
Qed.

Lemma fraction_all : forall {A} (P : A -> Prop) l v, l <> [] -> (forall x, In x l -> P x) ->
  fraction_in P l v -> v = 1.
Proof.
  intros A P l v Hl HP (k & H & ->).
  assert (k = length l).
  { clear Hl. induction H; auto.
    - simpl. f_equal. apply IHhow_many. intros; apply HP; now right.
    - exfalso. apply H. apply HP. now left. }
  subst k. apply Rinv_r. apply not_0_INR. destruct l; simpl; [congruence|lia].
Qed.

(** ** Distances between cumulative blocks *)

Lemma mixture_shift : forall n T (s : nat -> R) p r, distribution_over n p ->
  mixture_at n (fun r c => T r c - s r) p r = mixture_at n T p r - s r.
Proof.
  intros n T s p r (L & _ & S). unfold mixture_at.
  rewrite (sumn_ext n _ (fun j => T r j * nth j p 0 - s r * nth j p 0)) by (intros; ring).
  rewrite sumn_minus, sumn_scal. rewrite <- (sumn_nth p), L in S. rewrite S. ring.
Qed.

Lemma shifted_distances : forall d n T t (s : nat -> R) p, length t = d -> distribution_over n p ->
  l1_distance d n (fun r c => T r c - s r) (tabulate d (fun r => nth r t 0 - s r)) p = l1_distance d n T t p /\
  squared_l2 d n (fun r c => T r c - s r) (tabulate d (fun r => nth r t 0 - s r)) p = squared_l2 d n T t p.
Proof.
  intros d n T t s p L D. split.
  - unfold l1_distance. apply sumn_ext. intros r Hr. rewrite tabulate_nth by auto.
    rewrite mixture_shift by auto. f_equal. ring.
  - unfold squared_l2. apply sumn_ext. intros r Hr. rewrite tabulate_nth by auto.
    rewrite mixture_shift by auto. f_equal. ring.
Qed.

(** ** Successful fits *)

Lemma y_ext_length : forall y r, length (y_ext y (r * length y)) = (r * length y)%nat.
Proof.
  intros y r. unfold y_ext. destruct (Nat.eqb_spec (length y) (r * length y)); [auto|].
  rewrite concat_repeat_length. destruct y as [|a y]; [simpl; lia|].
  rewrite Nat.div_mul by (simpl; lia). reflexivity.
Qed.

Lemma fit_matching_val : forall {A} N fuel crit d (phi : nat -> A -> R) (rep : list A -> out (list R)) classes ye rows,
  averages d phi rep -> length ye = length rows -> (forall c, In c classes -> In c ye) ->
  fit_matching N fuel crit d rep classes ye rows =
  Val (new_matcher N fuel crit d rep (columns_of d phi (class_samples classes ye rows))).
Proof.
  intros A N fuel crit d phi rep classes ye rows HA L HC. unfold fit_matching. rewrite L, Nat.eqb_refl.
  assert (E : collect (map (fun c => rep (select c ye rows)) classes) =
              Val (columns_of d phi (class_samples classes ye rows))).
  { unfold columns_of, class_samples. rewrite map_map.
    revert HC. induction classes as [|c cs IH]; intros HC; [reflexivity|].
    cbn [map collect]. rewrite (HA (select c ye rows)) by (apply select_nonempty; auto; apply HC; now left).
    rewrite IH by (intros; apply HC; now right). reflexivity. }
  rewrite E. reflexivity.
Qed.

Lemma classes_in_ext : forall y r, y <> [] -> (0 < r)%nat -> forall c, In c (np_unique y) ->
  In c (y_ext y (r * length y)).
Proof.
  intros y r Hy Hr c Hc. apply y_ext_in; [apply y_ext_length|apply np_unique_in; auto|].
  destruct y; [congruence|simpl; nia].
Qed.

Lemma collect_all : forall {A B} (f : A -> out B) l, (forall a, In a l -> exists v, f a = Val v) ->
  exists vs, collect (map f l) = Val vs.
Proof.
  intros A B f. induction l as [|a l IH]; intros H; [exists []; reflexivity|].
  destruct (H a) as (v & Hv); [now left|]. destruct IH as (vs & Hvs); [intros; apply H; now right|].
  exists (v :: vs). cbn [map collect]. now rewrite Hv, Hvs.
Qed.

Lemma cuts_exist : forall ppf x y classes n strat range, (0 < n)%nat -> x <> [] ->
  match range with None => True | Some (a, b) => a <= b end ->
  strat = EqualWidth \/ (strat = EqualCount /\ (n < 2 * length x)%nat) ->
  exists cuts, compute_bincuts ppf x y classes n strat range = Val cuts /\ covering_cuts n cuts.
Proof.
  intros ppf x y classes n strat range Hn Hx Hr [->|[-> Hc]].
  - apply equal_width_cuts; auto. destruct range as [[a b]|]; auto.
  - apply equal_count_cuts; auto.
Qed.

Lemma collect_covering : forall {A} (f : A -> out (list edge)) l nb,
  (forall a, In a l -> exists v, f a = Val v /\ covering_cuts nb v) ->
  exists cuts, collect (map f l) = Val cuts /\ Forall (covering_cuts nb) cuts /\ length cuts = length l.
Proof.
  intros A f l nb. induction l as [|a l IH]; intros H; [exists []; repeat split; constructor|].
  destruct (H a) as (v & Hv & Cv); [now left|]. destruct IH as (vs & Hvs & Cs & Ls); [intros; apply H; now right|].
  exists (v :: vs). cbn [map collect]. rewrite Hv, Hvs. repeat split; [|simpl; congruence].
  now constructor.
Qed.

Lemma DFy_fit_val : forall ppf N fuel kind nb strat crit y r preds, y <> [] -> (0 < r)%nat ->
  length preds = (r * length y)%nat -> (0 < nb)%nat ->
  strat = EqualWidth \/ (strat = EqualCount /\ (nb < 2 * length preds)%nat) ->
  exists cuts m, DFy_cuts ppf nb strat y preds = Val cuts /\
    DFy_fit ppf N fuel kind nb strat crit y preds = Val m /\
    m = new_matcher N fuel crit (nb * length cuts) (dfy_represent kind cuts)
          (columns_of (nb * length cuts) (dfy_phi kind nb cuts)
             (class_samples (np_unique y) (y_ext y (length preds)) preds)).
Proof.
  intros ppf N fuel kind nb strat crit y r preds Hy Hr L Hnb Hs.
  assert (Lp : (0 < length preds)%nat) by (rewrite L; destruct y; [congruence|simpl; nia]).
  destruct (collect_covering (fun descr => compute_bincuts ppf (col descr preds) y (np_unique y) nb strat
                               (Some (0, 1))) (seq 0 (n_descriptors (length (np_unique y)))) nb)
    as (cuts & E & C & Lc).
  { intros a Ha. apply cuts_exist; auto; [|lra|].
    - unfold col. intros Z. apply map_eq_nil in Z. rewrite Z in Lp. simpl in Lp. lia.
    - unfold col. rewrite map_length. exact Hs. }
  exists cuts. eexists. split; [exact E|]. split; [|reflexivity].
  unfold DFy_fit, DFy_cuts. rewrite E. cbn [obind]. apply fit_matching_val.
  - apply dfy_averages; auto.
  - rewrite L. apply y_ext_length.
  - rewrite L. apply classes_in_ext; auto.
Qed.

Lemma DFX_fit_val : forall ppf N fuel kind nb strat crit y k X, y <> [] ->
  length X = length y -> (0 < nb)%nat ->
  strat = EqualWidth \/ (strat = EqualCount /\ (nb < 2 * length X)%nat) ->
  exists cuts m, DFX_cuts ppf nb strat y k X = Val cuts /\
    DFX_fit ppf N fuel kind nb strat crit y k X = Val m /\
    m = new_matcher N fuel crit (nb * length cuts) (dfx_represent kind cuts)
          (columns_of (nb * length cuts) (dfx_phi kind nb cuts) (class_samples (np_unique y) y X)).
Proof.
  intros ppf N fuel kind nb strat crit y k X Hy L Hnb Hs.
  assert (Lp : (0 < length X)%nat) by (rewrite L; destruct y; [congruence|simpl; lia]).
  destruct (collect_covering (fun att => compute_bincuts ppf (col att X) y (np_unique y) nb strat None)
    (seq 0 k) nb) as (cuts & E & C & Lc).
  { intros a Ha. apply cuts_exist; auto.
    - unfold col. intros Z. apply map_eq_nil in Z. rewrite Z in Lp. simpl in Lp. lia.
    - unfold col. rewrite map_length. exact Hs. }
  exists cuts. eexists. split; [exact E|]. split; [|reflexivity].
  unfold DFX_fit, DFX_cuts. rewrite E. cbn [obind]. apply fit_matching_val.
  - apply dfx_averages; auto.
  - auto.
  - intros c Hc. now apply np_unique_in.
Qed.

Lemma Friedman_fit_val : forall N fuel crit y r preds, y <> [] -> (0 < r)%nat ->
  length preds = (r * length y)%nat ->
  exists prevs, length prevs = length (np_unique y) /\
  FriedmanME_fit N fuel crit y preds =
  Val (new_matcher N fuel crit (length (np_unique y)) (friedman_represent prevs)
    (columns_of (length (np_unique y))
       (fun c (row : list R) => if Rle_dec (nth c prevs 0) (nth c row 0) then 1 else 0)
       (class_samples (np_unique y) (y_ext y (length preds)) preds))) /\
  prevs = map (fun c => INR (zcount c y) / INR (length y)) (np_unique y).
Proof.
  intros N fuel crit y r preds Hy Hr L.
  set (prevs := map (fun c => INR (zcount c y) / INR (length y)) (np_unique y)).
  exists prevs. assert (Lp : length prevs = length (np_unique y)) by apply map_length.
  split; [exact Lp|]. split; [|reflexivity].
  unfold FriedmanME_fit. fold prevs. apply fit_matching_val.
  - rewrite <- Lp. apply friedman_averages.
  - rewrite L. apply y_ext_length.
  - rewrite L. apply classes_in_ext; auto.
Qed.

Lemma PDFO_fit_val : forall N fuel n_bins d meth y r preds, (2 < length (np_unique y))%nat -> (0 < r)%nat ->
  length preds = (r * length y)%nat -> (0 < n_bins)%nat -> meth <> OtherMethod ->
  PDFO_fit N fuel n_bins d meth y preds =
  Val (new_matcher N fuel (pdfo_criterion d) (pdfo_dim n_bins (length (np_unique y)) (is_emd d))
    (pdfo_represent n_bins (length (np_unique y)) meth (is_emd d))
    (columns_of (pdfo_dim n_bins (length (np_unique y)) (is_emd d))
       (pdfo_phi n_bins (length (np_unique y)) meth (is_emd d))
       (class_samples (np_unique y) (y_ext y (length preds)) preds))).
Proof.
  intros N fuel n_bins d meth y r preds Hn Hr L Hb Hm. set (n := length (np_unique y)) in *.
  assert (Hy : y <> []) by (intros ->; cbn in Hn; lia).
  unfold PDFO_fit. fold n. destruct (Nat.leb_spec n 2); [lia|].
  assert (G : fit_matching N fuel (pdfo_criterion d) (pdfo_dim n_bins n (is_emd d))
     (pdfo_represent n_bins n meth (is_emd d)) (np_unique y) (y_ext y (length preds)) preds =
     Val (new_matcher N fuel (pdfo_criterion d) (pdfo_dim n_bins n (is_emd d))
    (pdfo_represent n_bins n meth (is_emd d))
    (columns_of (pdfo_dim n_bins n (is_emd d)) (pdfo_phi n_bins n meth (is_emd d))
       (class_samples (np_unique y) (y_ext y (length preds)) preds)))).
  { apply fit_matching_val.
    - apply pdfo_averages'; auto. lia.
    - rewrite L. apply y_ext_length.
    - rewrite L. apply classes_in_ext; auto. }
  destruct meth; [exact G|exact G|congruence].
Qed.

Lemma ACOrdinal_fit_val : forall N fuel y r preds, y <> [] -> (0 < r)%nat ->
  length preds = (r * length y)%nat -> (forall z, In z preds -> In z y) ->
  exists m, ACOrdinal_fit N fuel y preds = Val m.
Proof.
  intros N fuel y r preds Hy Hr L HP. unfold ACOrdinal_fit, AC_fit.
  assert (LE : length (y_ext y (length preds)) = length preds) by (rewrite L; apply y_ext_length).
  rewrite LE, Nat.eqb_refl. cbn [obind].
  assert (ER : map norm_row (confusion (np_unique y) (y_ext y (length preds)) preds) =
               map Some (map (fun c => map (fun d => rate c d (y_ext y (length preds)) preds) (np_unique y))
                             (np_unique y))).
  { unfold confusion. rewrite !map_map. apply map_ext_in. intros c Hc. apply confusion_row; auto.
    - apply np_unique_NoDup.
    - rewrite L. apply classes_in_ext; auto.
    - intros z Hz. apply (np_unique_in z y). auto. }
  rewrite ER, all_some_map. eauto.
Qed.
