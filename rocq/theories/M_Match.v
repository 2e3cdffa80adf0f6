(** * Model of the quantifiers that match distributions: multiclass/df.py, multiclass/friedman.py,
    ordinal/pdf.py and ordinal/ac_ordinal.py.

    The models start from the predictions (or features) and labels that the base class has stored;
    see M_Base.  [verbose] output is not modelled. *)

From Coq Require Import Reals List ZArith Bool.
From Verif Require Import Num M_Baselines M_Bags M_Search M_Optim.
Import ListNotations.
Open Scope R_scope.

(** The first exception or NaN of a list of outcomes, or the list of values. *)
Fixpoint collect {A : Type} (l : list (out A)) : out (list A) :=
  match l with
  | [] => Val []
  | o :: l' => obind o (fun a => omap (cons a) (collect l'))
  end.

(** ** Histograms *)

(** Bin edges; numpy allows infinite ones. *)
Inductive edge := NegInf | Fin (x : R) | PosInf.

Definition edge_le (e f : edge) : bool :=
  match e, f with
  | NegInf, _ => true
  | _, PosInf => true
  | Fin a, Fin b => if Rle_dec a b then true else false
  | _, _ => false
  end.

(** [x < e] and [x <= e]. *)
Definition below (e : edge) (x : R) : bool :=
  match e with NegInf => false | Fin a => if Rlt_dec x a then true else false | PosInf => true end.
Definition at_most (e : edge) (x : R) : bool :=
  match e with NegInf => false | Fin a => if Rle_dec x a then true else false | PosInf => true end.

Fixpoint non_decreasing (edges : list edge) : bool :=
  match edges with
  | e :: (f :: _) as t => edge_le e f && non_decreasing t
  | _ => true
  end.

(** numpy's [np.histogram(x, bins=edges)[0]] (called at df.py:261, 327, 549, 597; with [bins] a
    number and [range] at pdf.py:196, 261): ValueError for edges that decrease; otherwise the
    differences of the numbers of values below each edge, at most the last edge for the last one. *)
Definition cum_n (x : list R) (edges : list edge) (i : nat) : nat :=
  let e := nth i edges PosInf in
  if Nat.eqb (S i) (length edges) then length (filter (at_most e) x)
  else length (filter (below e) x).

Definition histogram (x : list R) (edges : list edge) : out (list nat) :=
  if non_decreasing edges
  then Val (tabulate (length edges - 1) (fun i => cum_n x edges (S i) - cum_n x edges i)%nat)
  else Err ValueError.

(** [np.histogram_bin_edges(x, bins=n, range=[a, b])]: [n + 1] equidistant numbers; an empty range
    is widened by one half on both sides. *)
Definition uniform_edges (n : nat) (a b : R) : list R :=
  let (a', b') := if Req_EM_T a b then (a - 1/2, b + 1/2) else (a, b) in
  tabulate (S n) (fun i => a' + INR i * ((b' - a') / INR n)).

Definition lmin (l : list R) : R := match l with [] => 0 | x :: t => fold_left Rmin t x end.
Definition lmax (l : list R) : R := match l with [] => 0 | x :: t => fold_left Rmax t x end.

(** [np.sort]. *)
Fixpoint rinsert (x : R) (l : list R) : list R :=
  match l with
  | [] => [x]
  | h :: t => if Rle_dec x h then x :: h :: t else h :: rinsert x t
  end.
Definition rsort (l : list R) : list R := fold_right rinsert [] l.

(** [l[1:-1]]. *)
Definition inner {A : Type} (l : list A) : list A := removelast (tl l).

Inductive strategy := EqualWidth | EqualCount | Binormal | Normal | OtherStrategy.

(** df.py:706-707, one cut point: [sorted_values[-1]] is the last value, an index equal to the length
    raises IndexError. *)
Definition equal_count_cut (sorted : list R) (n i : nat) : out R :=
  let len := length sorted in
  let cutpoint := Z.to_nat (round_even (INR (len * i) / INR n)) in
  if Nat.leb len cutpoint then Err IndexError
  else let before := match cutpoint with O => (len - 1)%nat | S c => c end in
       Val ((nth before sorted 0 + nth cutpoint sorted 0) / 2).

(** Standard deviation, [np.std]. *)
Definition rstd (l : list R) : R := sqrt (rmean (map (fun x => (x - rmean l) ^ 2) l)).

(** df.py:722-724 and 733-735: [ppf] is scipy's norm.ppf on (0, 1); it is infinite at 0 and 1. *)
Definition gaussian_cuts (ppf : R -> R) (n : nat) (mu std : R) : out (list edge) :=
  match n with
  | O => Err ValueError
  | S _ =>
      if Rlt_dec 0 std
      then Val (NegInf :: map (fun i => Fin (std * ppf (INR i / INR n) + mu)) (seq 1 (n - 1))
                ++ [PosInf])
      else Val (map Fin (uniform_edges n 0 0))
  end.

(** df.py:725-728: the weight of each example. *)
Definition class_weights (len : nat) (classes y : list Z) : list R :=
  map (fun c => if existsb (Z.eqb c) classes then INR len / INR (zcount c y) else 1) y.

Definition weighted_mean (x w : list R) : R := rsum (vmap2 Rmult x w) / rsum w.

(** df.py:644-739 compute_bincuts.  A boolean mask of the wrong length raises IndexError; the mean of
    an empty selection is NaN; np.average with weights of sum 0 raises ZeroDivisionError.
    Simplification: n_bins = 0 is ValueError for every strategy (equal_count would return one
    infinite edge). *)
Definition compute_bincuts (ppf : R -> R) (x : list R) (y classes : list Z) (n : nat)
    (strat : strategy) (att_range : option (R * R)) : out (list edge) :=
  match n with
  | O => Err ValueError
  | S _ =>
      match strat with
      | EqualWidth =>
          match att_range, x with
          | None, [] => Err ValueError
          | _, _ =>
              let (a, b) := match att_range with Some r => r | None => (lmin x, lmax x) end in
              Val (NegInf :: map Fin (inner (uniform_edges n a b)) ++ [PosInf])
          end
      | EqualCount =>
          omap (fun cuts => NegInf :: map Fin cuts ++ [PosInf])
               (collect (map (equal_count_cut (rsort x) n) (seq 1 (n - 1))))
      | Binormal =>
          if negb (Nat.eqb (length classes) 2) then Err ValueError
          else if negb (Nat.eqb (length y) (length x)) then Err IndexError
          else let parts := map (fun c => select c y x) classes in
               if existsb (fun l => Nat.eqb (length l) 0) parts then NotANumber
               else gaussian_cuts ppf n (rsum (map rmean parts) / INR (length classes))
                      (rsum (map rstd parts) / INR (length classes))
      | Normal =>
          if negb (Nat.eqb (length y) (length x)) then Err IndexError
          else match x with
               | [] => Err ZeroDivisionError
               | _ =>
                   let w := class_weights (length x) classes y in
                   let mu := weighted_mean x w in
                   gaussian_cuts ppf n mu (sqrt (weighted_mean (map (fun v => (v - mu) ^ 2) x) w))
               end
      | OtherStrategy => Err ValueError
      end
  end.

(** ** Representations of a sample *)

(** df.py:258-262 and 323-329 (DFy), 545-550 and 593-598 (DFX): for each descriptor, its histogram
    divided by the number of examples.  (0 examples: 0/0.) *)
Definition df_blocks (cuts : list (list edge)) (rows : list (list R)) : out (list (list R)) :=
  match rows with
  | [] => NotANumber
  | _ =>
      omap (map (fun h => vdiv (map INR h) (INR (length rows))))
           (collect (map (fun dc => histogram (col (fst dc) rows) (snd dc))
                         (combine (seq 0 (length cuts)) cuts)))
  end.

Inductive representation := PDF | CDF.

(** DFy, with df.py:265-266 and 332-333: the cumulative sum runs over all the descriptors. *)
Definition dfy_represent (kind : representation) (cuts : list (list edge)) (rows : list (list R))
  : out (list R) :=
  omap (fun blocks => match kind with PDF => concat blocks | CDF => cumsum (concat blocks) end)
       (df_blocks cuts rows).

(** DFX, with df.py:552-555 and 600-603: a cumulative sum for each attribute. *)
Definition dfx_represent (kind : representation) (cuts : list (list edge)) (rows : list (list R))
  : out (list R) :=
  omap (fun blocks => match kind with PDF => concat blocks | CDF => concat (map cumsum blocks) end)
       (df_blocks cuts rows).

(** friedman.py:187-193 and 247-251: for each class, the fraction of the examples whose probability
    is at least the training prevalence. *)
Definition friedman_represent (prevs : list R) (rows : list (list R)) : out (list R) :=
  match rows with
  | [] => NotANumber
  | _ => Val (tabulate (length prevs) (fun c =>
           rmean (map (fun r => if Rle_dec (nth c prevs 0) (nth c r 0) then 1 else 0) rows)))
  end.

Inductive scoring := FullProbabilistic | WinnerNode | OtherMethod.

(** [np.argmax(probs > 0)]: the first positive entry, 0 if there is none. *)
Fixpoint first_positive (r : list R) : option nat :=
  match r with
  | [] => None
  | x :: t => if Rlt_dec 0 x then Some O else option_map S (first_positive t)
  end.

(** pdf.py:290-297 __leafprobs2scores for one row. *)
Definition winner_score (n : nat) (r : list R) : R :=
  let i := match first_positive r with Some i => i | None => O end in
  let i := if Nat.eqb i (n - 1) then (n - 2)%nat else i in
  let i := (i + 1)%nat in
  INR i + nth i r 0.

(** pdf.py:186 and 254: [predictions.dot([1, ..., n])] for one row. *)
Definition expected_position (n : nat) (r : list R) : R := sumn n (fun i => nth i r 0 * INR (i + 1)).

Definition pdfo_score (m : scoring) (n : nat) (r : list R) : R :=
  match m with
  | WinnerNode => winner_score n r
  | _ => expected_position n r
  end.

(** pdf.py:192-204 and 260-274; with distance EMD the cumulative sums without the last bin. *)
Definition pdfo_represent (n_bins n : nat) (m : scoring) (emd : bool) (rows : list (list R))
  : out (list R) :=
  let bins := (n_bins * (n - 1))%nat in
  match bins, rows with
  | O, _ => Err ValueError
  | _, [] => NotANumber
  | _, _ =>
      omap (fun h => let t := vdiv (map INR h) (INR (length rows)) in
                     if emd then firstn (bins - 1) (cumsum t) else t)
           (histogram (map (pdfo_score m n) rows) (map Fin (uniform_edges bins 1 (INR n))))
  end.

(** ac_ordinal.py:209-217: cumulative frequencies of the predicted classes. *)
Definition aco_represent (classes : list Z) (preds : list Z) : out (list R) :=
  omap cumsum (class_frequencies classes preds).

(** ** Matching *)

(** The distance of a quantifier: a name, or a Python function of two distributions. *)
Inductive criterion := Named (d : distance) | Callable (f : list R -> list R -> R).

(** What fit leaves in the object: number of classes and of bins, train_distrib_, the parameters G_,
    C_, b_ (distance L2), what predict needs to represent a bag, and the two caches. *)
Record matcher (B : Type) := {
  mt_classes : nat;
  mt_bins : nat;
  mt_T : matrix;
  mt_l2 : option (matrix * matrix * (nat -> R));
  mt_represent : B -> out (list R);
  mt_problem : option cvx_problem;
  mt_mixtures : option (list (list R))
}.
Arguments mt_classes {B}. Arguments mt_bins {B}. Arguments mt_T {B}. Arguments mt_l2 {B}.
Arguments mt_represent {B}. Arguments mt_problem {B}. Arguments mt_mixtures {B}.
Arguments Build_matcher {B}.

Definition matrix_of_columns (cols : list (list R)) : matrix := fun r c => nth r (nth c cols []) 0.

(** df.py:268-275, 557-564, friedman.py:195-202, pdf.py:200-209, ac_ordinal.py:164: the parameters of
    the L2 problem, and both caches emptied. *)
Definition new_matcher {B} (N : numerics) (fuel : nat) (crit : criterion) (bins : nat)
    (represent : B -> out (list R)) (cols : list (list R)) : matcher B :=
  let T := matrix_of_columns cols in
  {| mt_classes := length cols; mt_bins := bins; mt_T := T;
     mt_l2 := match crit with
              | Named L2 => compute_l2_param_train N fuel bins (length cols) T
              | _ => None
              end;
     mt_represent := represent; mt_problem := None; mt_mixtures := None |}.

Definition with_problem {B} (m : matcher B) (P : cvx_problem) : matcher B :=
  Build_matcher (mt_classes m) (mt_bins m) (mt_T m) (mt_l2 m) (mt_represent m) (Some P)
    (mt_mixtures m).
Definition with_mixtures {B} (m : matcher B) (ms : option (list (list R))) : matcher B :=
  Build_matcher (mt_classes m) (mt_bins m) (mt_T m) (mt_l2 m) (mt_represent m) (mt_problem m) ms.

Definition train_column {B} (m : matcher B) (c : nat) : list R :=
  tabulate (mt_bins m) (fun r => mt_T m r c).

(** df.py:338-352, 605-619, friedman.py:253-267: the prevalences for a test distribution.  The caches
    are only assigned when the solver returns.  A function is searched over mixtures of the first two
    classes, whatever the number of classes; with one class the column 1 does not exist.  A name that
    is not known is called as a function: TypeError.  (No L2 parameters: nearest_pd has not
    finished; the outcome is an exception here and no theorem is about it.) *)
Definition estimate {B} (N : numerics) (cvx : cvx_solver) (crit : criterion) (tol : R)
    (m : matcher B) (t : list R) : matcher B * out (list R) :=
  let n := mt_classes m in
  let d := mt_bins m in
  match crit with
  | Named HD =>
      match solve_hd cvx d n (mt_T m) t (mt_problem m) with
      | Val (P, x) => (with_problem m P, Val x)
      | Err e => (m, Err e)
      | NotANumber => (m, NotANumber)
      end
  | Named L1 =>
      match solve_l1 cvx d n (mt_T m) t (mt_problem m) with
      | Val (P, x) => (with_problem m P, Val x)
      | Err e => (m, Err e)
      | NotANumber => (m, NotANumber)
      end
  | Named L2 =>
      (m, match mt_l2 m with
          | Some (G, C, b) => solve_l2 N d n (mt_T m) t G C b
          | None => Err ValueError
          end)
  | Named OtherDistance => (m, Err TypeError)
  | Callable f =>
      if Nat.ltb n 2 then (m, Err IndexError)
      else match global_search f (fun p => mixture_of_pdfs p (train_column m 1) (train_column m 0))
                   t tol (mt_mixtures m) true with
           | Val (ms, p) => (with_mixtures m ms, Val [1 - p; p])
           | Err e => (m, Err e)
           | NotANumber => (m, NotANumber)
           end
  end.

(** predict: represent the bag, then estimate. *)
Definition matching_predict {B} (N : numerics) (cvx : cvx_solver) (crit : criterion) (tol : R)
    (m : matcher B) (bag : B) : matcher B * out (list R) :=
  match mt_represent m bag with
  | Val t => estimate N cvx crit tol m t
  | Err e => (m, Err e)
  | NotANumber => (m, NotANumber)
  end.

(** ** Fit *)

(** One column per class: the representation of the examples of the class. *)
Definition fit_matching {A} (N : numerics) (fuel : nat) (crit : criterion) (bins : nat)
    (represent : list A -> out (list R)) (classes ye : list Z) (rows : list A)
  : out (matcher (list A)) :=
  if Nat.eqb (length ye) (length rows)
  then omap (new_matcher N fuel crit bins represent)
            (collect (map (fun c => represent (select c ye rows)) classes))
  else Err IndexError.

(** df.py:243-247 and 317-321 *)
Definition n_descriptors (n : nat) : nat := if Nat.eqb n 2 then 1%nat else n.

(** df.py:216-277 DFy.fit; the cut points are computed with the labels [y], not repeated. *)
Definition DFy_cuts (ppf : R -> R) (n_bins : nat) (strat : strategy) (y : list Z)
    (preds : list (list R)) : out (list (list edge)) :=
  collect (map (fun descr => compute_bincuts ppf (col descr preds) y (np_unique y) n_bins strat
                               (Some (0, 1)))
               (seq 0 (n_descriptors (length (np_unique y))))).

Definition DFy_fit (ppf : R -> R) (N : numerics) (fuel : nat) (kind : representation) (n_bins : nat)
    (strat : strategy) (crit : criterion) (y : list Z) (preds : list (list R))
  : out (matcher (list (list R))) :=
  obind (DFy_cuts ppf n_bins strat y preds) (fun cuts =>
    fit_matching N fuel crit (n_bins * length cuts) (dfy_represent kind cuts)
      (np_unique y) (y_ext y (length preds)) preds).

(** df.py:518-566 DFX.fit for examples with [k] attributes. *)
Definition DFX_cuts (ppf : R -> R) (n_bins : nat) (strat : strategy) (y : list Z) (k : nat)
    (X : list (list R)) : out (list (list edge)) :=
  collect (map (fun att => compute_bincuts ppf (col att X) y (np_unique y) n_bins strat None)
               (seq 0 k)).

Definition DFX_fit (ppf : R -> R) (N : numerics) (fuel : nat) (kind : representation) (n_bins : nat)
    (strat : strategy) (crit : criterion) (y : list Z) (k : nat) (X : list (list R))
  : out (matcher (list (list R))) :=
  obind (DFX_cuts ppf n_bins strat y k X) (fun cuts =>
    fit_matching N fuel crit (n_bins * length cuts) (dfx_represent kind cuts) (np_unique y) y X).

(** friedman.py:149-204 FriedmanME.fit *)
Definition FriedmanME_fit (N : numerics) (fuel : nat) (crit : criterion) (y : list Z)
    (preds : list (list R)) : out (matcher (list (list R))) :=
  let classes := np_unique y in
  let prevs := map (fun c => INR (zcount c y) / INR (length y)) classes in
  fit_matching N fuel crit (length classes) (friedman_represent prevs) classes
    (y_ext y (length preds)) preds.

(** pdf.py distances: EMD is solved as L1 of cumulative distributions. *)
Inductive ordinal_distance := OHD | OL2 | OEMD | OtherOrdinalDistance.
Definition pdfo_criterion (d : ordinal_distance) : criterion :=
  match d with OHD => Named HD | OL2 => Named L2 | _ => Named L1 end.
Definition is_emd (d : ordinal_distance) : bool := match d with OEMD => true | _ => false end.

(** pdf.py:153-211 PDFOrdinaly.fit *)
Definition PDFO_fit (N : numerics) (fuel : nat) (n_bins : nat) (d : ordinal_distance) (m : scoring)
    (y : list Z) (preds : list (list R)) : out (matcher (list (list R))) :=
  let classes := np_unique y in
  let n := length classes in
  let bins := (n_bins * (n - 1))%nat in
  if Nat.leb n 2 then Err TypeError
  else match m with
       | OtherMethod => Err ValueError
       | _ => fit_matching N fuel (pdfo_criterion d) (if is_emd d then (bins - 1)%nat else bins)
                (pdfo_represent n_bins n m (is_emd d)) classes (y_ext y (length preds)) preds
       end.

(** pdf.py:276-280 *)
Definition clip_normalise (p : list R) : list R :=
  let v := map clip01 p in
  if Rlt_dec 0 (rsum v) then vdiv v (rsum v) else v.

(** pdf.py:246-287 PDFOrdinaly.predict; [Val None]: an unknown distance gives None.
    Simplification: np.squeeze of a distribution with a single bin is that bin. *)
Definition PDFO_predict (N : numerics) (cvx : cvx_solver) (d : ordinal_distance)
    (m : matcher (list (list R))) (bag : list (list R))
  : matcher (list (list R)) * out (option (list R)) :=
  match mt_represent m bag with
  | Val _ =>
      match d with
      | OtherOrdinalDistance => (m, Val None)
      | _ => let (m', r) := matching_predict N cvx (pdfo_criterion d) 0 m bag in
             (m', omap (fun p => Some (if is_emd d then clip_normalise p else p)) r)
      end
  | Err e => (m, Err e)
  | NotANumber => (m, NotANumber)
  end.

(** ac_ordinal.py:121-166 ACOrdinal.fit.  (A NaN row of the confusion matrix is kept by the code
    until the solver meets it; here fit is NotANumber.) *)
Definition ACOrdinal_fit (N : numerics) (fuel : nat) (y preds : list Z)
  : out (matcher (list Z)) :=
  obind (AC_fit y preds) (fun cm =>
    match all_some cm with
    | None => NotANumber
    | Some rows =>
        Val (new_matcher N fuel (Named L1) (length (np_unique y)) (aco_represent (np_unique y))
               (map cumsum rows))
    end).

(** ac_ordinal.py:168-225 ACOrdinal.predict *)
Definition ACOrdinal_predict (N : numerics) (cvx : cvx_solver) (m : matcher (list Z))
    (bag : list Z) : matcher (list Z) * out (list R) :=
  matching_predict N cvx (Named L1) 0 m bag.
