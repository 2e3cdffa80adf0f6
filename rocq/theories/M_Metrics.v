(** * Model of metrics/multiclass.py, metrics/ordinal.py and metrics/binary.py. *)

From Coq Require Import Reals List ZArith Bool.
From Verif Require Import Num.
Import ListNotations.
Open Scope R_scope.

(** An argument of a metric after [reshape]: a list of rows.  A 1-D array of prevalences is a
    one-column matrix (multiclass.py:43-47). *)
Definition vec (v : list R) : list (list R) := map (fun x => [x]) v.

(** [shape[1]] of a rectangular array. *)
Definition n_columns (m : list (list R)) : nat := length (hd [] m).

(** multiclass.py:39-52 check_prevalences: sklearn's check_consistent_length and check_array raise
    ValueError for different numbers of samples and for empty arrays; then the numbers
    of columns must agree.  Returns both arrays flattened (row by row): all metrics below are
    elementwise operations followed by a reduction over the flattened arrays.
    Simplification: entries are reals, so check_array's rejection of NaN/inf and of text is not
    modelled; arrays are assumed rectangular. *)
Definition check_prevalences (p q : list (list R)) : out (list R * list R) :=
  if negb (Nat.eqb (length p) (length q)) then Err ValueError
  else if Nat.eqb (length p) 0 then Err ValueError
  else if Nat.eqb (n_columns p) 0 || Nat.eqb (n_columns q) 0 then Err ValueError
  else if negb (Nat.eqb (n_columns p) (n_columns q)) then Err ValueError
  else Val (concat p, concat q).

Definition checked (f : list R -> list R -> out R) (p q : list (list R)) : out R :=
  obind (check_prevalences p q) (fun ab => f (fst ab) (snd ab)).

(** Natural logarithm and base 2 logarithm as numpy computes them: log 0 = -inf and the log of a
    negative number is NaN, both outside R. *)
Definition oln (x : R) : out R := if Rlt_dec 0 x then Val (ln x) else NotANumber.
Definition olog2 (x : R) : out R := omap (fun l => l / ln 2) (oln x).

(** Sum of possibly undefined terms: one NaN (or infinity) makes the sum not a number. *)
Fixpoint osum (l : list (out R)) : out R :=
  match l with
  | [] => Val 0
  | o :: t => obind o (fun x => obind (osum t) (fun s => Val (x + s)))
  end.

Fixpoint map2 {A B C : Type} (f : A -> B -> C) (a : list A) (b : list B) : list C :=
  match a, b with
  | x :: a', y :: b' => f x y :: map2 f a' b'
  | _, _ => []
  end.

(** multiclass.py:82-83 kld *)
Definition kld (eps : R) : list (list R) -> list (list R) -> out R :=
  checked (fun p q => osum (map2 (fun a b =>
    obind (odiv a (b + eps)) (fun r => obind (olog2 r) (fun l => Val (a * l)))) p q)).

(** multiclass.py:106-107 mean_absolute_error *)
Definition mean_absolute_error : list (list R) -> list (list R) -> out R :=
  checked (fun p q => Val (rmean (vmap2 (fun a b => Rabs (b - a)) p q))).

(** multiclass.py:130-131 l1 *)
Definition l1 : list (list R) -> list (list R) -> out R :=
  checked (fun p q => Val (rsum (vmap2 (fun a b => Rabs (a - b)) p q))).

(** multiclass.py:154-155 mean_squared_error *)
Definition mean_squared_error : list (list R) -> list (list R) -> out R :=
  checked (fun p q => Val (rmean (vmap2 (fun a b => (b - a) ^ 2) p q))).

(** multiclass.py:178-179 l2 *)
Definition l2 : list (list R) -> list (list R) -> out R :=
  checked (fun p q => Val (sqrt (rsum (vmap2 (fun a b => (a - b) ^ 2) p q)))).

(** [np.sqrt]: NaN for negative numbers. *)
Definition osqrt (x : R) : out R := if Rle_dec 0 x then Val (sqrt x) else NotANumber.

(** multiclass.py:202-204 hd (named hdist here, [hd] is the head of a list) *)
Definition hdist : list (list R) -> list (list R) -> out R :=
  checked (fun p q =>
    obind (osum (map2 (fun a b => obind (osqrt b) (fun sb => obind (osqrt a) (fun sa =>
             Val ((sb - sa) ^ 2)))) p q)) (fun s => Val (sqrt s))).

(** multiclass.py:227-228 bray_curtis *)
Definition bray_curtis : list (list R) -> list (list R) -> out R :=
  checked (fun p q => odiv (rsum (vmap2 (fun a b => Rabs (a - b)) p q)) (rsum (vmap2 Rplus p q))).

(** multiclass.py:258-261 topsoe *)
Definition topsoe (epsilon : R) : list (list R) -> list (list R) -> out R :=
  checked (fun p q => osum (map2 (fun a b =>
    obind (obind (odiv (2 * a + epsilon) (a + b + epsilon)) oln) (fun la =>
    obind (obind (odiv (2 * b + epsilon) (a + b + epsilon)) oln) (fun lb =>
      Val (a * la + b * lb)))) p q)).

(** multiclass.py:290-293 jensenshannon *)
Definition jensenshannon (epsilon : R) : list (list R) -> list (list R) -> out R :=
  checked (fun p q => omap (fun s => s / 2) (osum (map2 (fun a b =>
    obind (oln (a + epsilon)) (fun la =>
    obind (oln (b + epsilon)) (fun lb =>
    obind (oln ((a + b + epsilon) / 2)) (fun lm =>
      Val (a * la + b * lb - (a + b) * lm))))) p q))).

(** multiclass.py:320-322 probsymmetric *)
Definition probsymmetric (epsilon : R) : list (list R) -> list (list R) -> out R :=
  checked (fun p q => omap (fun s => 2 * s)
    (osum (map2 (fun a b => odiv ((a - b) ^ 2) (b + a + epsilon)) p q))).

(** multiclass.py:348 brier_multi: no check; arrays of the same shape (numpy broadcasting of other
    shapes is not modelled: ValueError). *)
Definition same_shape (p q : list (list R)) : bool :=
  Nat.eqb (length p) (length q) &&
  forallb (fun ab => Nat.eqb (length (fst ab)) (length (snd ab))) (combine p q).

Definition brier_multi (p q : list (list R)) : out R :=
  if same_shape p q then
    match p with
    | [] => NotANumber
    | _ => Val (rmean (map2 (fun a b => rsum (vmap2 (fun x y => (y - x) ^ 2) a b)) p q))
    end
  else Err ValueError.

(** multiclass.py:381-413 geometric_mean.
    [unique_labels] is the sorted union of the labels (381).  [tp_sum] and [true_sum] count
    the correct predictions and the examples of each label (390-403); a label without examples gets
    recall 0 (405-408), and a zero recall is replaced by [correction] (409).  scipy's gmean is
    exp(mean(log)): 0 if a recall is 0, NaN if one is negative (412). *)
Definition tp_count (c : Z) (y_true y_pred : list Z) : nat :=
  length (filter (fun p => andb (Z.eqb (fst p) (snd p)) (Z.eqb (fst p) c)) (combine y_true y_pred)).

Definition recall (correction : R) (y_true y_pred : list Z) (c : Z) : R :=
  let r := if Nat.eqb (zcount c y_true) 0 then 0
           else INR (tp_count c y_true y_pred) / INR (zcount c y_true) in
  if Req_EM_T r 0 then correction else r.

Definition gmean (l : list R) : out R :=
  if existsb (fun x => if Rlt_dec x 0 then true else false) l then NotANumber
  else if existsb (fun x => if Req_EM_T x 0 then true else false) l then Val 0
  else match l with
       | [] => NotANumber
       | _ => Val (exp (rmean (map ln l)))
       end.

Definition geometric_mean (correction : R) (y_true y_pred : list Z) : out R :=
  gmean (map (recall correction y_true y_pred) (np_unique (y_true ++ y_pred))).

(** ordinal.py:33-34 emd: [np.cumsum] without axis works on the flattened array. *)
Definition emd : list (list R) -> list (list R) -> out R :=
  checked (fun p q => Val (rsum (map Rabs (cumsum (vmap2 Rminus p q))))).

(** ordinal.py:60-63: mass concentrated in the first/last class. *)
Definition left_mass (n : nat) : list R := tabulate n (fun i => if Nat.eqb i 0 then 1 else 0).
Definition right_mass (n : nat) : list R := tabulate n (fun i => if Nat.eqb (S i) n then 1 else 0).

(** ordinal.py:59-66 emd_score.  Modelled for 1-D prevalence vectors. *)
Definition emd_score (p q : list R) : out R :=
  obind (emd (vec p) (vec (left_mass (length p)))) (fun el =>
  obind (emd (vec p) (vec (right_mass (length p)))) (fun er =>
  obind (emd (vec p) (vec q)) (fun e =>
    let max_emd := Rmax el er in odiv (max_emd - e) max_emd))).

(** ordinal.py:97-103 emd_distances: entry for one row of A and one row of B ([n] columns). *)
Definition emd_pair (a b : list R) : R :=
  let ca := cumsum a in let cb := cumsum b in
  fold_left (fun d i => d + Rabs (nth i ca 0 - nth i cb 0)) (seq 1 (length a - 2))
    (Rabs (nth 0 ca 0 - nth 0 cb 0)).

(** check_pairwise_arrays: ValueError for different numbers of columns, or empty arrays. *)
Definition emd_distances (A B : list (list R)) : out (list (list R)) :=
  if Nat.eqb (length A) 0 || Nat.eqb (length B) 0 || Nat.eqb (n_columns A) 0
     || negb (Nat.eqb (n_columns A) (n_columns B)) then Err ValueError
  else Val (map (fun a => map (emd_pair a) B) A).

(** binary.py:36-44 binary_kld *)
Definition binary_kld (eps p_true p_pred : R) : out R :=
  let first := if Req_EM_T p_pred 0 then obind (odiv p_true eps) olog2
               else obind (odiv p_true p_pred) olog2 in
  let second := if Req_EM_T p_pred 1 then obind (odiv (1 - p_true) eps) olog2
                else obind (odiv (1 - p_true) (1 - p_pred)) olog2 in
  obind first (fun a => obind second (fun b => Val (p_true * a + (1 - p_true) * b))).

(** binary.py:69, 92, 118 *)
Definition bias (p_true p_pred : R) : R := p_pred - p_true.
Definition absolute_error (p_true p_pred : R) : R := Rabs (p_pred - p_true).
Definition squared_error (p_true p_pred : R) : R := (p_pred - p_true) ^ 2.

(** binary.py:144-147 relative_absolute_error *)
Definition relative_absolute_error (eps p_true p_pred : R) : out R :=
  if Req_EM_T p_true 0 then odiv (Rabs (p_pred - p_true)) (p_true + eps)
  else odiv (Rabs (p_pred - p_true)) p_true.

(** binary.py:168-171 symmetric_absolute_percentage_error *)
Definition symmetric_absolute_percentage_error (p_true p_pred : R) : R :=
  if Req_EM_T (p_pred + p_true) 0 then 0 else Rabs (p_pred - p_true) / (p_pred + p_true).

(** binary.py:192, 213: the maximum of p and 1-p is at least 1/2, so the division is defined. *)
Definition normalized_absolute_score (p_true p_pred : R) : R :=
  1 - Rabs (p_pred - p_true) / Rmax p_true (1 - p_true).
Definition normalized_squared_score (p_true p_pred : R) : R :=
  1 - (Rabs (p_pred - p_true) / Rmax p_true (1 - p_true)) ^ 2.
