(** * Model of optimization.py and of the energy-distance quantifiers (multiclass/energy.py).

    Matrices are functions [nat -> nat -> R] used on the indices below their dimensions, which are
    explicit arguments.  numpy.linalg, quadprog and cvxpy are external: they are function
    arguments, and theorems state what they assume about them. *)

From Coq Require Import Reals List ZArith Bool.
From Verif Require Import Num M_Baselines.
Import ListNotations.
Open Scope R_scope.

Definition matrix := nat -> nat -> R.

(** [r[i, j] = x]. *)
Definition set_entry (r : matrix) (i j : nat) (x : R) : matrix :=
  fun a b => if Nat.eqb a i && Nat.eqb b j then x else r a b.

(** optimization.py:330-336, one iteration of the inner loop of dpofa in column [k].  [np.sum] over
    the empty slice is 0, so the test [i > 0] needs no case.  The divisor [r[i, i]] is the square
    root of a positive number stored by an earlier column. *)
Definition dpofa_step (k : nat) (st : R * matrix) (i : nat) : R * matrix :=
  let (s, r) := st in
  let t := (r i k - sumn i (fun l => r l i * r l k)) / r i i in
  (s + t * t, set_entry r i k t).

(** optimization.py:328-336, the inner loop of dpofa in column [k]. *)
Definition dpofa_column (k : nat) (r : matrix) : R * matrix :=
  fold_left (dpofa_step k) (seq 0 k) (0, r).

(** optimization.py:327-341, the outer loop of dpofa: [todo] columns left, the next one is [k]. *)
Fixpoint dpofa_from (todo k : nat) (r : matrix) : nat * matrix :=
  match todo with
  | O => (O, r)
  | S todo' =>
      let (s0, r') := dpofa_column k r in
      let s := r' k k - s0 in
      if Rle_dec s 0 then (S k, r')
      else dpofa_from todo' (S k) (set_entry r' k k (sqrt s))
  end.

(** optimization.py:301-341 dpofa of an [n] x [n] matrix; the argument is copied. *)
Definition dpofa (n : nat) (m : matrix) : nat * matrix := dpofa_from n 0 m.

(** optimization.py:344-360 is_pd. *)
Definition is_pd (n : nat) (m : matrix) : bool := Nat.eqb (fst (dpofa n m)) 0.

(** External numerical routines.  [svd n B] is the pair (s, V) of [np.linalg.svd(B)];
    [min_eigenvalue n A] is [np.min(np.real(np.linalg.eigvals(A)))]; [spacing] is [np.spacing];
    [solve_qp n m G a C b meq] is [quadprog.solve_qp] for [n] variables and [m] constraints, [None]
    when it raises ValueError.  (The LinAlgError that svd/eigvals raise when they do not converge
    is not modelled.) *)
Record numerics := {
  svd : nat -> matrix -> (nat -> R) * matrix;
  min_eigenvalue : nat -> matrix -> R;
  spacing : R -> R;
  solve_qp : nat -> nat -> matrix -> (nat -> R) -> matrix -> (nat -> R) -> nat -> option (list R)
}.

Definition transpose (A : matrix) : matrix := fun i j => A j i.
Definition average (A B : matrix) : matrix := fun i j => (A i j + B i j) / 2.

(** [np.linalg.norm(A)] (Frobenius). *)
Definition frobenius (n : nat) (A : matrix) : R :=
  sqrt (sumn n (fun i => sumn n (fun j => A i j * A i j))).

(** [np.dot(V.T, np.dot(np.diag(s), V))]. *)
Definition recompose (n : nat) (s : nat -> R) (V : matrix) : matrix :=
  fun i j => sumn n (fun l => V l i * (s l * V l j)).

(** optimization.py:293-296, the while loop of nearest_pd; [None]: still running after [fuel]
    iterations. *)
Fixpoint push_up (N : numerics) (fuel n : nat) (sp : R) (k : nat) (A3 : matrix) : option matrix :=
  if is_pd n A3 then Some A3
  else match fuel with
       | O => None
       | S fuel' =>
           let mineig := min_eigenvalue N n A3 in
           push_up N fuel' n sp (S k)
             (fun i j => A3 i j + (if Nat.eqb i j then 1 else 0) * (- mineig * INR k ^ 2 + sp))
       end.

(** optimization.py:257-298 nearest_pd. *)
Definition nearest_pd (N : numerics) (fuel n : nat) (A : matrix) : option matrix :=
  let B := average A (transpose A) in
  let (s, V) := svd N n B in
  let H := recompose n s V in
  let A2 := average B H in
  let A3 := average A2 (transpose A2) in
  if is_pd n A3 then Some A3
  else push_up N fuel n (spacing N (frobenius n A)) 1 A3.

(** optimization.py:244-245 and 469-470: replace the matrix when it is not positive definite. *)
Definition ensure_pd (N : numerics) (fuel n : nat) (G : matrix) : option matrix :=
  if is_pd n G then Some G else nearest_pd N fuel n G.

(** optimization.py:243: twice the Gram matrix of the [n] columns of a [d] x [n] matrix. *)
Definition gram2 (d : nat) (T : matrix) : matrix :=
  fun i j => 2 * sumn d (fun r => T r i * T r j).

(** optimization.py:248-249: the constraint matrix ([n] x [n+1]) and the right-hand side. *)
Definition l2_C : matrix :=
  fun i j => match j with O => 1 | S j' => if Nat.eqb i j' then 1 else 0 end.
Definition l2_b (j : nat) : R := match j with O => 1 | S _ => 0 end.

(** optimization.py:198-250 compute_l2_param_train for a [d] x [n] train distribution. *)
Definition compute_l2_param_train (N : numerics) (fuel d n : nat) (T : matrix)
  : option (matrix * matrix * (nat -> R)) :=
  match ensure_pd N fuel n (gram2 d T) with
  | None => None
  | Some G => Some (G, l2_C, l2_b)
  end.

(** optimization.py:138-195 solve_l2; [np.dot] raises ValueError when the numbers of bins differ. *)
Definition solve_l2 (N : numerics) (d n : nat) (T : matrix) (test : list R)
    (G C : matrix) (b : nat -> R) : out (list R) :=
  let a := fun i => 2 * sumn d (fun r => T r i * nth r test 0) in
  if Nat.eqb (length test) d then
    match solve_qp N n (S n) G a C b 1 with
    | Some x => Val x
    | None => Err ValueError
    end
  else Err ValueError.

(** [train_distrib @ p] for a [d] x [n] matrix. *)
Definition mix (d n : nat) (T : matrix) (p : list R) : list R :=
  tabulate d (fun r => sumn n (fun j => T r j * nth j p 0)).

(** A cvxpy problem as built by solve_l1 / solve_hd: [n] variables, a parameter of length [d] and
    the objective as a function of the parameter and the variables; the variables are
    non-negative and sum to 1.  [cp_last]: primal values of the last call, the warm start. *)
Record cvx_problem := {
  cp_n : nat;
  cp_d : nat;
  cp_objective : list R -> list R -> R;
  cp_last : option (list R)
}.

(** The external cvxpy solver, from the warm start, number of variables and objective; [None]:
    the problem is not solved (cvxpy raises SolverError, or the value is None and indexing it
    raises TypeError; both are modelled as one exception). *)
Definition cvx_solver := option (list R) -> nat -> (list R -> R) -> option (list R).

(** Assignment to the parameter: shape and sign are checked, ValueError if they are wrong. *)
Definition valid_parameter (d : nat) (test : list R) : bool :=
  Nat.eqb (length test) d && forallb (fun x => if Rle_dec 0 x then true else false) test.

Definition run_problem (cvx : cvx_solver) (P : cvx_problem) (test : list R)
  : out (cvx_problem * list R) :=
  if valid_parameter (cp_d P) test then
    match cvx (cp_last P) (cp_n P) (cp_objective P test) with
    | Some x => Val ({| cp_n := cp_n P; cp_d := cp_d P; cp_objective := cp_objective P;
                        cp_last := Some x |}, x)
    | None => Err ValueError
    end
  else Err ValueError.

(** optimization.py:66 and 120-122: the two objectives, for a [d] x [n] train distribution. *)
Definition l1_objective (d n : nat) (T : matrix) (test p : list R) : R :=
  rsum (map Rabs (vmap2 Rminus test (mix d n T p))).
Definition hd_objective (d n : nat) (T : matrix) (test p : list R) : R :=
  1 - rsum (map sqrt (vmap2 Rmult test (mix d n T p))).

(** optimization.py:22-84 solve_l1: a cached problem keeps the train distribution of the call that
    built it.  cvxpy raises ValueError when the shapes do not match. *)
Definition solve_l1 (cvx : cvx_solver) (d n : nat) (T : matrix) (test : list R)
    (problem : option cvx_problem) : out (cvx_problem * list R) :=
  match problem with
  | None =>
      if Nat.eqb (length test) d then
        run_problem cvx {| cp_n := n; cp_d := length test; cp_objective := l1_objective d n T;
                           cp_last := None |} test
      else Err ValueError
  | Some P => run_problem cvx P test
  end.

(** optimization.py:87-132 solve_hd. *)
Definition solve_hd (cvx : cvx_solver) (d n : nat) (T : matrix) (test : list R)
    (problem : option cvx_problem) : out (cvx_problem * list R) :=
  match problem with
  | None =>
      if Nat.eqb (length test) d then
        run_problem cvx {| cp_n := n; cp_d := length test; cp_objective := hd_objective d n T;
                           cp_last := None |} test
      else Err ValueError
  | Some P => run_problem cvx P test
  end.

(** The solvers that AC/PAC/PWKQuantifier call when the correction matrix is not inverted, on a
    freshly fitted object (no cached problem). *)
Definition library_solvers (inv : nat -> matrix -> option matrix)
    (N : numerics) (cvx : cvx_solver) (fuel : nat) : solvers :=
  {| M_Baselines.inv := inv;
     M_Baselines.solve := fun dist n T test =>
       match dist with
       | HD => omap snd (solve_hd cvx n n T test None)
       | L1 => omap snd (solve_l1 cvx n n T test None)
       | L2 => match compute_l2_param_train N fuel n n T with
               | Some (G, C, b) => solve_l2 N n n T test G C b
               | None => Err ValueError
               end
       | OtherDistance => Err ValueError
       end |}.

(** ** Energy distance *)

Section Energy.
  Context {A : Type}.

  (** [distance_func(X, Y).sum()] for a pairwise distance function. *)
  Definition pair_sum (dist : A -> A -> R) (X Y : list A) : R :=
    rsum (map (fun x => rsum (map (dist x) Y)) X).

  (** optimization.py:449-457: average distances between the training classes.  [train i] are
      the examples of the i-th class, [sizes] their numbers. *)
  Definition ed_K (dist : A -> A -> R) (train : nat -> list A) (sizes : nat -> R) : matrix :=
    fun i j =>
      (if Nat.leb i j then pair_sum dist (train i) (train j)
       else pair_sum dist (train j) (train i)) / (sizes i * sizes j).

  (** optimization.py:459-465; [n] classes. *)
  Definition ed_B (n : nat) (K : matrix) : matrix :=
    let l := (n - 1)%nat in
    fun i j =>
      if Nat.eqb i j then - K i i - K l l + 2 * K i l
      else - K i j - K l l + K i l + K j l.

  (** optimization.py:472-473. *)
  Definition ed_C : matrix :=
    fun i j => match j with O => - (1) | S j' => - - (if Nat.eqb i j' then 1 else 0) end.
  Definition ed_b (j : nat) : R := match j with O => - (1) | S _ => - 0 end.

  (** optimization.py:409-475 compute_ed_param_train. *)
  Definition compute_ed_param_train (N : numerics) (fuel n : nat) (dist : A -> A -> R)
      (train : nat -> list A) (sizes : nat -> R) : option (matrix * matrix * matrix * (nat -> R)) :=
    let K := ed_K dist train sizes in
    let B := ed_B n K in
    match ensure_pd N fuel (n - 1) (fun i j => 2 * B i j) with
    | None => None
    | Some G => Some (K, G, ed_C, ed_b)
    end.

  (** optimization.py:478-524 compute_ed_param_test. *)
  Definition compute_ed_param_test (n : nat) (dist : A -> A -> R) (train : nat -> list A)
      (test : list A) (K : matrix) (sizes : nat -> R) : nat -> R :=
    let l := (n - 1)%nat in
    let Kt := fun i => pair_sum dist (train i) test / (sizes i * INR (length test)) in
    fun i => 2 * (- Kt i + K i l + Kt l - K l l).

  (** optimization.py:366-406 solve_ed for [n] classes, the last one removed from the problem. *)
  Definition solve_ed (N : numerics) (n : nat) (G : matrix) (a : nat -> R) (C : matrix)
      (b : nat -> R) : out (list R) :=
    match solve_qp N (n - 1) n G a C b 0 with
    | Some x => Val (x ++ [1 - rsum x])
    | None => Err ValueError
    end.

  (** energy.py:166-175 (EDy) and 520-529 (EDX): the state kept by fit. *)
  Record ed_fitted := {
    ed_classes : list Z;
    ed_train : nat -> list A;
    ed_sizes : nat -> R;
    ed_dist : A -> A -> R;
    ed_Kmat : matrix;
    ed_Gmat : matrix;
    ed_Cmat : matrix;
    ed_bvec : nat -> R
  }.

  (** energy.py:136-179 EDy.fit and 502-533 EDX.fit, after the base class has validated its
      arguments.  [rows]: predictions of the training examples (EDy) or their features (EDX),
      [y]: the label of each row (for EDy, y_ext_).  [None]: nearest_pd has not finished. *)
  Definition ED_fit (N : numerics) (fuel : nat) (dist : A -> A -> R) (classes : list Z)
      (y : list Z) (rows : list A) : option ed_fitted :=
    let train := fun i => select (nth i classes 0%Z) y rows in
    let sizes := fun i => INR (length (train i)) in
    match compute_ed_param_train N fuel (length classes) dist train sizes with
    | None => None
    | Some (K, G, C, b) =>
        Some {| ed_classes := classes; ed_train := train; ed_sizes := sizes; ed_dist := dist;
                ed_Kmat := K; ed_Gmat := G; ed_Cmat := C; ed_bvec := b |}
    end.

  (** The averages over the classes and over the bag are not 0/0. *)
  Definition ed_defined (f : ed_fitted) (bag : list A) : bool :=
    forallb (fun i => negb (Nat.eqb (length (ed_train f i)) 0)) (seq 0 (length (ed_classes f))) &&
    negb (Nat.eqb (length bag) 0).

  (** energy.py:181-225 EDy.predict and 535-564 EDX.predict.  (With an empty bag or an empty class
      the vectors contain NaN.) *)
  Definition ED_predict (N : numerics) (f : ed_fitted) (bag : list A) : out (list R) :=
    let n := length (ed_classes f) in
    let a := compute_ed_param_test n (ed_dist f) (ed_train f) bag (ed_Kmat f) (ed_sizes f) in
    if ed_defined f bag then solve_ed N n (ed_Gmat f) a (ed_Cmat f) (ed_bvec f)
    else NotANumber.
End Energy.

(** [scipy.stats.rankdata(l)] (average ranks): the rank of a value [x] of [l]. *)
Definition count_below (x : R) (l : list R) : nat :=
  length (filter (fun y => if Rlt_dec y x then true else false) l).
Definition count_equal (x : R) (l : list R) : nat :=
  length (filter (fun y => if Req_EM_T y x then true else false) l).
Definition rankdata (l : list R) : list R :=
  map (fun x => INR (count_below x l) + (INR (count_equal x l) + 1) / 2) l.

(** energy.py:412-415: each of the [k] columns is replaced by its ranks. *)
Definition rank_columns (k : nat) (rows : list (list R)) : list (list R) :=
  tabulate (length rows) (fun i => tabulate k (fun j => nth i (rankdata (col j rows)) 0)).

(** energy.py:375-445 CvMy.predict, for training predictions with [k] columns; [y] is y_ext_. *)
Definition CvMy_predict (N : numerics) (fuel : nat) (dist : list R -> list R -> R)
    (classes y : list Z) (k : nat) (preds_train preds_test : list (list R))
  : option (out (list R)) :=
  let all := preds_train ++ preds_test in
  let Hn := rank_columns k all in
  let Htr := firstn (length preds_train) Hn in
  let Htst := skipn (length preds_train) Hn in
  match ED_fit N fuel dist classes y Htr with
  | None => None
  | Some f => Some (ED_predict N f Htst)
  end.
