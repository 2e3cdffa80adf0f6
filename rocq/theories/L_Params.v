(** * Proofs about constructors, get_params, set_params and clone. *)

From Coq Require Import String List Bool Arith Lia.
From Verif Require Import M_Params Spec_Params.
Import ListNotations.
Open Scope string_scope.

(** ** [is] *)
Fixpoint depth (v : value) : nat :=
  match v with
  | Made _ l => S ((fix mx l := match l with [] => O | x :: l => Nat.max (depth x) (mx l) end) l)
  | _ => O
  end.

Lemma same_value_refl : forall v, same_value v v = true.
Proof.
  fix IH 1. intros [s|n|c l]; cbn; [apply String.eqb_refl|apply Nat.eqb_refl|]. rewrite String.eqb_refl. cbn.
  induction l as [|x l IHl]; [reflexivity|]. rewrite (IH x). exact IHl.
Qed.

Lemma same_value_depth : forall a b, same_value a b = true -> depth a = depth b.
Proof.
  fix IH 1. intros [s|n|c l] [t|m|d k]; cbn; try discriminate; auto.
  intros H. apply andb_prop in H. destruct H as [_ H]. f_equal. revert k H.
  induction l as [|x l IHl]; intros [|y k] H; try discriminate; [reflexivity|].
  apply andb_prop in H. destruct H as [H1 H2]. rewrite (IH x y H1), (IHl k H2). reflexivity.
Qed.

Lemma never_inside c v : same_value v (Made c [v]) = false.
Proof.
  destruct (same_value v (Made c [v])) eqn:E; [|reflexivity]. apply same_value_depth in E. cbn in E. lia.
Qed.

(** ** Attributes *)
Lemma set_attr_same k v o : set_attr k v o k = Some v.
Proof. unfold set_attr. now rewrite String.eqb_refl. Qed.
Lemma set_attr_other k k' v o : k <> k' -> set_attr k v o k' = o k'.
Proof. intros H. unfold set_attr. destruct (String.eqb_spec k k'); [contradiction|reflexivity]. Qed.

Lemma mem_In k l : mem k l = true <-> In k l.
Proof.
  unfold mem. rewrite existsb_exists. split.
  - intros (x & H & E). apply String.eqb_eq in E. now subst.
  - intros H. exists k. now rewrite String.eqb_refl.
Qed.

Lemma read_all_some names o : (forall n, In n names -> o n <> None) -> exists ps, read_all names o = Returns ps /\ map fst ps = names /\
  forall i n, nth_error names i = Some n -> exists v, o n = Some v /\ nth_error ps i = Some (n, v).
Proof.
  induction names as [|n names IH]; intros H.
  - exists []. split; [reflexivity|]. split; [reflexivity|]. intros [|i] n' E; discriminate.
  - destruct IH as (ps & E1 & E2 & E3); [intros; apply H; now right|]. cbn.
    destruct (o n) as [v|] eqn:En; [|now destruct (H n (or_introl eq_refl))]. rewrite E1. exists ((n, v) :: ps). cbn. split; [reflexivity|].
    split; [now rewrite E2|]. intros [|i] n' E; cbn in *; [injection E as <-; eauto|apply E3, E].
Qed.

Lemma read_all_ext names o o' : (forall n, In n names -> o n = o' n) -> read_all names o = read_all names o'.
Proof.
  induction names as [|n names IH]; intros H; [reflexivity|]. cbn. rewrite (H n) by now left. rewrite IH; [reflexivity|]. intros; apply H; now right.
Qed.

Lemma read_all_none names o n : In n names -> o n = None -> read_all names o = Raises "AttributeError".
Proof.
  induction names as [|m names IH]; intros Hin H; [destruct Hin|]. cbn. destruct Hin as [->|Hin].
  - now rewrite H.
  - destruct (o m); [|reflexivity]. rewrite IH by assumption. reflexivity.
Qed.

(** ** Binding *)
Lemma bind_spec params : forall positional kw args, bind params positional kw = Returns args ->
  length args = length params /\
  forall i n d, nth_error params i = Some (n, d) -> argument positional kw i n d = nth_error args i.
Proof.
  induction params as [|(n, d) params IH]; intros [|v positional] kw args; cbn; intros H; try discriminate.
  - injection H as <-. split; [reflexivity|]. intros [|i] n d E; discriminate.
  - destruct (match keyword n kw with Some v => Some v | None => d end) as [v|] eqn:E; [|discriminate].
    destruct (bind params [] kw) as [l|] eqn:B; [|discriminate]. injection H as <-. destruct (IH _ _ _ B) as (L & K). split; [cbn; congruence|].
    intros [|i] n' d' E'; cbn in *.
    + injection E' as <- <-. exact E.
    + specialize (K i n' d' E'). unfold argument in *. cbn. destruct i; exact K.
  - destruct (keyword n kw); [discriminate|]. destruct (bind params positional kw) as [l|] eqn:B; [|discriminate]. injection H as <-.
    destruct (IH _ _ _ B) as (L & K). split; [cbn; congruence|].
    intros [|i] n' d' E'; cbn in *; [reflexivity|]. exact (K i n' d' E').
Qed.

Lemma bind_all params : forall ps, map fst ps = map fst params -> NoDup (map fst params) ->
  forall kw, (forall n v, In (n, v) ps -> keyword n kw = Some v) -> bind params [] kw = Returns (map snd ps).
Proof.
  induction params as [|(n, d) params IH]; intros [|(m, v) ps] H ND kw K; try discriminate; [reflexivity|].
  cbn in H. injection H as -> H. inversion ND as [|? ? N1 N2]; subst. cbn. rewrite (K n v (or_introl eq_refl)).
  rewrite (IH ps H N2 kw); [reflexivity|]. intros; apply K; now right.
Qed.

Lemma keyword_In ps : NoDup (map fst ps) -> forall n v, In (n, v) ps -> keyword n ps = Some v.
Proof.
  induction ps as [|(m, w) ps IH]; intros ND n v Hin; [destruct Hin|]. inversion ND as [|? ? N1 N2]; subst; cbn in *. destruct Hin as [H|H].
  - injection H as <- <-. now rewrite String.eqb_refl.
  - destruct (String.eqb_spec n m) as [->|Hn]; [|now apply IH]. exfalso. apply N1. apply (in_map fst) in H. exact H.
Qed.

Lemma keyword_not_In ps n : ~ In n (map fst ps) -> keyword n ps = None.
Proof.
  induction ps as [|(m, w) ps IH]; intros H; [reflexivity|]. cbn in *. destruct (String.eqb_spec n m) as [->|Hn]; [exfalso; auto|auto].
Qed.

(** ** Plain classes *)
Definition transparent (c : py_class) : Prop :=
  NoDup (param_names c) /\
  forall args, length args = length (cl_params c) -> forall i n, nth_error (param_names c) i = Some n -> cl_init c args n = nth_error args i.

Ltac finish_args := repeat match goal with
  | H : length (?x :: ?l) = S _ |- _ => cbn in H; injection H as H
  | H : length ?l = S _ |- _ => destruct l as [|? l]; [discriminate H|cbn [length] in H; injection H as H]
  | H : length ?l = O |- _ => destruct l; [clear H|discriminate H]
  end.
Ltac transparent_tac :=
  split; [cbn; repeat constructor; cbn; intuition discriminate|];
  intros args H; cbn in H; finish_args;
  intros i n Hi; cbn in Hi; repeat (destruct i as [|i]; [cbn in Hi; injection Hi as <-; vm_compute; reflexivity|]);
  destruct i; discriminate Hi.

Lemma plain_transparent c : In c plain_classes -> transparent c.
Proof.
  assert (F : Forall transparent plain_classes).
  { unfold plain_classes. repeat (apply Forall_cons; [transparent_tac|]). apply Forall_nil. }
  intros H. rewrite Forall_forall in F. exact (F c H).
Qed.

Lemma names_length c : length (param_names c) = length (cl_params c).
Proof. apply map_length. Qed.

Theorem get_params_new c : In c plain_classes -> forall positional kw o, call c positional kw = Returns o ->
  exists ps, get_params c o = Returns ps /\ length ps = length (cl_params c) /\
    forall i n d, nth_error (cl_params c) i = Some (n, d) ->
      exists v, argument positional kw i n d = Some v /\ nth_error ps i = Some (n, v).
Proof.
  intros Hc positional kw o. destruct (plain_transparent c Hc) as (ND & T). unfold call. destruct (forallb _ kw); [|discriminate].
  destruct (bind (cl_params c) positional kw) as [args|] eqn:B; [|discriminate]. intros [= <-]. destruct (bind_spec _ _ _ _ B) as (L & K).
  destruct (read_all_some (param_names c) (cl_init c args)) as (ps & E1 & E2 & E3).
  { intros n Hn. apply In_nth_error in Hn. destruct Hn as (i & Hi). rewrite (T args L i n Hi).
    apply nth_error_Some. rewrite L, <- names_length. apply nth_error_Some. congruence. }
  exists ps. split; [exact E1|]. split; [rewrite <- names_length, <- E2, map_length; reflexivity|].
  intros i n d Hi. assert (Hn : nth_error (param_names c) i = Some n) by (unfold param_names; now rewrite (map_nth_error fst i _ Hi)).
  destruct (E3 i n Hn) as (v & V1 & V2). exists v. split; [|exact V2]. rewrite (K i n d Hi), <- (T args L i n Hn). exact V1.
Qed.

(** Methods *)
Definition disjoint_check (c : py_class) : bool := forallb (fun k => negb (mem k (param_names c))) (cl_assigns c).

Theorem methods_keep c : In c plain_classes -> cl_name c <> "CV_estimator" -> forall o k v, In k (cl_assigns c) ->
  get_params c (set_attr k v o) = get_params c o.
Proof.
  intros Hc Hn o k v Hk.
  assert (F : Forall (fun c => cl_name c = "CV_estimator" \/ disjoint_check c = true) plain_classes).
  { unfold plain_classes. repeat (apply Forall_cons; [first [right; vm_compute; reflexivity|left; reflexivity]|]). apply Forall_nil. }
  rewrite Forall_forall in F. destruct (F c Hc) as [|D]; [contradiction|].
  unfold disjoint_check in D. rewrite forallb_forall in D. specialize (D k Hk). apply read_all_ext.
  intros n Hin. apply set_attr_other. intros ->. apply mem_In in Hin. rewrite Hin in D. discriminate.
Qed.

(** set_params *)
Definition has_params (c : py_class) (o : object) : Prop := forall n, In n (param_names c) -> o n <> None.

Lemma set_attr_has c o k v : has_params c o -> has_params c (set_attr k v o).
Proof. intros H n Hn. unfold set_attr. destruct (String.eqb k n); [discriminate|apply H, Hn]. Qed.

Lemma assign_has c kw : forall o, has_params c o -> has_params c (fst (assign_params (param_names c) o kw)).
Proof.
  induction kw as [|(k, v) kw IH]; intros o H; [exact H|]. cbn. destruct (mem k (param_names c)); [|exact H]. apply IH, set_attr_has, H.
Qed.

Lemma reachable_has c o : In c plain_classes -> reachable c o -> has_params c o.
Proof.
  intros Hc. induction 1 as [positional kw o H|o k v _ IH _|o kw _ IH].
  - destruct (plain_transparent c Hc) as (ND & T). unfold call in H. destruct (forallb _ kw); [|discriminate].
    destruct (bind (cl_params c) positional kw) as [args|] eqn:B; [|discriminate]. injection H as <-.
    destruct (bind_spec _ _ _ _ B) as (L & _). intros n Hn. apply In_nth_error in Hn. destruct Hn as (i & Hi). rewrite (T args L i n Hi).
    apply nth_error_Some. rewrite L, <- names_length. apply nth_error_Some. congruence.
  - apply set_attr_has, IH.
  - unfold set_params. destruct kw as [|kv kw]; [exact IH|]. destruct (get_params c o); [|exact IH]. apply assign_has, IH.
Qed.

Lemma assign_known names kw : forall o, (forall k, In k (map fst kw) -> In k names) -> NoDup (map fst kw) ->
  exists o', assign_params names o kw = (o', Returns tt) /\ forall k, o' k = match keyword k kw with Some v => Some v | None => o k end.
Proof.
  induction kw as [|(k, v) kw IH]; intros o H ND; [exists o; split; reflexivity|].
  cbn in *. inversion ND as [|? ? N1 N2]; subst. rewrite (proj2 (mem_In k names)) by (apply H; now left).
  destruct (IH (set_attr k v o)) as (o' & E1 & E2); [intros; apply H; now right|exact N2|].
  exists o'. split; [exact E1|]. intros k'. rewrite E2. destruct (String.eqb_spec k' k) as [->|Hk].
  - rewrite (keyword_not_In kw k N1). apply set_attr_same.
  - destruct (keyword k' kw); [reflexivity|]. apply set_attr_other. auto.
Qed.

Theorem set_params_known c o kw : In c plain_classes -> reachable c o ->
  (forall k, In k (map fst kw) -> In k (param_names c)) -> NoDup (map fst kw) ->
  exists o', set_params c o kw = (o', Returns tt) /\ forall k, o' k = match keyword k kw with Some v => Some v | None => o k end.
Proof.
  intros Hc Hr H ND. unfold set_params. destruct kw as [|kv kw]; [exists o; split; reflexivity|].
  destruct (read_all_some (param_names c) o (reachable_has c o Hc Hr)) as (ps & E & _). unfold get_params. rewrite E.
  apply assign_known; assumption.
Qed.

Theorem set_params_unknown c o kw : In c plain_classes -> reachable c o -> (exists k, In k (map fst kw) /\ ~ In k (param_names c)) ->
  snd (set_params c o kw) = Raises "ValueError" /\
  forall k, ~ In k (param_names c) -> fst (set_params c o kw) k = o k.
Proof.
  intros Hc Hr (k & H1 & H2). unfold set_params. destruct kw as [|kv kw]; [destruct H1|].
  destruct (read_all_some (param_names c) o (reachable_has c o Hc Hr)) as (ps & E & _). unfold get_params. rewrite E. clear E ps Hr Hc.
  revert o H1. induction (kv :: kw) as [|(k', v) l IH]; intros o H1; [destruct H1|]. cbn in *.
  destruct (mem k' (param_names c)) eqn:M; [|split; reflexivity].
  destruct H1 as [->|H1]; [apply mem_In in M; contradiction|].
  destruct (IH (set_attr k' v o) H1) as (I1 & I2). split; [exact I1|]. intros m Hm. rewrite I2 by exact Hm. apply set_attr_other.
  intros ->. apply mem_In in M. contradiction.
Qed.

(** clone *)
Lemma nth_error_same {A : Type} : forall l k : list A, (forall i, nth_error l i = nth_error k i) -> l = k.
Proof.
  induction l as [|a l IH]; intros [|b k] H; [reflexivity|discriminate (H O)..|].
  pose proof (H O) as H0. injection H0 as ->. f_equal. apply IH. intros i. exact (H (S i)).
Qed.

Theorem clone_plain c o copy : In c plain_classes -> reachable c o ->
  exists ps o', get_params c o = Returns ps /\ clone c copy o = Returns o' /\
    call c [] (map (fun kv => (fst kv, copy (snd kv))) ps) = Returns o' /\
    get_params c o' = Returns (map (fun kv => (fst kv, copy (snd kv))) ps).
Proof.
  intros Hc Hr. destruct (plain_transparent c Hc) as (ND & T).
  destruct (read_all_some (param_names c) o (reachable_has c o Hc Hr)) as (ps & E1 & E2 & E3).
  set (ps' := map (fun kv => (fst kv, copy (snd kv))) ps).
  assert (F : map fst ps' = param_names c) by (unfold ps'; rewrite map_map; cbn; exact E2).
  assert (C : call c [] ps' = Returns (cl_init c (map snd ps'))).
  { unfold call. replace (forallb _ ps') with true.
    - rewrite (bind_all (cl_params c) ps'); [reflexivity|exact F|exact ND|]. apply keyword_In. now rewrite F.
    - symmetry. apply forallb_forall. intros kv Hkv. apply mem_In. rewrite <- F. now apply in_map. }
  assert (G : get_params c (cl_init c (map snd ps')) = Returns ps').
  { assert (Lp : length (map snd ps') = length (cl_params c)) by (rewrite map_length, <- (map_length fst), F; apply names_length).
    destruct (read_all_some (param_names c) (cl_init c (map snd ps'))) as (qs & Q1 & Q2 & Q3).
    { intros n Hn. apply In_nth_error in Hn. destruct Hn as (i & Hi). rewrite (T _ Lp i n Hi).
      apply nth_error_Some. rewrite Lp, <- names_length. apply nth_error_Some. congruence. }
    unfold get_params. rewrite Q1. f_equal. apply nth_error_same. intros i.
    destruct (nth_error (param_names c) i) as [n|] eqn:Hi.
    - destruct (Q3 i n Hi) as (v & V1 & V2). rewrite V2. rewrite (T _ Lp i n Hi) in V1. rewrite nth_error_map in V1.
      destruct (nth_error ps' i) as [(n', v')|] eqn:P; [|discriminate]. cbn in V1. injection V1 as ->.
      rewrite <- F, nth_error_map, P in Hi. cbn in Hi. injection Hi as ->. reflexivity.
    - transitivity (@None (string * value)); [|symmetry]; apply nth_error_None; apply nth_error_None in Hi.
      + rewrite <- (map_length fst qs), Q2. exact Hi.
      + rewrite <- (map_length fst ps'), F. exact Hi. }
  exists ps, (cl_init c (map snd ps')). split; [exact E1|].
  split; [|split; assumption]. unfold clone. change (get_params c o) with (read_all (param_names c) o). rewrite E1. fold ps'. rewrite C, G.
  replace (forallb _ ps') with true; [reflexivity|]. symmetry. apply forallb_forall. intros (n, v) Hkv. cbn.
  rewrite (keyword_In ps') with (v := v); [apply same_value_refl|now rewrite F|exact Hkv].
Qed.

(** ** Classes that keep a parameter under another name *)
Lemma renaming_missing c o : In c renaming_classes -> reachable c o -> exists n, In n (param_names c) /\ ~ In n (cl_assigns c) /\ o n = None.
Proof.
  intros Hc Hr. assert (W : exists n, In n (param_names c) /\ ~ In n (cl_assigns c) /\ forall args, cl_init c args n = None).
  { unfold renaming_classes in Hc. destruct Hc as [<-|[<-|[<-|[<-|[]]]]].
    - exists "epsilon". split; [cbn; tauto|]. split; [cbn; intuition discriminate|]. intros args. reflexivity.
    - exists "distance". split; [cbn; tauto|]. split; [cbn; intuition discriminate|]. intros args. reflexivity.
    - exists "n_neighbors". split; [cbn; tauto|]. split; [cbn; intuition discriminate|]. intros args. reflexivity.
    - exists "n_neighbors". split; [cbn; tauto|]. split; [cbn; intuition discriminate|]. intros args. reflexivity. }
  destruct W as (n & N1 & N2 & N3). exists n. split; [exact N1|]. split; [exact N2|].
  induction Hr as [positional kw o H|o k v _ IH Hk|o kw _ IH].
  - unfold call in H. destruct (forallb _ kw); [|discriminate]. destruct (bind _ _ _); [|discriminate]. injection H as <-. apply N3.
  - rewrite set_attr_other; [exact IH|]. intros ->. contradiction.
  - unfold set_params. destruct kw as [|kv kw]; [exact IH|]. unfold get_params. rewrite (read_all_none _ _ n N1 IH). exact IH.
Qed.

Theorem renaming_fails c o : In c renaming_classes -> reachable c o ->
  get_params c o = Raises "AttributeError" /\ (forall copy, clone c copy o = Raises "AttributeError") /\
  forall kv kw, set_params c o (kv :: kw) = (o, Raises "AttributeError").
Proof.
  intros Hc Hr. destruct (renaming_missing c o Hc Hr) as (n & N1 & N2 & N3).
  assert (G : get_params c o = Raises "AttributeError") by exact (read_all_none _ _ n N1 N3).
  split; [exact G|]. unfold clone, set_params. rewrite G. auto.
Qed.

(** ** OrdinalQuantificationTree *)
Lemma tree_has o : reachable cOrdinalQuantificationTree o -> has_params cOrdinalQuantificationTree o.
Proof.
  induction 1 as [positional kw o H|o k v _ IH _|o kw _ IH].
  - unfold call in H. destruct (forallb _ kw); [|discriminate]. destruct (bind _ _ _) as [args|] eqn:B; [|discriminate]. injection H as <-.
    intros n [<-|[<-|[]]]; vm_compute; discriminate.
  - apply set_attr_has, IH.
  - unfold set_params. destruct kw as [|kv kw]; [exact IH|]. destruct (get_params _ o); [|exact IH]. apply assign_has, IH.
Qed.

Theorem tree_clone o copy : reachable cOrdinalQuantificationTree o -> clone cOrdinalQuantificationTree copy o = Raises "RuntimeError".
Proof.
  intros Hr. pose proof (tree_has o Hr) as H.
  destruct (o "estimator_test") as [e|] eqn:E1; [|now destruct (H "estimator_test" (or_introl eq_refl))].
  destruct (o "verbose") as [v|] eqn:E2; [|now destruct (H "verbose" (or_intror (or_introl eq_refl)))].
  assert (G : get_params cOrdinalQuantificationTree o = Returns [("estimator_test", e); ("verbose", v)]).
  { unfold get_params. cbn. rewrite E1, E2. reflexivity. }
  unfold clone. rewrite G. cbn [map fst snd].
  assert (C : call cOrdinalQuantificationTree [] [("estimator_test", copy e); ("verbose", copy v)] =
    Returns (cl_init cOrdinalQuantificationTree [copy e; copy v])) by reflexivity.
  rewrite C.
  assert (G' : get_params cOrdinalQuantificationTree (cl_init cOrdinalQuantificationTree [copy e; copy v]) =
    Returns [("estimator_test", Made "FrankAndHallTreeClassifier" [copy e]); ("verbose", copy v)]) by reflexivity.
  rewrite G'. cbn [forallb keyword fst snd]. rewrite String.eqb_refl. rewrite never_inside. reflexivity.
Qed.

Theorem tree_params e : exists o, call cOrdinalQuantificationTree [e] [] = Returns o /\
  get_params cOrdinalQuantificationTree o = Returns [("estimator_test", Made "FrankAndHallTreeClassifier" [e]); ("verbose", Lit "0")] /\
  forall e', fst (set_params cOrdinalQuantificationTree o [("estimator_test", e')]) "estimator_test" = Some e'.
Proof. eexists. split; [reflexivity|]. split; [reflexivity|]. intros e'. reflexivity. Qed.

(** ** Which classifier, which mode *)
Theorem first_argument_train c e : In c train_first -> exists o, call c [e] [] = Returns o /\
  o "estimator_train" = Some e /\ o "estimator_test" = Some (Lit "None").
Proof.
  assert (F : Forall (fun c => exists o, call c [e] [] = Returns o /\ o "estimator_train" = Some e /\ o "estimator_test" = Some (Lit "None")) train_first).
  { unfold train_first. repeat (apply Forall_cons; [eexists; split; [reflexivity|split; reflexivity]|]). apply Forall_nil. }
  intros H. rewrite Forall_forall in F. exact (F c H).
Qed.

Theorem first_argument_test c e : In c test_first -> exists o, call c [e] [] = Returns o /\
  o "estimator_test" = Some e /\ o "estimator_train" = Some (Lit "None").
Proof.
  assert (F : Forall (fun c => exists o, call c [e] [] = Returns o /\ o "estimator_test" = Some e /\ o "estimator_train" = Some (Lit "None")) test_first).
  { unfold test_first. repeat (apply Forall_cons; [eexists; split; [reflexivity|split; reflexivity]|]). apply Forall_nil. }
  intros H. rewrite Forall_forall in F. exact (F c H).
Qed.

Lemma kept_attr c n : ~ In n (param_names c) -> ~ In n (cl_assigns c) -> forall v, (forall args, cl_init c args n = Some v) ->
  forall o, reachable c o -> o n = Some v.
Proof.
  intros N1 N2 v N3 o. induction 1 as [positional kw o H|o k w _ IH Hk|o kw _ IH].
  - unfold call in H. destruct (forallb _ kw); [|discriminate]. destruct (bind _ _ _); [|discriminate]. injection H as <-. apply N3.
  - rewrite set_attr_other; [exact IH|]. intros ->. contradiction.
  - unfold set_params. destruct kw as [|kv kw]; [exact IH|]. destruct (get_params c o); [|exact IH].
    revert o IH. induction (kv :: kw) as [|(k, w) l IHl]; intros o IH; [exact IH|]. cbn. destruct (mem k (param_names c)) eqn:M; [|exact IH].
    apply IHl. rewrite set_attr_other; [exact IH|]. intros ->. apply mem_In in M. contradiction.
Qed.

Ltac not_listed := cbn; intuition discriminate.
Ltac kept_tac := intros o H; cbn [fst snd] in *; match type of H with reachable ?c _ => split; apply (kept_attr c) end;
  first [exact H|intros args; reflexivity|not_listed].

Theorem modes_fixed c needs prob : In (c, (needs, prob)) modes -> forall o, reachable c o ->
  o "needs_predictions_train" = Some (Lit needs) /\ o "probabilistic_predictions" = Some (Lit prob).
Proof.
  assert (F : Forall (fun m => forall o, reachable (fst m) o -> o "needs_predictions_train" = Some (Lit (fst (snd m))) /\
    o "probabilistic_predictions" = Some (Lit (snd (snd m)))) modes).
  { unfold modes. repeat (apply Forall_cons; [kept_tac|]).
    apply Forall_nil. }
  intros H. rewrite Forall_forall in F. exact (F _ H).
Qed.

Theorem decompositions_fixed c : In c [cOneVsRestQuantifier; cFrankAndHallQuantifier] ->
  (forall o, reachable c o -> o "probabilistic_predictions" = Some (Lit "True")) /\
  (forall args kw o, call c args kw = Returns o -> o "needs_predictions_train" = Some (Lit "True")).
Proof.
  intros [<-|[<-|[]]]; (split; [intros o H; match type of H with reachable ?c _ => apply (kept_attr c) end;
    first [exact H|intros args; reflexivity|not_listed]|]);
    intros args kw o H; unfold call in H; destruct (forallb _ kw); try discriminate; destruct (bind _ _ _); try discriminate; injection H as <-; reflexivity.
Qed.

Theorem presets_fixed c df d : In (c, (df, d)) presets -> forall o, reachable c o ->
  o "distribution_function" = Some (Lit df) /\ o "distance" = Some (Lit d).
Proof.
  assert (F : Forall (fun m => forall o, reachable (fst m) o -> o "distribution_function" = Some (Lit (fst (snd m))) /\
    o "distance" = Some (Lit (snd (snd m)))) presets).
  { unfold presets. repeat (apply Forall_cons; [kept_tac|]).
    apply Forall_nil. }
  intros H. rewrite Forall_forall in F. exact (F _ H).
Qed.

(** CV_estimator.fit assigns its parameter cv. *)
Theorem cv_overwritten e : exists o v, call cCV_estimator [e] [] = Returns o /\ In "cv" (cl_assigns cCV_estimator) /\
  get_params cCV_estimator (set_attr "cv" v o) <> get_params cCV_estimator o.
Proof.
  eexists. exists (Lit "StratifiedKFold(n_splits=3)"). split; [reflexivity|]. split; [cbn; tauto|]. vm_compute. discriminate.
Qed.
