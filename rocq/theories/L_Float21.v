(** * search.py in double precision: where global search ends. *)

From Coq Require Import Reals ZArith List Permutation Sorted Lia Lra Bool Psatz.
From Flocq Require Import Core BinarySingleNaN Relative Plus_error Mult_error.
From Verif Require Import Num Spec L_Num M_Float M_Float2 M_Float5 Spec_Float Spec_Float2 L_Float L_Float2 L_Float3 L_Float14 L_Float18 L_Float19 L_Float20.
Import ListNotations.
Open Scope R_scope.

Section Where.
Variable f : float -> option float.
Hypothesis Tot : forall x, in_unit x -> exists u, f x = Some u /\ finite u.
Variable steps : float -> float -> nat.
Hypothesis N : not_too_many steps.
Variable losses : nat -> float.

Definition is_min (i : nat) : Prop := flt (losses (i - 1)%nat) (losses i) = true /\ flt (losses i) (losses (i + 1)%nat) = true.
Definition low (i : nat) : float := grid_float (i - 2).
Definition high (i : nat) : float := grid_float (Nat.min (i + 2) 100).
Definition searched (i : nat) : option (float * list float) := golden_float f (steps (low i) (high i)) (low i) (high i).

Definition inv (done : list nat) (count : nat) (best : float * found) : Prop :=
  (count = 0%nat /\ best = (B754_infinity false, Two) /\ forall i, In i done -> ~ is_min i) \/
  ((0 < count)%nat /\ finite (fst best) /\
   (exists i p, In i done /\ is_min i /\ searched i = Some (fst best, p) /\ snd best = Pair p) /\
   (forall j, In j done -> is_min j -> exists l p, searched j = Some (l, p) /\ val (fst best) <= val l)).

Lemma searched_total i : (1 <= i <= 99)%nat -> exists loss p, searched i = Some (loss, [fsub f1 p; p]) /\ complementary (fsub f1 p) p /\ finite loss /\ between (low i) (high i) p.
Proof using Tot N.
  intros I. unfold searched. destruct (grid_wide (i - 2) (Nat.min (i + 2) 100) ltac:(lia) ltac:(lia)) as (Ua & Ub & W). fold (low i) in Ua, W. fold (high i) in Ub, W.
  destruct (golden_range _ _ Ua Ub _ (N _ _ Ua Ub W) f) as [(E & z & (Fz & Bz) & Ez)|(loss & p & z & E & C & B & (Fz & Bz) & Ez)];
    (assert (Uz : in_unit z) by (split; [exact Fz|destruct Ua as (_ & ?), Ub as (_ & ?); lra])); destruct (Tot z Uz) as (u & Eu & Fu).
  - congruence.
  - rewrite Ez in Eu. injection Eu as <-. exists loss, p. repeat split; try assumption; try apply C; apply B.
Qed.

Lemma minima_where : forall is done count best, Forall (fun i => (1 <= i <= 99)%nat) is -> inv done count best ->
  exists count' l o, minima_float f steps losses is count best = Some (count', o) /\ inv (done ++ is) count' (l, o).
Proof using Tot N.
  induction is as [|i is IH]; intros done count best H G.
  - exists count, (fst best), (snd best). split; [reflexivity|]. rewrite app_nil_r. destruct best. exact G.
  - inversion H as [|? ? Hi His]; subst. replace (done ++ i :: is) with ((done ++ [i]) ++ is) by (rewrite <- app_assoc; reflexivity).
    cbn [minima_float]. rewrite Nat.max_0_r. fold (low i) (high i). fold (searched i).
    destruct (flt (losses (i - 1)%nat) (losses i) && flt (losses i) (losses (i + 1)%nat)) eqn:M.
    + apply andb_true_iff in M. assert (Mi : is_min i) by exact M.
      destruct (searched_total i Hi) as (loss & p & E & C & Fl & _). rewrite E. apply IH; [exact His|]. right. split; [lia|].
      destruct G as [(_ & -> & No)|(_ & Fb & (j & q & Ij & Mj & Ej & Qj) & Min)].
      * cbn [fst]. rewrite flt_inf by exact Fl. cbn [fst snd]. split; [exact Fl|]. split.
        { exists i, [fsub f1 p; p]. split; [apply in_or_app; right; left; reflexivity|]. repeat split; try assumption; apply M. }
        { intros k Ik Mk. apply in_app_or in Ik. destruct Ik as [Ik|[<-|[]]]; [destruct (No k Ik Mk)|]. exists loss, [fsub f1 p; p]. split; [exact E|lra]. }
      * match goal with |- context [if ?c then _ else _] => destruct c eqn:Q end; cbn [fst snd].
        { apply (flt_ok loss (fst best) Fl Fb) in Q. split; [exact Fl|]. split.
          - exists i, [fsub f1 p; p]. split; [apply in_or_app; right; left; reflexivity|]. repeat split; try assumption; apply M.
          - intros k Ik Mk. apply in_app_or in Ik. destruct Ik as [Ik|[<-|[]]].
            + destruct (Min k Ik Mk) as (lk & pk & Ek & Lk). exists lk, pk. split; [exact Ek|lra].
            + exists loss, [fsub f1 p; p]. split; [exact E|lra]. }
        { split; [exact Fb|]. split.
          - exists j, q. split; [apply in_or_app; left; exact Ij|]. split; [exact Mj|]. split; assumption.
          - intros k Ik Mk. apply in_app_or in Ik. destruct Ik as [Ik|[<-|[]]]; [apply (Min k Ik Mk)|]. exists loss, [fsub f1 p; p]. split; [exact E|].
            apply Rnot_lt_le. intros L. apply (flt_ok loss (fst best) Fl Fb) in L. unfold float in *. congruence. }
    + assert (Mi : ~ is_min i) by (intros (A & B); rewrite A, B in M; discriminate M). apply IH; [exact His|].
      destruct G as [(-> & -> & No)|(Pc & Fb & (j & q & Ij & Mj & Ej & Qj) & Min)].
      * left. split; [reflexivity|]. split; [reflexivity|]. intros k Ik. apply in_app_or in Ik. destruct Ik as [Ik|[<-|[]]]; [apply No, Ik|exact Mi].
      * right. split; [exact Pc|]. split; [exact Fb|]. split; [exists j, q; split; [apply in_or_app; left; exact Ij|split; [exact Mj|split; assumption]]|].
        intros k Ik Mk. apply in_app_or in Ik. destruct Ik as [Ik|[<-|[]]]; [apply (Min k Ik Mk)|destruct (Mi Mk)].
Qed.

(** The whole of it, in one statement. *)
Lemma global_where :
  (exists i loss p, (1 <= i <= 99)%nat /\ is_min i /\ global_float f steps losses = Pair [fsub f1 p; p] /\ complementary (fsub f1 p) p /\
     searched i = Some (loss, [fsub f1 p; p]) /\ between (low i) (high i) p /\
     forall j, (1 <= j <= 99)%nat -> is_min j -> exists l q, searched j = Some (l, q) /\ val loss <= val l) \/
  ((forall i, (1 <= i <= 99)%nat -> ~ is_min i) /\
   ((Beqb (losses 0%nat) (losses 100%nat) = true /\ global_float f steps losses = Raised) \/
    (Beqb (losses 0%nat) (losses 100%nat) = false /\ exists p, global_float f steps losses = Pair [fsub f1 p; p] /\ complementary (fsub f1 p) p /\
       (flt (losses 0%nat) (losses 100%nat) = true -> val p <= val (grid_float 2)) /\
       (flt (losses 0%nat) (losses 100%nat) = false -> val (grid_float 98) <= val p)))).
Proof using Tot N.
  assert (Hs : Forall (fun i => (1 <= i <= 99)%nat) (seq 1 99)) by (apply Forall_forall; intros i Hi; apply in_seq in Hi; lia).
  destruct (minima_where (seq 1 99) [] 0 (B754_infinity false, Two) Hs) as (c & l & o & E & G).
  { left. split; [reflexivity|]. split; [reflexivity|]. intros i []. }
  cbn [app] in G. unfold global_float. rewrite E.
  destruct G as [(-> & _ & No)|(Pc & Fb & (i & p & Ii & Mi & Ei & Qi) & Min)].
  - right. split; [intros i Hi; apply No, in_seq; lia|]. destruct (Beqb _ _) eqn:Q; [left; split; reflexivity|]. right. split; [reflexivity|].
    destruct ends as (U0 & U1 & U2 & U98 & W0 & W1). destruct (flt (losses 0%nat) (losses 100%nat)).
    + destruct (golden_range _ _ U0 U2 _ (N _ _ U0 U2 W0) f) as [(E' & z & (Fz & Bz) & Ez)|(loss & q & z & E' & C & B & _)].
      * exfalso. assert (Uz : in_unit z) by (split; [exact Fz|destruct U0 as (_ & ?), U2 as (_ & ?); lra]). destruct (Tot z Uz) as (u & Eu & _). congruence.
      * rewrite E'. exists q. split; [reflexivity|]. split; [exact C|]. split; [intros _; apply B|discriminate].
    + destruct (golden_range _ _ U98 U1 _ (N _ _ U98 U1 W1) f) as [(E' & z & (Fz & Bz) & Ez)|(loss & q & z & E' & C & B & _)].
      * exfalso. assert (Uz : in_unit z) by (split; [exact Fz|destruct U98 as (_ & ?), U1 as (_ & ?); lra]). destruct (Tot z Uz) as (u & Eu & _). congruence.
      * rewrite E'. exists q. split; [reflexivity|]. split; [exact C|]. split; [discriminate|intros _; apply B].
  - left. cbn [fst snd] in *. apply in_seq in Ii. destruct (searched_total i ltac:(lia)) as (loss & q & Es & C & Fl & B). rewrite Es in Ei. injection Ei as <- <-.
    exists i, loss, q. split; [lia|]. split; [exact Mi|]. subst o. split; [destruct c; [lia|reflexivity]|]. split; [exact C|]. split; [exact Es|]. split; [exact B|].
    intros j Hj Mj. destruct (Min j ltac:(apply in_seq; lia) Mj) as (lj & pj & Ej & Lj). exists lj, pj. split; assumption.
Qed.
End Where.
