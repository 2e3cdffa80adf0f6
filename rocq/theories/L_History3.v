(** * Histories of fits with estimators (C62). *)

From Coq Require Import Reals List ZArith Lia Lra Bool Arith.
From Verif Require Import Num Spec M_Baselines M_Base Spec_Base L_Num L_Base.
Import ListNotations.
Open Scope R_scope.

(** A quantifier whose estimator is trained by fit: two fits, or only the second. *)
Lemma estimators_keep_history :
  exists (X M : Type) (A : nat -> algorithm X M) q w x1 y1 x2 y2 bag q1 w1 q2 w2 q2' w2',
    UC_fit A q w x1 y1 None = (Val tt, q1, w1) /\ UC_fit A q1 w1 x2 y2 None = (Val tt, q2, w2) /\
    UC_fit A q w x2 y2 None = (Val tt, q2', w2') /\
    predictions_test_ (snd (UC_predict A q2 w2 bag None)) <> predictions_test_ (snd (UC_predict A q2' w2' bag None)).
Proof.
  exists nat, nat, counting, (plain (Some 1%nat) (Some 1%nat) false), untrained,
    [5; 6]%nat, [2; 3]%Z, [7; 8; 9]%nat, [2; 3; 3]%Z, [0%nat].
  do 6 eexists. split; [reflexivity|]. split; [reflexivity|]. split; [reflexivity|]. cbn. discriminate.
Qed.
