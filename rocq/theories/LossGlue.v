(** * Proofs and definitions used by PropLoss.v *)
From Coq Require Import String ZArith List Bool Arith Lia Reals Lra QArith.
From Coquelicot Require Import Coquelicot.
From Verif Require Import Num NumR NumQ Heap Spec PureSpec Repr Matrix Loss RSum GradSpec LossProofs LossFacts LossReal LossMore
  LossRefute Ex.
Import ListNotations.
Open Scope Z_scope.

Lemma er_args : loss_args er_state er_h [10;11]%nat er_y [8;9]%nat 2 2 erH erY.
Proof. split; [exact er_own_h|]. split; [exact er_own_y|]. split; [nd|]. split; [dj|lia]. Qed.
