(** * LossAccSpec: classifiers and their targets (C113). *)
From Coq Require Import ZArith List Bool Arith Lia Reals.
From Verif Require Import Num NumR Heap Spec Matrix PureSpec Repr ModelSpec.
Import ListNotations.
Open Scope R_scope.

(** The last layer of the model is of kind [k]. *)
Definition ends_with (k : lkind) (es : list (lent RNum)) : Prop := exists es0 e, es = es0 ++ [e] /\ p_kind (e_p e) = k.
(** Every row of [Y] marks one class. *)
Definition classes (r o : nat) (Y : pm RNum) : Prop :=
  forall a, (a < r)%nat -> exists t, (t < o)%nat /\ forall j, (j < o)%nat -> entry Y a j = if (t =? j)%nat then 1 else 0.
(** Every entry of [Y] is 0 or 1. *)
Definition yes_no (r o : nat) (Y : pm RNum) : Prop := forall a j, (a < r)%nat -> (j < o)%nat -> entry Y a j = 0 \/ entry Y a j = 1.
