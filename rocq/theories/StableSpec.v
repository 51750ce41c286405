(** * StableSpec: distances of parameters and neighbouring data sets (C121). *)
From Coq Require Import ZArith List Bool Arith Reals.
From Verif Require Import Num NumR Heap Spec Matrix Loss Network Optimizers ModelGo PureSpec Repr RSum ModelSpec Converge.
Import ListNotations.
Open Scope R_scope.

(** The squared distance of the parameters of two layers with [i] inputs and [o] units. *)
Definition apart (i o : nat) (p q : player RNum) : R := sqdist i o (p_w p) (p_w q) + sqdist 1 o (p_b p) (p_b q).
(** Every sample has the squared length at most [R2]. *)
Definition within (n i : nat) (X : rpm) (R2 : R) : Prop := forall a, (a < n)%nat -> rsum i (fun l => entry X a l ^ 2) <= R2.
(** Two data sets that differ in sample [b] only. *)
Definition neighbours (n i o b : nat) (X Y X' Y' : rpm) : Prop :=
  forall a, (a < n)%nat -> a <> b -> (forall l, (l < i)%nat -> entry X' a l = entry X a l) /\ (forall j, (j < o)%nat -> entry Y' a j = entry Y a j).
