(** * SepSpec: linearly separable classes (C119). *)
From Coq Require Import ZArith List Bool Arith Reals.
From Verif Require Import Num NumR Heap Spec Matrix Loss Network Optimizers ModelGo PureSpec Repr RSum ModelSpec.
Import ListNotations.
Open Scope R_scope.

(** The score that the weights [W] and biases [B] give class [j] for sample [a]. *)
Definition score (i : nat) (X W B : rpm) (a j : nat) : R := rsum i (fun l => entry X a l * entry W l j) + entry B 0 j.
(** The class marked in [Y] has the largest score for every sample, by a margin of 1. *)
Definition separates (n i o : nat) (X Y W B : rpm) : Prop := forall a c j, (a < n)%nat -> (c < o)%nat -> (j < o)%nat -> entry Y a c = 1 -> j <> c -> score i X W B a j + 1 <= score i X W B a c.
Definition separable (n i o : nat) (X Y : rpm) : Prop := exists W B, separates n i o X Y W B.
(** [g] times a matrix. *)
Definition scaled (r c : nat) (g : R) (A : rpm) : rpm := mk (K := RNum) r c (fun a b => g * entry A a b).
(** Training for [epochs] epochs makes the model classify every training sample correctly. *)
Definition perfect_after (s : state RNum) (m : model RNum) (x y : matrix) (epochs bs : Z) (xv yv : matrix) : Prop :=
  exists s' s'', Fit m x y epochs bs xv yv 0 s = (Ret tt, s') /\ CalculateAccuracy m x y s' = (Ret 1, s'').
