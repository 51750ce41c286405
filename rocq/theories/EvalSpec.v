(** * EvalSpec: single samples of a data set (C112). *)
From Coq Require Import ZArith List Bool Arith Lia Reals.
From Verif Require Import Num NumR Heap Spec Matrix PureSpec Repr RSum ModelSpec.
Import ListNotations.
Open Scope R_scope.

(** Matrices [f 0], [f 1], ... hold the rows of [A], one each. *)
Definition singles (s : state RNum) (f : nat -> matrix) (rs : nat -> list nat) (n c : nat) (A : pm RNum) : Prop :=
  forall a, (a < n)%nat -> own s (f a) (rs a) 1 c [nth a A []].
(** The [n] values that a measurement yields in state [s]. *)
Definition measured (meas : nat -> M RNum R) (s : state RNum) (n : nat) (v : nat -> R) : Prop :=
  forall a, (a < n)%nat -> exists s', meas a s = (Ret (v a), s').
Definition mean (n : nat) (v : nat -> R) : R := rsum n v / INR n.
