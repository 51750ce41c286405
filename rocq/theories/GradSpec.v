(** * GradSpec: what "the gradient" means.

    Matrices of reals that move along a curve t -> A t; [mderiv] is the entrywise derivative at
    0 (Coquelicot's [is_derive]); [inner] is the Euclidean inner product. *)
From Coq Require Import String ZArith List Bool Arith Lia Reals.
From Coquelicot Require Import Coquelicot.
From Verif Require Import Num NumR Heap Spec PureSpec RSum.
Import ListNotations.
Open Scope R_scope.

(** [A'] is the derivative at t = 0 of the r x c matrix curve [A]. *)
Definition mderiv (r c : nat) (A : R -> rpm) (A' : rpm) : Prop :=
  forall i j, (i < r)%nat -> (j < c)%nat -> is_derive (fun t : R => entry (A t) i j : R) 0 (entry A' i j).
(** sum of A_ij * B_ij *)
Definition inner (r c : nat) (A B : rpm) : R := rsum r (fun i => rsum c (fun j => entry A i j * entry B i j)).
(** The layer [p] with other weights and biases. *)
Definition with_params (p : player RNum) (W B : rpm) : player RNum :=
  PL (K := RNum) (p_kind p) (p_in p) (p_out p) W B (p_slope p) (p_drop p).

(** [dW, dB, dX] is [scale] times the vector-Jacobian product, with the upstream gradient [G],
    of the map (weights, biases, input) -> output given by [f], at the parameters of [p] and
    the r-row input [X]: for every smooth motion of weights, biases and input through that
    point, the rate of change of <G, output> (times scale) is the rate the gradients predict. *)
Definition is_vjp_scaled (scale : R) (f : player RNum -> rpm -> rpm) (p : player RNum) (r : nat) (X G dW dB dX : rpm) : Prop :=
  forall (Wc Bc Xc : R -> rpm) (W' B' X' : rpm),
    Wc 0 = p_w p -> Bc 0 = p_b p -> Xc 0 = X ->
    mderiv (p_in p) (p_out p) Wc W' -> mderiv 1 (p_out p) Bc B' -> mderiv r (p_in p) Xc X' ->
    exists O' : rpm,
      mderiv r (p_out p) (fun t => f (with_params p (Wc t) (Bc t)) (Xc t)) O' /\
      scale * inner r (p_out p) G O' =
        inner (p_in p) (p_out p) dW W' + inner 1 (p_out p) dB B' + inner r (p_in p) dX X'.
Definition is_vjp := is_vjp_scaled 1.

(** No pre-activation is exactly 0. *)
Definition away_from_zero (p : player RNum) (r : nat) (X : rpm) : Prop :=
  forall i j, (i < r)%nat -> (j < p_out p)%nat -> entry (paffine p r X) i j <> 0.
(** Matrix [A] with entry (a,b) replaced by [v]. *)
Definition put (r c : nat) (A : rpm) (a b : nat) (v : R) : rpm :=
  mk (K := RNum) r c (fun i j => if ((i =? a) && (j =? b))%nat then v else entry A i j).
(** [D] is the gradient at [A] of the real-valued function [f] of an r x c matrix. *)
Definition is_grad (r c : nat) (f : rpm -> R) (A D : rpm) : Prop :=
  forall (Ac : R -> rpm) (A' : rpm), Ac 0 = A -> mderiv r c Ac A' -> is_derive (fun t => f (Ac t)) 0 (inner r c D A').
(** Every row of [Y] has one entry 1 and 0 elsewhere. *)
Definition one_hot (r c : nat) (Y : rpm) : Prop :=
  exists lab : nat -> nat, forall i, (i < r)%nat -> (lab i < c)%nat /\ forall j, (j < c)%nat -> entry Y i j = if (lab i =? j)%nat then 1 else 0.
Definition in01 (r c : nat) (A : rpm) : Prop := forall i j, (i < r)%nat -> (j < c)%nat -> 0 < entry A i j < 1.
(** [dW, dB, dX] is the gradient of [L (output)] with respect to weights, biases and input. *)
Definition is_loss_grad (L : rpm -> R) (f : player RNum -> rpm -> rpm) (p : player RNum) (r : nat) (X dW dB dX : rpm) : Prop :=
  forall (Wc Bc Xc : R -> rpm) (W' B' X' : rpm),
    Wc 0 = p_w p -> Bc 0 = p_b p -> Xc 0 = X ->
    mderiv (p_in p) (p_out p) Wc W' -> mderiv 1 (p_out p) Bc B' -> mderiv r (p_in p) Xc X' ->
    is_derive (fun t => L (f (with_params p (Wc t) (Bc t)) (Xc t))) 0
      (inner (p_in p) (p_out p) dW W' + inner 1 (p_out p) dB B' + inner r (p_in p) dX X').
