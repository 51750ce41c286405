(** * Nan: what it means for a network to be destroyed by NaNs (float64). *)
From Coq Require Import ZArith List Bool Arith.
From Flocq Require Import IEEE754.Binary IEEE754.Bits.
From Verif Require Import Num NumB64 Heap Spec Network PureSpec Repr OptSpec ModelSpec.
Import ListNotations.

(** math.Exp(NaN) is NaN, as its documentation says. *)
Definition exp_nan (L : libm) : Prop := forall x, b64_nan x = true -> b64_nan (l_exp L x) = true.

Section Nan.
Context (L : libm).
Notation BN := (B64 L).

(** Every weight and every bias is NaN. *)
Definition all_nan (p : player BN) : Prop :=
  (forall i j, (i < p_in p)%nat -> (j < p_out p)%nat -> b64_nan (entry (p_w p) i j) = true) /\
  (forall j, (j < p_out p)%nat -> b64_nan (entry (p_b p) 0 j) = true).
(** Same kind and shape, and every parameter that was NaN is NaN, every one that was not finite is not finite. *)
Definition bad_kept (p p' : player BN) : Prop :=
  p_kind p' = p_kind p /\ p_in p' = p_in p /\ p_out p' = p_out p /\
  (forall i j, (i < p_in p)%nat -> (j < p_out p)%nat ->
     (b64_nan (entry (p_w p) i j) = true -> b64_nan (entry (p_w p') i j) = true) /\
     (b64_finite (entry (p_w p) i j) = false -> b64_finite (entry (p_w p') i j) = false)) /\
  (forall j, (j < p_out p)%nat ->
     (b64_nan (entry (p_b p) 0 j) = true -> b64_nan (entry (p_b p') 0 j) = true) /\
     (b64_finite (entry (p_b p) 0 j) = false -> b64_finite (entry (p_b p') 0 j) = false)).
(** Some entry of some row is NaN. *)
Definition some_nan (n i : nat) (X : pm BN) : Prop :=
  exists a f, (a < n)%nat /\ (f < i)%nat /\ b64_nan (entry X a f) = true.
(** What Predict returns for a network whose output is all NaN: NaN for regression, class 0 for categorical and 1 for binary accuracy. *)
Definition nan_answer (acctype : Z) (r c : nat) (P : pm BN) : Prop :=
  forall a j, (a < r)%nat -> (j < c)%nat ->
    if (acctype =? 0)%Z then b64_nan (entry P a j) = true
    else entry P a j = if (acctype =? 1)%Z then f0 else f1.
End Nan.
