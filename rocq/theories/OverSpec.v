(** * OverSpec: parameters without infinities and NaNs (C134, float64). *)
From Coq Require Import ZArith List Bool Arith.
From Flocq Require Import IEEE754.Binary IEEE754.Bits.
From Verif Require Import Num NumB64 Heap Spec Network PureSpec Repr OptSpec ModelSpec.
Import ListNotations.

(** Every weight and every bias is a finite number. *)
Definition all_finite (L : libm) (p : player (B64 L)) : Prop :=
  (forall i j, (i < p_in p)%nat -> (j < p_out p)%nat -> b64_finite (entry (p_w p) i j) = true) /\
  (forall j, (j < p_out p)%nat -> b64_finite (entry (p_b p) 0 j) = true).
(** Every entry is a finite number. *)
Definition finite_rows (L : libm) (X : pm (B64 L)) : Prop := Forall (Forall (fun v : B64 L => b64_finite v = true)) X.
