(** * RoundSpec: running error bounds for float64 networks. *)
From Coq Require Import ZArith List Arith Reals.
From Flocq Require Import IEEE754.Binary IEEE754.Bits.
From Verif Require Import Num NumR NumB64 Heap Spec Network PureSpec RSum.
Import ListNotations.
Open Scope R_scope.

(** The unit roundoff 2^-53 and half the least positive float64, 2^-1075. *)
Definition u64 : R := / 2 ^ 53.
Definition eta64 : R := / 2 ^ 1075.
(** Bound for a sum of [n] products whose absolute values add up to [a]. *)
Definition dot_bound (n : nat) (a : R) : R := ((1 + u64) ^ (n + 1) - 1) * a + INR n * eta64 * (1 + u64) ^ n.

(** Class [c] wins row [a] by more than the error bounds. *)
Definition wins (o : nat) (Y E : pm RNum) (a c : nat) : Prop :=
  (c < o)%nat /\ 0 < entry Y a c - entry E a c /\ forall j, (j < o)%nat -> j <> c -> entry Y a j + entry E a j < entry Y a c - entry E a c.

Section Round.
Context (L : libm).
Notation BN := (B64 L).

(** The same numbers, as reals. *)
Definition real_mat (r c : nat) (A : pm BN) : pm RNum := mk r c (fun i j => b64_R (entry A i j)).
Definition exact_layer (p : player BN) : player RNum :=
  PL (K := RNum) (p_kind p) (p_in p) (p_out p) (real_mat (p_in p) (p_out p) (p_w p)) (real_mat 1 (p_out p) (p_b p))
    (b64_R (p_slope p)) (b64_R (p_drop p)).

(** The exact input is [Y]; the float64 input is within [E] of it.  [weighted V] is the sum of the
    entries of row [i] of [V] times the absolute weights of unit [j]. *)
Definition weighted (p : player BN) (V : nat -> R) (j : nat) : R :=
  rsum (p_in p) (fun n => V n * Rabs (b64_R (entry (p_w p) n j))).
Definition size_of (p : player BN) (Y E : pm RNum) (i j : nat) : R :=
  weighted p (fun n => Rabs (entry Y i n) + entry E i n) j.
(** Error of the weighted sum plus bias: what the input error contributes, and the rounding. *)
Definition affine_err (p : player BN) (Y E : pm RNum) (i j : nat) : R :=
  let a := size_of p Y E i j in let b := Rabs (b64_R (entry (p_b p) 0 j)) in
  weighted p (fun n => entry E i n) j + (dot_bound (p_in p) a * (1 + u64) + (a + b) * u64).
(** The error after the activation: ReLU adds none, leaky ReLU multiplies once. *)
Definition layer_err (p : player BN) (r : nat) (Y E : pm RNum) : pm RNum :=
  mk r (p_out p) (fun i j =>
    let e := affine_err p Y E i j in
    match p_kind p with
    | Leaky => let s := Rabs (b64_R (p_slope p)) in
        Rmax 1 s * e + (u64 * (s * (Rabs (entry (paffine (exact_layer p) r Y) i j) + e)) + eta64)
    | _ => e
    end).
(** Nothing can overflow. *)
Definition layer_fits (p : player BN) (r : nat) (Y E : pm RNum) : Prop :=
  forall i j, (i < r)%nat -> (j < p_out p)%nat ->
    let a := size_of p Y E i j in let b := Rabs (b64_R (entry (p_b p) 0 j)) in
    a + dot_bound (p_in p) a + b <= 2 ^ 1023 /\
    (p_kind p = Leaky -> Rabs (b64_R (p_slope p)) * (Rabs (entry (paffine (exact_layer p) r Y) i j) + affine_err p Y E i j) <= 2 ^ 1023).
(** Finite parameters, and one of the layer kinds that do not call math.Exp. *)
Definition finite_layer (p : player BN) : Prop :=
  (p_kind p = Linear \/ p_kind p = Hidden \/ p_kind p = Dropout \/ p_kind p = Leaky) /\
  b64_finite (p_slope p) = true /\
  (forall i j, (i < p_in p)%nat -> (j < p_out p)%nat -> b64_finite (entry (p_w p) i j) = true) /\
  (forall j, (j < p_out p)%nat -> b64_finite (entry (p_b p) 0 j) = true).
(** The same for a whole network. *)
Fixpoint net_err (ps : list (player BN)) (r : nat) (Y E : pm RNum) : pm RNum :=
  match ps with
  | [] => E
  | p :: t => net_err t r (pforward (exact_layer p) r Y) (layer_err p r Y E)
  end.
Fixpoint net_fits (ps : list (player BN)) (r : nat) (Y E : pm RNum) : Prop :=
  match ps with
  | [] => True
  | p :: t => layer_fits p r Y E /\ net_fits t r (pforward (exact_layer p) r Y) (layer_err p r Y E)
  end.
(** The float64 matrix [X] is finite and entrywise within [E] of [Y]. *)
Definition within (r c : nat) (X : pm BN) (Y E : pm RNum) : Prop :=
  forall i j, (i < r)%nat -> (j < c)%nat ->
    b64_finite (entry X i j) = true /\ Rabs (b64_R (entry X i j) - entry Y i j) <= entry E i j.
End Round.
