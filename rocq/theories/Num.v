(** * Num: the float64 operations the Go code uses, as a record without laws.

    Every function of the code base is modelled once, over an arbitrary [K : Num].
    Instances: [RNum] (NumR.v, exact real arithmetic) and [B64] (NumB64.v, IEEE-754
    binary64).  No field is a law, so a theorem "for every [K]" assumes nothing about
    arithmetic; laws, where needed, appear as hypotheses of the theorem. *)
From Coq Require Import String ZArith List.
Import ListNotations.

Record Num : Type := MkNum {
  F :> Type;                        (* float64 *)
  fadd : F -> F -> F;               (* x + y *)
  fsub : F -> F -> F;               (* x - y *)
  fmul : F -> F -> F;               (* x * y *)
  fdiv : F -> F -> F;               (* x / y *)
  fneg : F -> F;                    (* -x *)
  fabs : F -> F;                    (* math.Abs *)
  fsqrt : F -> F;                   (* math.Sqrt *)
  fexp : F -> F;                    (* math.Exp *)
  flog : F -> F;                    (* math.Log *)
  fpow : F -> F -> F;               (* math.Pow *)
  fmax : F -> F -> F;               (* math.Max *)
  fmin : F -> F -> F;               (* math.Min *)
  flt : F -> F -> bool;             (* x < y   (x > y is flt y x) *)
  fle : F -> F -> bool;             (* x <= y *)
  feq : F -> F -> bool;             (* x == y  (x != y is negb (feq x y)) *)
  ofZ : Z -> F;                     (* float64(n) for an int n *)
  toZ : F -> Z                      (* int(x): truncation towards zero *)
}.

Arguments fadd {_} _ _. Arguments fsub {_} _ _. Arguments fmul {_} _ _.
Arguments fdiv {_} _ _. Arguments fneg {_} _. Arguments fabs {_} _.
Arguments fsqrt {_} _. Arguments fexp {_} _. Arguments flog {_} _.
Arguments fpow {_} _ _. Arguments fmax {_} _ _. Arguments fmin {_} _ _.
Arguments flt {_} _ _. Arguments fle {_} _ _. Arguments feq {_} _ _.
Arguments ofZ {_} _%Z. Arguments toZ {_} _.


(** The constants 0 and 1. *)
Definition f0 {K : Num} : K := ofZ 0.
Definition f1 {K : Num} : K := ofZ 1.

(** Decimal literals.  0.5, 1e-7 and the constant expression 1 - 1e-7 are written as one
    division of small integers: both operands are exact in binary64 and IEEE division rounds
    once, so the quotient is the correctly rounded literal, as the Go compiler computes it. *)
Definition lit_half {K : Num} : K := fdiv (ofZ 1) (ofZ 2).
Definition lit_1em7 {K : Num} : K := fdiv (ofZ 1) (ofZ 10000000).
Definition lit_1m1em7 {K : Num} : K := fdiv (ofZ 9999999) (ofZ 10000000).

(** Integers up to 2^53 in absolute value survive [int(float64(n))].  True in both
    instances ([RNum_int_faithful], [B64_int_faithful]). *)
Definition small_int (z : Z) : Prop := (- 2 ^ 53 <= z <= 2 ^ 53)%Z.
Definition int_faithful (K : Num) : Prop :=
  forall z, small_int z -> toZ (ofZ (n := K) z) = z.

(** [int(math.Min(float64(a), float64(b)))] is the integer minimum. *)
Definition min_faithful (K : Num) : Prop :=
  forall a b, small_int a -> small_int b ->
    toZ (fmin (ofZ (n := K) a) (ofZ b)) = Z.min a b.
