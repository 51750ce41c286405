(** * NumR: the exact-arithmetic instance of [Num] over the real numbers.

    Comparisons are decided with the (classical) order of R, [int(x)] is truncation,
    [math.Pow] is the integer power for integer exponents and [Rpower] otherwise (Go's
    math.Pow of a negative base and non-integer exponent is NaN; the code only raises
    betas and decay bases, and [Rpower] of a non-positive base is unspecified here). *)
From Coq Require Import ZArith Reals Lra Lia.
From Flocq Require Import Core.Raux.
From Verif Require Import Num.
Open Scope R_scope.

Definition r_ltb (x y : R) : bool := if Rlt_dec x y then true else false.
Definition r_leb (x y : R) : bool := if Rle_dec x y then true else false.
Definition r_eqb (x y : R) : bool := if Req_EM_T x y then true else false.
Definition r_pow (x y : R) : R :=
  if Req_EM_T (IZR (Ztrunc y)) y then powerRZ x (Ztrunc y) else Rpower x y.

Canonical Structure RNum : Num := {|
  F := R;
  fadd := Rplus; fsub := Rminus; fmul := Rmult; fdiv := Rdiv;
  fneg := Ropp; fabs := Rabs; fsqrt := R_sqrt.sqrt; fexp := exp; flog := ln;
  fpow := r_pow;
  fmax := Rmax; fmin := Rmin;
  flt := r_ltb; fle := r_leb; feq := r_eqb;
  ofZ := IZR; toZ := Ztrunc
|}.

Lemma r_ltb_true x y : r_ltb x y = true <-> x < y.
Proof. unfold r_ltb. destruct (Rlt_dec x y); split; intros; try lra; try discriminate; auto. Qed.
Lemma r_ltb_false x y : r_ltb x y = false <-> y <= x.
Proof. unfold r_ltb. destruct (Rlt_dec x y); split; intros; try lra; try discriminate; auto. Qed.
Lemma r_leb_true x y : r_leb x y = true <-> x <= y.
Proof. unfold r_leb. destruct (Rle_dec x y); split; intros; try lra; try discriminate; auto. Qed.
Lemma r_leb_false x y : r_leb x y = false <-> y < x.
Proof. unfold r_leb. destruct (Rle_dec x y); split; intros; try lra; try discriminate; auto. Qed.
Lemma r_eqb_true x y : r_eqb x y = true <-> x = y.
Proof. unfold r_eqb. destruct (Req_EM_T x y); split; intros; try lra; try discriminate; auto. Qed.
Lemma r_eqb_false x y : r_eqb x y = false <-> x <> y.
Proof. unfold r_eqb. destruct (Req_EM_T x y); split; intros; try lra; try discriminate; auto. Qed.

Lemma r_pow_Z x (n : Z) : r_pow x (IZR n) = powerRZ x n.
Proof. unfold r_pow. rewrite Ztrunc_IZR. destruct (Req_EM_T (IZR n) (IZR n)); [reflexivity|congruence]. Qed.

Lemma RNum_int_faithful : int_faithful RNum.
Proof. intros z _. simpl. apply Ztrunc_IZR. Qed.
Lemma RNum_min_faithful : min_faithful RNum.
Proof.
  intros a b _ _. simpl. unfold Rmin. destruct (Rle_dec (IZR a) (IZR b)) as [H|H]; rewrite Ztrunc_IZR.
  - apply le_IZR in H. lia.
  - assert (IZR b < IZR a) by lra. apply lt_IZR in H0. lia.
Qed.
