(** * NumQ: a computable instance of [Num] over the rationals.

    Used only for concrete, axiom-free examples: +, -, *, /, comparisons and int
    conversions are exact (a quotient by 0 is 0, as in [Qdiv]); sqrt, exp, log and pow are
    simple computable stand-ins and carry no meaning.  No theorem about the code relies on
    this instance being the right arithmetic. *)
From Coq Require Import ZArith QArith Qreduction Qabs Qminmax.
From Verif Require Import Num.

Definition q_trunc (x : Q) : Z := Z.quot (Qnum x) (Zpos (Qden x)).
Definition q_ltb (x y : Q) : bool := negb (Qle_bool y x).

Definition q_exp (x : Q) : Q := if q_ltb x 0 then Qred (1 / (1 - x)) else Qred (1 + x).
Definition q_max (x y : Q) : Q := if q_ltb x y then y else x.
Definition q_min (x y : Q) : Q := if q_ltb x y then x else y.

Canonical Structure QNum : Num := {|
  F := Q;
  fadd x y := Qred (x + y);
  fsub x y := Qred (x - y);
  fmul x y := Qred (x * y);
  fdiv x y := Qred (x / y);
  fneg x := Qred (- x);
  fabs x := Qred (Qabs x);
  fsqrt x := Qred (inject_Z (Z.sqrt (q_trunc x)));
  fexp := q_exp;
  flog x := Qred (x - 1);
  fpow x y := Qred (Qpower x (q_trunc y));
  fmax := q_max;
  fmin := q_min;
  flt := q_ltb;
  fle := Qle_bool;
  feq := Qeq_bool;
  ofZ := inject_Z;
  toZ := q_trunc
|}.

Lemma QNum_int_faithful : int_faithful QNum.
Proof. intros z _. simpl. unfold q_trunc. simpl. apply Z.quot_1_r. Qed.

Lemma QNum_min_faithful : min_faithful QNum.
Proof.
  intros a b _ _. simpl. unfold q_min, q_ltb, Qle_bool. simpl. rewrite !Z.mul_1_r.
  destruct (Z.leb_spec b a); unfold q_trunc; simpl; rewrite Z.quot_1_r; Lia.lia.
Qed.
