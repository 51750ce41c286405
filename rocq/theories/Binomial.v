(** * Binomial: the whole of binomial.Rand (binomial.go:37-130).

    The library itself only calls it with N = 1 ([binomial1_Rand] in Network.v); the struct
    accepts any N and P, so the three methods are modelled here as well.  The uniform and
    exponential numbers are arbitrary infinite streams, read from a position; the result
    carries the positions after the call.  The two rejection loops are unbounded in the code:
    they take fuel here, and [None] means that the fuel ran out.  math.Lgamma, math.Log1p,
    math.Tan, math.Floor and the constant math.Pi are arbitrary. *)
From Coq Require Import ZArith List Bool.
From Verif Require Import Num.
Import ListNotations.

Section Binomial.
Context {K : Num}.

Record binlib : Type := MkBinlib {
  b_lgamma : K -> K;      (* first result of math.Lgamma *)
  b_log1p : K -> K;       (* math.Log1p *)
  b_tan : K -> K;         (* math.Tan *)
  b_floor : K -> K;       (* math.Floor *)
  b_pi : K                (* math.Pi *)
}.

(** Where the two streams have been read to. *)
Record draws : Type := MkDraws { d_uni : nat; d_exp : nat }.

Section Rand.
Variable (lib : binlib).
Variables (U E : nat -> K).   (* rand.Float64, rand.ExpFloat64 *)
Variables (N P : K).

(** binomial.go:50-54. *)
Definition bin_p : K := if flt lit_half P then fsub f1 P else P.
Definition bin_am : K := fmul N bin_p.

(** [if p != b.P { return b.N - x }; return x], binomial.go:64-67, 94-97, 124-127. *)
Definition bin_out (x : K) : K := if negb (feq bin_p P) then fsub N x else x.

(** The loop of the direct method, binomial.go:58-63. *)
Fixpoint bin_trials (n : nat) (bnl : K) (u : nat) : K * nat :=
  match n with
  | O => (bnl, u)
  | S n' => bin_trials n' (if flt (U u) bin_p then fadd bnl f1 else bnl) (S u)
  end.

(** The Padé approximant of log(1 + z), binomial.go:75 and 88. *)
Definition bin_pade (z : K) : K :=
  fdiv (fmul (fadd f1 (fmul lit_half z)) z)
       (fadd f1 (fmul (fadd f1 (fmul (fdiv (ofZ 1) (ofZ 6)) z)) z)).

(** The inner loop of the Poisson proposal, binomial.go:77-85. *)
Fixpoint bin_arrivals (n : nat) (t bnl : K) (e : nat) : K * nat :=
  match n with
  | O => (bnl, e)
  | S n' =>
      let t' := fadd t (E e) in
      if fle bin_am t' then (bnl, S e) else bin_arrivals n' t' (fadd bnl f1) (S e)
  end.

(** The threshold of the rejection step, binomial.go:86-89. *)
Definition bin_accept (bnl : K) : K :=
  let bnlc := fsub N bnl in
  let log1p := bin_pade (fdiv (fneg bnl) N) in
  let pclog := bin_pade (fneg bin_p) in
  fadd (fsub (fadd (fsub (fadd (fmul (fadd bnlc lit_half) log1p) bnl) (fmul bnlc pclog))
                   (fdiv (ofZ 1) (fmul (ofZ 12) bnlc))) bin_am)
       (fdiv (ofZ 26) (ofZ 1000)).

(** The rejection loop, binomial.go:76-93. *)
Fixpoint bin_poisson (fuel : nat) (e : nat) : option (K * nat) :=
  match fuel with
  | O => None
  | S f =>
      let '(bnl, e1) := bin_arrivals (Z.to_nat (toZ N)) f0 f0 e in
      if fle (bin_accept bnl) (E e1) then Some (bnl, S e1) else bin_poisson f (S e1)
  end.

(** The inner loop of the Cauchy proposal, binomial.go:109-118. *)
Definition bin_sq : K := fsqrt (fmul (fmul (ofZ 2) bin_am) (fsub f1 bin_p)).
Fixpoint bin_propose (fuel : nat) (u : nat) : option (K * K * nat) :=
  match fuel with
  | O => None
  | S f =>
      let y := b_tan lib (fmul (b_pi lib) (U u)) in
      let em := fadd (fmul bin_sq y) bin_am in
      if fle f0 em && flt em (fadd N f1) then Some (y, em, S u) else bin_propose f (S u)
  end.

(** The probability with which a proposal is accepted, binomial.go:106-108 and 120-122. *)
Definition bin_ratio (y em : K) : K :=
  let g := b_lgamma lib (fadd N f1) in
  let plog := flog bin_p in
  let pclog := b_log1p lib (fneg bin_p) in
  let lg1 := b_lgamma lib (fadd em f1) in
  let lg2 := b_lgamma lib (fadd (fsub N em) f1) in
  fmul (fmul (fmul (fdiv (ofZ 12) (ofZ 10)) bin_sq) (fadd f1 (fmul y y)))
       (fexp (fadd (fadd (fsub (fsub g lg1) lg2) (fmul em plog)) (fmul (fsub N em) pclog))).

(** The rejection loop, binomial.go:110-129. *)
Fixpoint bin_cauchy (fuel : nat) (u : nat) : option (K * nat) :=
  match fuel with
  | O => None
  | S f =>
      match bin_propose fuel u with
      | None => None
      | Some (y, em0, u1) =>
          let em := b_floor lib em0 in
          if fle (U u1) (bin_ratio y em) then Some (em, S u1) else bin_cauchy f (S u1)
      end
  end.

(** binomial.Rand, binomial.go:37-130. *)
Definition bin_Rand (fuel : nat) (d : draws) : option (K * draws) :=
  if flt N (ofZ 25) then
    let '(bnl, u) := bin_trials (Z.to_nat (toZ N)) f0 (d_uni d) in
    Some (bin_out bnl, MkDraws u (d_exp d))
  else if flt bin_am f1 then
    match bin_poisson fuel (d_exp d) with
    | Some (bnl, e) => Some (bin_out bnl, MkDraws (d_uni d) e)
    | None => None
    end
  else
    match bin_cauchy fuel (d_uni d) with
    | Some (em, u) => Some (bin_out em, MkDraws u (d_exp d))
    | None => None
    end.

End Rand.
End Binomial.
Arguments binlib : clear implicits.
