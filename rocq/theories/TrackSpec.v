(** * TrackSpec: an arithmetic that carries its own rounding-error bound.

    A [tracked] number stands for a float64 number: the exact value it should have, a bound for its
    distance from that value, and whether the bound is guaranteed.  [TNum] makes it an instance of [Num],
    so that the plain training of ModelSpec.v, run in [TNum], computes error bounds along with the exact result. *)
From Coq Require Import ZArith QArith Qabs Qreduction List Bool Arith Reals.
From Flocq Require Import IEEE754.Binary IEEE754.Bits.
From Verif Require Import Num NumR NumQ NumB64 Heap Spec Loss PureSpec OptSpec ModelSpec.
Import ListNotations.
Open Scope Q_scope.

Record tracked : Type := TR { t_val : Q; t_err : Q; t_ok : bool }.
(** 2^-53, 2^-200 and 2^1023.  2^-200 stands in for 2^-1075, half the least positive float64. *)
Definition uQ : Q := 1 # (2 ^ 53).
Definition etaQ : Q := 1 # (2 ^ 200).
Definition bigQ : Q := inject_Z (2 ^ 1023).
(** Error bounds are rounded up to a multiple of 2^-200, to keep them short. *)
Definition up (e : Q) : Q := Qmake (- ((- Qnum e * 2 ^ 200) / Zpos (Qden e))) (2 ^ 200).
(** An operation with exact result [v], whose operands contribute the error [e]; the result is rounded to nearest. *)
Definition rounded (v e tiny : Q) (ok : bool) : tracked :=
  let a := Qabs v + e in TR v (up (e + (uQ * a + tiny))) (ok && Qle_bool a bigQ).
Definition t_add (a b : tracked) : tracked := rounded (Qred (t_val a + t_val b)) (t_err a + t_err b) 0 (t_ok a && t_ok b).
Definition t_sub (a b : tracked) : tracked := rounded (Qred (t_val a - t_val b)) (t_err a + t_err b) 0 (t_ok a && t_ok b).
Definition t_mul (a b : tracked) : tracked :=
  rounded (Qred (t_val a * t_val b)) (Qabs (t_val a) * t_err b + t_err a * Qabs (t_val b) + t_err a * t_err b) etaQ (t_ok a && t_ok b).
Definition t_div (a b : tracked) : tracked :=
  rounded (Qred (t_val a / t_val b)) ((t_err a * Qabs (t_val b) + Qabs (t_val a) * t_err b) / ((Qabs (t_val b) - t_err b) * Qabs (t_val b))) etaQ
    (t_ok a && t_ok b && negb (Qeq_bool (t_val b) 0) && q_ltb (t_err b) (Qabs (t_val b))).
Definition t_neg (a : tracked) : tracked := TR (Qred (- t_val a)) (t_err a) (t_ok a).
(** The larger number; if it is clear which one that is, with its own error. *)
Definition t_max (a b : tracked) : tracked :=
  TR (q_max (t_val a) (t_val b))
     (if Qle_bool (t_val a + t_err a) (t_val b - t_err b) then t_err b
      else if Qle_bool (t_val b + t_err b) (t_val a - t_err a) then t_err a else q_max (t_err a) (t_err b))
     (t_ok a && t_ok b).
Definition t_ofZ (z : Z) : tracked := TR (inject_Z z) 0 (Z.abs z <=? 2 ^ 53)%Z.
(** Operations that are not analysed promise nothing. *)
Definition unknown : tracked := TR 0 0 false.
Canonical Structure TNum : Num := {|
  F := tracked;
  fadd := t_add; fsub := t_sub; fmul := t_mul; fdiv := t_div; fneg := t_neg; fabs _ := unknown; fsqrt _ := unknown; fexp _ := unknown; flog _ := unknown;
  fpow _ _ := unknown; fmax := t_max; fmin _ _ := unknown;
  flt a b := q_ltb (t_val a) (t_val b); fle a b := Qle_bool (t_val a) (t_val b); feq a b := Qeq_bool (t_val a) (t_val b);
  ofZ := t_ofZ; toZ a := q_trunc (t_val a)
|}.

(** The error is too small to change the sign of [a]. *)
Definition decided (a : tracked) : bool :=
  t_ok a && (q_ltb (t_err a) (Qabs (t_val a)) || (Qeq_bool (t_val a) 0 && Qeq_bool (t_err a) 0)).
Definition all_decided (r c : nat) (A : pm TNum) : bool := forallb (fun i => forallb (fun j => decided (entry A i j)) (seq 0 c)) (seq 0 r).
(** Rounding errors cannot switch a unit of the layer on or off.  Only layers that are linear, ReLU or leaky ReLU are analysed. *)
Definition sure_layer (p : player TNum) (r : nat) (X : pm TNum) : bool :=
  match p_kind p with
  | Linear => true
  | Hidden => all_decided r (p_out p) (pforward p r X)
  | Leaky => all_decided r (p_out p) (paffine p r X) && all_decided r (p_out p) (pforward p r X)
  | _ => false
  end.
Fixpoint sure_net (ps : list (player TNum)) (r : nat) (X : pm TNum) : bool :=
  match ps with [] => true | p :: t => sure_layer p r X && sure_net t r (pforward p r X) end.
(** The same for every batch of a training run (mean squared error). *)
Fixpoint sure_train (o : nat) (ts : list (player TNum * popt TNum)) (bs : list (pm TNum * pm TNum)) : bool :=
  match bs with
  | [] => true
  | (X, Y) :: rest => sure_net (map fst ts) (length X) X && sure_train o (pbatch MSE o ts X Y (fun _ => f0) 0) rest
  end.

(** ** Carrying a model over, number by number *)
Section Carry.
Context {K1 K2 : Num} (f : K1 -> K2).
Definition carry_mat (A : pm K1) : pm K2 := map (map f) A.
Definition carry_layer (p : player K1) : player K2 :=
  PL (p_kind p) (p_in p) (p_out p) (carry_mat (p_w p)) (carry_mat (p_b p)) (f (p_slope p)) (f (p_drop p)).
Definition carry_opt (po : popt K1) : popt K2 :=
  PO (po_kind po) (f (po_lr po)) (f (po_decay po)) (f (po_mom po)) (f (po_eps po)) (f (po_b1 po)) (f (po_b2 po)) (f (po_rate po))
     (po_iter po) (po_usedecay po) (po_usemom po) (carry_mat (po_wm po)) (carry_mat (po_bm po)) (carry_mat (po_wc po)) (carry_mat (po_bc po)).
Definition carry (t : player K1 * popt K1) : player K2 * popt K2 := (carry_layer (fst t), carry_opt (snd t)).
End Carry.
(** A float64 number as a rational, and as a tracked number without error. *)
Definition b64_Q (x : binary64) : Q :=
  match x with B754_finite _ _ s m e _ => Qred (inject_Z (if s then Zneg m else Zpos m) * Qpower 2 e) | _ => 0 end.
Definition exactly (x : binary64) : tracked := TR (b64_Q x) 0 (b64_finite x).

(** ** What the bounds mean *)
(** Wherever [T] promises a bound, the float64 matrix [A] is finite and that close to [E]. *)
Definition close {L : libm} (A : pm (B64 L)) (E : pm RNum) (T : pm TNum) : Prop :=
  forall i j, t_ok (entry T i j) = true ->
    b64_finite (entry A i j) = true /\ (Rabs (b64_R (entry A i j) - entry E i j) <= Q2R (t_err (entry T i j)))%R.
Inductive close_net {L : libm} : list (player (B64 L)) -> list (player RNum) -> list (player TNum) -> Prop :=
| close_nil : close_net [] [] []
| close_cons p e t ps es ts : close (p_w p) (p_w e) (p_w t) -> close (p_b p) (p_b e) (p_b t) -> close_net ps es ts -> close_net (p :: ps) (e :: es) (t :: ts).
