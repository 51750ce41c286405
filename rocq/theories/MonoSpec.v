(** * MonoSpec: networks without negative weights (C132). *)
From Coq Require Import ZArith List Bool Arith Lia Reals.
From Verif Require Import Num Heap Spec PureSpec Repr ModelSpec.
Import ListNotations.

Section WithNum.
Context {K : Num}.
(** [a] is not above [b].  With NaNs this is more than [a <= b], because no comparison with a NaN holds. *)
Definition upto (a b : K) : Prop := flt b a = false.
(** ReLU, linear, dropout, sigmoid, and leaky ReLU with a slope that is not negative. *)
Definition rising_kind (p : player K) : Prop :=
  match p_kind p with Hidden | Linear | Dropout | SigmoidK => True | Leaky => upto f0 (p_slope p) | SoftmaxK => False end.
(** No weight is negative; biases are arbitrary. *)
Definition rising_layer (p : player K) : Prop :=
  rising_kind p /\ forall n j, (n < p_in p)%nat -> (j < p_out p)%nat -> upto f0 (entry (p_w p) n j).
(** From row [a] to row [b] of [X] only features go up that the layer gives no negative weight; the others stay. *)
Definition raises (p : player K) (X : pm K) (a b : nat) : Prop :=
  forall n, (n < p_in p)%nat -> entry X a n = entry X b n \/
    (upto (entry X a n) (entry X b n) /\ forall j, (j < p_out p)%nat -> upto f0 (entry (p_w p) n j)).
(** Going from row [a] to row [b] the network can only go up. *)
Definition rising (ps : list (player K)) (X : pm K) (a b : nat) : Prop :=
  match ps with [] => False | p :: rest => rising_kind p /\ raises p X a b /\ Forall rising_layer rest end.
Definition no_sigmoid (ps : list (player K)) : Prop := Forall (fun p => p_kind p <> SigmoidK) ps.
(** Exp does not go down. *)
Definition exp_rising : Prop := forall a b : K, upto a b -> upto (fexp a) (fexp b).
End WithNum.
Arguments exp_rising K : clear implicits.
