(** * PartsSpec: a step on a data set and the steps on its parts (C111). *)
From Coq Require Import ZArith List Bool Arith Lia Reals.
From Verif Require Import Num NumR Heap Spec PureSpec Loss Repr RSum OptSpec ModelSpec.
Import ListNotations.
Open Scope R_scope.

(** The weight of [n1] out of [n1 + n2] samples: the cross-entropies average, the squared and the absolute error add up. *)
Definition weight (k : losskind) (n1 n2 : nat) : R := match k with MSE | MAE => 1 | CE | BCE => INR n1 / (INR n1 + INR n2) end.
(** From [p], the movement to [p'] is [w1] times that to [p1] plus [w2] times that to [p2]. *)
Definition mixed (w1 w2 : R) (p p1 p2 p' : player RNum) : Prop :=
  (forall a b, (a < p_in p)%nat -> (b < p_out p)%nat -> entry (p_w p') a b - entry (p_w p) a b = w1 * (entry (p_w p1) a b - entry (p_w p) a b) + w2 * (entry (p_w p2) a b - entry (p_w p) a b)) /\
  (forall b, (b < p_out p)%nat -> entry (p_b p') 0 b - entry (p_b p) 0 b = w1 * (entry (p_b p1) 0 b - entry (p_b p) 0 b) + w2 * (entry (p_b p2) 0 b - entry (p_b p) 0 b)).
Definition simple_sgd (t : player RNum * popt RNum) : Prop := po_kind (snd t) = SGD /\ po_usemom (snd t) = false.
