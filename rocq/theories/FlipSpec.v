(** * FlipSpec: networks that differ in the sign of their last layer (C135). *)
From Coq Require Import ZArith List Bool Arith.
From Verif Require Import Num Heap Spec Network PureSpec Repr OptSpec ModelSpec.
Import ListNotations.

Section Flip.
Context {K : Num}.
(** [y] is [-x] ([s] true) or [x] ([s] false) in the sense of Go's [==], or both are NaN. *)
Definition turned (s : bool) (x y : K) : Prop := (feq x x = false /\ feq y y = false) \/ feq y (if s then fneg x else x) = true.
Definition mturned (s : bool) (r c : nat) (A B : pm K) : Prop := forall n j, (n < r)%nat -> (j < c)%nat -> turned s (entry A n j) (entry B n j).
(** The same number, or both NaN. *)
Definition same (x y : K) : Prop := y = x \/ (feq x x = false /\ feq y y = false).
Definition msame (r c : nat) (A B : pm K) : Prop := forall n j, (n < r)%nat -> (j < c)%nat -> same (entry A n j) (entry B n j).
(** math.Pow(x, 2) does not depend on the sign of x. *)
Definition even_square : Prop := forall s x y, turned s x y -> same (fpow x (ofZ 2)) (fpow y (ofZ 2)).
(** Layers of the same kind and size with turned weights and biases. *)
Definition lturned (s : bool) (p q : player K) : Prop :=
  p_kind q = p_kind p /\ p_in q = p_in p /\ p_out q = p_out p /\ p_slope q = p_slope p /\ p_drop q = p_drop p /\
  mturned s (p_in p) (p_out p) (p_w p) (p_w q) /\ mturned s 1 (p_out p) (p_b p) (p_b q).
(** Optimizers with the same settings and state, the velocities turned.  Adam squares the gradients with math.Pow, so for Adam this must be even. *)
Definition oturned (s : bool) (k c : nat) (o1 o2 : popt K) : Prop :=
  (po_kind o1 = SGD \/ even_square) /\ po_kind o2 = po_kind o1 /\ po_lr o2 = po_lr o1 /\ po_decay o2 = po_decay o1 /\ po_mom o2 = po_mom o1 /\ po_rate o2 = po_rate o1 /\ po_iter o2 = po_iter o1 /\
  po_usedecay o2 = po_usedecay o1 /\ po_usemom o2 = po_usemom o1 /\ po_eps o2 = po_eps o1 /\ po_b1 o2 = po_b1 o1 /\ po_b2 o2 = po_b2 o1 /\
  mturned s k c (po_wm o1) (po_wm o2) /\ mturned s 1 c (po_bm o1) (po_bm o2) /\ msame k c (po_wc o1) (po_wc o2) /\ msame 1 c (po_bc o1) (po_bc o2).
Definition tturned (s : bool) (t u : player K * popt K) : Prop := lturned s (fst t) (fst u) /\ oturned s (p_in (fst t)) (p_out (fst t)) (snd t) (snd u).
(** The last layer is linear and its sign is turned; the others are ReLU, leaky, dropout and linear layers and agree. *)
Fixpoint flipped (ts us : list (player K * popt K)) : Prop :=
  match ts, us with
  | [t], [u] => p_kind (fst t) = Linear /\ tturned true t u
  | t :: ts', u :: us' => (p_kind (fst t) = Hidden \/ p_kind (fst t) = Leaky \/ p_kind (fst t) = Dropout \/ p_kind (fst t) = Linear) /\ tturned false t u /\ flipped ts' us'
  | _, _ => False
  end.
End Flip.
