(** * MirrorSpec: networks and data that differ in the signs of input features (C136). *)
From Coq Require Import ZArith List Bool Arith.
From Verif Require Import Num Heap Spec Network PureSpec Repr OptSpec ModelSpec FlipSpec.
Import ListNotations.

Section Mirror.
Context {K : Num}.
(** Column [j] (row [n]) of [B] is turned when [g j] ([g n]) is true, and agrees with [A] otherwise. *)
Definition cturned (g : nat -> bool) (r c : nat) (A B : pm K) : Prop := forall n j, (n < r)%nat -> (j < c)%nat -> turned (g j) (entry A n j) (entry B n j).
Definition rturned (g : nat -> bool) (r c : nat) (A B : pm K) : Prop := forall n j, (n < r)%nat -> (j < c)%nat -> turned (g n) (entry A n j) (entry B n j).
(** ReLU, leaky, dropout or linear layers of the same kind and size; the weights of the inputs [k] with [g k] are turned. *)
Definition lmirrored (g : nat -> bool) (p q : player K) : Prop :=
  (p_kind p = Hidden \/ p_kind p = Leaky \/ p_kind p = Dropout \/ p_kind p = Linear) /\
  p_kind q = p_kind p /\ p_in q = p_in p /\ p_out q = p_out p /\ p_slope q = p_slope p /\ p_drop q = p_drop p /\
  rturned g (p_in p) (p_out p) (p_w p) (p_w q) /\ mturned false 1 (p_out p) (p_b p) (p_b q).
(** The same settings; the velocities turned like the weights. *)
Definition omirrored (g : nat -> bool) (k c : nat) (o1 o2 : popt K) : Prop :=
  (po_kind o1 = SGD \/ even_square (K := K)) /\ po_kind o2 = po_kind o1 /\ po_lr o2 = po_lr o1 /\ po_decay o2 = po_decay o1 /\ po_mom o2 = po_mom o1 /\ po_rate o2 = po_rate o1 /\ po_iter o2 = po_iter o1 /\
  po_usedecay o2 = po_usedecay o1 /\ po_usemom o2 = po_usemom o1 /\ po_eps o2 = po_eps o1 /\ po_b1 o2 = po_b1 o1 /\ po_b2 o2 = po_b2 o1 /\
  rturned g k c (po_wm o1) (po_wm o2) /\ mturned false 1 c (po_bm o1) (po_bm o2) /\ msame k c (po_wc o1) (po_wc o2) /\ msame 1 c (po_bc o1) (po_bc o2).
(** Only the first layer is turned. *)
Fixpoint mirrored (g : nat -> bool) (ts us : list (player K * popt K)) : Prop :=
  match ts, us with
  | [], [] => forall k, g k = false
  | t :: ts', u :: us' => lmirrored g (fst t) (fst u) /\ omirrored g (p_in (fst t)) (p_out (fst t)) (snd t) (snd u) /\ mirrored (fun _ => false) ts' us'
  | _, _ => False
  end.
End Mirror.
