(** * MixSpec: linear combinations of targets, parameters and velocities (C133). *)
From Coq Require Import ZArith List Bool Arith Lia Reals.
From Verif Require Import Num NumR Heap Spec PureSpec Repr OptSpec ModelSpec.
Import ListNotations.
Open Scope R_scope.

(** [C] is [a] times [A] plus [b] times [B], entry by entry. *)
Definition mixed (a b : R) (r c : nat) (A B C : pm RNum) : Prop :=
  forall n j, (n < r)%nat -> (j < c)%nat -> entry C n j = a * entry A n j + b * entry B n j.
(** Linear layers of one shape, the third with the combined weights and biases. *)
Definition mixed_layer (a b : R) (p1 p2 p3 : player RNum) : Prop :=
  p_kind p1 = Linear /\ p_kind p2 = Linear /\ p_kind p3 = Linear /\ p_in p2 = p_in p1 /\ p_in p3 = p_in p1 /\ p_out p2 = p_out p1 /\ p_out p3 = p_out p1 /\
  mixed a b (p_in p1) (p_out p1) (p_w p1) (p_w p2) (p_w p3) /\ mixed a b 1 (p_out p1) (p_b p1) (p_b p2) (p_b p3).
(** The same settings, the same current rate and the same number of steps. *)
Definition same_settings (o1 o2 : popt RNum) : Prop :=
  po_kind o2 = po_kind o1 /\ po_lr o2 = po_lr o1 /\ po_decay o2 = po_decay o1 /\ po_mom o2 = po_mom o1 /\ po_rate o2 = po_rate o1 /\ po_iter o2 = po_iter o1 /\
  po_usedecay o2 = po_usedecay o1 /\ po_usemom o2 = po_usemom o1.
(** SGD with the same settings, the third with the combined velocities. *)
Definition mixed_opt (a b : R) (k c : nat) (o1 o2 o3 : popt RNum) : Prop :=
  po_kind o1 = SGD /\ same_settings o1 o2 /\ same_settings o1 o3 /\ mixed a b k c (po_wm o1) (po_wm o2) (po_wm o3) /\ mixed a b 1 c (po_bm o1) (po_bm o2) (po_bm o3).
(** Three models of one linear layer each. *)
Definition mixed_trainer (a b : R) (t1 t2 t3 : list (player RNum * popt RNum)) : Prop :=
  exists p1 o1 p2 o2 p3 o3, t1 = [(p1, o1)] /\ t2 = [(p2, o2)] /\ t3 = [(p3, o3)] /\ mixed_layer a b p1 p2 p3 /\ mixed_opt a b (p_in p1) (p_out p1) o1 o2 o3.
