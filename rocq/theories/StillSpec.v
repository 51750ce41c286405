(** * StillSpec: models that already fit their data, and optimizers at rest (C110). *)
From Coq Require Import ZArith List Bool Arith Lia Reals.
From Verif Require Import Num NumR Heap Spec PureSpec Repr RSum OptSpec ModelSpec.
Import ListNotations.
Open Scope R_scope.

Definition zero (r c : nat) (A : pm RNum) : Prop := forall i j, (i < r)%nat -> (j < c)%nat -> entry A i j = 0.
(** An optimizer that has nothing left from earlier steps: SGD without momentum or with velocity zero; Adam with first moments zero and epsilon positive. *)
Definition at_rest (t : player RNum * popt RNum) : Prop :=
  let p := fst t in let po := snd t in
  match po_kind po with
  | SGD => po_usemom po = true -> zero (p_in p) (p_out p) (po_wm po) /\ zero 1 (p_out p) (po_bm po)
  | Adam => 0 < po_eps po /\ zero (p_in p) (p_out p) (po_wm po) /\ zero 1 (p_out p) (po_bm po)
  end.
