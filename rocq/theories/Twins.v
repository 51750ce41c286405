(** * Twins: hidden units and features that training cannot tell apart (C83). *)
From Coq Require Import String ZArith List Bool Arith Lia.
From Verif Require Import Num Heap Spec Matrix Network Loss Optimizers ModelGo PureSpec Repr OptSpec ModelSpec.
Import ListNotations.
Open Scope Z_scope.

Section WithNum.
Context {K : Num}.
(** Columns (rows) [a] and [b] hold the same numbers. *)
Definition same_cols (r : nat) (A : pm K) (a b : nat) : Prop := forall i, (i < r)%nat -> entry A i a = entry A i b.
Definition same_rows (c : nat) (A : pm K) (a b : nat) : Prop := forall j, (j < c)%nat -> entry A a j = entry A b j.
(** Units [a] and [b] of a layer agree in their incoming weights, their biases and what the optimizer stores about these. *)
Definition twin_units (t : player K * popt K) (a b : nat) : Prop :=
  let i := p_in (fst t) in
  same_cols i (p_w (fst t)) a b /\ same_cols 1 (p_b (fst t)) a b /\
  same_cols i (po_wm (snd t)) a b /\ same_cols i (po_wc (snd t)) a b /\
  same_cols 1 (po_bm (snd t)) a b /\ same_cols 1 (po_bc (snd t)) a b.
(** Inputs [a] and [b] of a layer agree in their weights and what the optimizer stores about these. *)
Definition twin_inputs (t : player K * popt K) (a b : nat) : Prop :=
  let o := p_out (fst t) in
  same_rows o (p_w (fst t)) a b /\ same_rows o (po_wm (snd t)) a b /\ same_rows o (po_wc (snd t)) a b.
(** Layer [l] is followed by another, works on each unit separately and without dropout, and its units [a] and [b] agree in everything. *)
Definition twins (ts : list (player K * popt K)) (l a b : nat) : Prop :=
  exists t1 t2, nth_error ts l = Some t1 /\ nth_error ts (S l) = Some t2 /\
    (p_kind (fst t1) = Hidden \/ p_kind (fst t1) = Leaky \/ p_kind (fst t1) = Linear) /\
    p_in (fst t2) = p_out (fst t1) /\ (a < p_out (fst t1))%nat /\ (b < p_out (fst t1))%nat /\
    twin_units t1 a b /\ twin_inputs t2 a b.
(** Features [a] and [b] of the first layer agree. *)
Definition twin_features (ts : list (player K * popt K)) (a b : nat) : Prop :=
  exists t, nth_error ts 0 = Some t /\ (a < p_in (fst t))%nat /\ (b < p_in (fst t))%nat /\ twin_inputs t a b.
End WithNum.
