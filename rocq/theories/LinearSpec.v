(** * LinearSpec: networks whose layers are linear, except perhaps the last one; the exclusive-or problem. *)
From Coq Require Import ZArith List Arith Reals.
From Verif Require Import Num NumR Heap Spec Network PureSpec RSum.
Import ListNotations.
Open Scope R_scope.

(** All layers before the last one are linear. *)
Definition linear_before (ps : list (player RNum)) : Prop :=
  ps <> [] /\ List.Forall (fun p => p_kind p = Linear) (removelast ps).
(** A leaky layer whose slope is negative is not monotone. *)
Definition slope_ok (p : player RNum) : Prop := p_kind p = Leaky -> 0 <= p_slope p.

(** The four samples of exclusive or, and the labels: one output, or one-hot over two classes. *)
Definition xorX : rpm := [[0;0]; [0;1]; [1;0]; [1;1]].
Definition xorY : rpm := [[0]; [1]; [1]; [0]].
Definition xorY2 : rpm := [[1;0]; [0;1]; [0;1]; [1;0]].
