(** * ShiftSpec: targets moved by a constant vector (C131). *)
From Coq Require Import ZArith List Bool Arith Lia Reals.
From Verif Require Import Num NumR Heap Spec PureSpec Repr OptSpec ModelSpec.
Import ListNotations.
Open Scope R_scope.

(** Column [j] of every row moved by [d j]. *)
Definition shifted (o : nat) (d : nat -> R) (Y : pm RNum) : pm RNum :=
  map (fun row : list R => map (fun j => nth j row 0 + d j) (seq 0 o)) Y.
(** The biases of the last layer moved by [d]; weights, other layers and all optimizers stay as they are. *)
Definition shift_layer (d : nat -> R) (p : player RNum) : player RNum :=
  PL (K := RNum) (p_kind p) (p_in p) (p_out p) (p_w p) (mk (K := RNum) 1 (p_out p) (fun _ j => entry (p_b p) 0 j + d j)) (p_slope p) (p_drop p).
Fixpoint shift_net (d : nat -> R) (ps : list (player RNum)) : list (player RNum) :=
  match ps with [] => [] | [p] => [shift_layer d p] | p :: rest => p :: shift_net d rest end.
Fixpoint shift_trainer (d : nat -> R) (ts : list (player RNum * popt RNum)) : list (player RNum * popt RNum) :=
  match ts with [] => [] | [(p, o)] => [(shift_layer d p, o)] | t :: rest => t :: shift_trainer d rest end.
(** The last layer is a linear one. *)
Fixpoint ends_linear (ps : list (player RNum)) : Prop :=
  match ps with [] => False | [p] => p_kind p = Linear | _ :: rest => ends_linear rest end.
