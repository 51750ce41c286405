(** * BalanceSpec: the weights that enter and leave a unit (C108). *)
From Coq Require Import String ZArith List Bool Arith Lia Reals.
From Verif Require Import Num NumR Heap Spec Matrix Network Loss Optimizers ModelGo PureSpec Repr RSum OptSpec ModelSpec.
Import ListNotations.
Open Scope R_scope.

(** Unit [u]: the squares of its incoming weights and its bias, and of its outgoing weights. *)
Definition sq_in (p : player RNum) (u : nat) : R := rsum (p_in p) (fun i => entry (p_w p) i u * entry (p_w p) i u) + entry (p_b p) 0 u * entry (p_b p) 0 u.
Definition sq_out (p : player RNum) (u : nat) : R := rsum (p_out p) (fun j => entry (p_w p) u j * entry (p_w p) u j).
(** How far they moved. *)
Definition sq (x : R) : R := x * x.
Definition move_in (p p' : player RNum) (u : nat) : R := rsum (p_in p) (fun i => sq (entry (p_w p') i u - entry (p_w p) i u)) + sq (entry (p_b p') 0 u - entry (p_b p) 0 u).
Definition move_out (p p' : player RNum) (u : nat) : R := rsum (p_out p) (fun j => sq (entry (p_w p') u j - entry (p_w p) u j)).
(** What a unit passes on in training: everything, or the share that dropout keeps. *)
Definition kept (p : player RNum) : R := match p_kind p with Dropout => 1 - p_drop p | _ => 1 end.
(** Layers whose activation is homogeneous. *)
Definition homogeneous (p : player RNum) : Prop :=
  match p_kind p with Hidden | Linear => True | Leaky => 0 < p_slope p | Dropout => p_drop p < 1 | SigmoidK | SoftmaxK => False end.
(** SGD without momentum, the same rate now and later. *)
Definition plain_sgd (a b : popt RNum) : Prop :=
  po_kind a = SGD /\ po_kind b = SGD /\ po_usemom a = false /\ po_usemom b = false /\ po_lr a = po_lr b /\ po_decay a = po_decay b /\
  po_rate a = po_rate b /\ po_iter a = po_iter b /\ po_usedecay a = po_usedecay b.
(** Layers [l] and [l + 1] of a network, and a unit between them. *)
Definition between (ts : list (player RNum * popt RNum)) (l u : nat) (a b : player RNum * popt RNum) : Prop :=
  nth_error ts l = Some a /\ nth_error ts (S l) = Some b /\ homogeneous (fst a) /\ p_in (fst b) = p_out (fst a) /\ (u < p_out (fst a))%nat /\ plain_sgd (snd a) (snd b).
(** Leaving out the squares of the movements, the squares before the unit change by [kept] times what those behind it do. *)
Definition balance_law (p q p' q' : player RNum) (u : nat) : Prop :=
  sq_in p' u - sq_in p u - move_in p p' u = kept p * (sq_out q' u - sq_out q u - move_out q q' u).
(** The squared movements of a unit between two stages of training. *)
Definition unit_moves (ts ts' : list (player RNum * popt RNum)) (l u : nat) : R :=
  match nth_error ts l, nth_error ts' l, nth_error ts (S l), nth_error ts' (S l) with
  | Some a, Some a', Some b, Some b' => move_in (fst a) (fst a') u - kept (fst a) * move_out (fst b) (fst b') u
  | _, _, _, _ => 0
  end.
