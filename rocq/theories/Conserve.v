(** * Conserve: sums that training does not change (C89). *)
From Coq Require Import String ZArith List Bool Arith Lia Reals.
From Verif Require Import Num NumR Heap Spec Matrix Network Loss Optimizers ModelGo PureSpec Repr RSum OptSpec ModelSpec.
Import ListNotations.
Open Scope R_scope.

(** The sum of the weights leaving input [i], and of the biases. *)
Definition weight_total (p : player RNum) (i : nat) : R := rsum (p_out p) (fun j => entry (p_w p) i j).
Definition bias_total (p : player RNum) : R := rsum (p_out p) (fun j => entry (p_b p) 0 j).
Definition totals_kept (p p' : player RNum) : Prop :=
  p_in p' = p_in p /\ p_out p' = p_out p /\ (forall i, (i < p_in p)%nat -> weight_total p' i = weight_total p i) /\ bias_total p' = bias_total p.
(** SGD whose velocities, if it has any, sum to zero in the same way. *)
Definition balanced (t : player RNum * popt RNum) : Prop :=
  po_kind (snd t) = SGD /\
  (po_usemom (snd t) = true ->
     (forall i, (i < p_in (fst t))%nat -> rsum (p_out (fst t)) (fun j => entry (po_wm (snd t)) i j) = 0) /\
     rsum (p_out (fst t)) (fun j => entry (po_bm (snd t)) 0 j) = 0).
(** Exactly one of the first [c] labels is 1. *)
Definition one_label (c : nat) (row : list R) : Prop :=
  exists a, (a < c)%nat /\ nth a row 0 = 1 /\ forall b, (b < c)%nat -> b <> a -> nth b row 0 <> 1.
(** Layer [l] is a softmax layer which is not the last, or the last with a suitable loss. *)
Definition softmax_at (k : losskind) (Y : pm RNum) (ts : list (player RNum * popt RNum)) (l : nat) (t : player RNum * popt RNum) : Prop :=
  nth_error ts l = Some t /\ p_kind (fst t) = SoftmaxK /\
  (S l = length ts -> k <> BCE /\ (k = CE -> List.Forall (one_label (p_out (fst t))) Y)).
