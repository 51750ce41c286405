(** * CalibSpec: the bias of the last layer and the residuals of the predictions. *)
From Coq Require Import ZArith List Bool Arith Reals.
From Verif Require Import Num NumR Heap Spec Loss Network PureSpec Repr RSum OptSpec ModelSpec.
Import ListNotations.
Open Scope R_scope.

(** The last layer is trained by plain SGD with the constant rate [lr]. *)
Definition last_plain (lr : R) (ts : list (player RNum * popt RNum)) : Prop :=
  exists ts0 p po, ts = ts0 ++ [(p, po)] /\ po_kind po = SGD /\ po_usemom po = false /\ po_usedecay po = false /\ po_rate po = lr.
(** Squared error after a linear layer, or cross-entropy after a softmax layer with labels 0 and 1. *)
Definition matching (k : losskind) (ps : list (player RNum)) (n o : nat) (Y : rpm) : Prop :=
  exists ps0 p, ps = ps0 ++ [p] /\
    ((k = MSE /\ p_kind p = Linear) \/
     (k = CE /\ p_kind p = SoftmaxK /\ forall a j, (a < n)%nat -> (j < o)%nat -> entry Y a j = 0 \/ entry Y a j = 1)).
Definition last_bias (ps : list (player RNum)) (j : nat) : R := match rev ps with p :: _ => entry (p_b p) 0 j | [] => 0 end.
(** The factor of the residuals in the gradient. *)
Definition weight_of (k : losskind) (n o : nat) : R := match k with MSE => 2 / INR o | _ => / INR n end.
(** By how much the predictions [P] exceed the targets [Y] for output [j], summed over the samples. *)
Definition excess (n : nat) (P Y : rpm) (j : nat) : R := rsum n (fun a => entry P a j - entry Y a j).
