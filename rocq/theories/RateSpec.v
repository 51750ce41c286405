(** * RateSpec: convex one-layer problems, momentum and decaying learning rates. *)
From Coq Require Import ZArith List Bool Arith Reals.
From Verif Require Import Num NumR Heap Spec Matrix Loss Network Optimizers PureSpec Repr RSum OptSpec GradSpec NetGradSpec.
Import ListNotations.
Open Scope R_scope.

(** Linear regression with squared errors, or softmax regression with cross entropy on one-hot labels;
    [L] bounds the curvature of the loss in the pre-activations. *)
Definition convex_problem (k : losskind) (kind : lkind) (n o : nat) (Y : rpm) (L : R) : Prop :=
  (k = MSE /\ kind = Linear /\ L = 2 / INR o) \/ (k = CE /\ kind = SoftmaxK /\ one_hot n o Y /\ L = 1 / INR n).
(** SGD with momentum [mu] and a constant rate whose velocities are zero, as after Finalize. *)
Definition fresh_momentum (lr mu : R) (i o : nat) (po : popt RNum) : Prop :=
  po_kind po = SGD /\ po_usedecay po = false /\ po_usemom po = true /\ po_rate po = lr /\ po_mom po = mu /\
  po_wm po = zmat (K := RNum) i o /\ po_bm po = zmat (K := RNum) 1 o.
(** SGD without momentum whose rate decays, after [t] updates. *)
Definition decaying_sgd (lr decay : R) (t : nat) (po : popt RNum) : Prop :=
  po_kind po = SGD /\ po_usedecay po = true /\ po_usemom po = false /\ po_lr po = lr /\ po_decay po = decay /\ po_iter po = Z.of_nat t.
(** The sum of the rates of [n] updates after the first [t]. *)
Definition total_rate (lr decay : R) (t n : nat) : R := rsum n (fun u => lr / (1 + decay * INR (t + u))).
(** Adam with a constant rate whose momentums and caches are zero, as after Finalize. *)
Definition fresh_adam (lr eps b1 b2 : R) (i o : nat) (po : popt RNum) : Prop :=
  po_kind po = Adam /\ po_usedecay po = false /\ po_rate po = lr /\ po_eps po = eps /\ po_b1 po = b1 /\ po_b2 po = b2 /\ po_iter po = 0%Z /\
  po_wm po = zmat (K := RNum) i o /\ po_bm po = zmat (K := RNum) 1 o /\ po_wc po = zmat (K := RNum) i o /\ po_bc po = zmat (K := RNum) 1 o.
