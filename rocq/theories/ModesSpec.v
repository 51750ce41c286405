(** * ModesSpec: residuals of a linear layer along eigenvectors of the Gram matrix of its inputs. *)
From Coq Require Import ZArith List Bool Arith Reals.
From Verif Require Import Num NumR Heap Spec Matrix Loss Network Optimizers ModelGo PureSpec Repr RSum OptSpec ModelSpec.
Import ListNotations.
Open Scope R_scope.

(** The inner product of two samples, with a constant 1 appended to each for the bias. *)
Definition gram (i : nat) (X : rpm) (a b : nat) : R := rsum i (fun l => entry X a l * entry X b l) + 1.
Definition eigen (n i : nat) (X : rpm) (u : nat -> R) (lam : R) : Prop := forall a, (a < n)%nat -> rsum n (fun b => gram i X a b * u b) = lam * u a.
(** The component of the residuals of output [j] along [u]. *)
Definition mode (n : nat) (u : nat -> R) (P Y : rpm) (j : nat) : R := rsum n (fun a => u a * (entry P a j - entry Y a j)).
(** Training for [t] epochs with the squared error and then calling Predict on the training inputs yields [P t]. *)
Definition predicts (s : state RNum) (m : model RNum) (es : list (lent RNum)) (i o : nat) (x y : matrix) (n : nat) (bs : Z) (xv yv : matrix) (P : nat -> rpm) : Prop := forall t : nat, exists s' es' xs' out s'' rs,
  Fit m x y (Z.of_nat t) bs xv yv 0 s = (Ret tt, s') /\ trainable s' m es' xs' i o MSE /\ Forall2 same_place es es' /\
  Predict m x s' = (Ret out, s'') /\ own s'' out rs n o (P t).
