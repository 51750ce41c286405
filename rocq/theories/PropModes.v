(** The exact course of the residuals of a linear layer under gradient descent. *)
From Coq Require Import String ZArith List Bool Arith Lia Reals.
From Verif Require Import Num NumR Heap Spec Matrix Loss Network Optimizers ModelGo PureSpec Repr RSum OptSpec ModelSpec NetGradSpec ConvergeEx ModesSpec Modes ModesEx.
Import ListNotations.
Open Scope R_scope.

(** C118: along every eigenvector of the Gram matrix of the inputs the residuals form an exact geometric sequence. *)
Theorem C118_modes s (m : model RNum) e xo i o x rsx y rsy n X Y bs xv yv lr :
  (bs = 0 \/ Z.of_nat n <= bs)%Z -> (Z.of_nat n + bs <= 2 ^ 52)%Z -> (1 <= n)%nat ->
  trainable s m [e] [xo] i o MSE -> data_ok s [e] x rsx y rsy n i o X Y -> p_kind (e_p e) = Linear -> plain_sgd lr (x_po xo) -> m_acctype m = 0%Z ->
  exists P, predicts s m [e] i o x y n bs xv yv P /\ P O = pnet [e_p e] n X /\
    forall (t j : nat) (u : nat -> R) lam, (j < o)%nat -> eigen n i X u lam -> mode n u (P t) Y j = (1 - lr * (2 / INR o) * lam) ^ t * mode n u (P O) Y j.
Proof. exact (fit_modes s m e xo i o x rsx y rsy n X Y bs xv yv lr). Qed.
Print Assumptions C118_modes.

(** C118: a rate above o / lam for an eigenvalue lam that the initial residuals contain makes the predictions leave every bound. *)
Theorem C118_diverges s (m : model RNum) e xo i o x rsx y rsy n X Y bs xv yv lr j (u : nat -> R) lam :
  (bs = 0 \/ Z.of_nat n <= bs)%Z -> (Z.of_nat n + bs <= 2 ^ 52)%Z -> (1 <= n)%nat ->
  trainable s m [e] [xo] i o MSE -> data_ok s [e] x rsx y rsy n i o X Y -> p_kind (e_p e) = Linear -> plain_sgd lr (x_po xo) -> m_acctype m = 0%Z ->
  (j < o)%nat -> eigen n i X u lam -> 2 < lr * (2 / INR o) * lam -> mode n u (pnet [e_p e] n X) Y j <> 0 ->
  exists P, predicts s m [e] i o x y n bs xv yv P /\ forall B, exists T : nat, forall t, (T <= t)%nat -> exists a, (a < n)%nat /\ B < Rabs (entry (P t) a j - entry Y a j).
Proof. exact (fun H1 H2 H3 H4 H5 H6 H7 H8 => fit_diverges s m e xo i o x rsx y rsy n X Y bs xv yv lr H1 H2 H3 H4 H5 H6 H7 H8 j u lam). Qed.
Print Assumptions C118_diverges.

(** C118: with a single sample the error of every output is multiplied by the same factor in each epoch; one rate fits the sample in one epoch. *)
Theorem C118_one_sample s (m : model RNum) e xo i o x rsx y rsy X Y bs xv yv lr :
  (bs = 0 \/ 1 <= bs)%Z -> (1 + bs <= 2 ^ 52)%Z ->
  trainable s m [e] [xo] i o MSE -> data_ok s [e] x rsx y rsy 1 i o X Y -> p_kind (e_p e) = Linear -> plain_sgd lr (x_po xo) -> m_acctype m = 0%Z ->
  exists P, predicts s m [e] i o x y 1 bs xv yv P /\ P O = pnet [e_p e] 1 X /\
    (forall t j, (j < o)%nat -> entry (P t) 0 j - entry Y 0 j = (1 - lr * (2 / INR o) * gram i X 0 0) ^ t * (entry (P O) 0 j - entry Y 0 j)) /\
    (lr * (2 / INR o) * gram i X 0 0 = 1 -> forall t j, (1 <= t)%nat -> (j < o)%nat -> entry (P t) 0 j = entry Y 0 j).
Proof. exact (fit_one s m e xo i o x rsx y rsy X Y bs xv yv lr). Qed.
Print Assumptions C118_one_sample.

Example C118_ex : trainable (cv_state 1) cv_m1 [cv_e1] [cv_xo 1 1] 2 1 MSE /\ data_ok (cv_state 1) [cv_e1] cv_x [4;5]%nat cv_y1 [6;7]%nat 2 2 1 cvX cvY1 /\
  p_kind (e_p cv_e1) = Linear /\ plain_sgd 1 (x_po (cv_xo 1 1)) /\ m_acctype cv_m1 = 0%Z /\ eigen 2 2 cvX md_u md_lam /\ 2 < 1 * (2 / INR 1) * md_lam /\ mode 2 md_u (pnet [e_p cv_e1] 2 cvX) cvY1 0 <> 0.
Proof. exact ex_modes. Qed.
Example C118_ex_one : trainable (cv_state (1/4)) cv_m1 [cv_e1] [cv_xo (1/4) 1] 2 1 MSE /\ data_ok (cv_state (1/4)) [cv_e1] md_x [4]%nat md_y [6]%nat 1 2 1 [[1; 0]] [[1]] /\
  p_kind (e_p cv_e1) = Linear /\ plain_sgd (1/4) (x_po (cv_xo (1/4) 1)) /\ m_acctype cv_m1 = 0%Z /\ 1 / 4 * (2 / INR 1) * gram 2 [[1; 0]] 0 0 = 1 /\
  entry (pnet [e_p cv_e1] 1 [[1; 0]]) 0 0 <> entry (K := RNum) [[1]] 0 0.
Proof. exact ex_one. Qed.
