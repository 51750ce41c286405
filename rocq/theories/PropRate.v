(** Momentum and decaying learning rates on convex problems. *)
From Coq Require Import String ZArith List Bool Arith Reals Lra.
From Verif Require Import Num NumR Heap Spec Matrix Loss Network Optimizers ModelGo PureSpec Repr OptSpec ModelSpec RSum GradSpec NetGradSpec Converge RateSpec MomentumFit MomentumEx AdamCycle.
Import ListNotations.
Open Scope R_scope.

(** C99: whole-batch Fit with momentum on linear or softmax regression: the objective stays below its initial value and its excess over any other parameters is O(1/epochs). *)
Theorem C99_momentum s m e x i o k mx rsx y rsy n (X Y : rpm) epochs bs xv yv lr mu L :
  (0 <= bs)%Z -> (bs = 0 \/ Z.of_nat n <= bs)%Z -> (Z.of_nat n + bs <= 2 ^ 52)%Z -> (1 <= n)%nat -> (1 <= epochs)%Z ->
  trainable s m [e] [x] i o k -> data_ok s [e] mx rsx y rsy n i o X Y -> convex_problem k (p_kind (e_p e)) n o Y L ->
  fresh_momentum lr mu i o (x_po x) -> 0 < lr -> 0 <= mu < 1 -> lr * L * (sqnorm n i X + INR n) <= 1 - mu ->
  returns (Fit m mx y epochs bs xv yv 0) s (fun _ s' => exists e' x',
    trainable s' m [e'] [x'] i o k /\ same_place e e' /\
    objective k n o Y (pnet [e_p e'] n X) <= objective k n o Y (pnet [e_p e] n X) /\
    forall W B, objective k n o Y (pnet [e_p e'] n X) <= objective k n o Y (pnet [with_params (e_p e) W B] n X) +
      ((1 - mu) * (sqdist i o (p_w (e_p e)) W + sqdist 1 o (p_b (e_p e)) B) / (2 * lr) +
       6 * objective k n o Y (pnet [e_p e] n X) / (1 - mu) ^ 2) / IZR epochs).
Proof. exact (fit_momentum s m e x i o k mx rsx y rsy n X Y epochs bs xv yv lr mu L). Qed.
Print Assumptions C99_momentum.
Example C99_momentum_ex : trainable (mt_state mt_o) mt_m [mt_e] [mt_xo] 1 1 MSE /\
  data_ok (mt_state mt_o) [mt_e] mt_x [3]%nat mt_y [4]%nat 1 1 1 mtX mtY /\ convex_problem MSE (p_kind (e_p mt_e)) 1 1 mtY (2 / INR 1) /\
  fresh_momentum (1/8) (1/2) 1 1 (x_po mt_xo) /\ 1 / 8 * (2 / INR 1) * (sqnorm 1 1 mtX + INR 1) <= 1 - 1 / 2.
Proof. split; [exact mt_trainable|]. split; [apply mt_data|]. split; [left; auto|]. split; [repeat split|apply mt_rate; lra]. Qed.

(** C99: with momentum the objective can rise from one epoch to the next. *)
Theorem C99_monotone_refuted : exists s m e x i o mx rsx y rsy n (X Y : rpm) lr mu s2 e2 x2 s3 e3 x3,
  trainable s m [e] [x] i o MSE /\ data_ok s [e] mx rsx y rsy n i o X Y /\ convex_problem MSE (p_kind (e_p e)) n o Y (2 / INR o) /\ fresh_momentum lr mu i o (x_po x) /\
  0 < lr /\ 0 <= mu < 1 /\ lr * (2 / INR o) * (sqnorm n i X + INR n) <= 1 - mu /\
  Fit m mx y 2 0 matrix0 matrix0 0 s = (Ret tt, s2) /\ trainable s2 m [e2] [x2] i o MSE /\ same_place e e2 /\
  Fit m mx y 3 0 matrix0 matrix0 0 s = (Ret tt, s3) /\ trainable s3 m [e3] [x3] i o MSE /\ same_place e e3 /\
  objective MSE n o Y (pnet [e_p e2] n X) < objective MSE n o Y (pnet [e_p e3] n X).
Proof. exact mt_rises. Qed.
Print Assumptions C99_monotone_refuted.

(** C99: with a decaying rate the excess is at most the squared distance over twice the sum of the rates used. *)
Theorem C99_decay s m e x i o k mx rsx y rsy n (X Y : rpm) epochs bs xv yv lr dc t L :
  (0 <= bs)%Z -> (bs = 0 \/ Z.of_nat n <= bs)%Z -> (Z.of_nat n + bs <= 2 ^ 52)%Z -> (1 <= n)%nat -> (1 <= epochs)%Z ->
  trainable s m [e] [x] i o k -> data_ok s [e] mx rsx y rsy n i o X Y -> convex_problem k (p_kind (e_p e)) n o Y L ->
  decaying_sgd lr dc t (x_po x) -> 0 < lr -> 0 <= dc -> lr * L * (sqnorm n i X + INR n) <= 1 ->
  returns (Fit m mx y epochs bs xv yv 0) s (fun _ s' => exists e' x',
    trainable s' m [e'] [x'] i o k /\ same_place e e' /\ decaying_sgd lr dc (t + Z.to_nat epochs) (x_po x') /\
    objective k n o Y (pnet [e_p e'] n X) <= objective k n o Y (pnet [e_p e] n X) /\
    forall W B, objective k n o Y (pnet [e_p e'] n X) <= objective k n o Y (pnet [with_params (e_p e) W B] n X) +
      (sqdist i o (p_w (e_p e)) W + sqdist 1 o (p_b (e_p e)) B) / (2 * total_rate lr dc t (Z.to_nat epochs))).
Proof. exact (fit_decay s m e x i o k mx rsx y rsy n X Y epochs bs xv yv lr dc t L). Qed.
Print Assumptions C99_decay.
Example C99_decay_ex : trainable (mt_state dc_o) mt_m [mt_e] [dc_xo] 1 1 MSE /\
  data_ok (mt_state dc_o) [mt_e] mt_x [3]%nat mt_y [4]%nat 1 1 1 mtX mtY /\ convex_problem MSE (p_kind (e_p mt_e)) 1 1 mtY (2 / INR 1) /\
  decaying_sgd (1/4) (1/10) 0 (x_po dc_xo) /\ 1 / 4 * (2 / INR 1) * (sqnorm 1 1 mtX + INR 1) <= 1.
Proof. split; [exact dc_trainable|]. split; [apply mt_data|]. split; [left; auto|]. split; [repeat split|apply mt_rate; lra]. Qed.

(** C99: so decay does not stop training short of the optimum (same example). *)
Theorem C99_decay_limit s m e x i o k mx rsx y rsy n (X Y : rpm) bs xv yv lr dc t L W B eps :
  (0 <= bs)%Z -> (bs = 0 \/ Z.of_nat n <= bs)%Z -> (Z.of_nat n + bs <= 2 ^ 52)%Z -> (1 <= n)%nat ->
  trainable s m [e] [x] i o k -> data_ok s [e] mx rsx y rsy n i o X Y -> convex_problem k (p_kind (e_p e)) n o Y L ->
  decaying_sgd lr dc t (x_po x) -> 0 < lr -> 0 <= dc -> lr * L * (sqnorm n i X + INR n) <= 1 -> 0 < eps ->
  exists N : Z, forall epochs, (N <= epochs)%Z ->
  returns (Fit m mx y epochs bs xv yv 0) s (fun _ s' => exists e' x',
    trainable s' m [e'] [x'] i o k /\ same_place e e' /\
    objective k n o Y (pnet [e_p e'] n X) <= objective k n o Y (pnet [with_params (e_p e) W B] n X) + eps).
Proof. exact (fit_decay_limit s m e x i o k mx rsx y rsy n X Y bs xv yv lr dc t L W B eps). Qed.
Print Assumptions C99_decay_limit.

(** C99: Adam need not converge with a constant rate: for every rate and epsilon (below twice the rate) there is a linear
    regression with optimum 0 on which Adam (beta1 = beta2 = 0), starting fresh, has the same non-zero objective after any number of epochs. *)
Theorem C99_adam_refuted (lr eps : R) : 0 < eps < 2 * lr -> exists s m e x i o mx rsx y rsy n (X Y : rpm),
  trainable s m [e] [x] i o MSE /\ data_ok s [e] mx rsx y rsy n i o X Y /\ convex_problem MSE (p_kind (e_p e)) n o Y (2 / INR o) /\ fresh_adam lr eps 0 0 i o (x_po x) /\
  (exists W B, objective MSE n o Y (pnet [with_params (e_p e) W B] n X) = 0) /\ 0 < objective MSE n o Y (pnet [e_p e] n X) /\
  forall epochs, (1 <= epochs)%Z -> exists s' e' x', Fit m mx y epochs 0 matrix0 matrix0 0 s = (Ret tt, s') /\ trainable s' m [e'] [x'] i o MSE /\ same_place e e' /\
    objective MSE n o Y (pnet [e_p e'] n X) = objective MSE n o Y (pnet [e_p e] n X).
Proof. exact (adam_cycles lr eps). Qed.
Print Assumptions C99_adam_refuted.
