(** Mini-batch training of a linear layer. *)
From Coq Require Import String ZArith List Bool Arith Lia Reals Lra.
From Coquelicot Require Import Coquelicot.
From Verif Require Import Num NumR Heap Spec Matrix Loss Network Optimizers ModelGo PureSpec Repr GradSpec Grad LossReal LossCode RSum OptSpec ModelSpec FitFacts NetGradSpec NetGrad NetGradCode Converge ConvergeFit ConvergeEx MiniBatch MiniFit MiniEx.
Import ListNotations.
Open Scope R_scope.

(** C91: if a linear layer with some weights [W] and biases [B] fits the data exactly, training with
    batches of any size never moves the parameters further from [W], [B]. *)
Theorem C91_never_further s m e x i o mx rsx y rsy n (X Y : rpm) bs xv yv lr epochs : (0 <= bs)%Z -> (Z.of_nat n + bs <= 2 ^ 52)%Z -> (1 <= n)%nat ->
  trainable s m [e] [x] i o MSE -> data_ok s [e] mx rsx y rsy n i o X Y -> p_kind (e_p e) = Linear -> plain_sgd lr (x_po x) ->
  0 < lr -> lr * (2 / INR o) * (sqnorm n i X + INR n) <= 1 ->
  returns (Fit m mx y epochs bs xv yv 0) s (fun _ s' => exists e' x', trainable s' m [e'] [x'] i o MSE /\ same_place e e' /\
    forall W B, solves n i o X Y W B -> sqdist i o (p_w (e_p e')) W + sqdist 1 o (p_b (e_p e')) B <= sqdist i o (p_w (e_p e)) W + sqdist 1 o (p_b (e_p e)) B).
Proof. exact (never_further s m e x i o mx rsx y rsy n X Y bs xv yv lr epochs). Qed.
Print Assumptions C91_never_further.

(** C91: and within every number of epochs there is one after which the objective is at most the
    squared number of batches times the squared initial distance over the learning rate and that number. *)
Theorem C91_rate s m e x i o mx rsx y rsy n (X Y : rpm) bs xv yv lr epochs W B : (0 <= bs)%Z -> (Z.of_nat n + bs <= 2 ^ 52)%Z -> (1 <= n)%nat -> (1 <= epochs)%Z ->
  trainable s m [e] [x] i o MSE -> data_ok s [e] mx rsx y rsy n i o X Y -> p_kind (e_p e) = Linear -> plain_sgd lr (x_po x) ->
  0 < lr -> lr * (2 / INR o) * (sqnorm n i X + INR n) <= 1 -> solves n i o X Y W B ->
  exists t, (1 <= t <= epochs)%Z /\
  returns (Fit m mx y t bs xv yv 0) s (fun _ s' => exists e' x', trainable s' m [e'] [x'] i o MSE /\ same_place e e' /\
    objective MSE n o Y (pnet [e_p e'] n X) <=
      INR (length (chunks (batch_rows n bs) X)) ^ 2 * (sqdist i o (p_w (e_p e)) W + sqdist 1 o (p_b (e_p e)) B) / (lr * IZR epochs)).
Proof. exact (minibatch_rate s m e x i o mx rsx y rsy n X Y bs xv yv lr epochs W B). Qed.
Print Assumptions C91_rate.

(** C91: and the objective tends to 0. *)
Theorem C91_converges s m e x i o mx rsx y rsy n (X Y : rpm) bs xv yv lr eps : (0 <= bs)%Z -> (Z.of_nat n + bs <= 2 ^ 52)%Z -> (1 <= n)%nat ->
  trainable s m [e] [x] i o MSE -> data_ok s [e] mx rsx y rsy n i o X Y -> p_kind (e_p e) = Linear -> plain_sgd lr (x_po x) ->
  0 < lr -> lr * (2 / INR o) * (sqnorm n i X + INR n) <= 1 -> (exists W B, solves n i o X Y W B) -> 0 < eps ->
  exists N, forall epochs, (N <= epochs)%Z ->
  returns (Fit m mx y epochs bs xv yv 0) s (fun _ s' => exists e' x', trainable s' m [e'] [x'] i o MSE /\ same_place e e' /\
    objective MSE n o Y (pnet [e_p e'] n X) < eps).
Proof. exact (minibatch_converges s m e x i o mx rsx y rsy n X Y bs xv yv lr eps). Qed.
Print Assumptions C91_converges.

Example C91_ex : trainable (cv_state (1/14)) cv_m1 [cv_e1] [cv_xo (1/14) 1] 2 1 MSE /\
  data_ok (cv_state (1/14)) [cv_e1] cv_x [4;5]%nat cv_y1 [6;7]%nat 2 2 1 cvX cvY1 /\
  p_kind (e_p cv_e1) = Linear /\ plain_sgd (1/14) (x_po (cv_xo (1/14) 1)) /\
  1 / 14 * (2 / INR 1) * (sqnorm 2 2 cvX + INR 2) <= 1 /\ solves 2 2 1 cvX cvY1 [[0];[2]] [[1]] /\
  length (chunks (batch_rows 2 1) cvX) = 2%nat.
Proof.
  split; [apply cv_trainable1|]. split; [apply cv_data1|]. split; [reflexivity|]. split; [repeat split|]. split; [exact cv_rate1|].
  split; [exact cv_solvable|reflexivity].
Qed.

(** C91: without an exact fit, training with batches need not reach the best objective. *)
Theorem C91_no_exact_fit_refuted : exists s m e x i o mx rsx y rsy n (X Y : rpm) lr bs,
  (0 <= bs)%Z /\ (1 <= n)%nat /\ trainable s m [e] [x] i o MSE /\ data_ok s [e] mx rsx y rsy n i o X Y /\ p_kind (e_p e) = Linear /\ plain_sgd lr (x_po x) /\
  0 < lr /\ lr * (2 / INR o) * (sqnorm n i X + INR n) <= 1 /\
  (exists W B, objective MSE n o Y (pnet [with_params (e_p e) W B] n X) = 1 / 2) /\
  forall epochs xv yv, returns (Fit m mx y epochs bs xv yv 0) s (fun _ s' => exists e' x', trainable s' m [e'] [x'] i o MSE /\ same_place e e' /\
    objective MSE n o Y (pnet [e_p e'] n X) = 5 / 9).
Proof. exact mb_stuck. Qed.
Print Assumptions C91_no_exact_fit_refuted.
