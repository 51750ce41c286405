(** * C71-C73: training to the optimum, and the order of the training samples. *)
From Coq Require Import String ZArith List Bool Arith Lia Reals Lra Permutation.
From Verif Require Import Num NumR NumB64 Heap Spec Matrix Loss Network Optimizers ModelGo PureSpec Repr RSum GradSpec OptSpec ModelSpec NetGradSpec HeapLemmas FitFacts CodecRefute Converge ConvergeEx RowOrder RowOrderEx.
Import ListNotations.
Open Scope R_scope.

(** C71: full-batch training of a single linear layer with mean squared error and plain SGD, at a
    learning rate below an explicit bound computed from the data, never increases the objective and
    comes within distance^2 / (2 lr epochs) of the objective of every other weights and biases. *)
Theorem C71_linear_converges s m e x i o mx rsx y rsy n (X Y : rpm) epochs bs xv yv lr :
  (0 <= bs)%Z -> (bs = 0 \/ Z.of_nat n <= bs)%Z -> (Z.of_nat n + bs <= 2 ^ 52)%Z -> (1 <= n)%nat -> (1 <= epochs)%Z ->
  trainable s m [e] [x] i o MSE -> data_ok s [e] mx rsx y rsy n i o X Y -> p_kind (e_p e) = Linear ->
  plain_sgd lr (x_po x) -> 0 < lr -> lr * (2 / INR o) * (sqnorm n i X + INR n) <= 1 ->
  returns (Fit m mx y epochs bs xv yv 0) s (fun _ s' => exists e' x',
    trainable s' m [e'] [x'] i o MSE /\ same_place e e' /\
    objective MSE n o Y (pnet [e_p e'] n X) <= objective MSE n o Y (pnet [e_p e] n X) /\
    forall W B, objective MSE n o Y (pnet [e_p e'] n X) <= objective MSE n o Y (pnet [with_params (e_p e) W B] n X) +
      (sqdist i o (p_w (e_p e)) W + sqdist 1 o (p_b (e_p e)) B) / (2 * lr * IZR epochs)).
Proof. exact (linear_converges s m e x i o mx rsx y rsy n X Y epochs bs xv yv lr). Qed.
Print Assumptions C71_linear_converges.
Example C71_ex : trainable (cv_state (1/14)) cv_m1 [cv_e1] [cv_xo (1/14) 1] 2 1 MSE /\
  data_ok (cv_state (1/14)) [cv_e1] cv_x [4;5]%nat cv_y1 [6;7]%nat 2 2 1 cvX cvY1 /\
  p_kind (e_p cv_e1) = Linear /\ plain_sgd (1/14) (x_po (cv_xo (1/14) 1)) /\ 1 / 14 * (2 / INR 1) * (sqnorm 2 2 cvX + INR 2) <= 1.
Proof. split; [apply cv_trainable1|]. split; [apply cv_data1|]. split; [reflexivity|]. split; [repeat split|exact cv_rate1]. Qed.

(** C71: the bound on the learning rate matters: one epoch can also increase the objective. *)
Theorem C71_any_rate_refuted : exists s m e x i o mx rsx y rsy n (X Y : rpm) lr s' e' x',
  trainable s m [e] [x] i o MSE /\ data_ok s [e] mx rsx y rsy n i o X Y /\ p_kind (e_p e) = Linear /\ plain_sgd lr (x_po x) /\ 0 < lr /\
  Fit m mx y 1 0 matrix0 matrix0 0 s = (Ret tt, s') /\ trainable s' m [e'] [x'] i o MSE /\ same_place e e' /\
  objective MSE n o Y (pnet [e_p e] n X) < objective MSE n o Y (pnet [e_p e'] n X).
Proof. exact cv_diverges. Qed.
Print Assumptions C71_any_rate_refuted.

(** C72: the same for softmax regression with cross entropy on one-hot labels. *)
Theorem C72_softmax_converges s m e x i o mx rsx y rsy n (X Y : rpm) epochs bs xv yv lr :
  (0 <= bs)%Z -> (bs = 0 \/ Z.of_nat n <= bs)%Z -> (Z.of_nat n + bs <= 2 ^ 52)%Z -> (1 <= n)%nat -> (1 <= epochs)%Z ->
  trainable s m [e] [x] i o CE -> data_ok s [e] mx rsx y rsy n i o X Y -> p_kind (e_p e) = SoftmaxK -> one_hot n o Y ->
  plain_sgd lr (x_po x) -> 0 < lr -> lr * (1 / INR n) * (sqnorm n i X + INR n) <= 1 ->
  returns (Fit m mx y epochs bs xv yv 0) s (fun _ s' => exists e' x',
    trainable s' m [e'] [x'] i o CE /\ same_place e e' /\
    objective CE n o Y (pnet [e_p e'] n X) <= objective CE n o Y (pnet [e_p e] n X) /\
    forall W B, objective CE n o Y (pnet [e_p e'] n X) <= objective CE n o Y (pnet [with_params (e_p e) W B] n X) +
      (sqdist i o (p_w (e_p e)) W + sqdist 1 o (p_b (e_p e)) B) / (2 * lr * IZR epochs)).
Proof. exact (softmax_converges s m e x i o mx rsx y rsy n X Y epochs bs xv yv lr). Qed.
Print Assumptions C72_softmax_converges.
Example C72_ex : trainable (cv_state (2/7)) cv_m2 [cv_e2] [cv_xo (2/7) 2] 2 2 CE /\
  data_ok (cv_state (2/7)) [cv_e2] cv_x [4;5]%nat cv_y2 [11;12]%nat 2 2 2 cvX cvY2 /\
  p_kind (e_p cv_e2) = SoftmaxK /\ one_hot 2 2 cvY2 /\ plain_sgd (2/7) (x_po (cv_xo (2/7) 2)) /\
  2 / 7 * (1 / INR 2) * (sqnorm 2 2 cvX + INR 2) <= 1.
Proof.
  split; [apply cv_trainable2|]. split; [apply cv_data2|]. split; [reflexivity|]. split; [exact cv_onehot|]. split; [repeat split|exact cv_rate2].
Qed.

(** C73: in exact arithmetic, full-batch training without Dropout layers does not depend on the
    order of the training samples, for every optimizer, loss and number of epochs. *)
Theorem C73_row_order s1 m1 es1 xs1 x1 rsx1 y1 rsy1 xv1 yv1 s2 m2 es2 xs2 x2 rsx2 y2 rsy2 xv2 yv2 i o k n p (X Y : rpm) epochs bs1 bs2 :
  (bs1 = 0 \/ Z.of_nat n <= bs1)%Z -> (Z.of_nat n + bs1 <= 2 ^ 52)%Z ->
  (bs2 = 0 \/ Z.of_nat n <= bs2)%Z -> (Z.of_nat n + bs2 <= 2 ^ 52)%Z -> (1 <= n)%nat ->
  Permutation p (seq 0 n) ->
  trainable s1 m1 es1 xs1 i o k -> data_ok s1 es1 x1 rsx1 y1 rsy1 n i o X Y ->
  trainable s2 m2 es2 xs2 i o k -> data_ok s2 es2 x2 rsx2 y2 rsy2 n i o (pick [] p X) (pick [] p Y) ->
  trainer es1 xs1 = trainer es2 xs2 -> Forall (fun e => p_kind (e_p e) <> Dropout) es1 ->
  exists s1' s2' es1' xs1' es2' xs2',
    Fit m1 x1 y1 epochs bs1 xv1 yv1 0 s1 = (Ret tt, s1') /\ Fit m2 x2 y2 epochs bs2 xv2 yv2 0 s2 = (Ret tt, s2') /\
    trainable s1' m1 es1' xs1' i o k /\ Forall2 same_place es1 es1' /\
    trainable s2' m2 es2' xs2' i o k /\ Forall2 same_place es2 es2' /\
    trainer es1' xs1' = trainer es2' xs2'.
Proof. exact (fit_row_order s1 m1 es1 xs1 x1 rsx1 y1 rsy1 xv1 yv1 s2 m2 es2 xs2 x2 rsx2 y2 rsy2 xv2 yv2 i o k n p X Y epochs bs1 bs2). Qed.
Print Assumptions C73_row_order.
Example C73_ex : Permutation [1;0]%nat (seq 0 2) /\ trainable (cv_state 1) cv_m1 [cv_e1] [cv_xo 1 1] 2 1 MSE /\
  data_ok (cv_state 1) [cv_e1] cv_x [4;5]%nat cv_y1 [6;7]%nat 2 2 1 cvX cvY1 /\
  trainable (cv_swapped 1) cv_m1 [cv_e1] [cv_xo 1 1] 2 1 MSE /\
  data_ok (cv_swapped 1) [cv_e1] cv_x [5;4]%nat cv_y1 [7;6]%nat 2 2 1 (pick [] [1;0]%nat cvX) (pick [] [1;0]%nat cvY1) /\
  Forall (fun e => p_kind (e_p e) <> Dropout) [cv_e1].
Proof.
  split; [constructor|]. split; [apply cv_trainable1|]. split; [apply cv_data1|]. split; [apply cv_trainable_swapped|].
  split; [apply cv_data_swapped|]. constructor; [discriminate|constructor].
Qed.

(** C73: with float64 arithmetic it does depend on the order. *)
Theorem C73_float_order_refuted (L : libm) : exists (s : state (B64 L)) m es xs x rsx y rsy x2 rsx2 y2 rsy2 p (X Y : pm (B64 L)) v v',
  trainable s m es xs 1 1 MSE /\ Forall (fun e => p_kind (e_p e) <> Dropout) es /\ Permutation p (seq 0 3) /\
  data_ok s es x rsx y rsy 3 1 1 X Y /\ data_ok s es x2 rsx2 y2 rsy2 3 1 1 (pick [] p X) (pick [] p Y) /\
  result L (bind (Fit m x y 1 0 matrix0 matrix0 0) (fun _ => bias_bits L m) s) = Some v /\
  result L (bind (Fit m x2 y2 1 0 matrix0 matrix0 0) (fun _ => bias_bits L m) s) = Some v' /\ v <> v'.
Proof. exact (row_order_witness L). Qed.
Print Assumptions C73_float_order_refuted.
