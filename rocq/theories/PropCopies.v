(** Training on several copies of the data. *)
From Coq Require Import String ZArith List Bool Arith Lia Reals Lra.
From Coquelicot Require Import Coquelicot.
From Verif Require Import Num NumR Heap Spec Matrix Loss Network Optimizers ModelGo PureSpec Repr LayerReal LossProofs RSum OptSpec ModelSpec FitFacts ConvergeEx CopiesSpec Copies CopiesEx CopiesAdam.
Import ListNotations.
Open Scope R_scope.

(** C93: with a cross-entropy loss, training with whole batches on several copies of the data ends in the
    same weights, biases and optimizer states as training on the data once. *)
Theorem C93_average s1 m1 es1 xs1 x1 rsx1 y1 rsy1 xv1 yv1 s2 m2 es2 xs2 x2 rsx2 y2 rsy2 xv2 yv2 i o k n c (X Y : rpm) epochs bs1 bs2 :
  (bs1 = 0 \/ Z.of_nat n <= bs1)%Z -> (Z.of_nat n + bs1 <= 2 ^ 52)%Z ->
  (bs2 = 0 \/ Z.of_nat (c * n) <= bs2)%Z -> (Z.of_nat (c * n) + bs2 <= 2 ^ 52)%Z -> (1 <= n)%nat -> (1 <= c)%nat ->
  trainable s1 m1 es1 xs1 i o k -> data_ok s1 es1 x1 rsx1 y1 rsy1 n i o X Y ->
  trainable s2 m2 es2 xs2 i o k -> data_ok s2 es2 x2 rsx2 y2 rsy2 (c * n) i o (copies c X) (copies c Y) ->
  List.Forall (fun e => p_kind (e_p e) <> Dropout) es2 -> k = CE \/ k = BCE -> trainer es1 xs1 = trainer es2 xs2 ->
  exists s1' s2' es1' xs1' es2' xs2',
    Fit m1 x1 y1 epochs bs1 xv1 yv1 0 s1 = (Ret tt, s1') /\ Fit m2 x2 y2 epochs bs2 xv2 yv2 0 s2 = (Ret tt, s2') /\
    trainable s1' m1 es1' xs1' i o k /\ Forall2 same_place es1 es1' /\
    trainable s2' m2 es2' xs2' i o k /\ Forall2 same_place es2 es2' /\
    trainer es1' xs1' = trainer es2' xs2'.
Proof. exact (fit_average s1 m1 es1 xs1 x1 rsx1 y1 rsy1 xv1 yv1 s2 m2 es2 xs2 x2 rsx2 y2 rsy2 xv2 yv2 i o k n c X Y epochs bs1 bs2). Qed.
Print Assumptions C93_average.

(** C93: with the squared or the absolute error and gradient descent, training on [c] copies of the data
    ends in the same weights and biases as training on the data with [c] times the learning rate. *)
Theorem C93_sum s1 m1 es1 xs1 x1 rsx1 y1 rsy1 xv1 yv1 s2 m2 es2 xs2 x2 rsx2 y2 rsy2 xv2 yv2 i o k n c (X Y : rpm) epochs bs1 bs2 :
  (bs1 = 0 \/ Z.of_nat n <= bs1)%Z -> (Z.of_nat n + bs1 <= 2 ^ 52)%Z ->
  (bs2 = 0 \/ Z.of_nat (c * n) <= bs2)%Z -> (Z.of_nat (c * n) + bs2 <= 2 ^ 52)%Z -> (1 <= n)%nat -> (1 <= c)%nat ->
  trainable s1 m1 es1 xs1 i o k -> data_ok s1 es1 x1 rsx1 y1 rsy1 n i o X Y ->
  trainable s2 m2 es2 xs2 i o k -> data_ok s2 es2 x2 rsx2 y2 rsy2 (c * n) i o (copies c X) (copies c Y) ->
  List.Forall (fun e => p_kind (e_p e) <> Dropout) es2 -> k = MSE \/ k = MAE ->
  trainer es1 xs1 = map (quicker (INR c)) (trainer es2 xs2) -> List.Forall (fun x => po_kind (snd x) = SGD) (trainer es2 xs2) ->
  exists s1' s2' es1' xs1' es2' xs2',
    Fit m1 x1 y1 epochs bs1 xv1 yv1 0 s1 = (Ret tt, s1') /\ Fit m2 x2 y2 epochs bs2 xv2 yv2 0 s2 = (Ret tt, s2') /\
    trainable s1' m1 es1' xs1' i o k /\ Forall2 same_place es1 es1' /\
    trainable s2' m2 es2' xs2' i o k /\ Forall2 same_place es2 es2' /\
    trainer es1' xs1' = map (quicker (INR c)) (trainer es2' xs2').
Proof. exact (fit_sum s1 m1 es1 xs1 x1 rsx1 y1 rsy1 xv1 yv1 s2 m2 es2 xs2 x2 rsx2 y2 rsy2 xv2 yv2 i o k n c X Y epochs bs1 bs2). Qed.
Print Assumptions C93_sum.

(** C93: with the squared or the absolute error and Adam, training on [c] copies of the data ends in the same
    weights and biases as training on the data with epsilon divided by [c]; [finer c] divides epsilon and the
    stored momentums by [c] and the caches by [c * c]. *)
Theorem C93_adam s1 m1 es1 xs1 x1 rsx1 y1 rsy1 xv1 yv1 s2 m2 es2 xs2 x2 rsx2 y2 rsy2 xv2 yv2 i o k n c (X Y : rpm) epochs bs1 bs2 :
  (bs1 = 0 \/ Z.of_nat n <= bs1)%Z -> (Z.of_nat n + bs1 <= 2 ^ 52)%Z ->
  (bs2 = 0 \/ Z.of_nat (c * n) <= bs2)%Z -> (Z.of_nat (c * n) + bs2 <= 2 ^ 52)%Z -> (1 <= n)%nat -> (1 <= c)%nat ->
  trainable s1 m1 es1 xs1 i o k -> data_ok s1 es1 x1 rsx1 y1 rsy1 n i o X Y ->
  trainable s2 m2 es2 xs2 i o k -> data_ok s2 es2 x2 rsx2 y2 rsy2 (c * n) i o (copies c X) (copies c Y) ->
  List.Forall (fun e => p_kind (e_p e) <> Dropout) es2 -> k = MSE \/ k = MAE ->
  trainer es1 xs1 = map (finer (INR c)) (trainer es2 xs2) -> List.Forall (fun x => po_kind (snd x) = Adam) (trainer es2 xs2) ->
  exists s1' s2' es1' xs1' es2' xs2',
    Fit m1 x1 y1 epochs bs1 xv1 yv1 0 s1 = (Ret tt, s1') /\ Fit m2 x2 y2 epochs bs2 xv2 yv2 0 s2 = (Ret tt, s2') /\
    trainable s1' m1 es1' xs1' i o k /\ Forall2 same_place es1 es1' /\
    trainable s2' m2 es2' xs2' i o k /\ Forall2 same_place es2 es2' /\
    trainer es1' xs1' = map (finer (INR c)) (trainer es2' xs2').
Proof. exact (fit_adam s1 m1 es1 xs1 x1 rsx1 y1 rsy1 xv1 yv1 s2 m2 es2 xs2 x2 rsx2 y2 rsy2 xv2 yv2 i o k n c X Y epochs bs1 bs2). Qed.
Print Assumptions C93_adam.

Example C93_adam_ex :
  trainable ca_one cv_m1 [cv_e1] [ca_xo 1 1 2 1 1 2 1] 2 1 MSE /\ data_ok ca_one [cv_e1] cv_x [4;5]%nat cv_y1 [6;7]%nat 2 2 1 cvX cvY1 /\
  trainable ca_two cv_m1 [cv_e1] [ca_xo 2 2 4 2 4 8 4] 2 1 MSE /\ data_ok ca_two [cv_e1] cp_x [4;5;4;5]%nat cp_y1 [6;7;6;7]%nat (2 * 2) 2 1 (copies 2 cvX) (copies 2 cvY1) /\
  trainer [cv_e1] [ca_xo 1 1 2 1 1 2 1] = map (finer (INR 2)) (trainer [cv_e1] [ca_xo 2 2 4 2 4 8 4]).
Proof. exact (conj ca_trainable_one (conj ca_data_one (conj ca_trainable_two (conj ca_data_two ca_finer)))). Qed.

Example C93_ex :
  (trainable (cv_state 1) cv_m2 [cv_e2] [cv_xo 1 2] 2 2 CE /\ data_ok (cv_state 1) [cv_e2] cv_x [4;5]%nat cv_y2 [11;12]%nat 2 2 2 cvX cvY2 /\
   trainable (cp_state 1) cv_m2 [cv_e2] [cv_xo 1 2] 2 2 CE /\ data_ok (cp_state 1) [cv_e2] cp_x [4;5;4;5]%nat cp_y2 [11;12;11;12]%nat (2 * 2) 2 2 (copies 2 cvX) (copies 2 cvY2)) /\
  (trainable (cv_state (2 * (1/4))) cv_m1 [cv_e1] [cv_xo (2 * (1/4)) 1] 2 1 MSE /\ data_ok (cv_state (2 * (1/4))) [cv_e1] cv_x [4;5]%nat cv_y1 [6;7]%nat 2 2 1 cvX cvY1 /\
   trainable (cp_state (1/4)) cv_m1 [cv_e1] [cv_xo (1/4) 1] 2 1 MSE /\ data_ok (cp_state (1/4)) [cv_e1] cp_x [4;5;4;5]%nat cp_y1 [6;7;6;7]%nat (2 * 2) 2 1 (copies 2 cvX) (copies 2 cvY1) /\
   trainer [cv_e1] [cv_xo (2 * (1/4)) 1] = map (quicker 2) (trainer [cv_e1] [cv_xo (1/4) 1])) /\
  copies 2 cvX = [[1;0];[0;2];[1;0];[0;2]].
Proof.
  split; [|split; [|reflexivity]].
  - split; [apply cv_trainable2|]. split; [apply cv_data2|]. split; [apply cp_trainable2|apply cp_data2].
  - split; [apply cv_trainable1|]. split; [apply cv_data1|]. split; [apply cp_trainable1|]. split; [apply cp_data1|exact cp_quicker].
Qed.

(** C93: with the squared error and the same learning rate the two trainings differ. *)
Theorem C93_same_refuted : exists s1 s2 m es xs i o x1 rsx1 y1 rsy1 x2 rsx2 y2 rsy2 n c (X Y : rpm) s1' s2' es1' xs1' es2' xs2',
  trainable s1 m es xs i o MSE /\ data_ok s1 es x1 rsx1 y1 rsy1 n i o X Y /\
  trainable s2 m es xs i o MSE /\ data_ok s2 es x2 rsx2 y2 rsy2 (c * n) i o (copies c X) (copies c Y) /\
  Fit m x1 y1 1 0 matrix0 matrix0 0 s1 = (Ret tt, s1') /\ Fit m x2 y2 1 0 matrix0 matrix0 0 s2 = (Ret tt, s2') /\
  trainable s1' m es1' xs1' i o MSE /\ Forall2 same_place es es1' /\ trainable s2' m es2' xs2' i o MSE /\ Forall2 same_place es es2' /\
  map (fun e => p_b (e_p e)) es1' = [[[5]]] /\ map (fun e => p_b (e_p e)) es2' = [[[7]]].
Proof. exact cp_differs. Qed.
Print Assumptions C93_same_refuted.
