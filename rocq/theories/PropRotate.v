(** * Property C125: rotating the inputs.

    [isometry i j Q]: [Q] has [i] orthonormal rows of length [j].  [recoded i j Q X]: every row of [X] times [Q].  [recoded_trainer j Q ts]: the first
    layer's weights (and velocities) replaced by [Q] transposed times them, the other layers unchanged.  All in RotateSpec.v. *)
From Coq Require Import String ZArith List Bool Arith Lia Reals.
From Verif Require Import Num NumR Heap Spec Matrix Loss Network Optimizers ModelGo PureSpec Repr OptSpec ModelSpec RotateSpec Rotate SpanEx RotateEx.
Import ListNotations.
Open Scope R_scope.

(** Two models that differ in such a change of coordinates, the first layer trained by SGD, still differ in nothing else after Fit on the same samples
    in the respective coordinates, with any layers, loss, other optimizers and batch size (and the same random numbers for dropout). *)
Theorem C125_train s1 m1 es1 xs1 x1 rsx1 y1 rsy1 xv1 yv1 s2 m2 es2 xs2 x2 rsx2 y2 rsy2 xv2 yv2 i j o k n Q (X Y : pm RNum) epochs bs :
  (0 <= bs)%Z -> (Z.of_nat n + bs <= 2 ^ 52)%Z -> (1 <= n)%nat -> isometry i j Q -> first_sgd (trainer es1 xs1) ->
  trainable s1 m1 es1 xs1 i o k -> data_ok s1 es1 x1 rsx1 y1 rsy1 n i o X Y ->
  trainable s2 m2 es2 xs2 j o k -> data_ok s2 es2 x2 rsx2 y2 rsy2 n j o (recoded i j Q X) Y ->
  trainer es2 xs2 = recoded_trainer j Q (trainer es1 xs1) -> r_uni (h_rng s2) = r_uni (h_rng s1) -> r_upos (h_rng s2) = r_upos (h_rng s1) ->
  exists s1' s2' es1' xs1' es2' xs2',
    Fit m1 x1 y1 epochs bs xv1 yv1 0 s1 = (Ret tt, s1') /\ Fit m2 x2 y2 epochs bs xv2 yv2 0 s2 = (Ret tt, s2') /\
    trainable s1' m1 es1' xs1' i o k /\ Forall2 same_place es1 es1' /\
    trainable s2' m2 es2' xs2' j o k /\ Forall2 same_place es2 es2' /\
    trainer es2' xs2' = recoded_trainer j Q (trainer es1' xs1') /\ net es2' = recoded_net j Q (net es1').
Proof. exact (fit_recoded s1 m1 es1 xs1 x1 rsx1 y1 rsy1 xv1 yv1 s2 m2 es2 xs2 x2 rsx2 y2 rsy2 xv2 yv2 i j o k n Q X Y epochs bs). Qed.
(** Such models predict the same. *)
Theorem C125_predict s1 m1 es1 x1 rsx1 s2 m2 es2 x2 rsx2 i j o Q r (X : pm RNum) :
  isometry i j Q -> consistent s1 m1 es1 i o -> consistent s2 m2 es2 j o -> (1 <= length es1)%nat -> net es2 = recoded_net j Q (net es1) ->
  m_acctype m1 = 0%Z -> m_acctype m2 = 0%Z -> (1 <= r)%nat -> own s1 x1 rsx1 r i X -> own s2 x2 rsx2 r j (recoded i j Q X) ->
  exists P1 P2 s1' s2' rs1 rs2 P, Predict m1 x1 s1 = (Ret P1, s1') /\ Predict m2 x2 s2 = (Ret P2, s2') /\ own s1' P1 rs1 r o P /\ own s2' P2 rs2 r o P.
Proof. exact (predict_recoded s1 m1 es1 x1 rsx1 s2 m2 es2 x2 rsx2 i j o Q r X). Qed.
(** Adam depends on the coordinates: one epoch on one sample, and the predictions for (1, 0) and its rotation differ. *)
Theorem C125_adam_refuted : exists (s1 s2 : state RNum) m es xs Q x rsx y rsy X Y, isometry 2 2 Q /\ trainable s1 m es xs 2 1 MSE /\ trainable s2 m es xs 2 1 MSE /\
  data_ok s1 es x rsx y rsy 1 2 1 X Y /\ data_ok s2 es x rsx y rsy 1 2 1 (recoded 2 2 Q X) Y /\ trainer es xs = recoded_trainer 2 Q (trainer es xs) /\
  List.Forall (fun t => po_kind (snd t) = Adam) (trainer es xs) /\ h_rng s2 = h_rng s1 /\
  returns (Fit m x y 1 0 matrix0 matrix0 0) s1 (fun _ s1' => returns (Fit m x y 1 0 matrix0 matrix0 0) s2 (fun _ s2' => exists es1' xs1' es2' xs2',
    trainable s1' m es1' xs1' 2 1 MSE /\ Forall2 same_place es es1' /\ trainable s2' m es2' xs2' 2 1 MSE /\ Forall2 same_place es es2' /\
    pnet (net es2') 1 (recoded 2 2 Q [[1;0]]) <> pnet (net es1') 1 [[1;0]])).
Proof. exact adam_rotated. Qed.
Print Assumptions C125_train. Print Assumptions C125_predict. Print Assumptions C125_adam_refuted.
(** ReLU 2 -> 2 and linear 2 -> 1 under SGD with momentum, rotated by the angle of the 3-4-5 triangle. *)
Example C125_ex : (isometry 2 2 rt_Q /\ isometry 1 2 rt_Q) /\ first_sgd (trainer (rt_es [5;0] [0;5]) rt_xs) /\
  trainable (rt_state [5;0] [0;5] [5;0] [5;10]) rt_m (rt_es [5;0] [0;5]) rt_xs 2 1 MSE /\ data_ok (rt_state [5;0] [0;5] [5;0] [5;10]) (rt_es [5;0] [0;5]) rt_x [7;8]%nat rt_y [9;10]%nat 2 2 1 [[5;0];[5;10]] [[1];[0]] /\
  trainable (rt_state [3;-4] [4;3] [3;4] [-5;10]) rt_m (rt_es [3;-4] [4;3]) rt_xs 2 1 MSE /\
  data_ok (rt_state [3;-4] [4;3] [3;4] [-5;10]) (rt_es [3;-4] [4;3]) rt_x [7;8]%nat rt_y [9;10]%nat 2 2 1 (recoded 2 2 rt_Q [[5;0];[5;10]]) [[1];[0]] /\
  trainer (rt_es [3;-4] [4;3]) rt_xs = recoded_trainer 2 rt_Q (trainer (rt_es [5;0] [0;5]) rt_xs) /\ po_usemom (rt_po 2 2) = true.
Proof. exact rt_all. Qed.
