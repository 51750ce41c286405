(** * Property C131: moving the targets.

    [shifted o d Y]: column [j] of [Y] moved by [d j].  [shift_trainer d ts] (and [shift_net d ps]): the biases of the last layer moved by [d], everything
    else unchanged, optimizers included.  [ends_linear]: the last layer is linear.  All in ShiftSpec.v. *)
From Coq Require Import String ZArith List Bool Arith Lia Reals.
From Verif Require Import Num NumR Heap Spec Matrix Loss Network Optimizers ModelGo PureSpec Repr OptSpec ModelSpec ShiftSpec Shift SpanEx RotateEx ShiftEx.
Import ListNotations.
Open Scope R_scope.

(** Two models with a linear last layer whose biases differ by [d], trained on targets that differ by [d] with the squared or absolute error, still differ
    in nothing else after Fit, with any other layers, any optimizers and any batch size (and the same random numbers for dropout). *)
Theorem C131_train s1 m1 es1 xs1 x1 rsx1 y1 rsy1 xv1 yv1 s2 m2 es2 xs2 x2 rsx2 y2 rsy2 xv2 yv2 i o k n d (X Y : pm RNum) epochs bs :
  (0 <= bs)%Z -> (Z.of_nat n + bs <= 2 ^ 52)%Z -> (1 <= n)%nat -> k = MSE \/ k = MAE -> ends_linear (net es1) ->
  trainable s1 m1 es1 xs1 i o k -> data_ok s1 es1 x1 rsx1 y1 rsy1 n i o X Y ->
  trainable s2 m2 es2 xs2 i o k -> data_ok s2 es2 x2 rsx2 y2 rsy2 n i o X (shifted o d Y) ->
  trainer es2 xs2 = shift_trainer d (trainer es1 xs1) -> r_uni (h_rng s2) = r_uni (h_rng s1) -> r_upos (h_rng s2) = r_upos (h_rng s1) ->
  exists s1' s2' es1' xs1' es2' xs2',
    Fit m1 x1 y1 epochs bs xv1 yv1 0 s1 = (Ret tt, s1') /\ Fit m2 x2 y2 epochs bs xv2 yv2 0 s2 = (Ret tt, s2') /\
    trainable s1' m1 es1' xs1' i o k /\ Forall2 same_place es1 es1' /\
    trainable s2' m2 es2' xs2' i o k /\ Forall2 same_place es2 es2' /\
    trainer es2' xs2' = shift_trainer d (trainer es1' xs1') /\ net es2' = shift_net d (net es1') /\ ends_linear (net es1').
Proof. exact (fit_shifted s1 m1 es1 xs1 x1 rsx1 y1 rsy1 xv1 yv1 s2 m2 es2 xs2 x2 rsx2 y2 rsy2 xv2 yv2 i o k n d X Y epochs bs). Qed.
(** The predictions of such models differ by [d]. *)
Theorem C131_predict s1 m1 es1 x1 rsx1 s2 m2 es2 x2 rsx2 i o d r (X : pm RNum) :
  consistent s1 m1 es1 i o -> consistent s2 m2 es2 i o -> ends_linear (net es1) -> net es2 = shift_net d (net es1) ->
  m_acctype m1 = 0%Z -> m_acctype m2 = 0%Z -> (1 <= r)%nat -> own s1 x1 rsx1 r i X -> own s2 x2 rsx2 r i X ->
  exists P1 P2 s1' s2' rs1 rs2 P, Predict m1 x1 s1 = (Ret P1, s1') /\ Predict m2 x2 s2 = (Ret P2, s2') /\ own s1' P1 rs1 r o P /\ own s2' P2 rs2 r o (shifted o d P).
Proof. exact (predict_shifted s1 m1 es1 x1 rsx1 s2 m2 es2 x2 rsx2 i o d r X). Qed.
(** With a ReLU last layer this fails: one unit, one sample, one epoch. *)
Theorem C131_relu_refuted : exists (s1 s2 : state RNum) m es1 es2 xs x rsx y rsy X Y d, trainable s1 m es1 xs 1 1 MSE /\ trainable s2 m es2 xs 1 1 MSE /\
  data_ok s1 es1 x rsx y rsy 1 1 1 X Y /\ data_ok s2 es2 x rsx y rsy 1 1 1 X (shifted 1 d Y) /\ trainer es2 xs = shift_trainer d (trainer es1 xs) /\
  map p_kind (net es1) = [Hidden] /\ h_rng s2 = h_rng s1 /\
  returns (Fit m x y 1 0 matrix0 matrix0 0) s1 (fun _ s1' => returns (Fit m x y 1 0 matrix0 matrix0 0) s2 (fun _ s2' => exists es1' xs1' es2' xs2',
    trainable s1' m es1' xs1' 1 1 MSE /\ Forall2 same_place es1 es1' /\ trainable s2' m es2' xs2' 1 1 MSE /\ Forall2 same_place es2 es2' /\
    net es2' <> shift_net d (net es1'))).
Proof. exact relu_shifted. Qed.
Print Assumptions C131_train. Print Assumptions C131_predict. Print Assumptions C131_relu_refuted.
(** ReLU 2 -> 2 under SGD with momentum and linear 2 -> 1 under Adam; bias 1/2 and targets 1, 0 against bias 1/2 + 3 and targets 4, 3. *)
Example C131_ex : ends_linear (net (sf_es (1/2))) /\
  trainable (sf_state (1/2) 1 0) rt_m (sf_es (1/2)) sf_xs 2 1 MSE /\ data_ok (sf_state (1/2) 1 0) (sf_es (1/2)) rt_x [7;8]%nat rt_y [9;10]%nat 2 2 1 [[5;0];[5;10]] [[1];[0]] /\
  trainable (sf_state (1/2+3) (1+3) (0+3)) rt_m (sf_es (1/2+3)) sf_xs 2 1 MSE /\
  data_ok (sf_state (1/2+3) (1+3) (0+3)) (sf_es (1/2+3)) rt_x [7;8]%nat rt_y [9;10]%nat 2 2 1 [[5;0];[5;10]] (shifted 1 (fun _ => 3) [[1];[0]]) /\
  trainer (sf_es (1/2+3)) sf_xs = shift_trainer (fun _ => 3) (trainer (sf_es (1/2)) sf_xs).
Proof. exact sf_all. Qed.
