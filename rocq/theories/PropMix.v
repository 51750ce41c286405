(** * Property C133: training a linear layer is linear.

    [mixed a b r c A B C]: [C] is [a A + b B], entry by entry.  [mixed_trainer a b t1 t2 t3]: models of one linear layer each, trained by SGD with the same
    settings, the third with the combined weights, biases and velocities.  Both in MixSpec.v. *)
From Coq Require Import String ZArith List Bool Arith Lia Reals.
From Verif Require Import Num NumR Heap Spec Matrix Loss Network Optimizers ModelGo PureSpec Repr OptSpec ModelSpec MixSpec Mix MixEx MixAdam.
Import ListNotations.
Open Scope R_scope.

(** Three linear layers trained on the same samples by SGD with the squared error, the third with targets and starting point combined from those of the
    first two: after Fit its parameters and velocities are still the same combination of theirs, for any batch size, momentum and decay. *)
Theorem C133_train a b s1 m1 es1 xs1 x1 rsx1 y1 rsy1 xv1 yv1 s2 m2 es2 xs2 x2 rsx2 y2 rsy2 xv2 yv2 s3 m3 es3 xs3 x3 rsx3 y3 rsy3 xv3 yv3 i o n (X Y1 Y2 Y3 : pm RNum) epochs bs :
  (0 <= bs)%Z -> (Z.of_nat n + bs <= 2 ^ 52)%Z -> (1 <= n)%nat ->
  trainable s1 m1 es1 xs1 i o MSE -> data_ok s1 es1 x1 rsx1 y1 rsy1 n i o X Y1 ->
  trainable s2 m2 es2 xs2 i o MSE -> data_ok s2 es2 x2 rsx2 y2 rsy2 n i o X Y2 ->
  trainable s3 m3 es3 xs3 i o MSE -> data_ok s3 es3 x3 rsx3 y3 rsy3 n i o X Y3 ->
  mixed a b n o Y1 Y2 Y3 -> mixed_trainer a b (trainer es1 xs1) (trainer es2 xs2) (trainer es3 xs3) ->
  exists s1' s2' s3' es1' xs1' es2' xs2' es3' xs3',
    Fit m1 x1 y1 epochs bs xv1 yv1 0 s1 = (Ret tt, s1') /\ Fit m2 x2 y2 epochs bs xv2 yv2 0 s2 = (Ret tt, s2') /\ Fit m3 x3 y3 epochs bs xv3 yv3 0 s3 = (Ret tt, s3') /\
    trainable s1' m1 es1' xs1' i o MSE /\ Forall2 same_place es1 es1' /\ trainable s2' m2 es2' xs2' i o MSE /\ Forall2 same_place es2 es2' /\
    trainable s3' m3 es3' xs3' i o MSE /\ Forall2 same_place es3 es3' /\
    mixed_trainer a b (trainer es1' xs1') (trainer es2' xs2') (trainer es3' xs3').
Proof. exact (fit_mixed a b s1 m1 es1 xs1 x1 rsx1 y1 rsy1 xv1 yv1 s2 m2 es2 xs2 x2 rsx2 y2 rsy2 xv2 yv2 s3 m3 es3 xs3 x3 rsx3 y3 rsy3 xv3 yv3 i o n X Y1 Y2 Y3 epochs bs). Qed.
(** So are its predictions, for any inputs. *)
Theorem C133_predict a b s1 m1 es1 xs1 x1 rsx1 s2 m2 es2 xs2 x2 rsx2 s3 m3 es3 xs3 x3 rsx3 i o k r (X : pm RNum) :
  trainable s1 m1 es1 xs1 i o k -> trainable s2 m2 es2 xs2 i o k -> trainable s3 m3 es3 xs3 i o k -> mixed_trainer a b (trainer es1 xs1) (trainer es2 xs2) (trainer es3 xs3) ->
  m_acctype m1 = 0%Z -> m_acctype m2 = 0%Z -> m_acctype m3 = 0%Z -> (1 <= r)%nat -> own s1 x1 rsx1 r i X -> own s2 x2 rsx2 r i X -> own s3 x3 rsx3 r i X ->
  exists P1 P2 P3 s1' s2' s3' rs1 rs2 rs3 A B C, Predict m1 x1 s1 = (Ret P1, s1') /\ Predict m2 x2 s2 = (Ret P2, s2') /\ Predict m3 x3 s3 = (Ret P3, s3') /\
    own s1' P1 rs1 r o A /\ own s2' P2 rs2 r o B /\ own s3' P3 rs3 r o C /\ mixed a b r o A B C.
Proof. exact (predict_mixed a b s1 m1 es1 xs1 x1 rsx1 s2 m2 es2 xs2 x2 rsx2 s3 m3 es3 xs3 x3 rsx3 i o k r X). Qed.
(** With the absolute error this fails already for doubled targets: one unit with zero parameters, one sample, one epoch. *)
Theorem C133_mae_refuted : exists (s1 s2 : state RNum) m es xs x rsx y rsy X Y1 Y2, trainable s1 m es xs 1 1 MAE /\ trainable s2 m es xs 1 1 MAE /\
  data_ok s1 es x rsx y rsy 1 1 1 X Y1 /\ data_ok s2 es x rsx y rsy 1 1 1 X Y2 /\ mixed 2 0 1 1 Y1 Y1 Y2 /\ mixed_trainer 2 0 (trainer es xs) (trainer es xs) (trainer es xs) /\
  returns (Fit m x y 1 0 matrix0 matrix0 0) s1 (fun _ s1' => returns (Fit m x y 1 0 matrix0 matrix0 0) s2 (fun _ s2' => exists es1' xs1' p1 es2' xs2' p2,
    trainable s1' m es1' xs1' 1 1 MAE /\ Forall2 same_place es es1' /\ trainable s2' m es2' xs2' 1 1 MAE /\ Forall2 same_place es es2' /\
    net es1' = [p1] /\ net es2' = [p2] /\ ~ mixed_layer 2 0 p1 p1 p2)).
Proof. exact mae_not_linear. Qed.
(** With Adam it fails as well, for the squared error: doubling the target of the sample (1, 0) takes the first weight from 2/3 to 4/5. *)
Theorem C133_adam_refuted : exists (s1 s2 : state RNum) m es xs p x rsx y rsy X Y1 Y2, trainable s1 m es xs 2 1 MSE /\ trainable s2 m es xs 2 1 MSE /\
  data_ok s1 es x rsx y rsy 1 2 1 X Y1 /\ data_ok s2 es x rsx y rsy 1 2 1 X Y2 /\ mixed 2 0 1 1 Y1 Y1 Y2 /\ List.Forall (fun t => po_kind (snd t) = Adam) (trainer es xs) /\ net es = [p] /\ mixed_layer 2 0 p p p /\
  returns (Fit m x y 1 0 matrix0 matrix0 0) s1 (fun _ s1' => returns (Fit m x y 1 0 matrix0 matrix0 0) s2 (fun _ s2' => exists es1' xs1' p1 es2' xs2' p2,
    trainable s1' m es1' xs1' 2 1 MSE /\ Forall2 same_place es es1' /\ trainable s2' m es2' xs2' 2 1 MSE /\ Forall2 same_place es es2' /\
    net es1' = [p1] /\ net es2' = [p2] /\ ~ mixed_layer 2 0 p1 p1 p2)).
Proof. exact adam_not_linear. Qed.
Print Assumptions C133_train. Print Assumptions C133_predict. Print Assumptions C133_mae_refuted. Print Assumptions C133_adam_refuted.
(** Linear 2 -> 1 under SGD with momentum: twice the first model plus the second. *)
Example C133_ex : trainable (mx_state 1 0 (1/2) 1 4) mx_m (mx_es 1 0 (1/2)) mx_xs 2 1 MSE /\ data_ok (mx_state 1 0 (1/2) 1 4) (mx_es 1 0 (1/2)) mx_x [4;5]%nat mx_y [6;7]%nat 2 2 1 [[1;2];[3;-1]] [[1];[4]] /\
  trainable (mx_state (-1) 1 3 5 0) mx_m (mx_es (-1) 1 3) mx_xs 2 1 MSE /\ data_ok (mx_state (-1) 1 3 5 0) (mx_es (-1) 1 3) mx_x [4;5]%nat mx_y [6;7]%nat 2 2 1 [[1;2];[3;-1]] [[5];[0]] /\
  trainable (mx_state 1 1 4 7 8) mx_m (mx_es 1 1 4) mx_xs 2 1 MSE /\ data_ok (mx_state 1 1 4 7 8) (mx_es 1 1 4) mx_x [4;5]%nat mx_y [6;7]%nat 2 2 1 [[1;2];[3;-1]] [[7];[8]] /\
  mixed 2 1 2 1 [[1];[4]] [[5];[0]] [[7];[8]] /\ mixed_trainer 2 1 (trainer (mx_es 1 0 (1/2)) mx_xs) (trainer (mx_es (-1) 1 3) mx_xs) (trainer (mx_es 1 1 4) mx_xs).
Proof. exact mx_all. Qed.
