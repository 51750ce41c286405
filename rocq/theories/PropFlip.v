(** * Property C135: turning the sign of the targets and of the last layer.

    [turned true x y]: [y == -x] in Go, or both are NaN; [turned false x y]: [y == x], or both are NaN.  [flipped t u]: networks of ReLU, leaky, dropout and
    linear layers that end in a linear layer, trained by SGD or Adam; they agree except that the weights, biases and velocities of the last layer are turned.
    For layers trained by Adam it includes [even_square]: math.Pow(x, 2) does not depend on the sign of x.  All in FlipSpec.v. *)
From Coq Require Import String ZArith List Bool Arith Lia.
From Flocq Require Import IEEE754.BinarySingleNaN IEEE754.Binary IEEE754.Bits.
From Verif Require Import Num NumR NumB64 Heap Spec Matrix Loss Network Optimizers ModelGo PureSpec Repr OptSpec ModelSpec FitProofs FitFacts B64Facts NanEx FlipSpec FlipNum Flip FlipEx FlipRelu.
Import ListNotations.
Open Scope Z_scope.

(** In float64, trained on the same samples with turned targets and the same random numbers, both networks finish Fit and are still equal up to the sign of
    the last layer: nothing is rounded differently, infinities and NaNs included.  For the squared and the absolute error, any momentum, decay and batch size. *)
Theorem C135_train (L : libm) s1 m1 es1 xs1 x1 rsx1 y1 rsy1 xv1 yv1 s2 m2 es2 xs2 x2 rsx2 y2 rsy2 xv2 yv2 i o k n (X Y Y' : pm (B64 L)) epochs bs :
  0 <= bs -> Z.of_nat n + bs <= 2 ^ 52 -> (1 <= n)%nat -> k = MSE \/ k = MAE ->
  trainable s1 m1 es1 xs1 i o k -> data_ok s1 es1 x1 rsx1 y1 rsy1 n i o X Y -> trainable s2 m2 es2 xs2 i o k -> data_ok s2 es2 x2 rsx2 y2 rsy2 n i o X Y' ->
  mturned true n o Y Y' -> flipped (trainer es1 xs1) (trainer es2 xs2) -> r_uni (h_rng s2) = r_uni (h_rng s1) -> r_upos (h_rng s2) = r_upos (h_rng s1) ->
  exists s1' s2' es1' xs1' es2' xs2', Fit m1 x1 y1 epochs bs xv1 yv1 0 s1 = (Ret tt, s1') /\ Fit m2 x2 y2 epochs bs xv2 yv2 0 s2 = (Ret tt, s2') /\
    trainable s1' m1 es1' xs1' i o k /\ Forall2 same_place es1 es1' /\ trainable s2' m2 es2' xs2' i o k /\ Forall2 same_place es2 es2' /\ flipped (trainer es1' xs1') (trainer es2' xs2').
Proof. exact (fit_flipped (B64_flip L) (B64_min_faithful L) s1 m1 es1 xs1 x1 rsx1 y1 rsy1 xv1 yv1 s2 m2 es2 xs2 x2 rsx2 y2 rsy2 xv2 yv2 i o k n X Y Y' epochs bs). Qed.
(** Their predictions are turned. *)
Theorem C135_predict (L : libm) s1 m1 es1 xs1 x1 rsx1 s2 m2 es2 xs2 x2 rsx2 i o k r (X : pm (B64 L)) :
  trainable s1 m1 es1 xs1 i o k -> trainable s2 m2 es2 xs2 i o k -> flipped (trainer es1 xs1) (trainer es2 xs2) ->
  m_acctype m1 = 0 -> m_acctype m2 = 0 -> (1 <= r)%nat -> own s1 x1 rsx1 r i X -> own s2 x2 rsx2 r i X ->
  exists P1 P2 s1' s2' rs1 rs2 A B, Predict m1 x1 s1 = (Ret P1, s1') /\ Predict m2 x2 s2 = (Ret P2, s2') /\ own s1' P1 rs1 r o A /\ own s2' P2 rs2 r o B /\ mturned true r o A B.
Proof. exact (predict_flipped (B64_flip L) s1 m1 es1 xs1 x1 rsx1 s2 m2 es2 xs2 x2 rsx2 i o k r X). Qed.
(** The same in exact arithmetic. *)
Theorem C135_train_exact s1 m1 es1 xs1 x1 rsx1 y1 rsy1 xv1 yv1 s2 m2 es2 xs2 x2 rsx2 y2 rsy2 xv2 yv2 i o k n (X Y Y' : pm RNum) epochs bs :
  0 <= bs -> Z.of_nat n + bs <= 2 ^ 52 -> (1 <= n)%nat -> k = MSE \/ k = MAE ->
  trainable s1 m1 es1 xs1 i o k -> data_ok s1 es1 x1 rsx1 y1 rsy1 n i o X Y -> trainable s2 m2 es2 xs2 i o k -> data_ok s2 es2 x2 rsx2 y2 rsy2 n i o X Y' ->
  mturned true n o Y Y' -> flipped (trainer es1 xs1) (trainer es2 xs2) -> r_uni (h_rng s2) = r_uni (h_rng s1) -> r_upos (h_rng s2) = r_upos (h_rng s1) ->
  exists s1' s2' es1' xs1' es2' xs2', Fit m1 x1 y1 epochs bs xv1 yv1 0 s1 = (Ret tt, s1') /\ Fit m2 x2 y2 epochs bs xv2 yv2 0 s2 = (Ret tt, s2') /\
    trainable s1' m1 es1' xs1' i o k /\ Forall2 same_place es1 es1' /\ trainable s2' m2 es2' xs2' i o k /\ Forall2 same_place es2 es2' /\ flipped (trainer es1' xs1') (trainer es2' xs2').
Proof. exact (fit_flipped RNum_flip RNum_min_faithful s1 m1 es1 xs1 x1 rsx1 y1 rsy1 xv1 yv1 s2 m2 es2 xs2 x2 rsx2 y2 rsy2 xv2 yv2 i o k n X Y Y' epochs bs). Qed.
Theorem C135_predict_exact s1 m1 es1 xs1 x1 rsx1 s2 m2 es2 xs2 x2 rsx2 i o k r (X : pm RNum) :
  trainable s1 m1 es1 xs1 i o k -> trainable s2 m2 es2 xs2 i o k -> flipped (trainer es1 xs1) (trainer es2 xs2) ->
  m_acctype m1 = 0 -> m_acctype m2 = 0 -> (1 <= r)%nat -> own s1 x1 rsx1 r i X -> own s2 x2 rsx2 r i X ->
  exists P1 P2 s1' s2' rs1 rs2 A B, Predict m1 x1 s1 = (Ret P1, s1') /\ Predict m2 x2 s2 = (Ret P2, s2') /\ own s1' P1 rs1 r o A /\ own s2' P2 rs2 r o B /\ mturned true r o A B.
Proof. exact (predict_flipped RNum_flip s1 m1 es1 xs1 x1 rsx1 s2 m2 es2 xs2 x2 rsx2 i o k r X). Qed.
(** With a ReLU last layer this fails: one unit with weight 0 and bias 1 predicts 1, and with bias -1 it predicts 0. *)
Theorem C135_relu_refuted : exists (s1 s2 : state RNum) m es1 es2 xs x rsx X t u, trainable s1 m es1 xs 1 1 MSE /\ trainable s2 m es2 xs 1 1 MSE /\ own s1 x rsx 1 1 X /\ own s2 x rsx 1 1 X /\
  trainer es1 xs = [t] /\ trainer es2 xs = [u] /\ p_kind (fst t) = Hidden /\ tturned true t u /\
  returns (Predict m x) s1 (fun P1 s1' => returns (Predict m x) s2 (fun P2 s2' => exists rs1 rs2 A B, own s1' P1 rs1 1 1 A /\ own s2' P2 rs2 1 1 B /\ ~ mturned true 1 1 A B)).
Proof. exact relu_not_turned. Qed.
Print Assumptions C135_train. Print Assumptions C135_predict. Print Assumptions C135_train_exact. Print Assumptions C135_predict_exact. Print Assumptions C135_relu_refuted.
(** ReLU 2 -> 2 and linear 2 -> 1 in float64. *)
Example C135_ex : trainable (fl_state nx_lib 2 (-1) 3 5 0) (fl_m nx_lib) (fl_es nx_lib 2 (-1) 3) (fl_xs nx_lib) 2 1 MSE /\
  data_ok (fl_state nx_lib 2 (-1) 3 5 0) (fl_es nx_lib 2 (-1) 3) fl_x [7;8]%nat fl_y [9;10]%nat 2 2 1 (flX nx_lib) (flY nx_lib 5 0) /\
  trainable (fl_state nx_lib (-2) 1 (-3) (-5) 0) (fl_m nx_lib) (fl_es nx_lib (-2) 1 (-3)) (fl_xs nx_lib) 2 1 MSE /\
  data_ok (fl_state nx_lib (-2) 1 (-3) (-5) 0) (fl_es nx_lib (-2) 1 (-3)) fl_x [7;8]%nat fl_y [9;10]%nat 2 2 1 (flX nx_lib) (flY nx_lib (-5) 0) /\
  mturned true 2 1 (flY nx_lib 5 0) (flY nx_lib (-5) 0) /\ flipped (trainer (fl_es nx_lib 2 (-1) 3) (fl_xs nx_lib)) (trainer (fl_es nx_lib (-2) 1 (-3)) (fl_xs nx_lib)).
Proof. exact (fl_all nx_lib). Qed.
(** The condition on math.Pow holds for real numbers and for a float64 library that squares by multiplication. *)
Example C135_ex_even : even_square (K := RNum) /\ even_square (K := B64 sq_lib).
Proof. exact (conj RNum_even sq_even). Qed.
