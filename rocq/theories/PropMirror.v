(** * Property C136: turning the sign of input features.

    [cturned g r c A B]: column [j] of [B] is that of [A] with the sign turned when [g j] is true, and the same otherwise (in the sense of Go's [==], or both
    NaN).  [mirrored g t u]: networks of ReLU, leaky, dropout and linear layers, trained by SGD or Adam, that agree except that the first-layer weights (and
    velocities) of the inputs [j] with [g j] are turned.  Both in MirrorSpec.v; for Adam it includes [even_square] (FlipSpec.v).
    [gives a s z] (MirrorScale.v): run from [s], [a] returns a float64 that is [==] to [z]. *)
From Coq Require Import String ZArith List Bool Arith Lia.
From Flocq Require Import IEEE754.BinarySingleNaN IEEE754.Binary IEEE754.Bits.
From Verif Require Import Num NumR NumB64 Heap Spec Matrix Loss Network Optimizers ModelGo PureSpec Repr OptSpec ModelSpec FitProofs FitFacts B64Facts NanEx FlipSpec FlipNum FlipEx CodecEx MirrorSpec Mirror MirrorEx MirrorScale.
Import ListNotations.
Open Scope Z_scope.
Open Scope go_scope.

(** In float64: trained on samples whose features [j] with [g j] have the opposite sign, and with the same random numbers, the two networks finish Fit and
    still differ only in the sign of the weights of these features.  For the squared and the absolute error, any momentum, decay and batch size. *)
Theorem C136_train (L : libm) s1 m1 es1 xs1 x1 rsx1 y1 rsy1 xv1 yv1 s2 m2 es2 xs2 x2 rsx2 y2 rsy2 xv2 yv2 g i o k n (X X' Y : pm (B64 L)) epochs bs :
  0 <= bs -> Z.of_nat n + bs <= 2 ^ 52 -> (1 <= n)%nat -> k = MSE \/ k = MAE ->
  trainable s1 m1 es1 xs1 i o k -> data_ok s1 es1 x1 rsx1 y1 rsy1 n i o X Y -> trainable s2 m2 es2 xs2 i o k -> data_ok s2 es2 x2 rsx2 y2 rsy2 n i o X' Y ->
  cturned g n i X X' -> mirrored g (trainer es1 xs1) (trainer es2 xs2) -> r_uni (h_rng s2) = r_uni (h_rng s1) -> r_upos (h_rng s2) = r_upos (h_rng s1) ->
  exists s1' s2' es1' xs1' es2' xs2', Fit m1 x1 y1 epochs bs xv1 yv1 0 s1 = (Ret tt, s1') /\ Fit m2 x2 y2 epochs bs xv2 yv2 0 s2 = (Ret tt, s2') /\
    trainable s1' m1 es1' xs1' i o k /\ Forall2 same_place es1 es1' /\ trainable s2' m2 es2' xs2' i o k /\ Forall2 same_place es2 es2' /\ mirrored g (trainer es1' xs1') (trainer es2' xs2').
Proof. exact (fit_mirrored (B64_flip L) (B64_min_faithful L) s1 m1 es1 xs1 x1 rsx1 y1 rsy1 xv1 yv1 s2 m2 es2 xs2 x2 rsx2 y2 rsy2 xv2 yv2 g i o k n X X' Y epochs bs). Qed.
(** Such networks predict the same for inputs that differ in these signs: numbers (accuracy type 0), classes (type 1) and bits (type 2). *)
Theorem C136_predict (L : libm) s1 m1 es1 xs1 x1 rsx1 s2 m2 es2 xs2 x2 rsx2 g i o k r (X X' : pm (B64 L)) :
  trainable s1 m1 es1 xs1 i o k -> trainable s2 m2 es2 xs2 i o k -> mirrored g (trainer es1 xs1) (trainer es2 xs2) ->
  0 <= m_acctype m1 <= 2 -> m_acctype m2 = m_acctype m1 -> (1 <= r)%nat -> own s1 x1 rsx1 r i X -> own s2 x2 rsx2 r i X' -> cturned g r i X X' ->
  exists P1 P2 s1' s2' rs1 rs2 A B, let c := if m_acctype m1 =? 1 then 1%nat else o in
    Predict m1 x1 s1 = (Ret P1, s1') /\ Predict m2 x2 s2 = (Ret P2, s2') /\ own s1' P1 rs1 r c A /\ own s2' P2 rs2 r c B /\ mturned false r c A B.
Proof. exact (predict_mirrored (B64_flip L) s1 m1 es1 xs1 x1 rsx1 s2 m2 es2 xs2 x2 rsx2 g i o k r X X'). Qed.
(** In exact arithmetic, too, also with Adam (which does not respect other rotations of the inputs, C125). *)
Theorem C136_train_exact s1 m1 es1 xs1 x1 rsx1 y1 rsy1 xv1 yv1 s2 m2 es2 xs2 x2 rsx2 y2 rsy2 xv2 yv2 g i o k n (X X' Y : pm RNum) epochs bs :
  0 <= bs -> Z.of_nat n + bs <= 2 ^ 52 -> (1 <= n)%nat -> k = MSE \/ k = MAE ->
  trainable s1 m1 es1 xs1 i o k -> data_ok s1 es1 x1 rsx1 y1 rsy1 n i o X Y -> trainable s2 m2 es2 xs2 i o k -> data_ok s2 es2 x2 rsx2 y2 rsy2 n i o X' Y ->
  cturned g n i X X' -> mirrored g (trainer es1 xs1) (trainer es2 xs2) -> r_uni (h_rng s2) = r_uni (h_rng s1) -> r_upos (h_rng s2) = r_upos (h_rng s1) ->
  exists s1' s2' es1' xs1' es2' xs2', Fit m1 x1 y1 epochs bs xv1 yv1 0 s1 = (Ret tt, s1') /\ Fit m2 x2 y2 epochs bs xv2 yv2 0 s2 = (Ret tt, s2') /\
    trainable s1' m1 es1' xs1' i o k /\ Forall2 same_place es1 es1' /\ trainable s2' m2 es2' xs2' i o k /\ Forall2 same_place es2 es2' /\ mirrored g (trainer es1' xs1') (trainer es2' xs2').
Proof. exact (fit_mirrored RNum_flip RNum_min_faithful s1 m1 es1 xs1 x1 rsx1 y1 rsy1 xv1 yv1 s2 m2 es2 xs2 x2 rsx2 y2 rsy2 xv2 yv2 g i o k n X X' Y epochs bs). Qed.
Theorem C136_predict_exact s1 m1 es1 xs1 x1 rsx1 s2 m2 es2 xs2 x2 rsx2 g i o k r (X X' : pm RNum) :
  trainable s1 m1 es1 xs1 i o k -> trainable s2 m2 es2 xs2 i o k -> mirrored g (trainer es1 xs1) (trainer es2 xs2) ->
  0 <= m_acctype m1 <= 2 -> m_acctype m2 = m_acctype m1 -> (1 <= r)%nat -> own s1 x1 rsx1 r i X -> own s2 x2 rsx2 r i X' -> cturned g r i X X' ->
  exists P1 P2 s1' s2' rs1 rs2 A B, let c := if m_acctype m1 =? 1 then 1%nat else o in
    Predict m1 x1 s1 = (Ret P1, s1') /\ Predict m2 x2 s2 = (Ret P2, s2') /\ own s1' P1 rs1 r c A /\ own s2' P2 rs2 r c B /\ mturned false r c A B.
Proof. exact (predict_mirrored RNum_flip s1 m1 es1 xs1 x1 rsx1 s2 m2 es2 xs2 x2 rsx2 g i o k r X X'). Qed.
(** Rescaling is different: with the feature doubled and its weight halved the predictions agree before training (2 and 2) but not after one step (4 and 7). *)
Theorem C136_scale_refuted : exists (s1 s2 : state (B64 nx_lib)) m es1 es2 xs x y p q, trainable s1 m es1 xs 1 1 MSE /\ trainable s2 m es2 xs 1 1 MSE /\
  data_ok s1 es1 x [3]%nat y [4]%nat 1 1 1 [[bz 1]] [[bz 3]] /\ data_ok s2 es2 x [3]%nat y [4]%nat 1 1 1 [[bz 2]] [[bz 3]] /\
  net es1 = [p] /\ net es2 = [q] /\ p_kind p = Linear /\ p_kind q = Linear /\ p_w p = [[bz 2]] /\ p_w q = [[bz 1]] /\ p_b p = p_b q /\
  gives (P <- Predict m x ;; getc P 0 0) s1 2 /\ gives (P <- Predict m x ;; getc P 0 0) s2 2 /\
  gives (Fit m x y 1 1 matrix0 matrix0 0 ;; P <- Predict m x ;; getc P 0 0) s1 4 /\ gives (Fit m x y 1 1 matrix0 matrix0 0 ;; P <- Predict m x ;; getc P 0 0) s2 7.
Proof. exact scale_differs. Qed.
(** Nor can a feature be shifted: with 1 added to it, and the weight 2 taken off the bias, the predictions agree before training (2 and 2) but not after one step (4 and 7). *)
Theorem C136_shift_refuted : exists (s1 s2 : state (B64 nx_lib)) m es1 es2 xs x y p q, trainable s1 m es1 xs 1 1 MSE /\ trainable s2 m es2 xs 1 1 MSE /\
  data_ok s1 es1 x [3]%nat y [4]%nat 1 1 1 [[bz 1]] [[bz 3]] /\ data_ok s2 es2 x [3]%nat y [4]%nat 1 1 1 [[bz 2]] [[bz 3]] /\
  net es1 = [p] /\ net es2 = [q] /\ p_kind p = Linear /\ p_kind q = Linear /\ p_w p = [[bz 2]] /\ p_w q = [[bz 2]] /\ p_b p = [[bz 0]] /\ p_b q = [[bz (-2)]] /\
  gives (P <- Predict m x ;; getc P 0 0) s1 2 /\ gives (P <- Predict m x ;; getc P 0 0) s2 2 /\
  gives (Fit m x y 1 1 matrix0 matrix0 0 ;; P <- Predict m x ;; getc P 0 0) s1 4 /\ gives (Fit m x y 1 1 matrix0 matrix0 0 ;; P <- Predict m x ;; getc P 0 0) s2 7.
Proof. exact shift_differs. Qed.
Print Assumptions C136_train. Print Assumptions C136_predict. Print Assumptions C136_train_exact. Print Assumptions C136_predict_exact. Print Assumptions C136_scale_refuted. Print Assumptions C136_shift_refuted.
(** ReLU 2 -> 2 and linear 2 -> 1 in float64, the first of two features turned. *)
Example C136_ex : trainable (mi_state nx_lib 1) (fl_m nx_lib) (mi_es nx_lib 1) (fl_xs nx_lib) 2 1 MSE /\ data_ok (mi_state nx_lib 1) (mi_es nx_lib 1) fl_x [7;8]%nat fl_y [9;10]%nat 2 2 1 (miX nx_lib 1) (flY nx_lib 5 0) /\
  trainable (mi_state nx_lib (-1)) (fl_m nx_lib) (mi_es nx_lib (-1)) (fl_xs nx_lib) 2 1 MSE /\ data_ok (mi_state nx_lib (-1)) (mi_es nx_lib (-1)) fl_x [7;8]%nat fl_y [9;10]%nat 2 2 1 (miX nx_lib (-1)) (flY nx_lib 5 0) /\
  cturned (Nat.eqb 0) 2 2 (miX nx_lib 1) (miX nx_lib (-1)) /\ mirrored (Nat.eqb 0) (trainer (mi_es nx_lib 1) (fl_xs nx_lib)) (trainer (mi_es nx_lib (-1)) (fl_xs nx_lib)).
Proof. exact (mi_all nx_lib). Qed.
