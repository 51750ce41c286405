(** Gradient descent on the cross-entropy separates exactly the data that can be separated. *)
From Coq Require Import ZArith List Bool Arith Lia Reals.
From Verif Require Import Num NumR Heap Spec Matrix Loss Network Optimizers ModelGo PureSpec Repr RSum OptSpec ModelSpec NetGradSpec Converge ConvergeEx LossAccSpec SepSpec Sep SepEx.
Import ListNotations.
Open Scope R_scope.

(** C119: in exact arithmetic, training a softmax layer on the cross-entropy with full batches and a small enough rate classifies all
    training samples correctly from some epoch on if and only if the classes are linearly separable. *)
Theorem C119_exactly s m e x i o mx rsx y rsy n X Y bs xv yv lr :
  (bs = 0 \/ Z.of_nat n <= bs)%Z -> (Z.of_nat n + bs <= 2 ^ 52)%Z -> (1 <= n)%nat -> (Z.of_nat o <= 2 ^ 53)%Z ->
  trainable s m [e] [x] i o CE -> data_ok s [e] mx rsx y rsy n i o X Y -> p_kind (e_p e) = SoftmaxK -> classes n o Y -> plain_sgd lr (x_po x) -> 0 < lr ->
  lr * (1 / INR n) * (sqnorm n i X + INR n) <= 1 -> m_acctype m = 1%Z ->
  separable n i o X Y <-> exists T, forall epochs, (T <= epochs)%Z -> perfect_after s m mx y epochs bs xv yv.
Proof. exact (perfect_iff s m e x i o mx rsx y rsy n X Y bs xv yv lr). Qed.
Print Assumptions C119_exactly.

(** C119: how fast: the loss after training, for every separating layer and every factor [g] by which it may be scaled. *)
Theorem C119_speed s m e x i o mx rsx y rsy n X Y bs xv yv lr epochs W B g :
  (bs = 0 \/ Z.of_nat n <= bs)%Z -> (Z.of_nat n + bs <= 2 ^ 52)%Z -> (1 <= n)%nat -> (Z.of_nat o <= 2 ^ 53)%Z ->
  trainable s m [e] [x] i o CE -> data_ok s [e] mx rsx y rsy n i o X Y -> p_kind (e_p e) = SoftmaxK -> classes n o Y -> plain_sgd lr (x_po x) -> 0 < lr ->
  lr * (1 / INR n) * (sqnorm n i X + INR n) <= 1 -> m_acctype m = 1%Z -> (1 <= epochs)%Z -> separates n i o X Y W B -> 0 <= g ->
  exists s' a l s1 s2, Fit m mx y epochs bs xv yv 0 s = (Ret tt, s') /\ CalculateAccuracy m mx y s' = (Ret a, s1) /\ CalculateLoss m mx y s' = (Ret l, s2) /\ 0 <= l /\ (INR n * l < ln 2 -> a = 1) /\
    l <= INR o * exp (- g) + (sqdist i o (p_w (e_p e)) (scaled i o g W) + sqdist 1 o (p_b (e_p e)) (scaled 1 o g B)) / (2 * lr * IZR epochs).
Proof. exact (fun H1 H2 H3 H4 H5 H6 H7 H8 H9 H10 H11 H12 => after s m e x i o mx rsx y rsy n X Y bs xv yv lr H1 H2 H3 H4 H5 H6 H7 H8 H9 H10 H11 H12 epochs W B g). Qed.
Print Assumptions C119_speed.

(** C119: the loss goes to 0 ... *)
Theorem C119_loss s m e x i o mx rsx y rsy n X Y bs xv yv lr eps :
  (bs = 0 \/ Z.of_nat n <= bs)%Z -> (Z.of_nat n + bs <= 2 ^ 52)%Z -> (1 <= n)%nat -> (Z.of_nat o <= 2 ^ 53)%Z ->
  trainable s m [e] [x] i o CE -> data_ok s [e] mx rsx y rsy n i o X Y -> p_kind (e_p e) = SoftmaxK -> classes n o Y -> plain_sgd lr (x_po x) -> 0 < lr ->
  lr * (1 / INR n) * (sqnorm n i X + INR n) <= 1 -> m_acctype m = 1%Z -> separable n i o X Y -> 0 < eps ->
  exists T, forall epochs, (T <= epochs)%Z -> exists s' l s'', Fit m mx y epochs bs xv yv 0 s = (Ret tt, s') /\ CalculateLoss m mx y s' = (Ret l, s'') /\ 0 <= l < eps.
Proof. exact (fun H1 H2 H3 H4 H5 H6 H7 H8 H9 H10 H11 H12 => sep_loss_to_0 s m e x i o mx rsx y rsy n X Y bs xv yv lr H1 H2 H3 H4 H5 H6 H7 H8 H9 H10 H11 H12 eps). Qed.
Print Assumptions C119_loss.

(** C119: ... but no model that ends in softmax ever has the loss 0. *)
Theorem C119_positive (s : state RNum) m es i o x rsx y rsy n X Y : consistent s m es i o -> (1 <= length es)%nat -> own s x rsx n i X -> own s y rsy n o Y -> (1 <= n)%nat -> (2 <= o)%nat ->
  m_loss m = Some (MkLoss CE (Z.of_nat o)) -> ends_with SoftmaxK es -> classes n o Y -> exists l s', CalculateLoss m x y s = (Ret l, s') /\ 0 < l.
Proof. exact (loss_positive s m es i o x rsx y rsy n X Y). Qed.
Print Assumptions C119_positive.

(** C119: whatever the training: a single softmax layer with accuracy 1 shows that the classes are separable. *)
Theorem C119_only_if (s : state RNum) m e i o x rsx y rsy n X Y s' : consistent s m [e] i o -> (Z.of_nat o <= 2 ^ 53)%Z -> own s x rsx n i X -> own s y rsy n o Y -> (1 <= n)%nat ->
  m_acctype m = 1%Z -> p_kind (e_p e) = SoftmaxK -> classes n o Y -> CalculateAccuracy m x y s = (Ret 1, s') -> separable n i o X Y.
Proof. exact (accurate_sep s m e i o x rsx y rsy n X Y s'). Qed.
Print Assumptions C119_only_if.

(** Two separable samples; the exclusive or is not separable. *)
Example C119_ex : trainable (cv_state (2/7)) sep_m [cv_e2] [cv_xo (2/7) 2] 2 2 CE /\ data_ok (cv_state (2/7)) [cv_e2] cv_x [4;5]%nat cv_y2 [11;12]%nat 2 2 2 cvX cvY2 /\
  p_kind (e_p cv_e2) = SoftmaxK /\ classes 2 2 cvY2 /\ plain_sgd (2/7) (x_po (cv_xo (2/7) 2)) /\ 2 / 7 * (1 / INR 2) * (sqnorm 2 2 cvX + INR 2) <= 1 /\ m_acctype sep_m = 1%Z /\
  separable 2 2 2 cvX cvY2 /\ ~ separable 4 2 2 [[0;0];[0;1];[1;0];[1;1]] [[1;0];[0;1];[0;1];[1;0]].
Proof. exact (conj (sep_trainable _) (conj (cv_data2 _) (conj eq_refl (conj sep_classes (conj (conj eq_refl (conj eq_refl (conj eq_refl eq_refl))) (conj cv_rate2 (conj eq_refl (conj sep_sep sep_not)))))))). Qed.
