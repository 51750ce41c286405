(** A small loss bounds the errors a model makes. *)
From Coq Require Import String ZArith List Bool Arith Lia Reals Lra.
From Verif Require Import Num NumR Heap Spec Matrix Loss Network Optimizers ModelGo PureSpec Repr ModelSpec EvalEx LossAccSpec LossAcc LossAccEx.
Import ListNotations.
Open Scope R_scope.

(** C113: in exact arithmetic, a model that ends in softmax misclassifies at most the fraction loss / ln 2 of the
    samples; if the loss of [n] samples is below ln 2 / n it misclassifies none. *)
Theorem C113_categorical s (m : model RNum) es i o x rsx y rsy n (X Y : pm RNum) :
  consistent s m es i o -> (1 <= length es)%nat -> (Z.of_nat o <= 2 ^ 53)%Z -> own s x rsx n i X -> own s y rsy n o Y -> (1 <= n)%nat ->
  m_loss m = Some (MkLoss CE (Z.of_nat o)) -> m_acctype m = 1%Z -> ends_with SoftmaxK es -> classes n o Y ->
  exists a l s1 s2, CalculateAccuracy m x y s = (Ret a, s1) /\ CalculateLoss m x y s = (Ret l, s2) /\ (1 - a) * ln 2 <= l /\ (INR n * l < ln 2 -> a = 1).
Proof. exact (ce_code s m es i o x rsx y rsy n X Y). Qed.
Print Assumptions C113_categorical.

(** C113: the same fraction of the entries for sigmoid, 0-1 targets and the binary cross-entropy. *)
Theorem C113_binary s (m : model RNum) es i o x rsx y rsy n (X Y : pm RNum) :
  consistent s m es i o -> (1 <= length es)%nat -> (Z.of_nat o <= 2 ^ 53)%Z -> own s x rsx n i X -> own s y rsy n o Y -> (1 <= n)%nat ->
  m_loss m = Some (MkLoss BCE (Z.of_nat o)) -> m_acctype m = 2%Z -> ends_with SigmoidK es -> yes_no n o Y ->
  exists a l s1 s2, CalculateAccuracy m x y s = (Ret a, s1) /\ CalculateLoss m x y s = (Ret l, s2) /\ (1 - a) * ln 2 <= l.
Proof. exact (bce_code s m es i o x rsx y rsy n X Y). Qed.
Print Assumptions C113_binary.

(** C113: on one sample, entries that miss the target by the precision or more are at most the fraction
    loss / precision^2 (squared error) or loss / precision (absolute error). *)
Theorem C113_regression s (m : model RNum) es i o x rsx y rsy n (X Y : pm RNum) k :
  consistent s m es i o -> (1 <= length es)%nat -> (Z.of_nat o <= 2 ^ 53)%Z -> own s x rsx n i X -> own s y rsy n o Y -> (1 <= n)%nat ->
  k = MSE \/ k = MAE -> m_loss m = Some (MkLoss k (Z.of_nat o)) -> m_acctype m = 0%Z -> n = 1%nat -> 0 <= m_prec m ->
  exists a l s1 s2, CalculateAccuracy m x y s = (Ret a, s1) /\ CalculateLoss m x y s = (Ret l, s2) /\ (1 - a) * (match k with MSE => m_prec m ^ 2 | _ => m_prec m end) <= l.
Proof. exact (fun A B C D E F => near_code s m es i o x rsx y rsy n X Y A B C D E F k). Qed.
Print Assumptions C113_regression.

Example C113_ex : (consistent la_state (la_m CE 2 1 0) la_es2 1 2 /\ consistent la_state (la_m CE 3 1 1) la_es3 1 3 /\ consistent la_state (la_m BCE 1 2 2) la_es1 1 1) /\
  (own la_state la_x [7]%nat 1 1 [[1]] /\ own la_state la_y2 [8]%nat 1 2 [[0;1]] /\ own la_state la_y3 [9]%nat 1 3 [[1;0;0]] /\ own la_state la_y1 [10]%nat 1 1 [[1]]) /\
  (classes 1 2 [[0;1]] /\ classes 1 3 [[1;0;0]] /\ yes_no 1 1 [[1]]) /\ (ends_with SoftmaxK la_es2 /\ ends_with SoftmaxK la_es3 /\ ends_with SigmoidK la_es1) /\
  consistent ev_state (ev_m MSE) ev_es 1 1 /\ m_acctype (ev_m MSE) = 0%Z /\ m_prec (ev_m MSE) = 1 / 2.
Proof. exact (conj la_consistent (conj la_own (conj la_targets (conj la_kinds (conj (ev_consistent MSE) (conj eq_refl eq_refl)))))). Qed.

(** C113: the bound is reached by a classifier that has learnt nothing. *)
Theorem C113_sharp : exists (s : state RNum) m es x rx y ry X Y a l s1 s2, consistent s m es 1 2 /\ (1 <= length es)%nat /\ own s x rx 1 1 X /\ own s y ry 1 2 Y /\
  m_loss m = Some (MkLoss CE 2) /\ m_acctype m = 1%Z /\ ends_with SoftmaxK es /\ classes 1 2 Y /\
  CalculateAccuracy m x y s = (Ret a, s1) /\ CalculateLoss m x y s = (Ret l, s2) /\ a = 0 /\ l = ln 2.
Proof. exact la_sharp. Qed.
Print Assumptions C113_sharp.
(** C113: a perfect accuracy bounds nothing: the loss can exceed ln 2. *)
Theorem C113_converse_refuted : exists (s : state RNum) m es x rx y ry X Y a l s1 s2, consistent s m es 1 3 /\ (1 <= length es)%nat /\ own s x rx 1 1 X /\ own s y ry 1 3 Y /\
  m_loss m = Some (MkLoss CE 3) /\ m_acctype m = 1%Z /\ ends_with SoftmaxK es /\ classes 1 3 Y /\
  CalculateAccuracy m x y s = (Ret a, s1) /\ CalculateLoss m x y s = (Ret l, s2) /\ a = 1 /\ ln 2 < l.
Proof. exact la_converse. Qed.
Print Assumptions C113_converse_refuted.
(** C113: on two samples a squared error of 0 does not bound the errors. *)
Theorem C113_rows_refuted : exists (s : state RNum) m es x rx y ry X Y a l s1 s2, consistent s m es 1 1 /\ (1 <= length es)%nat /\ own s x rx 2 1 X /\ own s y ry 2 1 Y /\
  m_loss m = Some (MkLoss MSE 1) /\ m_acctype m = 0%Z /\ m_prec m = 1 / 2 /\
  CalculateAccuracy m x y s = (Ret a, s1) /\ CalculateLoss m x y s = (Ret l, s2) /\ a = 1 / 2 /\ l = 0.
Proof. exact la_rows. Qed.
Print Assumptions C113_rows_refuted.
