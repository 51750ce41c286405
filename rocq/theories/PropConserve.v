(** * PropConserve: sums that training with softmax layers does not change (C89), exact arithmetic. *)
From Coq Require Import String ZArith List Bool Arith Lia Reals.
From Verif Require Import Num NumR Heap Spec Matrix Loss Network Optimizers ModelGo PureSpec Repr RSum OptSpec ModelSpec Conserve ConserveProofs ConserveEx.
Import ListNotations.

(** C89: training by SGD, with or without momentum, changes neither the sum of the weights that leave an input of a softmax layer nor the
    sum of its biases.  The layer may be anywhere; if it is the last, the loss is not the binary cross-entropy, and for the cross-entropy
    exactly one label of each sample is 1 ([softmax_at]).  [balanced]: SGD, with no velocity left or none used. *)
Theorem C89_softmax s (m : model RNum) es xs i o k x rsx y rsy n X Y epochs bs xv yv l t :
  (0 <= bs)%Z -> (Z.of_nat n + bs <= 2 ^ 52)%Z -> (1 <= n)%nat ->
  trainable s m es xs i o k -> data_ok s es x rsx y rsy n i o X Y -> softmax_at k Y (trainer es xs) l t -> balanced t ->
  returns (Fit m x y epochs bs xv yv 0) s (fun _ s' => exists es' xs' t', trainable s' m es' xs' i o k /\ Forall2 same_place es es' /\
    softmax_at k Y (trainer es' xs') l t' /\ balanced t' /\ totals_kept (fst t) (fst t')).
Proof. exact (fit_total s m es xs i o k x rsx y rsy n X Y epochs bs xv yv l t). Qed.
(** Adam does change them. *)
Theorem C89_adam_refuted : exists (s : state RNum) m es xs x rsx y rsy n X Y t, trainable s m es xs 1 3 CE /\ data_ok s es x rsx y rsy n 1 3 X Y /\ (1 <= n)%nat /\
  nth_error (trainer es xs) 0 = Some t /\ p_kind (fst t) = SoftmaxK /\ po_kind (snd t) = Adam /\ length es = 1%nat /\ List.Forall (one_label 3) Y /\
  returns (Fit m x y 1 0 matrix0 matrix0 0) s (fun _ s' => exists es' xs' t', trainable s' m es' xs' 1 3 CE /\ Forall2 same_place es es' /\
    nth_error (trainer es' xs') 0 = Some t' /\ bias_total (fst t') <> bias_total (fst t)).
Proof. exact adam_total. Qed.
(** So does the cross-entropy with labels that are probabilities: the code looks for a 1 among the labels. *)
Theorem C89_soft_labels_refuted : exists (s : state RNum) m es xs x rsx y rsy n X Y t, trainable s m es xs 1 3 CE /\ data_ok s es x rsx y rsy n 1 3 X Y /\ (1 <= n)%nat /\
  nth_error (trainer es xs) 0 = Some t /\ p_kind (fst t) = SoftmaxK /\ balanced t /\ length es = 1%nat /\
  List.Forall (fun row : list R => rsum 3 (fun j => nth j row 0%R) = 1%R /\ List.Forall (fun v => (0 <= v)%R) row) Y /\
  returns (Fit m x y 1 0 matrix0 matrix0 0) s (fun _ s' => exists es' xs' t', trainable s' m es' xs' 1 3 CE /\ Forall2 same_place es es' /\
    nth_error (trainer es' xs') 0 = Some t' /\ bias_total (fst t') <> bias_total (fst t)).
Proof. exact soft_total. Qed.
Print Assumptions C89_softmax.
Print Assumptions C89_adam_refuted.
Print Assumptions C89_soft_labels_refuted.
(** A ReLU layer and a softmax layer with momentum, two samples. *)
Example C89_ex : trainable cv_state cv_m cv_es cv_xs 1 3 CE /\ data_ok cv_state cv_es cv_x [6;7]%nat cv_y [8;9]%nat 2 1 3 [[2];[3]]%R cv_Y /\
  softmax_at CE cv_Y (trainer cv_es cv_xs) 1 cv_t /\ balanced cv_t /\ po_usemom (snd cv_t) = true.
Proof. split; [exact cv_trainable|]. split; [exact cv_data|]. split; [exact (proj1 cv_softmax)|]. split; [exact (proj2 cv_softmax)|reflexivity]. Qed.
