(** No model does better than the labels allow. *)
From Coq Require Import String ZArith List Bool Arith Lia Reals.
From Verif Require Import Num NumR Heap Spec Matrix Loss Network Optimizers ModelGo PureSpec Repr RSum ModelSpec EvalSpec LossAccSpec NoiseSpec Noise LossAccEx NoiseEx.
Import ListNotations.
Open Scope R_scope.

(** C115: in exact arithmetic the cross-entropy of a model that ends in softmax is at least the mean of - ln of the
    shares: the share of a sample is the fraction, among the samples with its input, of those that have its label. *)
Theorem C115_loss s (m : model RNum) es i o x rsx y rsy n (X Y : pm RNum) :
  consistent s m es i o -> (1 <= length es)%nat -> own s x rsx n i X -> own s y rsy n o Y -> (1 <= n)%nat -> classes n o Y ->
  m_loss m = Some (MkLoss CE (Z.of_nat o)) -> ends_with SoftmaxK es ->
  exists l s', CalculateLoss m x y s = (Ret l, s') /\ mean n (fun a => - ln (share n X Y a)) <= l.
Proof. exact (noise_loss s m es i o x rsx y rsy n X Y). Qed.
Print Assumptions C115_loss.

(** C115: the accuracy of any model is at most the mean of the largest shares. *)
Theorem C115_accuracy s (m : model RNum) es i o x rsx y rsy n (X Y : pm RNum) (B : nat -> R) :
  consistent s m es i o -> (1 <= length es)%nat -> own s x rsx n i X -> own s y rsy n o Y -> (1 <= n)%nat -> classes n o Y ->
  (Z.of_nat o <= 2 ^ 53)%Z -> m_acctype m = 1%Z ->
  (forall a b, (a < n)%nat -> (b < n)%nat -> nth a X [] = nth b X [] -> share n X Y b <= B a) ->
  exists v s', CalculateAccuracy m x y s = (Ret v, s') /\ v <= mean n B.
Proof. exact (fun A C D E F G => noise_accuracy s m es i o x rsx y rsy n X Y A C D E F G B). Qed.
Print Assumptions C115_accuracy.

Example C115_ex : consistent nz_state nz_m nz_es 1 2 /\ (own nz_state nz_x [3;3]%nat 2 1 nzX /\ own nz_state nz_y [4;5]%nat 2 2 nzY) /\ classes 2 2 nzY /\ (forall a, (a < 2)%nat -> share 2 nzX nzY a = 1 / 2).
Proof. exact (conj nz_consistent (conj nz_own (conj nz_classes nz_share))). Qed.

(** C115: both bounds are reached, by a classifier that has learnt nothing. *)
Theorem C115_sharp : exists (s : state RNum) m es x rx y ry X Y a l s1 s2, consistent s m es 1 2 /\ (1 <= length es)%nat /\ own s x rx 2 1 X /\ own s y ry 2 2 Y /\ classes 2 2 Y /\
  m_loss m = Some (MkLoss CE 2) /\ m_acctype m = 1%Z /\ ends_with SoftmaxK es /\ (forall b, (b < 2)%nat -> share 2 X Y b = 1 / 2) /\
  CalculateAccuracy m x y s = (Ret a, s1) /\ CalculateLoss m x y s = (Ret l, s2) /\ a = 1 / 2 /\ l = ln 2.
Proof. exact nz_sharp. Qed.
Print Assumptions C115_sharp.
