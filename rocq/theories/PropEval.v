(** Evaluating a data set sample by sample, in parts and in another order. *)
From Coq Require Import String ZArith List Bool Arith Lia Reals Lra Permutation.
From Verif Require Import Num NumR Heap Spec Matrix Loss Network Optimizers ModelGo PureSpec Repr RSum ModelSpec EvalSpec EvalParts EvalEx.
Import ListNotations.
Open Scope R_scope.

(** C112: in exact arithmetic the accuracy of a model on a data set is the mean of its accuracies on the samples. *)
Theorem C112_accuracy s (m : model RNum) es i o x rsx y rsy n (X Y : pm RNum) xf rx yf ry :
  consistent s m es i o -> (1 <= length es)%nat -> (Z.of_nat o <= 2 ^ 53)%Z -> (m_acctype m = 0 \/ m_acctype m = 1 \/ m_acctype m = 2)%Z ->
  own s x rsx n i X -> own s y rsy n o Y -> (1 <= n)%nat -> singles s xf rx n i X -> singles s yf ry n o Y ->
  exists v s' vf, CalculateAccuracy m x y s = (Ret v, s') /\ measured (fun a => CalculateAccuracy m (xf a) (yf a)) s n vf /\ v = mean n vf.
Proof. exact (fun A B => eval_accuracy s m es i o A B x rsx y rsy n X Y xf rx yf ry). Qed.
Print Assumptions C112_accuracy.

(** C112: the cross-entropies of a data set are the means over its samples; the squared and the absolute error of
    a data set are those of its first sample. *)
Theorem C112_loss s (m : model RNum) es i o k x rsx y rsy n (X Y : pm RNum) xf rx yf ry :
  consistent s m es i o -> (1 <= length es)%nat -> m_loss m = Some (MkLoss k (Z.of_nat o)) ->
  own s x rsx n i X -> own s y rsy n o Y -> (1 <= n)%nat -> singles s xf rx n i X -> singles s yf ry n o Y ->
  exists v s' vf, CalculateLoss m x y s = (Ret v, s') /\ measured (fun a => CalculateLoss m (xf a) (yf a)) s n vf /\
    v = match k with CE | BCE => mean n vf | MSE | MAE => vf 0%nat end.
Proof. exact (fun A B => eval_loss s m es i o A B k x rsx y rsy n X Y xf rx yf ry). Qed.
Print Assumptions C112_loss.

Example C112_ex : consistent ev_state (ev_m CE) ev_es 1 1 /\ consistent ev_state (ev_m MSE) ev_es 1 1 /\
  (own ev_state ev_x [3;5]%nat 2 1 [[1]; [2]] /\ own ev_state ev_y [4;6]%nat 2 1 [[-1]; [0]] /\ own ev_state ev_x' [5;3]%nat 2 1 [[2]; [1]] /\ own ev_state ev_y' [6;4]%nat 2 1 [[0]; [-1]]) /\
  (singles ev_state ev_xf (fun a => [3 + 2 * a]%nat) 2 1 [[1]; [2]] /\ singles ev_state ev_yf (fun a => [4 + 2 * a]%nat) 2 1 [[-1]; [0]]).
Proof. exact (conj (ev_consistent CE) (conj (ev_consistent MSE) (conj ev_own ev_singles))). Qed.

(** C112: evaluated in two parts, accuracies and cross-entropies are combined with the numbers of samples as
    weights; the squared and the absolute error ignore the second part. *)
Theorem C112_accuracy_parts s (m : model RNum) es i o x x1 x2 y y1 y2 rx rx1 rx2 ry ry1 ry2 n1 n2 (X1 X2 Y1 Y2 : pm RNum) :
  consistent s m es i o -> (1 <= length es)%nat -> (1 <= n1)%nat -> (1 <= n2)%nat ->
  own s x rx (n1 + n2) i (X1 ++ X2) -> own s y ry (n1 + n2) o (Y1 ++ Y2) -> own s x1 rx1 n1 i X1 -> own s y1 ry1 n1 o Y1 -> own s x2 rx2 n2 i X2 -> own s y2 ry2 n2 o Y2 ->
  (Z.of_nat o <= 2 ^ 53)%Z -> (m_acctype m = 0 \/ m_acctype m = 1 \/ m_acctype m = 2)%Z -> exists v v1 v2 s' s1 s2,
  CalculateAccuracy m x y s = (Ret v, s') /\ CalculateAccuracy m x1 y1 s = (Ret v1, s1) /\ CalculateAccuracy m x2 y2 s = (Ret v2, s2) /\
  v = (INR n1 * v1 + INR n2 * v2) / (INR n1 + INR n2).
Proof. exact (fun A B => parts_accuracy s m es i o A B x x1 x2 y y1 y2 rx rx1 rx2 ry ry1 ry2 n1 n2 X1 X2 Y1 Y2). Qed.
Print Assumptions C112_accuracy_parts.
Theorem C112_loss_parts s (m : model RNum) es i o x x1 x2 y y1 y2 rx rx1 rx2 ry ry1 ry2 n1 n2 (X1 X2 Y1 Y2 : pm RNum) k :
  consistent s m es i o -> (1 <= length es)%nat -> (1 <= n1)%nat -> (1 <= n2)%nat ->
  own s x rx (n1 + n2) i (X1 ++ X2) -> own s y ry (n1 + n2) o (Y1 ++ Y2) -> own s x1 rx1 n1 i X1 -> own s y1 ry1 n1 o Y1 -> own s x2 rx2 n2 i X2 -> own s y2 ry2 n2 o Y2 ->
  m_loss m = Some (MkLoss k (Z.of_nat o)) -> exists v v1 v2 s' s1 s2,
  CalculateLoss m x y s = (Ret v, s') /\ CalculateLoss m x1 y1 s = (Ret v1, s1) /\ CalculateLoss m x2 y2 s = (Ret v2, s2) /\
  v = match k with CE | BCE => (INR n1 * v1 + INR n2 * v2) / (INR n1 + INR n2) | MSE | MAE => v1 end.
Proof. exact (fun A B C D E F G H I J => parts_loss s m es i o A B x x1 x2 y y1 y2 rx rx1 rx2 ry ry1 ry2 n1 n2 X1 X2 Y1 Y2 C D E F G H I J k). Qed.
Print Assumptions C112_loss_parts.

Example C112_parts_ex : own ev_state ev_x [3;5]%nat (1 + 1) 1 ([[1]] ++ [[2]]) /\ own ev_state (ev_xf 0) [3]%nat 1 1 [[1]] /\ own ev_state (ev_xf 1) [5]%nat 1 1 [[2]] /\
  own ev_state ev_y [4;6]%nat (1 + 1) 1 ([[-1]] ++ [[0]]) /\ own ev_state (ev_yf 0) [4]%nat 1 1 [[-1]] /\ own ev_state (ev_yf 1) [6]%nat 1 1 [[0]].
Proof. exact ev_parts. Qed.

(** C112: accuracies and cross-entropies do not depend on the order of the samples. *)
Theorem C112_accuracy_order s (m : model RNum) es i o x rx y ry x' rx' y' ry' n (X Y X' Y' : pm RNum) :
  consistent s m es i o -> (1 <= length es)%nat -> (Z.of_nat o <= 2 ^ 53)%Z -> (m_acctype m = 0 \/ m_acctype m = 1 \/ m_acctype m = 2)%Z -> (1 <= n)%nat ->
  own s x rx n i X -> own s y ry n o Y -> own s x' rx' n i X' -> own s y' ry' n o Y' -> Permutation (combine X Y) (combine X' Y') ->
  exists v s1 s2, CalculateAccuracy m x y s = (Ret v, s1) /\ CalculateAccuracy m x' y' s = (Ret v, s2).
Proof. exact (fun A B => order_accuracy s m es i o A B x rx y ry x' rx' y' ry' n X Y X' Y'). Qed.
Print Assumptions C112_accuracy_order.
Theorem C112_loss_order s (m : model RNum) es i o k x rx y ry x' rx' y' ry' n (X Y X' Y' : pm RNum) :
  consistent s m es i o -> (1 <= length es)%nat -> k = CE \/ k = BCE -> m_loss m = Some (MkLoss k (Z.of_nat o)) -> (1 <= n)%nat ->
  own s x rx n i X -> own s y ry n o Y -> own s x' rx' n i X' -> own s y' ry' n o Y' -> Permutation (combine X Y) (combine X' Y') ->
  exists v s1 s2, CalculateLoss m x y s = (Ret v, s1) /\ CalculateLoss m x' y' s = (Ret v, s2).
Proof. exact (fun A B => order_loss s m es i o A B k x rx y ry x' rx' y' ry' n X Y X' Y'). Qed.
Print Assumptions C112_loss_order.

(** C112: the squared error does. *)
Theorem C112_order_refuted : exists (s : state RNum) m es x rx y ry x' rx' y' ry' X Y X' Y' v v' s1 s2, consistent s m es 1 1 /\ (1 <= length es)%nat /\ m_loss m = Some (MkLoss MSE 1) /\
  own s x rx 2 1 X /\ own s y ry 2 1 Y /\ own s x' rx' 2 1 X' /\ own s y' ry' 2 1 Y' /\ Permutation (combine X Y) (combine X' Y') /\
  CalculateLoss m x y s = (Ret v, s1) /\ CalculateLoss m x' y' s = (Ret v', s2) /\ v <> v'.
Proof. exact mse_order. Qed.
Print Assumptions C112_order_refuted.
