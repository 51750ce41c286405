(** Models that already fit, and steps on the parts of a batch. *)
From Coq Require Import String ZArith List Bool Arith Lia Reals Lra.
From Flocq Require Import IEEE754.Bits.
From Verif Require Import Num NumR NumB64 Heap Spec Matrix Loss Network Optimizers ModelGo PureSpec Repr LayerReal LossProofs RSum OptSpec ModelSpec FitFacts ConvergeEx CopiesSpec CopiesEx BalanceEx StillSpec Still StillEx PartsSpec Parts PartsEx.
Import ListNotations.
Open Scope R_scope.

(** C110: in exact arithmetic, a model whose outputs equal the targets is not moved by training with the squared
    or the absolute error, whatever the number of epochs and the batch size, if its optimizers are at rest. *)
Theorem C110_still s (m : model RNum) es xs i o k x rsx y rsy n X Y epochs bs xv yv :
  (0 <= bs)%Z -> (Z.of_nat n + bs <= 2 ^ 52)%Z -> (1 <= n)%nat -> k = MSE \/ k = MAE ->
  trainable s m es xs i o k -> data_ok s es x rsx y rsy n i o X Y ->
  List.Forall (fun e => p_kind (e_p e) <> Dropout) es -> List.Forall at_rest (trainer es xs) -> pnet (net es) n X = Y ->
  returns (Fit m x y epochs bs xv yv 0) s (fun _ s' => exists es' xs', trainable s' m es' xs' i o k /\ Forall2 same_place es es' /\
    net es' = net es /\ List.Forall at_rest (trainer es' xs')).
Proof. exact (fit_still s m es xs i o k x rsx y rsy n X Y epochs bs xv yv). Qed.
Print Assumptions C110_still.

Example C110_still_ex : trainable (bl_state 3 0 bl_adam) bl_m (bl_es 3 0) (bl_xs bl_apo) 1 1 MSE /\ data_ok (bl_state 3 0 bl_adam) (bl_es 3 0) bl_x [5]%nat bl_y [6]%nat 1 1 1 [[1%R]] [[0%R]] /\
  List.Forall (fun e => p_kind (e_p e) <> Dropout) (bl_es 3 0) /\ List.Forall at_rest (trainer (bl_es 3 0) (bl_xs bl_apo)) /\ pnet (net (bl_es 3 0)) 1 [[1%R]] = [[0%R]].
Proof. exact st_ex. Qed.

(** C110: in float64 it is moved by Adam with epsilon 0, which NewAdamOptimizer accepts: the weight of a model
    that fits becomes NaN in the first step.  Hypotheses: math.Pow(0, 2) = 0 and math.Pow(1/2, 1) = 1/2. *)
Theorem C110_adam_refuted (L : libm) : l_pow L (b64_ofZ 0) (b64_ofZ 2) = b64_ofZ 0 -> l_pow L st_half (b64_ofZ 1) = st_half ->
  exists (s : state (B64 L)) m es xs x rsx y rsy n X Y lr b1 b2 p', trainable s m es xs 1 1 MSE /\ data_ok s es x rsx y rsy n 1 1 X Y /\ (1 <= n)%nat /\ pnet (net es) n X = Y /\
    (forall s0, returns (NewAdamOptimizer (K := B64 L) lr (b64_ofZ 0) (b64_ofZ 0) b1 b2) s0 (fun o s1 => s1 = s0 /\ h_opts s = [o])) /\
    returns (Fit m x y 1 0 matrix0 matrix0 0) s (fun _ s' => exists es' xs', trainable s' m es' xs' 1 1 MSE /\ Forall2 same_place es es' /\
      net es' = [p'] /\ b64_nan (entry (p_w p') 0 0) = true).
Proof. exact (adam_eps0 L). Qed.
Print Assumptions C110_adam_refuted.

(** C111: one step of plain gradient descent on a data set moves every weight and bias by the sum of the
    movements on its two parts (squared and absolute error) or by their mean, weighted with the numbers of
    samples (cross-entropies). *)
Theorem C111_parts s m es xs x rsx y rsy xv yv s1 m1 es1 xs1 x1 rsx1 y1 rsy1 xv1 yv1 s2 m2 es2 xs2 x2 rsx2 y2 rsy2 xv2 yv2 i o k n1 n2 (X1 Y1 X2 Y2 : pm RNum) :
  (Z.of_nat (n1 + n2) <= 2 ^ 52)%Z -> (1 <= n1)%nat -> (1 <= n2)%nat ->
  trainable s m es xs i o k -> data_ok s es x rsx y rsy (n1 + n2) i o (X1 ++ X2) (Y1 ++ Y2) ->
  trainable s1 m1 es1 xs1 i o k -> data_ok s1 es1 x1 rsx1 y1 rsy1 n1 i o X1 Y1 ->
  trainable s2 m2 es2 xs2 i o k -> data_ok s2 es2 x2 rsx2 y2 rsy2 n2 i o X2 Y2 ->
  List.Forall (fun e => p_kind (e_p e) <> Dropout) es -> List.Forall simple_sgd (trainer es xs) -> trainer es1 xs1 = trainer es xs -> trainer es2 xs2 = trainer es xs ->
  exists s' s1' s2' es' xs' es1' xs1' es2' xs2',
    Fit m x y 1 0 xv yv 0 s = (Ret tt, s') /\ Fit m1 x1 y1 1 0 xv1 yv1 0 s1 = (Ret tt, s1') /\ Fit m2 x2 y2 1 0 xv2 yv2 0 s2 = (Ret tt, s2') /\
    trainable s' m es' xs' i o k /\ Forall2 same_place es es' /\ trainable s1' m1 es1' xs1' i o k /\ Forall2 same_place es1 es1' /\ trainable s2' m2 es2' xs2' i o k /\ Forall2 same_place es2 es2' /\
    forall l p p1 p2 p', nth_error (net es) l = Some p -> nth_error (net es1') l = Some p1 -> nth_error (net es2') l = Some p2 -> nth_error (net es') l = Some p' ->
      mixed (weight k n1 n2) (weight k n2 n1) p p1 p2 p'.
Proof. exact (fit_parts s m es xs x rsx y rsy xv yv s1 m1 es1 xs1 x1 rsx1 y1 rsy1 xv1 yv1 s2 m2 es2 xs2 x2 rsx2 y2 rsy2 xv2 yv2 i o k n1 n2 X1 Y1 X2 Y2). Qed.
Print Assumptions C111_parts.

Example C111_parts_ex :
  trainable (cp_state 1) cv_m2 [cv_e2] [cv_xo 1 2] 2 2 CE /\ data_ok (cp_state 1) [cv_e2] cp_x [4;5;4;5]%nat cp_y2 [11;12;11;12]%nat (2 + 2) 2 2 (cvX ++ cvX) (cvY2 ++ cvY2) /\
  trainable (cv_state 1) cv_m2 [cv_e2] [cv_xo 1 2] 2 2 CE /\ data_ok (cv_state 1) [cv_e2] cv_x [4;5]%nat cv_y2 [11;12]%nat 2 2 2 cvX cvY2 /\
  List.Forall (fun e => p_kind (e_p e) <> Dropout) [cv_e2] /\ List.Forall simple_sgd (trainer [cv_e2] [cv_xo 1 2]).
Proof. exact pt_ce. Qed.

(** C111: with the squared or the absolute error and any optimizer, samples that the model already fits can be
    left out of a step without changing any weight, bias or optimizer state. *)
Theorem C111_spare s m es xs x rsx y rsy xv yv s1 m1 es1 xs1 x1 rsx1 y1 rsy1 xv1 yv1 i o k n1 n2 (X1 Y1 X2 Y2 : pm RNum) :
  (Z.of_nat (n1 + n2) <= 2 ^ 52)%Z -> (1 <= n1)%nat -> (1 <= n2)%nat -> k = MSE \/ k = MAE ->
  trainable s m es xs i o k -> data_ok s es x rsx y rsy (n1 + n2) i o (X1 ++ X2) (Y1 ++ Y2) ->
  trainable s1 m1 es1 xs1 i o k -> data_ok s1 es1 x1 rsx1 y1 rsy1 n1 i o X1 Y1 -> length X2 = n2 /\ length Y2 = n2 ->
  List.Forall (fun e => p_kind (e_p e) <> Dropout) es -> trainer es1 xs1 = trainer es xs -> pnet (net es) n2 X2 = Y2 ->
  exists s' s1' es' xs' es1' xs1',
    Fit m x y 1 0 xv yv 0 s = (Ret tt, s') /\ Fit m1 x1 y1 1 0 xv1 yv1 0 s1 = (Ret tt, s1') /\
    trainable s' m es' xs' i o k /\ Forall2 same_place es es' /\ trainable s1' m1 es1' xs1' i o k /\ Forall2 same_place es1 es1' /\
    trainer es' xs' = trainer es1' xs1'.
Proof. exact (fit_spare s m es xs x rsx y rsy xv yv s1 m1 es1 xs1 x1 rsx1 y1 rsy1 xv1 yv1 i o k n1 n2 X1 Y1 X2 Y2). Qed.
Print Assumptions C111_spare.

Example C111_spare_ex :
  trainable (pt_state bl_adam) pt_m pt_es (pt_xs bl_apo) 1 1 MSE /\ data_ok (pt_state bl_adam) pt_es pt_x [3;5]%nat pt_y [4;6]%nat (1 + 1) 1 1 ([[1]] ++ [[2]]) ([[-1]] ++ [[0]]) /\
  data_ok (pt_state bl_adam) pt_es pt_x1 [3]%nat pt_y1 [4]%nat 1 1 1 [[1]] [[-1]] /\ List.Forall (fun e => p_kind (e_p e) <> Dropout) pt_es /\ pnet (net pt_es) 1 [[2]] = [[0]].
Proof. exact pt_spare. Qed.

(** C111: with Adam the movements do not add up: on a sample that occurs twice Adam does not move the weight
    twice as far as on the sample alone. *)
Theorem C111_adam_refuted : exists (s : state RNum) m es xs x rsx y rsy x1 rsx1 y1 rsy1 X1 Y1 s' s1' p p1 p' es' xs' es1' xs1',
  trainable s m es xs 1 1 MSE /\ data_ok s es x rsx y rsy 2 1 1 (X1 ++ X1) (Y1 ++ Y1) /\ data_ok s es x1 rsx1 y1 rsy1 1 1 1 X1 Y1 /\ List.Forall (fun t => po_kind (snd t) = Adam) (trainer es xs) /\
  Fit m x y 1 0 matrix0 matrix0 0 s = (Ret tt, s') /\ Fit m x1 y1 1 0 matrix0 matrix0 0 s = (Ret tt, s1') /\
  trainable s' m es' xs' 1 1 MSE /\ Forall2 same_place es es' /\ trainable s1' m es1' xs1' 1 1 MSE /\ Forall2 same_place es es1' /\ net es = [p] /\ net es1' = [p1] /\ net es' = [p'] /\
  ~ mixed (weight MSE 1 1) (weight MSE 1 1) p p1 p1 p'.
Proof. exact adam_parts. Qed.
Print Assumptions C111_adam_refuted.
