(** What the bias of the last layer records of the residuals. *)
From Coq Require Import String ZArith List Bool Arith Lia Reals.
From Verif Require Import Num NumR Heap Spec Matrix Loss Network Optimizers ModelGo PureSpec Repr RSum OptSpec ModelSpec ConvergeEx BalanceEx CalibSpec Calib ModesSpec Modes ModesEx.
Import ListNotations.
Open Scope R_scope.

(** C117: with a matching loss and full batches, the bias of the last layer after any number of epochs is its initial value minus the
    rate times the sum of the residuals of all predictions on the way. *)
Theorem C117_bias s (m : model RNum) es xs i o k x rsx y rsy n X Y bs xv yv lr :
  (bs = 0 \/ Z.of_nat n <= bs)%Z -> (Z.of_nat n + bs <= 2 ^ 52)%Z -> (1 <= n)%nat ->
  trainable s m es xs i o k -> data_ok s es x rsx y rsy n i o X Y -> List.Forall (fun e => p_kind (e_p e) <> Dropout) es ->
  last_plain lr (trainer es xs) -> matching k (net es) n o Y -> m_acctype m = 0%Z ->
  exists P : nat -> rpm, P O = pnet (net es) n X /\ forall t, exists s' es' xs' out s'' rs,
    Fit m x y (Z.of_nat t) bs xv yv 0 s = (Ret tt, s') /\ trainable s' m es' xs' i o k /\ Forall2 same_place es es' /\
    Predict m x s' = (Ret out, s'') /\ own s'' out rs n o (P t) /\
    forall j, (j < o)%nat -> last_bias (net es') j = last_bias (net es) j - lr * weight_of k n o * rsum t (fun u => excess n (P u) Y j).
Proof. exact (fit_bias s m es xs i o k x rsx y rsy n X Y bs xv yv lr). Qed.
Print Assumptions C117_bias.

(** C117: a model that an epoch leaves unchanged is calibrated: its predictions of every output have the sum of the targets. *)
Theorem C117_rest s (m : model RNum) es xs i o k x rsx y rsy n X Y bs xv yv lr :
  (bs = 0 \/ Z.of_nat n <= bs)%Z -> (Z.of_nat n + bs <= 2 ^ 52)%Z -> (1 <= n)%nat ->
  trainable s m es xs i o k -> data_ok s es x rsx y rsy n i o X Y -> List.Forall (fun e => p_kind (e_p e) <> Dropout) es ->
  last_plain lr (trainer es xs) -> matching k (net es) n o Y -> m_acctype m = 0%Z -> lr <> 0 ->
  exists s' es' xs' out s'' rs (P : rpm),
    Fit m x y 1 bs xv yv 0 s = (Ret tt, s') /\ trainable s' m es' xs' i o k /\ Forall2 same_place es es' /\
    Predict m x s = (Ret out, s'') /\ own s'' out rs n o P /\
    (net es' = net es -> forall j, (j < o)%nat -> rsum n (fun a => entry P a j) = rsum n (fun a => entry Y a j)).
Proof. exact (fit_rest s m es xs i o k x rsx y rsy n X Y bs xv yv lr). Qed.
Print Assumptions C117_rest.

(** C117: as long as the bias stays bounded, the residuals average out over the epochs at the speed 1/t, whatever the other layers do. *)
Theorem C117_average s (m : model RNum) es xs i o k x rsx y rsy n X Y bs xv yv lr B :
  (bs = 0 \/ Z.of_nat n <= bs)%Z -> (Z.of_nat n + bs <= 2 ^ 52)%Z -> (1 <= n)%nat ->
  trainable s m es xs i o k -> data_ok s es x rsx y rsy n i o X Y -> List.Forall (fun e => p_kind (e_p e) <> Dropout) es ->
  last_plain lr (trainer es xs) -> matching k (net es) n o Y -> m_acctype m = 0%Z -> 0 < lr ->
  exists P : nat -> rpm, P O = pnet (net es) n X /\ forall t, (1 <= t)%nat -> exists s' es' xs' out s'' rs,
    Fit m x y (Z.of_nat t) bs xv yv 0 s = (Ret tt, s') /\ trainable s' m es' xs' i o k /\ Forall2 same_place es es' /\
    Predict m x s' = (Ret out, s'') /\ own s'' out rs n o (P t) /\
    forall j, (j < o)%nat -> Rabs (last_bias (net es) j) <= B -> Rabs (last_bias (net es') j) <= B ->
      Rabs (rsum t (fun u => excess n (P u) Y j) / INR t) <= 2 * B / (lr * weight_of k n o * INR t).
Proof. exact (fun H1 H2 H3 H4 H5 H6 H7 H8 H9 => fit_average s m es xs i o k x rsx y rsy n X Y bs xv yv lr H1 H2 H3 H4 H5 H6 H7 H8 H9 B). Qed.
Print Assumptions C117_average.

Example C117_ex : trainable (bl_state 1 2 bl_sgd) bl_m (bl_es 1 2) (bl_xs bl_spo) 1 1 MSE /\ data_ok (bl_state 1 2 bl_sgd) (bl_es 1 2) bl_x [5]%nat bl_y [6]%nat 1 1 1 [[1]] [[0]] /\
  List.Forall (fun e => p_kind (e_p e) <> Dropout) (bl_es 1 2) /\ last_plain (1 / 10) (trainer (bl_es 1 2) (bl_xs bl_spo)) /\ matching MSE (net (bl_es 1 2)) 1 1 [[0]] /\ m_acctype bl_m = 0%Z.
Proof. exact ex_bias. Qed.
Example C117_ex_softmax : trainable (cv_state (2/7)) cv_m2 [cv_e2] [cv_xo (2/7) 2] 2 2 CE /\ data_ok (cv_state (2/7)) [cv_e2] cv_x [4;5]%nat cv_y2 [11;12]%nat 2 2 2 cvX cvY2 /\
  List.Forall (fun e => p_kind (e_p e) <> Dropout) [cv_e2] /\ last_plain (2 / 7) (trainer [cv_e2] [cv_xo (2/7) 2]) /\ matching CE (net [cv_e2]) 2 2 cvY2 /\ m_acctype cv_m2 = 0%Z.
Proof. exact ex_bias2. Qed.
