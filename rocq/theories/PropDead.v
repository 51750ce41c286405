(** * PropDead: dead ReLU units (C84). *)
From Coq Require Import String ZArith List Bool Arith Lia Reals.
From Flocq Require Import IEEE754.BinarySingleNaN IEEE754.Binary IEEE754.Bits.
From Verif Require Import Num NumR NumB64 Heap Spec Matrix Loss Network Optimizers ModelGo LayerData PureSpec Repr OptSpec ModelSpec CodecSpec CodecEx Dead DeadProofs DeadEx.
Import ListNotations.

(** C84: a ReLU unit of the first layer whose pre-activation is at most zero on every training sample keeps its weights and bias, and
    the weights that read it, for ever, if the optimizer has no momentum left there.  Exact arithmetic, SGD and Adam. *)
Theorem C84_first_layer s (m : model RNum) es xs i o k x rsx y rsy n X Y epochs bs xv yv a t1 t2 :
  (0 <= bs)%Z -> (Z.of_nat n + bs <= 2 ^ 52)%Z -> (1 <= n)%nat ->
  trainable s m es xs i o k -> data_ok s es x rsx y rsy n i o X Y -> spot (trainer es xs) 0 a t1 t2 ->
  List.Forall (fun row => (pre_activation (fst t1) a row <= 0)%R) X ->
  returns (Fit m x y epochs bs xv yv 0) s (fun _ s' => exists es' xs' t1' t2', trainable s' m es' xs' i o k /\ Forall2 same_place es es' /\
    spot (trainer es' xs') 0 a t1' t2' /\ kept_spot t1 t2 t1' t2' a).
Proof. exact (fit_dead_first s m es xs i o k x rsx y rsy n X Y epochs bs xv yv a t1 t2). Qed.
(** So does a ReLU unit behind a ReLU layer whose weights and bias are at most zero, whatever the samples. *)
Theorem C84_later_layer s (m : model RNum) es xs i o k x rsx y rsy n X Y epochs bs xv yv l a t1 t2 :
  (0 <= bs)%Z -> (Z.of_nat n + bs <= 2 ^ 52)%Z -> (1 <= n)%nat ->
  trainable s m es xs i o k -> data_ok s es x rsx y rsy n i o X Y -> spot (trainer es xs) (S l) a t1 t2 ->
  after_relu (trainer es xs) l t1 -> negative_unit (fst t1) a ->
  returns (Fit m x y epochs bs xv yv 0) s (fun _ s' => exists es' xs' t1' t2', trainable s' m es' xs' i o k /\ Forall2 same_place es es' /\
    spot (trainer es' xs') (S l) a t1' t2' /\ kept_spot t1 t2 t1' t2' a).
Proof. exact (fit_dead_deep s m es xs i o k x rsx y rsy n X Y epochs bs xv yv l a t1 t2). Qed.
(** In float64 with plain SGD the weights and the bias of the unit stay bit for bit what they were, even if other parts of the network overflow. *)
Theorem C84_float (L : libm) s (m : model (B64 L)) es xs i o k x rsx y rsy n X Y epochs bs xv yv lr a t1 :
  (0 <= bs)%Z -> (Z.of_nat n + bs <= 2 ^ 52)%Z -> (1 <= n)%nat -> b64_finite lr = true -> Bsign 53 1024 lr = false ->
  trainable s m es xs i o k -> data_ok s es x rsx y rsy n i o X Y -> dead_first L (trainer es xs) lr a t1 -> List.Forall (dead_row L (fst t1) a) X ->
  returns (Fit m x y epochs bs xv yv 0) s (fun _ s' => exists es' xs' t1', trainable s' m es' xs' i o k /\ Forall2 same_place es es' /\
    dead_first L (trainer es' xs') lr a t1' /\ kept_unit (fst t1) (fst t1') a).
Proof. exact (fit_dead_float L s m es xs i o k x rsx y rsy n X Y epochs bs xv yv lr a t1). Qed.
Print Assumptions C84_first_layer.
Print Assumptions C84_later_layer.
Print Assumptions C84_float.
Example C84_ex : trainable de_state de_m de_es de_xs 2 1 MSE /\
  data_ok de_state de_es de_x [10;11]%nat de_y [12;13]%nat 2 2 1 [[1;0];[0;2]]%R [[1];[5]]%R /\
  spot (trainer de_es de_xs) 0 1 (de_t 0) (de_t 1) /\ List.Forall (fun row => (pre_activation (fst (de_t 0)) 1 row <= 0)%R) ([[1;0];[0;2]]%R : list (list R)) /\
  spot (trainer de_es de_xs) 1 1 (de_t 1) (de_t 2) /\ after_relu (trainer de_es de_xs) 0 (de_t 1) /\ negative_unit (fst (de_t 1)) 1.
Proof.
  split; [exact de_trainable|]. split; [exact de_data|]. split; [apply de_spot; auto|]. split; [exact de_dead|]. split; [apply de_spot; auto|]. exact de_negative.
Qed.
Example C84_float_ex L : trainable (df_state L) (df_m L) (df_es L) (df_xs L) 2 1 MSE /\
  data_ok (df_state L) (df_es L) df_x [7;8]%nat df_y [9;10]%nat 2 2 1 (dfX L) ([[bz 1];[bz 5]] : pm (B64 L)) /\
  dead_first L (trainer (df_es L) (df_xs L)) (bhalf : B64 L) 1 (df_t L) /\ List.Forall (dead_row L (fst (df_t L)) 1) (dfX L) /\
  b64_finite bhalf = true /\ Bsign 53 1024 bhalf = false /\
  match (a <- df_bits L 0 1 ;; b <- df_bits L 0 0 ;; Fit (df_m L) df_x df_y 2 1 matrix0 matrix0 0 ;; a' <- df_bits L 0 1 ;; b' <- df_bits L 0 0 ;; ret (a, a', b, b'))%go (df_state L) with
  | (Ret (a, a', b, b'), _) => a = a' /\ b <> b' | _ => False end.
Proof.
  split; [exact (df_trainable L)|]. split; [exact (df_data L)|]. split; [exact (proj1 (df_dead L))|]. split; [exact (proj2 (df_dead L))|].
  split; [exact (proj1 df_rate)|]. split; [exact (proj2 df_rate)|]. exact (df_run L).
Qed.
