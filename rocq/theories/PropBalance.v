(** * PropBalance: scaling units (C108, C109), exact arithmetic. *)
From Coq Require Import String ZArith List Bool Arith Lia Reals.
From Verif Require Import Num NumR Heap Spec Matrix Loss Network Optimizers ModelGo PureSpec Repr RSum OptSpec ModelSpec NetGradCode BalanceSpec BalanceProofs RescaleSpec Rescale BalanceEx.
Import ListNotations.
Open Scope R_scope.

(** C108: one step of SGD. *)
Theorem C108_step s (m : model RNum) es xs i o k x rsx y rsy n X Y xv yv l u a b :
  (Z.of_nat n <= 2 ^ 52)%Z -> (1 <= n)%nat ->
  trainable s m es xs i o k -> data_ok s es x rsx y rsy n i o X Y -> between (trainer es xs) l u a b ->
  returns (Fit m x y 1 0 xv yv 0) s (fun _ s' => exists es' xs' a' b', trainable s' m es' xs' i o k /\ Forall2 same_place es es' /\
    between (trainer es' xs') l u a' b' /\ balance_law (fst a) (fst b) (fst a') (fst b') u).
Proof. exact (fit_balance_step s m es xs i o k x rsx y rsy n X Y xv yv l u a b). Qed.
(** C108: any number of epochs and batches; [T j] is the network after [j] batches. *)
Theorem C108_run s (m : model RNum) es xs i o k x rsx y rsy n X Y epochs bs xv yv l u a b :
  (0 <= bs)%Z -> (Z.of_nat n + bs <= 2 ^ 52)%Z -> (1 <= n)%nat ->
  trainable s m es xs i o k -> data_ok s es x rsx y rsy n i o X Y -> between (trainer es xs) l u a b ->
  let T j := fst (ptrain_on (K := RNum) k o (trainer es xs) (r_uni (h_rng s)) (r_upos (h_rng s)) (firstn j (epochs_of (Z.to_nat epochs) (batch_rows n bs) X Y))) in
  let N := length (epochs_of (Z.to_nat epochs) (batch_rows n bs) X Y) in
  returns (Fit m x y epochs bs xv yv 0) s (fun _ s' => exists es' xs' a' b', trainable s' m es' xs' i o k /\ Forall2 same_place es es' /\
    between (trainer es' xs') l u a' b' /\ like (fst a) (fst a') /\ like (fst b) (fst b') /\ T 0%nat = trainer es xs /\ T N = trainer es' xs' /\
    sq_in (fst a') u - kept (fst a) * sq_out (fst b') u = sq_in (fst a) u - kept (fst a) * sq_out (fst b) u + rsum N (fun j => unit_moves (T j) (T (S j)) l u)).
Proof. exact (fit_balance s m es xs i o k x rsx y rsy n X Y epochs bs xv yv l u a b). Qed.
(** C108: not for Adam. *)
Theorem C108_adam_refuted : exists (s : state RNum) m es xs x rsx y rsy n X Y a b, trainable s m es xs 1 1 MSE /\ data_ok s es x rsx y rsy n 1 1 X Y /\ (1 <= n)%nat /\
  trainer es xs = [a; b] /\ p_kind (fst a) = Hidden /\ p_kind (fst b) = Linear /\ po_kind (snd a) = Adam /\ po_kind (snd b) = Adam /\ p_in (fst b) = p_out (fst a) /\ (0 < p_out (fst a))%nat /\
  returns (Fit m x y 1 0 matrix0 matrix0 0) s (fun _ s' => exists es' xs' a' b', trainable s' m es' xs' 1 1 MSE /\ Forall2 same_place es es' /\ trainer es' xs' = [a'; b'] /\
    ~ balance_law (fst a) (fst b) (fst a') (fst b') 0).
Proof. exact adam_balance. Qed.
Print Assumptions C108_step.
Print Assumptions C108_run.
Print Assumptions C108_adam_refuted.
Example C108_ex : trainable (nr_state 1) (nr_m 1) nr_es (nr_xs 1) 2 1 MSE /\ data_ok (nr_state 1) nr_es nr_x [7;8]%nat nr_y [9;10]%nat 2 2 1 nrX nrY /\
  between (trainer nr_es (nr_xs 1)) 0 1 (nrP0, nr_po 1 2) (nrP1, nr_po 1 1).
Proof. exact (conj (nr_trainable 1) (conj (nr_data 1) nr_between)). Qed.

(** C109: the scaled network gives the same predictions and losses. *)
Theorem C109_predict (s1 s2 : state RNum) m1 m2 es1 es2 i o r ds x1 x2 rsx1 rsx2 X c A : consistent s1 m1 es1 i o -> consistent s2 m2 es2 i o -> (1 <= length es1)%nat ->
  scales (net es1) ds -> net es2 = scale_net one ds (net es1) -> (1 <= r)%nat -> own s1 x1 rsx1 r i X -> own s2 x2 rsx2 r i X ->
  m_acctype m1 = m_acctype m2 -> ppredict (m_acctype m1) r o (pnet (net es1) r X) = Some (c, A) ->
  exists P1 P2 s1' s2' rs1 rs2, Predict m1 x1 s1 = (Ret P1, s1') /\ Predict m2 x2 s2 = (Ret P2, s2') /\ own s1' P1 rs1 r c A /\ own s2' P2 rs2 r c A.
Proof. exact (fun H1 H2 H3 H4 H5 H6 H7 H8 => predict_scaled s1 s2 m1 m2 es1 es2 i o r ds x1 x2 rsx1 rsx2 X H1 H2 H3 H4 H5 H6 H7 H8 c A). Qed.
Theorem C109_loss (s1 s2 : state RNum) m1 m2 es1 es2 i o r ds x1 x2 rsx1 rsx2 X k y1 rsy1 y2 rsy2 Y : consistent s1 m1 es1 i o -> consistent s2 m2 es2 i o -> (1 <= length es1)%nat ->
  scales (net es1) ds -> net es2 = scale_net one ds (net es1) -> (1 <= r)%nat -> own s1 x1 rsx1 r i X -> own s2 x2 rsx2 r i X ->
  m_loss m1 = Some (MkLoss k (Z.of_nat o)) -> m_loss m2 = Some (MkLoss k (Z.of_nat o)) -> own s1 y1 rsy1 r o Y -> own s2 y2 rsy2 r o Y ->
  exists v s1' s2', CalculateLoss m1 x1 y1 s1 = (Ret v, s1') /\ CalculateLoss m2 x2 y2 s2 = (Ret v, s2').
Proof. exact (fun H1 H2 H3 H4 H5 H6 H7 H8 => loss_scaled s1 s2 m1 m2 es1 es2 i o r ds x1 x2 rsx1 rsx2 X H1 H2 H3 H4 H5 H6 H7 H8 k y1 rsy1 y2 rsy2 Y). Qed.
(** C109: one step of SGD tells them apart. *)
Theorem C109_training_refuted : exists (s1 s2 : state RNum) m es1 es2 xs x rsx y rsy n X Y ds,
  trainable s1 m es1 xs 1 1 MSE /\ trainable s2 m es2 xs 1 1 MSE /\ data_ok s1 es1 x rsx y rsy n 1 1 X Y /\ data_ok s2 es2 x rsx y rsy n 1 1 X Y /\ (1 <= n)%nat /\
  List.Forall (fun e => po_kind (x_po e) = SGD /\ po_usemom (x_po e) = false) xs /\ scales (net es1) ds /\ net es2 = scale_net one ds (net es1) /\ m_acctype m = 0%Z /\
  exists s1' s2' P1 P2 s1'' s2'' r1 r2 v1 v2, Fit m x y 1 0 matrix0 matrix0 0 s1 = (Ret tt, s1') /\ Fit m x y 1 0 matrix0 matrix0 0 s2 = (Ret tt, s2') /\
    Predict m x s1' = (Ret P1, s1'') /\ Predict m x s2' = (Ret P2, s2'') /\ own s1'' P1 r1 1 1 [[v1]] /\ own s2'' P2 r2 1 1 [[v2]] /\ v1 <> v2.
Proof. exact sgd_scaled. Qed.
Print Assumptions C109_predict.
Print Assumptions C109_loss.
Print Assumptions C109_training_refuted.
Example C109_ex : trainable (bl_state 1 2 bl_sgd) bl_m (bl_es 1 2) (bl_xs bl_spo) 1 1 MSE /\ trainable (bl_state 2 1 bl_sgd) bl_m (bl_es 2 1) (bl_xs bl_spo) 1 1 MSE /\
  scales (net (bl_es 1 2)) bl_ds /\ net (bl_es 2 1) = scale_net one bl_ds (net (bl_es 1 2)) /\ net (bl_es 2 1) <> net (bl_es 1 2).
Proof. exact bl_example. Qed.
