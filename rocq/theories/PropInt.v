(** 64-bit integers in Fit. *)
From Coq Require Import String ZArith List Bool Arith Lia.
From Flocq Require Import IEEE754.BinarySingleNaN IEEE754.Binary IEEE754.Bits.
From Verif Require Import Num NumB64 Heap Spec Matrix Loss Network Optimizers ModelGo PureSpec Repr OptSpec ModelSpec CodecEx DeadEx IntGo IntProofs.
Import ListNotations.
Open Scope Z_scope.

(** C100: Fit with wrap-around arithmetic is Fit, for every 64-bit batch size, in any arithmetic and state. *)
Theorem C100_no_overflow {K : Num} (m : model K) X Y epochs bs xv yv every (s : state K) : int64 (m_size m) -> int64 bs -> 0 <= mrows Y <= 2 ^ 62 ->
  Fit64 m X Y epochs bs xv yv every s = Fit m X Y epochs bs xv yv every s.
Proof. exact (fit_no_overflow m X Y epochs bs xv yv every s). Qed.
Print Assumptions C100_no_overflow.
Example C100_overflow_ex : int64 (2 ^ 63 - 1) /\ int64 (- 2 ^ 63) /\ wrap64 (2 ^ 63) = - 2 ^ 63 /\ wrap64 ((2 ^ 62 + 1) * 2) = - 2 ^ 63 + 2.
Proof. unfold int64. repeat split; try lia; reflexivity. Qed.

(** C100: in float64 a batch size of at least the number of samples, however large, is no batching. *)
Theorem C100_huge L (m : model (B64 L)) X Y epochs bs xv yv every n s : mrows Y = Z.of_nat n -> (1 <= n)%nat -> Z.of_nat n <= 2 ^ 53 -> Z.of_nat n <= bs -> int64 bs ->
  Fit m X Y epochs bs xv yv every s = Fit m X Y epochs 0 xv yv every s.
Proof. exact (fit_huge_float L m X Y epochs bs xv yv every n s). Qed.
Print Assumptions C100_huge.

(** C100: so Fit with wrap-around arithmetic in float64 is mini-batch training for every non-negative 64-bit batch size. *)
Theorem C100_any_batch L s (m : model (B64 L)) es xs i o k x rsx y rsy n X Y epochs bs xv yv :
  0 <= bs -> int64 bs -> (1 <= n)%nat -> Z.of_nat n <= 2 ^ 51 -> Z.of_nat (length es) < 2 ^ 63 ->
  trainable s m es xs i o k -> data_ok s es x rsx y rsy n i o X Y ->
  returns (Fit64 m x y epochs bs xv yv 0) s (fun _ s' =>
    let tq := ptrain_on k o (trainer es xs) (r_uni (h_rng s)) (r_upos (h_rng s)) (epochs_of (Z.to_nat epochs) (batch_rows n bs) X Y) in
    exists nn, snd tq = (r_upos (h_rng s) + nn)%nat /\ train_result s s' m es xs i o k (fst tq) nn [] /\
      own s' x rsx n i X /\ own s' y rsy n o Y).
Proof. exact (fit_any_batch L s m es xs i o k x rsx y rsy n X Y epochs bs xv yv). Qed.
Print Assumptions C100_any_batch.
Example C100_ex L : int64 (2 ^ 63 - 1) /\ mrows df_y = Z.of_nat 2 /\ trainable (df_state L) (df_m L) (df_es L) (df_xs L) 2 1 MSE /\
  data_ok (df_state L) (df_es L) df_x [7;8]%nat df_y [9;10]%nat 2 2 1 (dfX L) ([[bz 1];[bz 5]] : pm (B64 L)).
Proof. split; [unfold int64; lia|]. split; [reflexivity|]. split; [exact (df_trainable L)|exact (df_data L)]. Qed.
