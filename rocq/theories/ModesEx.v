(** * ModesEx: concrete cases for the residual theorems. *)
From Coq Require Import ZArith List Bool Arith Lia Reals Lra.
From Verif Require Import Num NumR Heap Spec Matrix Loss Network Optimizers ModelGo PureSpec Repr HeapLemmas MatrixFacts RSum LayerReal LossRefute OptSpec ModelSpec FitFacts ModelRefute NetGradSpec ConvergeEx BalanceEx CalibSpec Calib ModesSpec Modes.
Import ListNotations.
Open Scope R_scope.

Lemma ex_bias : trainable (bl_state 1 2 bl_sgd) bl_m (bl_es 1 2) (bl_xs bl_spo) 1 1 MSE /\ data_ok (bl_state 1 2 bl_sgd) (bl_es 1 2) bl_x [5]%nat bl_y [6]%nat 1 1 1 [[1]] [[0]] /\
  List.Forall (fun e => p_kind (e_p e) <> Dropout) (bl_es 1 2) /\ last_plain (1 / 10) (trainer (bl_es 1 2) (bl_xs bl_spo)) /\ matching MSE (net (bl_es 1 2)) 1 1 [[0]] /\ m_acctype bl_m = 0%Z.
Proof.
  split; [apply bl_trainable, bl_sgd_ok|]. split; [apply bl_data|]. split; [repeat constructor; discriminate|].
  split; [exists [(bl_p0 1, bl_spo)], (bl_p1 2), bl_spo; repeat split|]. split; [|reflexivity]. exists [bl_p0 1], (bl_p1 2). split; [reflexivity|]. left. split; reflexivity.
Qed.
Lemma ex_bias2 : trainable (cv_state (2/7)) cv_m2 [cv_e2] [cv_xo (2/7) 2] 2 2 CE /\ data_ok (cv_state (2/7)) [cv_e2] cv_x [4;5]%nat cv_y2 [11;12]%nat 2 2 2 cvX cvY2 /\
  List.Forall (fun e => p_kind (e_p e) <> Dropout) [cv_e2] /\ last_plain (2 / 7) (trainer [cv_e2] [cv_xo (2/7) 2]) /\ matching CE (net [cv_e2]) 2 2 cvY2 /\ m_acctype cv_m2 = 0%Z.
Proof.
  split; [apply cv_trainable2|]. split; [apply cv_data2|]. split; [repeat constructor; discriminate|].
  split; [eexists [], _, _; split; [reflexivity|]; repeat split|]. split; [|reflexivity]. eexists [], _. split; [reflexivity|]. right. split; [reflexivity|]. split; [reflexivity|].
  intros [|[|a]] [|[|j]] Ha Hj; try lia; cbn; auto.
Qed.
(** Two samples; the larger eigenvalue of their Gram matrix. *)
Definition md_lam : R := (7 + sqrt 13) / 2.
Definition md_u (a : nat) : R := match a with O => 1 | _ => md_lam - 2 end.
Lemma md_root : md_lam * md_lam = 7 * md_lam - 9.
Proof. unfold md_lam. pose proof (sqrt_sqrt 13 ltac:(lra)). nra. Qed.
Lemma md_large : 5 < md_lam.
Proof. unfold md_lam. assert (3 < sqrt 13); [|lra]. rewrite <- (sqrt_square 3) by lra. apply sqrt_lt_1; lra. Qed.
Lemma md_gram : gram 2 cvX 0 0 = 2 /\ gram 2 cvX 0 1 = 1 /\ gram 2 cvX 1 0 = 1 /\ gram 2 cvX 1 1 = 5.
Proof. unfold gram. rewrite !rsum_S, !rsum_0. unfold entry, cvX. cbn [nth]. repeat split; ring. Qed.
Lemma md_eigen : eigen 2 2 cvX md_u md_lam.
Proof.
  destruct md_gram as (G1 & G2 & G3 & G4). intros a Ha. rewrite !rsum_S, rsum_0. destruct a as [|[|a]]; [| |lia]; cbn [md_u]; rewrite ?G1, ?G2, ?G3, ?G4; [ring|].
  pose proof md_root. lra.
Qed.
Lemma md_mode : mode 2 md_u (pnet [e_p cv_e1] 2 cvX) cvY1 0 <> 0.
Proof.
  unfold mode. rewrite !rsum_S, rsum_0. rewrite !lin_out by (reflexivity || (cbn; lia)). cbn [md_u e_p cv_e1 p_in p_w p_b]. rewrite !rsum_S, !rsum_0. unfold entry, cvX, cvY1. cbn [nth]. pose proof md_large. lra.
Qed.
Lemma ex_modes : trainable (cv_state 1) cv_m1 [cv_e1] [cv_xo 1 1] 2 1 MSE /\ data_ok (cv_state 1) [cv_e1] cv_x [4;5]%nat cv_y1 [6;7]%nat 2 2 1 cvX cvY1 /\
  p_kind (e_p cv_e1) = Linear /\ plain_sgd 1 (x_po (cv_xo 1 1)) /\ m_acctype cv_m1 = 0%Z /\ eigen 2 2 cvX md_u md_lam /\ 2 < 1 * (2 / INR 1) * md_lam /\ mode 2 md_u (pnet [e_p cv_e1] 2 cvX) cvY1 0 <> 0.
Proof.
  split; [apply cv_trainable1|]. split; [apply cv_data1|]. split; [reflexivity|]. split; [repeat split|]. split; [reflexivity|]. split; [exact md_eigen|]. split; [|exact md_mode].
  pose proof md_large. simpl. lra.
Qed.
(** The first sample alone, with the rate that fits it in one epoch. *)
Definition md_x : matrix := MkMatrix 1 2 (MkSlice 3 0 1).
Definition md_y : matrix := MkMatrix 1 1 (MkSlice 4 0 1).
Lemma ex_one : trainable (cv_state (1/4)) cv_m1 [cv_e1] [cv_xo (1/4) 1] 2 1 MSE /\ data_ok (cv_state (1/4)) [cv_e1] md_x [4]%nat md_y [6]%nat 1 2 1 [[1; 0]] [[1]] /\
  p_kind (e_p cv_e1) = Linear /\ plain_sgd (1/4) (x_po (cv_xo (1/4) 1)) /\ m_acctype cv_m1 = 0%Z /\ 1 / 4 * (2 / INR 1) * gram 2 [[1; 0]] 0 0 = 1 /\
  entry (pnet [e_p cv_e1] 1 [[1; 0]]) 0 0 <> entry (K := RNum) [[1]] 0 0.
Proof.
  split; [apply cv_trainable1|]. split; [split; [own_tac'|]; split; [own_tac'|]; split; dj|]. split; [reflexivity|]. split; [repeat split|]. split; [reflexivity|]. split.
  - unfold gram. rewrite !rsum_S, rsum_0. unfold entry. cbn [nth]. change (INR 1) with 1. field.
  - rewrite lin_out by (reflexivity || (cbn; lia)). cbn [e_p cv_e1 p_in p_w p_b]. rewrite !rsum_S, rsum_0. unfold entry. cbn [nth]. change (F RNum) with R. lra.
Qed.
