(** * HeavyEx: concrete cases for training with momentum. *)
From Coq Require Import String ZArith List Bool Arith Lia Reals Lra.
From Verif Require Import Num NumR Heap Spec Matrix Loss Network Optimizers ModelGo PureSpec Repr HeapLemmas MatrixFacts RSum LayerReal LossRefute OptSpec ModelSpec FitFacts ModelRefute NetGradSpec ConvergeEx RateSpec MomentumEx ModesSpec Modes ModesEx.
Import ListNotations.
Open Scope R_scope.

Definition hv_o (lr mu : R) : optimizer RNum := MkOpt (K := RNum) SGD lr 0 mu 0 0 0 lr 0 matrix0 matrix0 matrix0 matrix0 false true.
Definition hv_po (lr mu : R) : popt RNum := PO (K := RNum) SGD lr 0 mu 0 0 0 lr 0 false true [[0]] [[0]] [] [].
Definition hv_xo (lr mu : R) : oent RNum := OE (K := RNum) 0 [] (hv_po lr mu).
Lemma hv_trainable lr mu : trainable (mt_state (hv_o lr mu)) mt_m [mt_e] [hv_xo lr mu] 1 1 MSE.
Proof.
  unfold trainable. split; [|split; [|split; [|split; [|split; [|split; [|split; [|split; [|split]]]]]]]].
  - unfold consistent. do 4 (split; [reflexivity|]). split; [simpl; auto|].
    repeat constructor; eexists; (split; [reflexivity|]); unfold lown; simpl; repeat (split; [first [reflexivity|lia]|]); split; own_tac'.
  - split; nd.
  - simpl; lia.
  - reflexivity.
  - nd.
  - repeat constructor; eexists; (split; [reflexivity|]); unfold oown, oscal; simpl; repeat split; left; auto.
  - dj.
  - reflexivity.
  - reflexivity.
  - repeat constructor; discriminate.
Qed.
Lemma hv_eigen : eigen 1 1 mtX (fun _ => 1) 2.
Proof. replace 2 with (gram 1 mtX 0 0); [apply eigen_one|]. unfold gram. rewrite rsum_1. unfold entry, mtX. cbn [nth]. ring. Qed.
Lemma hv_mode : mode 1 (fun _ => 1) (pnet [e_p mt_e] 1 mtX) mtY 0 <> 0.
Proof.
  unfold mode. rewrite rsum_1. rewrite !lin_out by (reflexivity || (cbn; lia)). cbn [e_p mt_e p_in p_w p_b]. rewrite !rsum_1. unfold entry, mtX, mtY. cbn [nth]. lra.
Qed.
(** One sample; any rate and momentum. *)
Lemma heavy_ex lr mu : trainable (mt_state (hv_o lr mu)) mt_m [mt_e] [hv_xo lr mu] 1 1 MSE /\ data_ok (mt_state (hv_o lr mu)) [mt_e] mt_x [3]%nat mt_y [4]%nat 1 1 1 mtX mtY /\
  p_kind (e_p mt_e) = Linear /\ fresh_momentum lr mu 1 1 (x_po (hv_xo lr mu)) /\ m_acctype mt_m = 0%Z /\ eigen 1 1 mtX (fun _ => 1) 2 /\ mode 1 (fun _ => 1) (pnet [e_p mt_e] 1 mtX) mtY 0 <> 0 /\
  1 / 8 * (2 / INR 1) * 2 < 2 * (1 + 1 / 2).
Proof. split; [apply hv_trainable|]. split; [apply mt_data|]. split; [reflexivity|]. split; [repeat split|]. split; [reflexivity|]. split; [exact hv_eigen|]. split; [exact hv_mode|]. simpl. lra. Qed.
(** Two samples with two eigenvalues. *)
Definition hv_lam : R := (7 - sqrt 13) / 2.
Definition hv_u (a : nat) : R := match a with O => 1 | _ => hv_lam - 2 end.
Lemma hv_small : 0 < hv_lam <= md_lam.
Proof.
  unfold hv_lam, md_lam. pose proof (sqrt_pos 13). assert (sqrt 13 < 4); [|lra]. rewrite <- (sqrt_square 4) by lra. apply sqrt_lt_1; lra.
Qed.
Lemma hv_eigen2 : eigen 2 2 cvX hv_u hv_lam.
Proof.
  destruct md_gram as (G1 & G2 & G3 & G4). assert (E : hv_lam * hv_lam = 7 * hv_lam - 9) by (unfold hv_lam; pose proof (sqrt_sqrt 13 ltac:(lra)); nra).
  intros a Ha. rewrite !rsum_S, rsum_0. destruct a as [|[|a]]; [| |lia]; cbn [hv_u]; rewrite ?G1, ?G2, ?G3, ?G4; [ring|]. lra.
Qed.
Lemma slow_ex lr : trainable (cv_state lr) cv_m1 [cv_e1] [cv_xo lr 1] 2 1 MSE /\ data_ok (cv_state lr) [cv_e1] cv_x [4;5]%nat cv_y1 [6;7]%nat 2 2 1 cvX cvY1 /\
  p_kind (e_p cv_e1) = Linear /\ plain_sgd lr (x_po (cv_xo lr 1)) /\ m_acctype cv_m1 = 0%Z /\ eigen 2 2 cvX hv_u hv_lam /\ eigen 2 2 cvX md_u md_lam /\ 0 < hv_lam <= md_lam.
Proof.
  split; [apply cv_trainable1|]. split; [apply cv_data1|]. split; [reflexivity|]. split; [repeat split|]. split; [reflexivity|]. split; [exact hv_eigen2|]. split; [exact md_eigen|]. exact hv_small.
Qed.
