(** * StableEx: concrete cases for C121. *)
From Coq Require Import String ZArith List Bool Arith Lia Reals Lra.
From Verif Require Import Num NumR Heap Spec Matrix Loss Network Optimizers ModelGo PureSpec Repr HeapLemmas LoopLemmas MatrixFacts MiscFacts RSum LayerFacts LayerReal GradSpec Grad LossProofs LossReal LossCode LossRefute OptSpec ModelSpec ModelProofs FitProofs FitFacts NetGradSpec NetGrad NetGradCode Converge ConvergeFit ConvergeEx RateSpec LossAccSpec Sep SepEx StableSpec Stable.
Import ListNotations.
Open Scope R_scope.

(** The model of [cv_state] with other parameters in its softmax layer. *)
Definition st_state (lr : R) : state RNum :=
  MkState (K := RNum) [[1]; [-1]; [3]; [1;0]; [0;2]; [1]; [5]; [-3;0]; [2;1]; [0;4]; [1;0]; [0;1]]
    [[1;2]; [3]; [4;5]; [6;7]; [8;9]; [10]; [11;12]]%nat
    [MkLayer (K := RNum) Linear 2 1 (MkMatrix 2 1 (MkSlice 1 0 2)) (MkMatrix 1 1 (MkSlice 2 0 1)) 0 0 matrix0 matrix0;
     MkLayer (K := RNum) SoftmaxK 2 2 (MkMatrix 2 2 (MkSlice 5 0 2)) (MkMatrix 1 2 (MkSlice 6 0 1)) 0 0 matrix0 matrix0]
    [nr_o lr] nr_rng true [].
Definition st_e : lent RNum := LE (K := RNum) 1 [8;9]%nat [10]%nat (PL (K := RNum) SoftmaxK 2 2 [[-3;0];[2;1]] [[0;4]] 0 0).
Lemma st_trainable lr : trainable (st_state lr) cv_m2 [st_e] [cv_xo lr 2] 2 2 CE.
Proof.
  unfold trainable. split; [|split; [|split; [|split; [|split; [|split; [|split; [|split; [|split]]]]]]]].
  - unfold consistent. do 4 (split; [reflexivity|]). split; [simpl; auto|].
    repeat constructor; eexists; (split; [reflexivity|]); unfold lown; simpl; repeat (split; [first [reflexivity|lia]|]); split; own_tac'.
  - split; nd.
  - simpl; lia.
  - reflexivity.
  - nd.
  - repeat constructor; eexists; (split; [reflexivity|]); unfold oown, oscal; simpl; auto 20.
  - dj.
  - reflexivity.
  - reflexivity.
  - repeat constructor; discriminate.
Qed.
Lemma st_data lr : data_ok (st_state lr) [st_e] cv_x [4;5]%nat cv_y2 [11;12]%nat 2 2 2 cvX cvY2.
Proof. split; [own_tac'|]. split; [own_tac'|]. split; dj. Qed.
Lemma st_apart : apart 2 2 (e_p cv_e2) (e_p st_e) = 36.
Proof. unfold apart, sqdist. rewrite !rsum_S, !rsum_0. unfold entry, cv_e2, st_e. simpl. ring. Qed.
Lemma st_problem : convex_problem CE (p_kind (e_p cv_e2)) 2 2 cvY2 (1 / INR 2).
Proof. right. do 2 (split; [reflexivity|]). split; [exact cv_onehot|reflexivity]. Qed.
(** The second sample replaced: (0,2) by (0,1). *)
Lemma st_other lr : data_ok (cv_state lr) [cv_e2] cv_y2 [11;12]%nat cv_y2 [11;12]%nat 2 2 2 cvY2 cvY2.
Proof. split; [own_tac'|]. split; [own_tac'|]. split; dj. Qed.
Lemma st_within : within 2 2 cvX 4 /\ within 2 2 cvY2 4.
Proof. split; intros a Ha; (destruct a as [|[|]]; [| |lia]); rewrite !rsum_S, !rsum_0; unfold entry, cvX, cvY2; simpl; lra. Qed.
Lemma st_neighbours : neighbours 2 2 2 1 cvX cvY2 cvY2 cvY2.
Proof. intros a Ha N. destruct a as [|[|]]; [|congruence|lia]. split; [|reflexivity]. intros l Hl. destruct l as [|[|]]; [| |lia]; reflexivity. Qed.
Lemma st_rate : 1 / 5 * (4 + 1) <= 1. Proof. lra. Qed.
