(** * SepEx: two separable samples, and inseparable ones. *)
From Coq Require Import ZArith List Bool Arith Lia Reals Lra.
From Verif Require Import Num NumR Heap Spec Matrix Loss Network Optimizers ModelGo PureSpec Repr HeapLemmas MatrixFacts RSum LayerReal LossRefute GradSpec OptSpec ModelSpec NetGradSpec Converge ConvergeEx LossAccSpec SepSpec Sep.
Import ListNotations.
Open Scope R_scope.

Definition sep_m : model RNum := MkModel (K := RNum) (m_size cv_m2) (m_in cv_m2) (m_out cv_m2) (m_losstype cv_m2) (m_loss cv_m2) 1 (m_prec cv_m2) (m_opttype cv_m2) (m_optvals cv_m2) (m_layers cv_m2) (m_opts cv_m2).
Lemma sep_trainable lr : trainable (cv_state lr) sep_m [cv_e2] [cv_xo lr 2] 2 2 CE.
Proof. exact (cv_trainable2 lr). Qed.
Lemma sep_classes : classes 2 2 cvY2.
Proof. intros a Ha. exists a. split; [exact Ha|]. intros j Hj. destruct a as [|[|]]; [| |lia]; (destruct j as [|[|]]; [| |lia]); reflexivity. Qed.
Lemma sep_sep : separable 2 2 2 cvX cvY2.
Proof.
  exists [[1;0];[0;1]], [[0;0]]. intros a c j Ha Hc Hj HY Nj. unfold score. rewrite !rsum_S, !rsum_0.
  destruct a as [|[|]]; [| |lia]; (destruct c as [|[|]]; [| |lia]); (destruct j as [|[|]]; [| |lia]); try congruence; unfold entry, cvX, cvY2 in *; cbn [nth] in *; change (F RNum) with R in *; lra.
Qed.
Lemma sep_not : ~ separable 4 2 2 [[0;0];[0;1];[1;0];[1;1]] [[1;0];[0;1];[0;1];[1;0]].
Proof.
  intros (W & B & H). pose proof (H 0%nat 0%nat 1%nat ltac:(lia) ltac:(lia) ltac:(lia) eq_refl ltac:(lia)) as H0. pose proof (H 1%nat 1%nat 0%nat ltac:(lia) ltac:(lia) ltac:(lia) eq_refl ltac:(lia)) as H1.
  pose proof (H 2%nat 1%nat 0%nat ltac:(lia) ltac:(lia) ltac:(lia) eq_refl ltac:(lia)) as H2. pose proof (H 3%nat 0%nat 1%nat ltac:(lia) ltac:(lia) ltac:(lia) eq_refl ltac:(lia)) as H3.
  unfold score in *. rewrite !rsum_S, !rsum_0 in *. revert H0 H1 H2 H3. generalize (entry W 0 0) (entry W 0 1) (entry W 1 0) (entry W 1 1) (entry B 0 0) (entry B 0 1). intros w1 w2 w3 w4 b1 b2.
  unfold entry. cbn [nth]. change (F RNum) with R in *. lra.
Qed.
