(** * RobustEx: a ReLU layer and a linear layer, and two inputs that differ by 1/10. *)
From Coq Require Import String ZArith List Bool Arith Lia Reals Lra.
From Verif Require Import Num NumR Heap Spec Matrix Loss Network Optimizers ModelGo PureSpec Repr HeapLemmas LoopLemmas MatrixFacts MiscFacts RSum LayerFacts LayerReal LossProofs OptSpec ModelSpec ModelProofs NetGradCode LossRefute Ex ModelEx RobustSpec Robust.
Import ListNotations.
Open Scope R_scope.

Definition ro_state : state RNum :=
  MkState (K := RNum) [[1;-1]; [2;0]; [1;-2]; [1;-1]; [-1;1]; [1;0]; [3;1]; [29/10;11/10]] [[1;2]; [3]; [4;5]; [6]; [7]; [8]]%nat
    [MkLayer (K := RNum) Hidden 2 2 (MkMatrix 2 2 (MkSlice 1 0 2)) (MkMatrix 1 2 (MkSlice 2 0 1)) 0 0 matrix0 matrix0;
     MkLayer (K := RNum) Linear 2 2 (MkMatrix 2 2 (MkSlice 3 0 2)) (MkMatrix 1 2 (MkSlice 4 0 1)) 0 0 matrix0 matrix0]
    [] nr_rng true [].
Definition ro_p : player RNum := PL (K := RNum) Linear 2 2 [[1;-1];[-1;1]] [[1;0]] 0 0.
Definition ro_es : list (lent RNum) := [LE (K := RNum) 0 [1;2]%nat [3]%nat nrP0; LE (K := RNum) 1 [4;5]%nat [6]%nat ro_p].
Definition ro_m (acc : Z) : model RNum := MkModel (K := RNum) 2 2 2 0 None acc 0 0 [] [0;1]%nat []%nat.
Definition ro_x1 : matrix := MkMatrix 1 2 (MkSlice 5 0 1).
Definition ro_x2 : matrix := MkMatrix 1 2 (MkSlice 6 0 1).
Definition roX1 : rpm := [[3;1]].
Definition roX2 : rpm := [[29/10;11/10]].
Lemma ro_consistent acc : consistent ro_state (ro_m acc) ro_es 2 2.
Proof.
  unfold consistent. do 4 (split; [reflexivity|]). split; [simpl; auto|].
  repeat constructor; eexists; (split; [reflexivity|]); unfold lown; simpl; repeat (split; [first [reflexivity|lia]|]); split; own_tac'.
Qed.
Lemma ro_own : own ro_state ro_x1 [7]%nat 1 2 roX1 /\ own ro_state ro_x2 [8]%nat 1 2 roX2.
Proof. split; own_tac'. Qed.
Lemma ro_near : near 1 2 roX1 roX2 (1 / 10).
Proof. intros [|i] [|[|j]] Hi Hj; try lia; cbn; unfold Rabs; destruct (Rcase_abs _); lra. Qed.
Lemma ro_lip : net_lip (net ro_es) = 6.
Proof.
  unfold net_lip, layer_lip, act_lip, rmaxn, unit_weight, rsum. cbn. rewrite !(Rabs_pos_eq 1), !(Rabs_pos_eq 2), !(Rabs_pos_eq 0), !(Rabs_left (-1)) by lra.
  unfold Rmax. repeat destruct (Rle_dec _ _); lra.
Qed.
Lemma ro_out : pnet (net ro_es) 1 roX1 = [[7;-6]].
Proof.
  cbn -[relu1]. rewrite !R_relu. unfold Rmax. repeat destruct (Rle_dec _ _); try lra. repeat (f_equal; try lra).
Qed.
Lemma ro_ahead : ahead 2 (pnet (net ro_es) 1 roX1) 0 0 (net_lip (net ro_es) * (1 / 10)).
Proof.
  rewrite ro_out, ro_lip. split; [lia|]. split; [cbn; lra|]. intros [|[|j]] Hj Hne; try lia. cbn. lra.
Qed.
Lemma ro_clear j : (j < 2)%nat -> net_lip (net ro_es) * (1 / 10) < Rabs (entry (pnet (net ro_es) 1 roX1) 0 j - 1 / 2).
Proof.
  intros Hj. rewrite ro_out, ro_lip. destruct j as [|[|j]]; try lia; cbn; unfold Rabs; destruct (Rcase_abs _); lra.
Qed.
