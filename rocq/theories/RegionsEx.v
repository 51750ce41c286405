(** * RegionsEx: predictions whose regions are not convex. *)
From Coq Require Import String ZArith List Bool Arith Lia Reals Lra.
From Verif Require Import Num NumR Heap Spec Matrix Loss Network Optimizers ModelGo PureSpec Repr HeapLemmas MatrixFacts MiscProofs MiscFacts MiscGlue RSum LayerReal LossProofs LossRefute OptSpec ModelSpec EvalProofs FitProofs FitFacts NetGradCode ModelRefute Robust LinearSpec LinearProofs LinearEx ModelProofs Regions.
Import ListNotations.
Open Scope R_scope.

(** A linear layer 1 -> 2, computing (7x - 5, 2x); the ReLU layer (x+, (x-1)+) and the linear
    layer u - 2v; inputs 0, 1, 1/2 and 0, 2, 1; a softmax layer 2 -> 2. *)
Definition rg_state : state RNum :=
  MkState (K := RNum) [[7;2]; [-5;0]; [1;1]; [0;-1]; [1]; [-2]; [0]; [0]; [1]; [1/2]; [0]; [2]; [1]; [1;-1]; [0;3]; [0;1]]
    [[1]; [2]; [3]; [4]; [5;6]; [7]; [8;9;10]; [11;12;13]; [14;15]; [16]]%nat
    [MkLayer (K := RNum) Linear 1 2 (MkMatrix 1 2 (MkSlice 1 0 1)) (MkMatrix 1 2 (MkSlice 2 0 1)) 0 0 matrix0 matrix0;
     MkLayer (K := RNum) Hidden 1 2 (MkMatrix 1 2 (MkSlice 3 0 1)) (MkMatrix 1 2 (MkSlice 4 0 1)) 0 0 matrix0 matrix0;
     MkLayer (K := RNum) Linear 2 1 (MkMatrix 2 1 (MkSlice 5 0 2)) (MkMatrix 1 1 (MkSlice 6 0 1)) 0 0 matrix0 matrix0;
     MkLayer (K := RNum) SoftmaxK 2 2 (MkMatrix 2 2 (MkSlice 9 0 2)) (MkMatrix 1 2 (MkSlice 10 0 1)) 0 0 matrix0 matrix0] [] nr_rng true [].
Definition rg_l : list (lent RNum) := [LE (K := RNum) 0 [1]%nat [2]%nat (PL (K := RNum) Linear 1 2 [[7;2]] [[-5;0]] 0 0)].
Definition rg_h : list (lent RNum) := [LE (K := RNum) 1 [3]%nat [4]%nat (PL (K := RNum) Hidden 1 2 [[1;1]] [[0;-1]] 0 0);
  LE (K := RNum) 2 [5;6]%nat [7]%nat (PL (K := RNum) Linear 2 1 [[1];[-2]] [[0]] 0 0)].
Definition rg_s : list (lent RNum) := [LE (K := RNum) 0 [1]%nat [2]%nat (PL (K := RNum) Linear 1 2 [[7;2]] [[-5;0]] 0 0);
  LE (K := RNum) 3 [14;15]%nat [16]%nat (PL (K := RNum) SoftmaxK 2 2 [[1;-1];[0;3]] [[0;1]] 0 0)].
Definition rg_ml : model RNum := MkModel (K := RNum) 1 1 2 0 None 1 0 0 [] [0]%nat [].
Definition rg_mh : model RNum := MkModel (K := RNum) 2 1 1 0 None 2 0 0 [] [1;2]%nat [].
Definition rg_ms : model RNum := MkModel (K := RNum) 2 1 2 0 None 1 0 0 [] [0;3]%nat [].
Definition rg_x : matrix := MkMatrix 3 1 (MkSlice 7 0 3).
Definition rg_u : matrix := MkMatrix 3 1 (MkSlice 8 0 3).
Ltac con := unfold consistent; do 4 (split; [reflexivity|]); split; [simpl; auto|];
    repeat constructor; eexists; (split; [reflexivity|]); unfold lown; simpl; repeat (split; [first [reflexivity|lia]|]); split; own_tac'.
Lemma rg_consistent : consistent rg_state rg_ml rg_l 1 2 /\ consistent rg_state rg_mh rg_h 1 1 /\ consistent rg_state rg_ms rg_s 1 2.
Proof. split; [con|split; con]. Qed.
Lemma rg_data : own rg_state rg_x [8;9;10]%nat 3 1 [[0];[1];[1/2]] /\ own rg_state rg_u [11;12;13]%nat 3 1 [[0];[2];[1]].
Proof. split; own_tac'. Qed.
Lemma rg_between : between 1 [[0];[1];[1/2]] 0 1 2 (1/2) /\ between 1 [[0];[2];[1]] 0 1 2 (1/2).
Proof. split; (split; [lra|]; intros [|l] Hl; [cbn; lra|lia]). Qed.
Lemma rg_class : row_max (K := RNum) 3 2 (pnet (net rg_l) 3 [[0];[1];[1/2]]) = [[0];[0];[1]].
Proof.
  unfold row_max, scan_max. cbn -[r_ltb]. unfold r_ltb. repeat (destruct (Rlt_dec _ _); cbn [fst snd] in *; try lra). reflexivity.
Qed.
Lemma rg_bits : pmap 3 1 (binary1 (K := RNum)) (pnet (net rg_h) 3 [[0];[2];[1]]) = [[0];[0];[1]].
Proof.
  cbn -[relu1 binary1]. rewrite !R_relu, !R_binary1. unfold Rmax. repeat destruct (Rle_dec _ _); try lra; repeat destruct (Rlt_dec _ _); try lra; reflexivity.
Qed.
Theorem class_zero_not_convex : exists s m es x rsx X out s' rs P, consistent s m es 1 2 /\ map (@p_kind RNum) (net es) = [Linear] /\ m_acctype m = 1%Z /\
  own s x rsx 3 1 X /\ between 1 X 0 1 2 (1 / 2) /\ Predict m x s = (Ret out, s') /\ own s' out rs 3 1 P /\ P = [[0];[0];[1]].
Proof.
  destruct (predict_spec rg_state rg_ml rg_l 1 2 rg_x [8;9;10]%nat 3 [[0];[1];[1/2]] 1 [[0];[0];[1]] (proj1 rg_consistent)) as (out & s' & E & rs & HO & _); [simpl; lia| |apply rg_data|lia|].
  { unfold ppredict. simpl m_acctype. cbv beta iota. change (1 =? 0)%Z with false. change (1 =? 1)%Z with true. cbv iota. rewrite rg_class. reflexivity. }
  exists rg_state, rg_ml, rg_l, rg_x, [8;9;10]%nat, [[0];[1];[1/2]], out, s', rs, [[0];[0];[1]].
  split; [apply rg_consistent|]. do 2 (split; [reflexivity|]). split; [apply rg_data|]. split; [apply rg_between|]. auto.
Qed.
Theorem hidden_not_convex : exists s m es x rsx X out s' rs P, consistent s m es 1 1 /\ map (@p_kind RNum) (net es) = [Hidden; Linear] /\ m_acctype m = 2%Z /\
  own s x rsx 3 1 X /\ between 1 X 0 1 2 (1 / 2) /\ Predict m x s = (Ret out, s') /\ own s' out rs 3 1 P /\ P = [[0];[0];[1]].
Proof.
  destruct (predict_spec rg_state rg_mh rg_h 1 1 rg_u [11;12;13]%nat 3 [[0];[2];[1]] 1 [[0];[0];[1]] (proj1 (proj2 rg_consistent))) as (out & s' & E & rs & HO & _); [simpl; lia| |apply rg_data|lia|].
  { unfold ppredict. simpl m_acctype. change (2 =? 0)%Z with false. change (2 =? 1)%Z with false. change (2 =? 2)%Z with true. cbv iota. rewrite rg_bits. reflexivity. }
  exists rg_state, rg_mh, rg_h, rg_u, [11;12;13]%nat, [[0];[2];[1]], out, s', rs, [[0];[0];[1]].
  split; [apply rg_consistent|]. do 2 (split; [reflexivity|]). split; [apply rg_data|]. split; [apply rg_between|]. auto.
Qed.
