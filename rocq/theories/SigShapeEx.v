(** * SigShapeEx: a sigmoid layer 2 -> 1, one 1 -> 2 after a linear layer, and one 1 -> 2 alone. *)
From Coq Require Import String ZArith List Bool Arith Lia Reals.
From Verif Require Import Num NumR Heap Spec Matrix Activation Loss Network Optimizers ModelGo PureSpec Repr HeapLemmas RSum MatrixFacts LayerReal LossProofs LossRefute OptSpec OptFacts ModelSpec FitProofs GradSpec Grad NetGradSpec NetGradCode Span SigSpec SigFit SigLoop SigFacts SigEx SigShapeFit.
Import ListNotations.
Open Scope R_scope.

Definition sp_state : state RNum :=
  MkState (K := RNum) [[1]; [-1]; [1/2]; [3;-2]; [1;0]; [2]; [-1]; [1/3]; [-3;2]; [4;-5]; [1]; [0]; [0;1]; [1;0]]
    [[1;2]; [3]; [4]; [5]; [6;7]; [8]; [9;10]; [11;12]; [13;14]]%nat
    [MkLayer (K := RNum) Linear 2 1 (MkMatrix 2 1 (MkSlice 1 0 2)) (MkMatrix 1 1 (MkSlice 2 0 1)) 0 0 matrix0 matrix0;
     MkLayer (K := RNum) SigmoidK 1 2 (MkMatrix 1 2 (MkSlice 3 0 1)) (MkMatrix 1 2 (MkSlice 4 0 1)) 0 0 matrix0 matrix0;
     MkLayer (K := RNum) SigmoidK 2 1 (MkMatrix 2 1 (MkSlice 5 0 2)) (MkMatrix 1 1 (MkSlice 6 0 1)) 0 0 matrix0 matrix0]
    [nr_o 1; nr_o 1; nr_o 1] nr_rng true [].
Definition sp_x : matrix := MkMatrix 2 2 (MkSlice 7 0 2).
Definition sp_u : matrix := MkMatrix 2 1 (MkSlice 8 0 2).
Definition sp_y : matrix := MkMatrix 2 2 (MkSlice 9 0 2).
Definition sp_0 : lent RNum := LE (K := RNum) 0 [1;2]%nat [3]%nat (PL (K := RNum) Linear 2 1 [[1];[-1]] [[1/2]] 0 0).
Definition sp_1 : lent RNum := LE (K := RNum) 1 [4]%nat [5]%nat (PL (K := RNum) SigmoidK 1 2 [[3;-2]] [[1;0]] 0 0).
Definition sp_2 : lent RNum := LE (K := RNum) 2 [6;7]%nat [8]%nat (PL (K := RNum) SigmoidK 2 1 [[2];[-1]] [[1/3]] 0 0).
Definition sp_mn : model RNum := MkModel (K := RNum) 1 2 1 0 (Some (MkLoss MSE 1)) 0 0 0 [] [2]%nat [2]%nat.
Definition sp_mw : model RNum := MkModel (K := RNum) 2 2 2 0 (Some (MkLoss MSE 2)) 0 0 0 [] [0;1]%nat [0;1]%nat.
Definition sp_mf : model RNum := MkModel (K := RNum) 1 1 2 0 (Some (MkLoss MSE 2)) 0 0 0 [] [1]%nat [1]%nat.
Ltac lop := split; [unfold consistent; do 4 (split; [reflexivity|]); split; [simpl; auto|];
    repeat constructor; eexists; (split; [reflexivity|]); unfold lown; simpl; repeat (split; [first [reflexivity|lia]|]); split; own_tac'
  |split; [split; nd|split; [reflexivity|split; [reflexivity|split; [reflexivity|constructor]]]]].
Ltac sam := split; [own_tac'|split; [own_tac'|split; [nd|split; dj]]].
Lemma sp_narrow : lopsided sp_state sp_mn [] sp_2 [] 2 1 MSE /\ samples sp_state ([] ++ [sp_2]) sp_x [9;10]%nat sp_u [11;12]%nat 2 2 1 [[-3;2];[4;-5]] [[1];[0]].
Proof. split; [lop|sam]. Qed.
Lemma sp_wide : lopsided sp_state sp_mw ([] ++ [sp_0]) sp_1 [] 2 2 MSE /\ samples sp_state (([] ++ [sp_0]) ++ [sp_1]) sp_x [9;10]%nat sp_y [13;14]%nat 2 2 2 [[-3;2];[4;-5]] [[0;1];[1;0]].
Proof. split; [lop|sam]. Qed.
Lemma sp_first : lopsided sp_state sp_mf [] sp_1 [] 1 2 MSE /\ samples sp_state [sp_1] sp_u [11;12]%nat sp_y [13;14]%nat 2 1 2 [[1];[0]] [[0;1];[1;0]].
Proof. split; [lop|sam]. Qed.
