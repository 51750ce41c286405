(** * LinearEx: linear stacks on the exclusive-or data, and a ReLU network that solves it. *)
From Coq Require Import String ZArith List Bool Arith Lia Reals Lra.
From Verif Require Import Num NumR Heap Spec Matrix Loss Network Optimizers ModelGo PureSpec Repr HeapLemmas LoopLemmas MatrixFacts MiscFacts RSum LayerFacts LayerReal LossProofs OptSpec ModelSpec ModelProofs EvalProofs FitProofs FitFacts NetGradCode LossRefute Ex ModelEx Robust LinearSpec LinearProofs.
Import ListNotations.
Open Scope R_scope.

(** First layer 2 -> 2 of kind [k], second layer linear 2 -> 1: with ReLU the prediction is (x1 + x2)+ - 2 (x1 + x2 - 1)+. *)
Definition xr_state (k : lkind) : state RNum :=
  MkState (K := RNum) [[1;1]; [1;1]; [0;-1]; [1]; [-2]; [0]; [0;0]; [0;1]; [1;0]; [1;1]; [0]; [1]; [1]; [0]] [[1;2]; [3]; [4;5]; [6]; [7;8;9;10]; [11;12;13;14]]%nat
    [MkLayer (K := RNum) k 2 2 (MkMatrix 2 2 (MkSlice 1 0 2)) (MkMatrix 1 2 (MkSlice 2 0 1)) 0 0 matrix0 matrix0;
     MkLayer (K := RNum) Linear 2 1 (MkMatrix 2 1 (MkSlice 3 0 2)) (MkMatrix 1 1 (MkSlice 4 0 1)) 0 0 matrix0 matrix0]
    [nr_o 1; nr_o 1] nr_rng true [].
Definition xr_p (k : lkind) : player RNum := PL (K := RNum) k 2 2 [[1;1];[1;1]] [[0;-1]] 0 0.
Definition xr_q : player RNum := PL (K := RNum) Linear 2 1 [[1];[-2]] [[0]] 0 0.
Definition xr_es (k : lkind) : list (lent RNum) := [LE (K := RNum) 0 [1;2]%nat [3]%nat (xr_p k); LE (K := RNum) 1 [4;5]%nat [6]%nat xr_q].
Definition xr_m : model RNum := MkModel (K := RNum) 2 2 1 0 (Some (MkLoss MSE 1)) 2 0 0 [] [0;1]%nat [0;1]%nat.
Definition xr_x : matrix := MkMatrix 4 2 (MkSlice 5 0 4).
Definition xr_y : matrix := MkMatrix 4 1 (MkSlice 6 0 4).
Lemma xr_consistent k : consistent (xr_state k) xr_m (xr_es k) 2 1.
Proof.
  unfold consistent. do 4 (split; [reflexivity|]). split; [simpl; auto|].
  repeat constructor; eexists; (split; [reflexivity|]); unfold lown; simpl; repeat (split; [first [reflexivity|lia]|]); split; own_tac'.
Qed.
Lemma xr_trainable k : k <> SigmoidK -> trainable (xr_state k) xr_m (xr_es k) (nr_xs 1) 2 1 MSE.
Proof.
  intros HK. unfold trainable. split; [|split; [|split; [|split; [|split; [|split; [|split; [|split; [|split]]]]]]]].
  - apply xr_consistent.
  - split; nd.
  - simpl; lia.
  - reflexivity.
  - nd.
  - repeat constructor; eexists; (split; [reflexivity|]); unfold oown, oscal; simpl; auto 20.
  - dj.
  - reflexivity.
  - reflexivity.
  - repeat constructor; cbn; [exact HK|discriminate].
Qed.
Lemma xr_data k : data_ok (xr_state k) (xr_es k) xr_x [7;8;9;10]%nat xr_y [11;12;13;14]%nat 4 2 1 xorX xorY.
Proof. split; [own_tac'|]. split; [own_tac'|]. split; dj. Qed.
Lemma xr_linear : linear_before (net (xr_es Linear)) /\ List.Forall slope_ok (net (xr_es Linear)).
Proof. split; [split; [discriminate|repeat constructor]|]. repeat constructor; discriminate. Qed.
(** With ReLU the accuracy is 1. *)
Lemma xr_out : pnet (net (xr_es Hidden)) 4 xorX = xorY.
Proof.
  cbn -[relu1]. rewrite !R_relu. unfold Rmax, xorY. repeat destruct (Rle_dec _ _); try lra. repeat (f_equal; try lra).
Qed.
Lemma xor_solved : exists s m es x rsx y rsy v s', consistent s m es 2 1 /\ m_acctype m = 2%Z /\ map (@p_kind RNum) (net es) = [Hidden; Linear] /\
  own s x rsx 4 2 xorX /\ own s y rsy 4 1 xorY /\ CalculateAccuracy m x y s = (Ret v, s') /\ v = 1.
Proof.
  destruct (xr_data Hidden) as (HX & HY & _).
  pose proof (wp_CalculateAccuracy (xr_state Hidden) xr_m (xr_es Hidden) 2 1 xr_x _ xr_y _ 4 xorX xorY (binary_accuracy (K := RNum) 4 1 xorY xorY) RNum_int_faithful ltac:(lia) (xr_consistent Hidden) ltac:(simpl; lia) ltac:(now rewrite xr_out) HX HY ltac:(lia)) as W.
  apply returns_wp in W. destruct W as (v & s' & E & -> & _).
  exists (xr_state Hidden), xr_m, (xr_es Hidden), xr_x, [7;8;9;10]%nat, xr_y, [11;12;13;14]%nat, (binary_accuracy (K := RNum) 4 1 xorY xorY), s'.
  split; [apply xr_consistent|]. do 2 (split; [reflexivity|]). split; [exact HX|]. split; [exact HY|]. split; [exact E|].
  unfold binary_accuracy. rewrite count_cells_all.
  - cbn. lra.
  - intros [|[|[|[|i]]]] [|j] Hi Hj; try lia; cbn [entry xorY nth feq RNum]; apply r_eqb_true; rewrite R_binary1; destruct (Rlt_dec _ _); lra.
Qed.
(** Softmax over two classes. *)
Definition xs_state : state RNum :=
  MkState (K := RNum) [[1;0]; [0;1]; [0;0]; [0;0]; [0;1]; [1;0]; [1;1]; [1;0]; [0;1]; [0;1]; [1;0]] [[1;2]; [3]; [4;5;6;7]; [8;9;10;11]]%nat
    [MkLayer (K := RNum) SoftmaxK 2 2 (MkMatrix 2 2 (MkSlice 1 0 2)) (MkMatrix 1 2 (MkSlice 2 0 1)) 0 0 matrix0 matrix0] [] nr_rng true [].
Definition xs_es : list (lent RNum) := [LE (K := RNum) 0 [1;2]%nat [3]%nat (PL (K := RNum) SoftmaxK 2 2 [[1;0];[0;1]] [[0;0]] 0 0)].
Definition xs_m : model RNum := MkModel (K := RNum) 1 2 2 0 None 1 0 0 [] [0]%nat []%nat.
Lemma xs_ok : consistent xs_state xs_m xs_es 2 2 /\ linear_before (net xs_es) /\ (exists ps q, net xs_es = ps ++ [q] /\ p_kind q = SoftmaxK) /\
  own xs_state (MkMatrix 4 2 (MkSlice 3 0 4)) [4;5;6;7]%nat 4 2 xorX /\ own xs_state (MkMatrix 4 2 (MkSlice 4 0 4)) [8;9;10;11]%nat 4 2 xorY2.
Proof.
  split.
  { unfold consistent. do 4 (split; [reflexivity|]). split; [simpl; auto|].
    repeat constructor; eexists; (split; [reflexivity|]); unfold lown; simpl; repeat (split; [first [reflexivity|lia]|]); split; own_tac'. }
  split; [split; [discriminate|constructor]|]. split; [eexists [], _; split; reflexivity|]. split; own_tac'.
Qed.
