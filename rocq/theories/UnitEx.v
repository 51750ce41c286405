(** * UnitEx: a network and the same network with features and hidden units swapped; float64 sums depend on the order. *)
From Coq Require Import String ZArith List Bool Arith Lia Reals Lra Permutation.
From Verif Require Import Num NumR NumB64 Heap Spec Matrix Loss Network Optimizers ModelGo PureSpec Repr HeapLemmas LoopLemmas MatrixFacts MiscFacts RSum LayerFacts LayerReal LossProofs OptSpec ModelSpec ModelProofs FitProofs FitFacts NetGradCode LossRefute Ex ModelEx ModelRefute LayerData CodecSpec CodecEx CodecGlue UnitSpec UnitOrder.
Import ListNotations.
Open Scope R_scope.

(** The network of [NetGradCode] with both features and both hidden units swapped. *)
Definition un_state (lr : R) : state RNum :=
  MkState (K := RNum) [[0;2]; [-1;1]; [-2;1]; [-1]; [1]; [1/2]; [2;-3]; [-5;4]; [1]; [0]] (h_outs (nr_state lr)) (h_layers (nr_state lr)) (h_opts (nr_state lr)) nr_rng true [].
Definition un_es : list (lent RNum) :=
  [LE (K := RNum) 0 [1;2]%nat [3]%nat (PL (K := RNum) Hidden 2 2 [[0;2];[-1;1]] [[-2;1]] 0 0); LE (K := RNum) 1 [4;5]%nat [6]%nat (PL (K := RNum) Linear 2 1 [[-1];[1]] [[1/2]] 0 0)].
Lemma un_trainable lr : trainable (un_state lr) (nr_m lr) un_es (nr_xs lr) 2 1 MSE.
Proof.
  unfold trainable. split; [|split; [|split; [|split; [|split; [|split; [|split; [|split; [|split]]]]]]]].
  - unfold consistent. do 4 (split; [reflexivity|]). split; [simpl; auto|].
    repeat constructor; eexists; (split; [reflexivity|]); unfold lown; simpl; repeat (split; [first [reflexivity|lia]|]); split; own_tac'.
  - split; nd.
  - simpl; lia.
  - reflexivity.
  - nd.
  - repeat constructor; eexists; (split; [reflexivity|]); unfold oown, oscal; simpl; auto 20.
  - dj.
  - reflexivity.
  - reflexivity.
  - repeat constructor; discriminate.
Qed.
Lemma un_data lr : data_ok (un_state lr) un_es nr_x [7;8]%nat nr_y [9;10]%nat 2 2 1 (cols_by [1;0]%nat nrX) (cols_by (last [[1;0];[0]]%nat [1;0]%nat) nrY).
Proof. split; [own_tac'|]. split; [own_tac'|]. split; dj. Qed.
Lemma un_orders : order 2 [1;0]%nat /\ orders (net nr_es) [[1;0];[0]]%nat.
Proof. split; [apply perm_swap|]. constructor; [apply perm_swap|]. constructor; [apply Permutation_refl|constructor]. Qed.
Lemma un_net lr : trainer un_es (nr_xs lr) = net_by [1;0]%nat [[1;0];[0]]%nat (trainer nr_es (nr_xs lr)).
Proof. reflexivity. Qed.

(** ** float64: a linear layer with three weights of 1 and the sample 2^53, 1, 1 *)
Section Float.
Variable L : libm.
Notation BN := (B64 L).
Definition uf_state : state BN :=
  MkState (K := BN) [[bz 1]; [bz 1]; [bz 1]; [bz 0]; [bz (2 ^ 53); bz 1; bz 1]; [bz 1; bz 1; bz (2 ^ 53)]] [[1;2;3]; [4]; [5]; [6]]%nat
    [MkLayer (K := BN) Linear 3 1 (MkMatrix 3 1 (MkSlice 1 0 3)) (MkMatrix 1 1 (MkSlice 2 0 1)) (bz 0) (bz 0) matrix0 matrix0] []
    (MkRng (K := BN) (fun _ => bz 0) (fun _ => bz 0) (fun _ => 0%Z) 0 0 0) true [].
Definition uf_m : model BN := MkModel (K := BN) 1 3 1 0 None 0 (bz 0) 0 [] [0]%nat []%nat.
Definition uf_p : player BN := PL (K := BN) Linear 3 1 [[bz 1];[bz 1];[bz 1]] [[bz 0]] (bz 0) (bz 0).
Definition uf_es : list (lent BN) := [LE (K := BN) 0 [1;2;3]%nat [4]%nat uf_p].
Lemma b64_bits_inj (x y : BN) : to_bits (B64_bits L) x = to_bits (B64_bits L) y -> x = y.
Proof. intros H. rewrite <- (proj2 (B64_bits_ok L x)), <- (proj2 (B64_bits_ok L y)). now rewrite H. Qed.
Lemma uf_consistent : consistent uf_state uf_m uf_es 3 1.
Proof. repeat (split; [reflexivity|]). split; [simpl; auto|]. repeat (constructor; [eexists; split; [reflexivity|lown_tac]|]). constructor. Qed.
Definition ufX1 : pm BN := [[bz (2 ^ 53); bz 1; bz 1]].
Definition ufX2 : pm BN := [[bz 1; bz 1; bz (2 ^ 53)]].
Ltac uf_tac := cbv [ufX1 ufX2 pnet net uf_es map e_p fold_left pforward pact paffine paff uf_p p_kind p_in p_out p_w p_b mk seq entry nth fsum]; do 2 f_equal; apply b64_bits_inj; vm_compute; reflexivity.
Lemma uf_one : pnet (net uf_es) 1 ufX1 = [[bz (2 ^ 53)]]. Proof. uf_tac. Qed.
Lemma uf_two : pnet (net uf_es) 1 ufX2 = [[bz (2 ^ 53 + 2)]]. Proof. uf_tac. Qed.
Lemma uf_differs : exists (s : state BN) m es i o x1 x2 rs1 rs2 p (X : pm BN) P1 P2 s1' s2' r1 r2 a b,
  consistent s m es i o /\ m_acctype m = 0%Z /\ order i p /\ net es = layers_by p [[0%nat]] (net es) /\
  own s x1 rs1 1 i X /\ own s x2 rs2 1 i (cols_by p X) /\ Predict m x1 s = (Ret P1, s1') /\ Predict m x2 s = (Ret P2, s2') /\
  own s1' P1 r1 1 1 [[a]] /\ own s2' P2 r2 1 1 [[b]] /\ a = bz (2 ^ 53) /\ b = bz (2 ^ 53 + 2) /\ a <> b.
Proof.
  pose proof (ModelRefute.predict_spec uf_state uf_m uf_es 3 1 (MkMatrix 1 3 (MkSlice 3 0 1)) [5]%nat 1 ufX1 1 (pnet (net uf_es) 1 ufX1) uf_consistent ltac:(simpl; lia) eq_refl ltac:(own_tac) ltac:(lia)) as (P1 & t1 & F1 & rs1 & O1 & _).
  pose proof (ModelRefute.predict_spec uf_state uf_m uf_es 3 1 (MkMatrix 1 3 (MkSlice 4 0 1)) [6]%nat 1 ufX2 1 (pnet (net uf_es) 1 ufX2) uf_consistent ltac:(simpl; lia) eq_refl ltac:(own_tac) ltac:(lia)) as (P2 & t2 & F2 & rs2 & O2 & _).
  exists uf_state, uf_m, uf_es, 3%nat, 1%nat, (MkMatrix 1 3 (MkSlice 3 0 1)), (MkMatrix 1 3 (MkSlice 4 0 1)), [5]%nat, [6]%nat, [1;2;0]%nat, ufX1, P1, P2, t1, t2, rs1, rs2, (bz (2 ^ 53)), (bz (2 ^ 53 + 2)).
  split; [exact uf_consistent|]. split; [reflexivity|]. split; [apply Permutation_sym; apply (Permutation_cons_append [1;2]%nat 0%nat)|]. split; [reflexivity|].
  split; [own_tac|]. split; [own_tac|]. split; [exact F1|]. split; [exact F2|].
  split; [|split; [|split; [reflexivity|split; [reflexivity|]]]].
  - rewrite uf_one in O1. exact O1.
  - rewrite uf_two in O2. exact O2.
  - intros E. apply (f_equal (to_bits (B64_bits L))) in E. vm_compute in E. discriminate E.
Qed.
End Float.
