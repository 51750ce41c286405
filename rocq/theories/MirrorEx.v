(** * MirrorEx: a float64 network and its copy with the first input feature turned. *)
From Coq Require Import String ZArith List Bool Arith Lia.
From Flocq Require Import IEEE754.BinarySingleNaN IEEE754.Binary IEEE754.Bits.
From Verif Require Import Num NumB64 Heap Spec Matrix Loss Network Optimizers ModelGo LayerData PureSpec Repr HeapLemmas OptSpec ModelSpec ModelFacts FitLoop FitFacts CodecSpec CodecEx Ex ModelEx DeadEx BinomialProofs FlipSpec FlipEx MirrorSpec.
Import ListNotations.
Open Scope Z_scope.
Open Scope go_scope.

Section MirrorEx.
Context (L : libm).
Notation BN := (B64 L).
(** ReLU 2 -> 2, linear 2 -> 1; the first feature and its weights are multiplied by [z]; learning rate 1/2. *)
Definition mi_state (z : Z) : state BN :=
  MkState (K := BN) [[bz (z * 1); bz (z * 2)]; [bz 3; bz 1]; [bz 0; bz 1]; [bz 2]; [bz (-1)]; [bz 3]; [bz (z * 1); bz 2]; [bz (z * 4); bz 3]; [bz 5]; [bz 0]] [[1;2]; [3]; [4;5]; [6]; [7;8]; [9;10]]%nat
    [MkLayer (K := BN) Hidden 2 2 (MkMatrix 2 2 (MkSlice 1 0 2)) (MkMatrix 1 2 (MkSlice 2 0 1)) f0 f0 matrix0 matrix0;
     MkLayer (K := BN) Linear 2 1 (MkMatrix 2 1 (MkSlice 3 0 2)) (MkMatrix 1 1 (MkSlice 4 0 1)) f0 f0 matrix0 matrix0] [cO L f0; cO L f0] (c_rng L) true [].
Definition mi_p (z : Z) : player BN := PL (K := BN) Hidden 2 2 [[bz (z * 1); bz (z * 2)]; [bz 3; bz 1]] [[bz 0; bz 1]] f0 f0.
Definition mi_q : player BN := PL (K := BN) Linear 2 1 [[bz 2];[bz (-1)]] [[bz 3]] f0 f0.
Definition mi_es (z : Z) : list (lent BN) := [LE (K := BN) 0 [1;2]%nat [3]%nat (mi_p z); LE (K := BN) 1 [4;5]%nat [6]%nat mi_q].
Definition miX (z : Z) : pm BN := [[bz (z * 1); bz 2]; [bz (z * 4); bz 3]].
Lemma mi_trainable z : trainable (mi_state z) (fl_m L) (mi_es z) (fl_xs L) 2 1 MSE.
Proof.
  split; [|split; [|split; [|split; [|split; [|split; [|split; [|split; [|split]]]]]]]].
  - repeat (split; [reflexivity|]). split; [simpl; auto|]. repeat (constructor; [eexists; split; [reflexivity|lown_tac]|]). constructor.
  - split; nodup_tac.
  - simpl; lia.
  - reflexivity.
  - nodup_tac.
  - repeat (constructor; [eexists; split; [reflexivity|]; split; [repeat split|]; simpl; reflexivity|]). constructor.
  - intros v _ [].
  - reflexivity.
  - reflexivity.
  - repeat constructor; discriminate.
Qed.
Lemma mi_data z : data_ok (mi_state z) (mi_es z) fl_x [7;8]%nat fl_y [9;10]%nat 2 2 1 (miX z) (flY L 5 0).
Proof. split; [own_tac|]. split; [own_tac|]. split; disj_tac. Qed.
Ltac turn := let n := fresh "n" in let j := fresh "j" in intros n j ? ?; cbn [p_in p_out fst snd mi_p mi_q] in *; destruct n as [|[|n]]; try lia; destruct j as [|[|j]]; try lia; right; vm_compute; reflexivity.
Lemma mi_all : trainable (mi_state 1) (fl_m L) (mi_es 1) (fl_xs L) 2 1 MSE /\ data_ok (mi_state 1) (mi_es 1) fl_x [7;8]%nat fl_y [9;10]%nat 2 2 1 (miX 1) (flY L 5 0) /\
  trainable (mi_state (-1)) (fl_m L) (mi_es (-1)) (fl_xs L) 2 1 MSE /\ data_ok (mi_state (-1)) (mi_es (-1)) fl_x [7;8]%nat fl_y [9;10]%nat 2 2 1 (miX (-1)) (flY L 5 0) /\
  cturned (Nat.eqb 0) 2 2 (miX 1) (miX (-1)) /\ mirrored (Nat.eqb 0) (trainer (mi_es 1) (fl_xs L)) (trainer (mi_es (-1)) (fl_xs L)).
Proof.
  do 2 (split; [apply mi_trainable|split; [apply mi_data|]]). split; [turn|].
  change (mirrored (Nat.eqb 0) [(mi_p 1, df_po L 2 2); (mi_q, df_po L 2 1)] [(mi_p (-1), df_po L 2 2); (mi_q, df_po L 2 1)]).
  cbn [mirrored fst snd]. split; [|split; [|split; [|split; [|intros; reflexivity]]]].
  - unfold lmirrored. cbn [mi_p p_kind p_in p_out p_slope p_drop p_w p_b]. split; [auto|]. do 5 (split; [reflexivity|]). split; turn.
  - unfold omirrored. cbn [mi_p p_in p_out df_po po_kind po_lr po_decay po_mom po_rate po_iter po_usedecay po_usemom po_eps po_b1 po_b2 po_wm po_bm po_wc po_bc]. split; [left; reflexivity|]. do 11 (split; [reflexivity|]). split; [turn|]. split; [turn|]. split; intros ? ? _ _; left; reflexivity.
  - unfold lmirrored. cbn [mi_q p_kind p_in p_out p_slope p_drop p_w p_b]. split; [auto|]. do 5 (split; [reflexivity|]). split; turn.
  - unfold omirrored. cbn [mi_q p_in p_out df_po po_kind po_lr po_decay po_mom po_rate po_iter po_usedecay po_usemom po_eps po_b1 po_b2 po_wm po_bm po_wc po_bc]. split; [left; reflexivity|]. do 11 (split; [reflexivity|]). split; [turn|]. split; [turn|]. split; intros ? ? _ _; left; reflexivity.
Qed.
End MirrorEx.
