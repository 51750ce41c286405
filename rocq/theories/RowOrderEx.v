(** * RowOrderEx: row order matters in float64, and with dropout or smaller batches. *)
From Coq Require Import String ZArith List Bool Arith Lia Permutation QArith.
From Flocq Require Import IEEE754.Bits.
From Verif Require Import Num NumB64 NumQ Heap Spec Matrix Network Loss Optimizers ModelGo PureSpec Repr OptSpec ModelSpec HeapLemmas Ex ModelEx CodecEx CodecRefute.
Import ListNotations.
Open Scope Z_scope.
Open Scope go_scope.

Section WithLibm.
Context (L : libm).
Notation BN := (B64 L).
(** Linear 1 -> 1, all zero; three samples with input 0 and labels -2^53, -1, -1, in two orders. *)
Definition ro_rows : list (list BN) := [ [bz 0]; [bz 0]; [bz 0]; [bz 0]; [bz 0]; [bz (- 2 ^ 53)]; [bz (-1)]; [bz (-1)]; [bz (-1)]; [bz (-1)]; [bz (- 2 ^ 53)] ].
Definition ro_outs : list (list nat) := [ [1]; [2]; [3; 4; 5]; [6; 7; 8]; [9; 10; 11] ]%nat.
Definition ro_W := MkMatrix 1 1 (MkSlice 1 0 1). Definition ro_B := MkMatrix 1 1 (MkSlice 2 0 1).
Definition ro_x := MkMatrix 3 1 (MkSlice 3 0 3). Definition ro_y1 := MkMatrix 3 1 (MkSlice 4 0 3). Definition ro_y2 := MkMatrix 3 1 (MkSlice 5 0 3).
Definition ro_O : optimizer BN := MkOpt SGD (bz 1 : BN) f0 f0 f0 f0 f0 (bz 1 : BN) 0 matrix0 matrix0 matrix0 matrix0 false false.
Definition ro_s : state BN := MkState ro_rows ro_outs [MkLayer Linear 1 1 ro_W ro_B f0 f0 matrix0 matrix0] [ro_O] (c_rng L) true [].
Definition ro_m : model BN := MkModel 1 1 1 0 (Some (MkLoss MSE 1)) 0 (bhalf : BN) 0 [] [0]%nat [0]%nat.
Definition ro_E : list (lent BN) := [LE 0 [1]%nat [2]%nat (PL (K := BN) Linear 1 1 [[bz 0]] [[bz 0]] f0 f0)].
Definition ro_XS : list (oent BN) := [OE 0 [] (PO SGD (bz 1 : BN) f0 f0 f0 f0 f0 (bz 1 : BN) 0 false false (zmat 1 1) (zmat 1 1) (zmat 1 1) (zmat 1 1))].
Definition ro_X : pm BN := [[bz 0]; [bz 0]; [bz 0]].
Definition ro_Y : pm BN := [[bz (- 2 ^ 53)]; [bz (-1)]; [bz (-1)]].
Definition bias_bits (m : model BN) : M BN BN := r <- go_nth (m_layers m) 0 ;; l <- get_layer r ;; getc (l_b l) 0 0.
Lemma ro_trainable : trainable ro_s ro_m ro_E ro_XS 1 1 MSE.
Proof.
  unfold trainable. split; [|split; [|split; [|split; [|split; [|split; [|split; [|split; [|split]]]]]]]].
  - repeat (split; [reflexivity|]). split; [simpl; auto|]. constructor; [eexists; split; [reflexivity|lown_tac]|constructor].
  - split; nodup_tac.
  - simpl; lia.
  - reflexivity.
  - nodup_tac.
  - constructor; [|constructor]. eexists. split; [reflexivity|]. split; [repeat split|reflexivity].
  - intros z Hz Hz'. destruct Hz'.
  - reflexivity.
  - reflexivity.
  - repeat constructor; discriminate.
Qed.
Lemma row_order_witness : exists (s : state BN) m es xs x rsx y rsy x2 rsx2 y2 rsy2 p (X Y : pm BN) v v',
  trainable s m es xs 1 1 MSE /\ Forall (fun e => p_kind (e_p e) <> Dropout) es /\ Permutation p (seq 0 3) /\
  data_ok s es x rsx y rsy 3 1 1 X Y /\ data_ok s es x2 rsx2 y2 rsy2 3 1 1 (pick [] p X) (pick [] p Y) /\
  result L ((Fit m x y 1 0 matrix0 matrix0 0 ;; bias_bits m) s) = Some v /\
  result L ((Fit m x2 y2 1 0 matrix0 matrix0 0 ;; bias_bits m) s) = Some v' /\ v <> v'.
Proof.
  exists ro_s, ro_m, ro_E, ro_XS, ro_x, [3;4;5]%nat, ro_y1, [6;7;8]%nat, ro_x, [3;4;5]%nat, ro_y2, [9;10;11]%nat, [1;2;0]%nat, ro_X, ro_Y.
  do 2 eexists. split; [exact ro_trainable|]. split; [repeat constructor; discriminate|]. split.
  { apply Permutation_sym. change (seq 0 3) with ([0] ++ [1; 2])%nat. apply (Permutation_app_comm [0]%nat [1;2]%nat). }
  split. { split; [own_tac|]. split; [own_tac|]. split; intros z Hz Hz'; simpl in *; lia. }
  split. { split; [own_tac|]. split; [own_tac|]. split; intros z Hz Hz'; simpl in *; lia. }
  split; [vm_compute; reflexivity|]. split; [vm_compute; reflexivity|]. discriminate.
Qed.
End WithLibm.
