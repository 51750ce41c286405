(** * CodecEx: a concrete binary64 model, used by the examples and refutations about saving and
    loading. *)
From Coq.Strings Require Import Byte.
From Coq Require Import String Ascii ZArith List Bool Arith Lia Permutation.
From Flocq Require Import IEEE754.Bits.
From Verif Require Import Num NumB64 Heap Spec Matrix Network Loss Optimizers ModelGo LayerData ModelData PureSpec Repr OptSpec ModelSpec HeapLemmas
  Ex ModelEx CodecSpec.
Import ListNotations.
Open Scope Z_scope.
Open Scope go_scope.

(** The integer [z], and one half. *)
Definition bz (z : Z) : binary64 := b64_ofZ z.
Definition bhalf : binary64 := b64_div BinarySingleNaN.mode_NE (bz 1) (bz 2).
Arguments bz : simpl never.
Arguments bhalf : simpl never.

Section WithLibm.
Context (L : libm).
Notation BN := (B64 L).

(** A leaky layer 2 -> 1 and a linear layer 1 -> 1; one sample and its label. *)
Definition ce_rows : list (list BN) := [ [bz 3]; [bz (-2)]; [bz 5]; [bz 7]; [bz (-1)]; [bz 1; bz 2]; [bz 4] ].
Definition ce_outs : list (list nat) := [ [1; 2]; [3]; [4]; [5]; [6]; [7] ]%nat.
Definition cW0 := MkMatrix 2 1 (MkSlice 1 0 2). Definition cB0 := MkMatrix 1 1 (MkSlice 2 0 1).
Definition cW1 := MkMatrix 1 1 (MkSlice 3 0 1). Definition cB1 := MkMatrix 1 1 (MkSlice 4 0 1).
Definition cX := MkMatrix 1 2 (MkSlice 5 0 1). Definition cY := MkMatrix 1 1 (MkSlice 6 0 1).
Definition cL0 : layer BN := MkLayer Leaky 2 1 cW0 cB0 (bhalf : BN) f0 matrix0 matrix0.
Definition cL1 : layer BN := MkLayer Linear 1 1 cW1 cB1 f0 f0 matrix0 matrix0.
Definition c_rng : rng BN := MkRng (K := BN) (fun _ => bhalf) (fun _ => bhalf) (fun _ => 0) 0 0 0.
(** SGD at rate 1/2 with momentum [mu]. *)
Definition cO (mu : BN) : optimizer BN :=
  MkOpt SGD (bhalf : BN) f0 mu f0 f0 f0 (bhalf : BN) 0 matrix0 matrix0 matrix0 matrix0 false (negb (feq mu f0)).
Definition ces (mu : BN) : state BN := MkState ce_rows ce_outs [cL0; cL1] [cO mu; cO mu] c_rng true [].
Definition cM (mu : BN) : model BN :=
  MkModel 2 2 1 0 (Some (MkLoss MSE 1)) 0 (bhalf : BN) 0
    [("learningRate", (bhalf : BN)); ("decay", f0); ("momentum", mu)]%string [0; 1]%nat [0; 1]%nat.
Definition cP0 : player BN := PL (K := BN) Leaky 2 1 [[bz 3]; [bz (-2)]] [[bz 5]] (bhalf : BN) f0.
Definition cP1 : player BN := PL (K := BN) Linear 1 1 [[bz 7]] [[bz (-1)]] f0 f0.
Definition cEs : list (lent BN) := [LE 0 [1; 2]%nat [3]%nat cP0; LE 1 [4]%nat [5]%nat cP1].
Definition cPO (r : nat) : popt BN :=
  PO SGD (bhalf : BN) f0 f0 f0 f0 f0 (bhalf : BN) 0 false false (zmat r 1) (zmat 1 1) (zmat r 1) (zmat 1 1).
Definition cXs : list (oent BN) := [OE 0 [] (cPO 2); OE 1 [] (cPO 1)].

Lemma own_cX mu : own (ces mu) cX [6]%nat 1 2 ([[bz 1; bz 2]] : pm BN). Proof. own_tac. Qed.
Lemma own_cY mu : own (ces mu) cY [7]%nat 1 1 ([[bz 4]] : pm BN). Proof. own_tac. Qed.
Lemma consistent_c mu : consistent (ces mu) (cM mu) cEs 2 1.
Proof.
  repeat (split; [reflexivity|]). split; [simpl; auto|]. repeat (constructor; [eexists; split; [reflexivity|lown_tac]|]). constructor.
Qed.
Lemma prec_c : flt (bhalf : BN) f0 = false. Proof. vm_compute. reflexivity. Qed.
Lemma f0_c : feq (f0 : BN) f0 = true. Proof. vm_compute. reflexivity. Qed.
Lemma finalized_c mu : finalized (ces mu) (cM mu) cEs MSE (cO mu).
Proof. split; [exact (consistent_c mu)|]. repeat (split; [reflexivity|]). exact prec_c. Qed.
Lemma small_c : Forall small_player (net cEs).
Proof. repeat constructor. Qed.
Lemma storable_c mu : storable (cM mu) (net cEs).
Proof. split; [simpl; lia|]. split; [exact small_c|]. simpl. lia. Qed.
Lemma trainable_c : trainable (ces f0) (cM f0) cEs cXs 2 1 MSE.
Proof.
  split; [exact (consistent_c f0)|]. split; [split; nodup_tac|]. split; [simpl; lia|]. split; [reflexivity|].
  split; [nodup_tac|]. split.
  - repeat (constructor; [eexists; split; [reflexivity|]; split; [repeat split|]; simpl; reflexivity|]). constructor.
  - split; [intros z _ []|]. split; [reflexivity|]. split; [reflexivity|]. repeat constructor; discriminate.
Qed.
Lemma data_c : data_ok (ces f0) cEs cX [6]%nat cY [7]%nat 1 2 1 ([[bz 1; bz 2]] : pm BN) ([[bz 4]] : pm BN).
Proof. split; [apply own_cX|]. split; [apply own_cY|]. split; disj_tac. Qed.
End WithLibm.
