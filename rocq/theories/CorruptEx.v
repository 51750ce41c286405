(** * CorruptEx: one damaged byte in a saved model. *)
From Coq.Strings Require Import Byte.
From Coq Require Import String Ascii ZArith List Bool Arith Lia Permutation.
From Verif Require Import Num NumB64 Heap Spec Matrix Network Loss Optimizers ModelGo LayerData ModelData PureSpec Repr OptSpec ModelSpec HeapLemmas LoopLemmas
  MatrixProofs LayerProofs ModelProofs EvalProofs MatrixFacts ModelFacts CodecSpec CodecBytes CodecLoad CodecModel CodecSave CodecFacts CodecEx CodecRefute CodecGlue CorruptSpec CorruptProofs.
From Flocq Require Import Core.Zaux IEEE754.Bits.
Import ListNotations.
Open Scope Z_scope.
Open Scope go_scope.
Section WithLibm.
Variable L : libm.
Notation BN := (B64 L).
Notation BB := (B64_bits L).
Notation file := (model_bytes BB (cM L f0) (m_optvals (cM L f0)) (net (cEs L))).
Lemma cor_onto : bits_onto BB. Proof. exact (B64_bits_surj L). Qed.
Lemma cor_ex : finalized (ces L f0) (cM L f0) (cEs L) MSE (cO L f0) /\ storable (cM L f0) (net (cEs L)) /\ bits_onto BB /\ net (cEs L) = [] ++ cP0 L :: [cP1 L] /\
  weight_offset (m_optvals (cM L f0)) [] (cP0 L) 1 0 = 117%nat /\ bias_offset (m_optvals (cM L f0)) [cP0 L] (cP1 L) 0 = 168%nat /\
  layer_offset (m_optvals (cM L f0)) [cP0 L] = 133%nat /\ length file = 176%nat.
Proof.
  split; [apply finalized_c|]. split; [apply storable_c|]. split; [exact cor_onto|]. split; [reflexivity|]. repeat split; vm_compute; reflexivity.
Qed.
Lemma cor_one_byte : exists (s : state BN) m es l o ord a c x v v',
  finalized s m es l o /\ storable m (net es) /\ Permutation ord (m_optvals m) /\ (a < length (model_bytes BB m ord (net es)))%nat /\
  result L ((r <- LoadModel BB (model_bytes BB m ord (net es)) ;; P <- Predict (fst r) x ;; getc P 0 0) s) = Some v /\
  result L ((r <- LoadModel BB (patch a [c] (model_bytes BB m ord (net es))) ;; P <- Predict (fst r) x ;; getc P 0 0) s) = Some v' /\ v <> v' /\
  h_log (snd (LoadModel BB (patch a [c] (model_bytes BB m ord (net es))) s)) = h_log s.
Proof.
  exists (ces L f0), (cM L f0), (cEs L), MSE, (cO L f0), (m_optvals (cM L f0)), 116%nat, xc0, cX, (bits_of_b64 (bz 27)), (bits_of_b64 (bz (-8))).
  split; [apply finalized_c|]. split; [apply storable_c|]. split; [apply Permutation_refl|]. split; [vm_compute; lia|].
  split; [vm_compute; reflexivity|]. split; [vm_compute; reflexivity|]. split; [vm_compute; discriminate|].
  assert (H : length (h_log (snd (LoadModel BB (patch 116 [xc0] file) (ces L f0)))) = 0%nat) by (vm_compute; reflexivity).
  destruct (h_log (snd (LoadModel BB (patch 116 [xc0] file) (ces L f0)))); [reflexivity|discriminate H].
Qed.
End WithLibm.
