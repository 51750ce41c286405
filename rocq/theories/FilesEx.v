(** * FilesEx: an example of two models in one buffer. *)
From Coq.Strings Require Import Byte.
From Coq Require Import String ZArith List Bool Arith Lia Permutation.
From Flocq Require Import IEEE754.Bits.
From Verif Require Import Num NumB64 Heap Spec Matrix Network Loss Optimizers ModelGo LayerData ModelData PureSpec Repr OptSpec ModelSpec CodecSpec CodecEx FilesSpec.
Import ListNotations.

Section WithLibm.
Variable L : libm.
(** The same model twice, its optimizer values in two orders. *)
Definition file1 : smodel (B64 L) := SM (cM L f0) (cEs L) MSE (cO L f0) (m_optvals (cM L f0)).
Definition file2 : smodel (B64 L) := SM (cM L f0) (cEs L) MSE (cO L f0) (rev (m_optvals (cM L f0))).
Lemma savable1 : savable (ces L f0) file1.
Proof. split; [exact (finalized_c L f0)|]. split; [exact (storable_c L f0)|]. cbn [sm_ord sm_m file1]. apply Permutation_refl. Qed.
Lemma savable2 : savable (ces L f0) file2.
Proof. split; [exact (finalized_c L f0)|]. split; [exact (storable_c L f0)|]. cbn [sm_ord sm_m file2]. apply Permutation_sym, Permutation_rev. Qed.
Definition two_files : list byte := match save_all (B64_bits L) [file1; file2] [] (ces L f0) with (Ret b, _) => b | _ => [] end.
Definition reads : bool :=
  match load_all (B64_bits L) 2 (two_files ++ [x01; x02]) (ces L f0) with
  | (Ret ([a; b], [x01; x02]), s') => if list_eq_dec Nat.eq_dec (m_layers a) [2; 3]%nat then if list_eq_dec Nat.eq_dec (m_layers b) [4; 5]%nat then
      if list_eq_dec Nat.eq_dec (m_opts a) [2; 3]%nat then if list_eq_dec Nat.eq_dec (m_opts b) [4; 5]%nat then (length (h_layers s') =? 6)%nat else false else false else false else false
  | _ => false
  end.
Lemma ex_files : savable (ces L f0) file1 /\ savable (ces L f0) file2 /\ file1 <> file2 /\ length two_files <> 0%nat /\ reads = true.
Proof.
  split; [exact savable1|]. split; [exact savable2|]. split; [|split].
  - intros E. assert (H : map fst (sm_ord file1) = map fst (sm_ord file2)) by now rewrite E. vm_compute in H. discriminate.
  - vm_compute. discriminate.
  - vm_compute. reflexivity.
Qed.
End WithLibm.
