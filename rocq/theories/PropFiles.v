(** * PropFiles: saved files and the models they hold (C107). *)
From Coq.Strings Require Import Byte.
From Coq Require Import String ZArith List Bool Arith Lia Permutation.
From Verif Require Import Num NumB64 Heap Spec Matrix Network Loss Optimizers ModelGo LayerData ModelData PureSpec Repr OptSpec ModelSpec
  CodecSpec CodecBytes CodecSave FilesSpec FilesProofs CodecEx FilesEx.
Import ListNotations.
Open Scope Z_scope.
Open Scope go_scope.

(** C107: a file holds one model only, and says where it ends. *)
Theorem C107_same_file (K : Num) (B : FBits K) (s s' : state K) f f' bytes bytes' rest rest' : int_faithful K -> bits_ok B -> savable s f -> savable s' f' ->
  save B (sm_m f) (sm_ord f) s = (Ret bytes, s) -> save B (sm_m f') (sm_ord f') s' = (Ret bytes', s') -> bytes ++ rest = bytes' ++ rest' ->
  bytes = bytes' /\ rest = rest' /\ map stored (net (sm_es f)) = map stored (net (sm_es f')) /\ sm_l f = sm_l f' /\
  m_acctype (sm_m f) = m_acctype (sm_m f') /\ m_prec (sm_m f) = m_prec (sm_m f') /\ o_kind (sm_o f) = o_kind (sm_o f') /\ opt_values (sm_o f) = opt_values (sm_o f').
Proof. exact (fun HI HB => same_file B HI HB s s' f f' bytes bytes' rest rest'). Qed.
Theorem C107_sequence (K : Num) (B : FBits K) (s : state K) fs : int_faithful K -> feq (f0 : K) f0 = true -> bits_ok B -> Forall (savable s) fs ->
  exists bytes, save_all B fs [] s = (Ret bytes, s) /\ forall rest s2, exists rs s2', load_all B (length fs) (bytes ++ rest) s2 = (Ret (map rm_m rs, rest), s2') /\
    Forall2 (fun f r => represents s2' (rm_m r) (rm_es r) (rm_n r) (meaning f)) fs rs /\
    unshared (concat (map rm_es rs)) /\ NoDup (concat (map (fun r => m_opts (rm_m r)) rs)) /\ fresh s2 (prows (concat (map rm_es rs))) /\ grows s2 s2' /\ h_log s2' = h_log s2.
Proof. exact (fun HI HF HB => sequence B HI HF HB s fs). Qed.
Theorem C107_first_only (K : Num) (B : FBits K) (s : state K) f bytes rest nread s2 : int_faithful K -> feq (f0 : K) f0 = true -> bits_ok B -> savable s f ->
  save B (sm_m f) (sm_ord f) s = (Ret bytes, s) -> (length (bytes ++ rest) <= nread)%nat ->
  exists m' es' s2', LoadFile B (Some (bytes ++ rest)) nread s2 = (Ret m', s2') /\ represents s2' m' es' (length (h_opts s2)) (meaning f) /\ h_log s2' = h_log s2.
Proof. exact (fun HI HF HB => first_only B HI HF HB s f bytes rest nread s2). Qed.
Print Assumptions C107_same_file.
Print Assumptions C107_sequence.
Print Assumptions C107_first_only.
Example C107_ex L : savable (ces L f0) (file1 L) /\ savable (ces L f0) (file2 L) /\ file1 L <> file2 L /\ length (two_files L) <> 0%nat /\ reads L = true.
Proof. exact (ex_files L). Qed.
