(** * PropCorrupt: damaged model files (C92). *)
From Coq.Strings Require Import Byte.
From Coq Require Import String ZArith List Bool Arith Lia Permutation.
From Verif Require Import Num NumB64 Heap Spec Matrix Network Loss Optimizers ModelGo LayerData ModelData PureSpec Repr OptSpec ModelSpec HeapLemmas
  CodecSpec CodecEx CodecRefute CorruptSpec CorruptProofs CorruptEx.
Import ListNotations.
Open Scope Z_scope.
Open Scope go_scope.

(** C92: writing any eight bytes over a stored weight is not noticed: the file loads without error
    or warning, and every other parameter is intact. *)
Theorem C92_weight (K : Num) (B : FBits K) s m es l o ord ps1 p ps2 rest s2 a b bs :
  int_faithful K -> feq (f0 : K) f0 = true -> bits_ok B -> bits_onto B ->
  finalized s m es l o -> storable m (net es) -> Permutation ord (m_optvals m) -> net es = ps1 ++ p :: ps2 ->
  (a < p_in p)%nat -> (b < p_out p)%nat -> length bs = 8%nat ->
  exists m' es' s2', LoadModel B (patch (weight_offset ord ps1 p a b) bs (model_bytes B m ord (net es)) ++ rest) s2 = (Ret (m', rest), s2') /\
    represents s2' m' es' (length (h_opts s2)) (PMod (map stored (ps1 ++ with_weight p a b (of_bits B (sum_bytes bs)) :: ps2)) l (m_acctype m) (m_prec m) o) /\
    h_log s2' = h_log s2.
Proof. exact (fun HI HF HB Ho H1 H2 H3 H4 => damaged_weight B HI HF HB Ho s m es l o ord ps1 p ps2 rest s2 H1 H2 H3 H4 a b bs). Qed.
Print Assumptions C92_weight.

(** C92: the same for biases. *)
Theorem C92_bias (K : Num) (B : FBits K) s m es l o ord ps1 p ps2 rest s2 b bs :
  int_faithful K -> feq (f0 : K) f0 = true -> bits_ok B -> bits_onto B ->
  finalized s m es l o -> storable m (net es) -> Permutation ord (m_optvals m) -> net es = ps1 ++ p :: ps2 ->
  (b < p_out p)%nat -> length bs = 8%nat ->
  exists m' es' s2', LoadModel B (patch (bias_offset ord ps1 p b) bs (model_bytes B m ord (net es)) ++ rest) s2 = (Ret (m', rest), s2') /\
    represents s2' m' es' (length (h_opts s2)) (PMod (map stored (ps1 ++ with_bias p b (of_bits B (sum_bytes bs)) :: ps2)) l (m_acctype m) (m_prec m) o) /\
    h_log s2' = h_log s2.
Proof. exact (fun HI HF HB Ho H1 H2 H3 H4 => damaged_bias B HI HF HB Ho s m es l o ord ps1 p ps2 rest s2 H1 H2 H3 H4 b bs). Qed.
Print Assumptions C92_bias.

(** C92: the number of inputs in the header is not even looked at. *)
Theorem C92_inputs (K : Num) (B : FBits K) s m es l o ord rest s2 bs :
  int_faithful K -> feq (f0 : K) f0 = true -> bits_ok B ->
  finalized s m es l o -> storable m (net es) -> Permutation ord (m_optvals m) -> length bs = 4%nat ->
  exists m' es' s2', LoadModel B (patch 10 bs (model_bytes B m ord (net es)) ++ rest) s2 = (Ret (m', rest), s2') /\
    represents s2' m' es' (length (h_opts s2)) (PMod (map stored (net es)) l (m_acctype m) (m_prec m) o) /\ h_log s2' = h_log s2.
Proof. exact (fun HI HF HB H1 H2 H3 => damaged_inputs B HI HF HB s m es l o ord rest s2 H1 H2 H3 bs). Qed.
Print Assumptions C92_inputs.

(** C92: damage to the tags is noticed: any other first four bytes, or any other two bytes where a layer starts. *)
Theorem C92_magic (K : Num) (B : FBits K) (s : state K) buf : int_faithful K -> feq (f0 : K) f0 = true -> firstn 4 buf <> list_byte_of_string "NNML" ->
  exists e s', LoadModel B buf s = (Fail e, s') /\ grows s s'.
Proof. exact (fun HI HF => damaged_magic B HI HF s buf). Qed.
Print Assumptions C92_magic.
Theorem C92_tag (K : Num) (B : FBits K) s m es l o ord ps1 p ps2 rest s2 bs :
  int_faithful K -> feq (f0 : K) f0 = true -> bits_ok B ->
  finalized s m es l o -> storable m (net es) -> Permutation ord (m_optvals m) -> net es = ps1 ++ p :: ps2 ->
  length bs = 2%nat -> bs <> list_byte_of_string "LA" ->
  exists e s2', LoadModel B (patch (layer_offset ord ps1) bs (model_bytes B m ord (net es)) ++ rest) s2 = (Fail e, s2') /\ grows s2 s2' /\ h_log s2' = h_log s2.
Proof. exact (fun HI HF HB H1 H2 H3 H4 => damaged_tag B HI HF HB s m es l o ord ps1 p ps2 rest s2 H1 H2 H3 H4 bs). Qed.
Print Assumptions C92_tag.
Example C92_ex (L : libm) : finalized (ces L f0) (cM L f0) (cEs L) MSE (cO L f0) /\ storable (cM L f0) (net (cEs L)) /\ bits_onto (B64_bits L) /\
  net (cEs L) = [] ++ cP0 L :: [cP1 L] /\
  weight_offset (m_optvals (cM L f0)) [] (cP0 L) 1 0 = 117%nat /\ bias_offset (m_optvals (cM L f0)) [cP0 L] (cP1 L) 0 = 168%nat /\
  layer_offset (m_optvals (cM L f0)) [cP0 L] = 133%nat /\ length (model_bytes (B64_bits L) (cM L f0) (m_optvals (cM L f0)) (net (cEs L))) = 176%nat.
Proof. exact (cor_ex L). Qed.

(** C92: so "a damaged file is reported" is false: one byte changes what a float64 model predicts. *)
Theorem C92_damage_reported_refuted (L : libm) : exists (s : state (B64 L)) m es l o ord a c x v v',
  finalized s m es l o /\ storable m (net es) /\ Permutation ord (m_optvals m) /\ (a < length (model_bytes (B64_bits L) m ord (net es)))%nat /\
  result L ((r <- LoadModel (B64_bits L) (model_bytes (B64_bits L) m ord (net es)) ;; P <- Predict (fst r) x ;; getc P 0 0) s) = Some v /\
  result L ((r <- LoadModel (B64_bits L) (patch a [c] (model_bytes (B64_bits L) m ord (net es))) ;; P <- Predict (fst r) x ;; getc P 0 0) s) = Some v' /\ v <> v' /\
  h_log (snd (LoadModel (B64_bits L) (patch a [c] (model_bytes (B64_bits L) m ord (net es))) s)) = h_log s.
Proof. exact (cor_one_byte L). Qed.
Print Assumptions C92_damage_reported_refuted.
