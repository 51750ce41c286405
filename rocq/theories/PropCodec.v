(** * PropCodec: saving and loading (C55-C66, C68). *)
From Coq.Strings Require Import Byte.
From Coq Require Import String ZArith List Bool Arith Lia Permutation.
From Flocq Require Import IEEE754.Bits.
From Verif Require Import Num NumB64 Heap Spec Matrix Network Loss Optimizers ModelGo LayerData ModelData PureSpec Repr OptSpec ModelSpec HeapLemmas
  Ex ModelEx CodecSpec CodecBytes CodecLoad CodecModel CodecSave CodecFacts CodecMore CodecResume CodecEx CodecRefute CodecGlue.
Import ListNotations.
Open Scope Z_scope.
Open Scope go_scope.

(** The number semantics of this file: any [K] with a bit representation that can be read back.
    All hypotheses hold for float64. *)
Theorem C55_semantics (L : libm) : int_faithful (B64 L) /\ feq (f0 : B64 L) f0 = true /\ bits_ok (B64_bits L) /\
  to_bits (B64_bits L) (of_bits (B64_bits L) 0) = 0.
Proof. exact (codec_semantics L). Qed.
Print Assumptions C55_semantics.

(** C55: layers. *)
Theorem C55_round_trip (K : Num) (B : FBits K) (s : state K) lref l rw rb p buf rest s2 : int_faithful K -> bits_ok B ->
  nth_error (h_layers s) lref = Some l -> lown s l rw rb p -> small_player p ->
  save_layer B lref buf s = (Ret (buf ++ layer_bytes B p), s) /\
  exists l' rw' rb' s2', LoadLayer B (layer_bytes B p ++ rest) s2 = (Ret (length (h_layers s2), rest), s2') /\ loaded s2 s2' l' rw' rb' (stored p).
Proof. exact (fun HI HB => layer_round_trip B HI HB s lref l rw rb p buf rest s2). Qed.
Theorem C55_bad_shape (K : Num) (B : FBits K) (s : state K) lref l buf : int_faithful K -> nth_error (h_layers s) lref = Some l -> small_layer l ->
  mrows (l_w l) <> l_in l \/ mcols (l_w l) <> l_out l \/ mrows (l_b l) <> 1 \/ mcols (l_b l) <> l_out l ->
  save_layer B lref buf s = (Fail (ELayerDims (l_in l) (l_out l)), s).
Proof. exact (fun HI => layer_save_error B HI s lref l buf). Qed.
Print Assumptions C55_round_trip.
Print Assumptions C55_bad_shape.
Example C55_ex L : nth_error (h_layers (ces L f0)) 0 = Some (cL0 L) /\ lown (ces L f0) (cL0 L) [1; 2]%nat [3]%nat (cP0 L) /\ small_player (cP0 L) /\
  stored (cP0 L) = cP0 L /\ length (layer_bytes (B64_bits L) (cP0 L)) = 51%nat /\
  match (b <- save_layer (B64_bits L) 0 [] ;; LoadLayer (B64_bits L) (b ++ [x2a])) (ces L f0) with
  | (Ret (r, rest), s') => r = 2%nat /\ rest = [x2a] /\ length (h_layers s') = 3%nat | _ => False end.
Proof. exact (ex_layer L). Qed.

(** C56: models. *)
Theorem C56_round_trip (K : Num) (B : FBits K) (s : state K) m es l o ord rest s2 : int_faithful K -> feq (f0 : K) f0 = true -> bits_ok B ->
  finalized s m es l o -> storable m (net es) -> Permutation ord (m_optvals m) ->
  save B m ord s = (Ret (model_bytes B m ord (net es)), s) /\
  exists m' es' s2', LoadModel B (model_bytes B m ord (net es) ++ rest) s2 = (Ret (m', rest), s2') /\
    represents s2' m' es' (length (h_opts s2)) (PMod (map stored (net es)) l (m_acctype m) (m_prec m) o) /\
    map e_ref es' = seq (length (h_layers s2)) (length es') /\ fresh s2 (prows es') /\ grows s2 s2' /\ h_log s2' = h_log s2.
Proof. exact (fun HI HF HB => model_round_trip B HI HF HB s m es l o ord rest s2). Qed.
(** Finalize produces such models, and training keeps them so. *)
Theorem C56_finalize (K : Num) (s : state K) m es l o acc prec : int_faithful K -> feq (f0 : K) f0 = true ->
  consistent s m es (first_in (net es)) (last_out (net es)) -> Z.of_nat (last_out (net es)) <= 2 ^ 53 -> flt prec f0 = false ->
  returns (Finalize m (MkLoss l (Z.of_nat (last_out (net es)))) o acc prec) s (fun r s' =>
    snd r = None /\ finalized s' (fst r) es l o /\ m_acctype (fst r) = acc /\ m_prec (fst r) = prec).
Proof. exact (fun HI HF => finalize_finalized HI HF s m es l o acc prec). Qed.
Theorem C56_trained (K : Num) (s : state K) m es l o s' es' i k :
  finalized s m es l o -> Forall2 same_place es es' -> consistent s' m es' i k -> finalized s' m es' l o.
Proof. exact (trained_finalized s m es l o s' es' i k). Qed.
Print Assumptions C56_round_trip.
Print Assumptions C56_finalize.
Print Assumptions C56_trained.
Example C56_ex L : finalized (ces L f0) (cM L f0) (cEs L) MSE (cO L f0) /\ storable (cM L f0) (net (cEs L)) /\
  Permutation (rev (m_optvals (cM L f0))) (m_optvals (cM L f0)) /\
  match (b <- save (B64_bits L) (cM L f0) (rev (m_optvals (cM L f0))) ;; LoadModel (B64_bits L) b) (ces L f0) with
  | (Ret (m, rest), _) => rest = [] /\ m_layers m = [2; 3]%nat /\ m_opts m = [2; 3]%nat /\ m_out m = 1 | _ => False end.
Proof. exact (ex_model L). Qed.

(** C57. *)
Theorem C57_predict (K : Num) (s : state K) m es l o s' m' es' n x rs r X x' rs' :
  finalized s m es l o -> represents s' m' es' n (PMod (map stored (net es)) l (m_acctype m) (m_prec m) o) ->
  (1 <= length es)%nat -> 0 <= m_acctype m <= 2 -> (1 <= r)%nat ->
  own s x rs r (first_in (net es)) X -> own s' x' rs' r (first_in (net es)) X ->
  exists P P' s1 s1', Predict m x s = (Ret P, s1) /\ Predict m' x' s' = (Ret P', s1') /\
    exists ro ro' c A, own s1 P ro r c A /\ own s1' P' ro' r c A.
Proof. exact (same_predictions s m es l o s' m' es' n x rs r X x' rs'). Qed.
Theorem C57_evaluate (K : Num) (s : state K) m es l o s' m' es' n x rs r X x' rs' y ry Y y' ry' : int_faithful K ->
  finalized s m es l o -> represents s' m' es' n (PMod (map stored (net es)) l (m_acctype m) (m_prec m) o) ->
  (1 <= length es)%nat -> 0 <= m_acctype m <= 2 -> (1 <= r)%nat -> Z.of_nat (last_out (net es)) <= 2 ^ 53 ->
  own s x rs r (first_in (net es)) X -> own s' x' rs' r (first_in (net es)) X ->
  own s y ry r (last_out (net es)) Y -> own s' y' ry' r (last_out (net es)) Y ->
  (exists v, fst (CalculateLoss m x y s) = Ret v /\ fst (CalculateLoss m' x' y' s') = Ret v) /\
  (exists v, fst (CalculateAccuracy m x y s) = Ret v /\ fst (CalculateAccuracy m' x' y' s') = Ret v).
Proof. exact (fun HI => same_evaluations HI s m es l o s' m' es' n x rs r X x' rs' y ry Y y' ry'). Qed.
Print Assumptions C57_predict.
Print Assumptions C57_evaluate.
Example C57_ex L : finalized (ces L f0) (cM L f0) (cEs L) MSE (cO L f0) /\ own (ces L f0) cX [6]%nat 1 2 ([[bz 1; bz 2]] : pm (B64 L)) /\
  result L ((P <- Predict (cM L f0) cX ;; getc P 0 0) (ces L f0)) = Some (bits_of_b64 (bz 27)) /\
  result L ((b <- save (B64_bits L) (cM L f0) (m_optvals (cM L f0)) ;; r <- LoadModel (B64_bits L) b ;; P <- Predict (fst r) cX ;; getc P 0 0) (ces L f0)) = Some (bits_of_b64 (bz 27)).
Proof. exact (ex_predict L). Qed.

(** C58: proper prefixes, in a process with a logger; without one, 5 to 8 bytes are a panic. *)
Theorem C58_truncated (K : Num) (B : FBits K) (s : state K) m es l o ord n s2 : int_faithful K -> feq (f0 : K) f0 = true -> bits_ok B ->
  finalized s m es l o -> storable m (net es) -> Permutation ord (m_optvals m) ->
  (n < length (model_bytes B m ord (net es)))%nat -> h_logger s2 = true \/ (n < 5)%nat \/ (9 <= n)%nat ->
  exists e s2', LoadModel B (firstn n (model_bytes B m ord (net es))) s2 = (Fail e, s2') /\ grows s2 s2'.
Proof. exact (fun HI HF HB => truncated_rejected B HI HF HB s m es l o ord n s2). Qed.
Theorem C58_truncated_layer (K : Num) (B : FBits K) (p : player K) n s2 : bits_ok B -> codable p -> (n < length (layer_bytes B p))%nat ->
  exists e s2', LoadLayer B (firstn n (layer_bytes B p)) s2 = (Fail e, s2') /\ ext s2 s2'.
Proof. exact (fun HB => truncated_layer B HB p n s2). Qed.
Theorem C58_panic_refuted (L : libm) : exists (s : state (B64 L)) m es l o ord n s2 p s2',
  finalized s m es l o /\ storable m (net es) /\ Permutation ord (m_optvals m) /\ (n < length (model_bytes (B64_bits L) m ord (net es)))%nat /\
  LoadModel (B64_bits L) (firstn n (model_bytes (B64_bits L) m ord (net es))) s2 = (Panic p, s2').
Proof. exact (truncated_panic_witness L). Qed.
Print Assumptions C58_truncated.
Print Assumptions C58_truncated_layer.
Print Assumptions C58_panic_refuted.
Example C58_ex L : let b := model_bytes (B64_bits L) (cM L f0) (m_optvals (cM L f0)) (net (cEs L)) in
  finalized (ces L f0) (cM L f0) (cEs L) MSE (cO L f0) /\ storable (cM L f0) (net (cEs L)) /\ codable (cP0 L) /\ h_logger (ces L f0) = true /\
  length b = 176%nat /\ (exists e s', LoadModel (B64_bits L) (firstn 175 b) (ces L f0) = (Fail e, s')).
Proof. exact (ex_truncated L). Qed.

(** C59: the models LoadModel returns. *)
Theorem C59_accepted (K : Num) (B : FBits K) (s : state K) buf m rest s' : int_faithful K -> feq (f0 : K) f0 = true ->
  LoadModel B buf s = (Ret (m, rest), s') ->
  exists d es, decode_model B (h_logger s) buf = Good (d, rest) /\ represents s' m es (length (h_opts s)) d /\
    map e_ref es = seq (length (h_layers s)) (length es) /\ fresh s (prows es) /\ Forall (fun e => small_player (e_p e)) es /\
    grows s s' /\ h_log s' = h_log s ++ version_warning buf.
Proof. exact (fun HI HF => load_ret B HI HF s buf m rest s'). Qed.
Theorem C59_decodes (K : Num) (B : FBits K) (s : state K) buf d rest : int_faithful K -> feq (f0 : K) f0 = true ->
  decode_model B (h_logger s) buf = Good (d, rest) ->
  exists m es s', LoadModel B buf s = (Ret (m, rest), s') /\ represents s' m es (length (h_opts s)) d.
Proof. exact (fun HI HF => load_good_represents B HI HF s buf d rest). Qed.
Theorem C59_predicts (K : Num) (s : state K) m es n d x rs r X : represents s m es n d -> (1 <= length es)%nat -> 0 <= d_acc d <= 2 -> (1 <= r)%nat ->
  own s x rs r (first_in (d_layers d)) X ->
  exists c A, ppredict (d_acc d) r (last_out (d_layers d)) (pnet (d_layers d) r X) = Some (c, A) /\
  returns (Predict m x) s (fun P s' => exists ro, own s' P ro r c A).
Proof. exact (loaded_predicts s m es n d x rs r X). Qed.
(** LoadLayer returns the layer that the bytes describe, or an error; it never panics. *)
Theorem C59_layer (K : Num) (B : FBits K) (s : state K) buf :
  match decode_layer B buf with
  | Some (p, rest) => exists l rw rb s', LoadLayer B buf s = (Ret (length (h_layers s), rest), s') /\ loaded s s' l rw rb p
  | None => exists e s', LoadLayer B buf s = (Fail e, s') /\ ext s s'
  end.
Proof. exact (load_layer_total B s buf). Qed.
(** The accuracy type of the file is not checked: Predict fails later. *)
Theorem C59_accuracy_type_refuted (L : libm) : exists (s : state (B64 L)) buf m rest s' x rs X e s1,
  LoadModel (B64_bits L) buf s = (Ret (m, rest), s') /\ own s' x rs 1 2 X /\ m_in m = 2 /\ 1 <= m_size m /\ Predict m x s' = (Fail e, s1).
Proof. exact (bad_accuracy_witness L). Qed.
Print Assumptions C59_accepted.
Print Assumptions C59_decodes.
Print Assumptions C59_predicts.
Print Assumptions C59_layer.
Print Assumptions C59_accuracy_type_refuted.
Example C59_ex L : let b := model_bytes (B64_bits L) (cM L f0) (m_optvals (cM L f0)) (net (cEs L)) in
  exists m es s' d, LoadModel (B64_bits L) b (ces L f0) = (Ret (m, []), s') /\ represents s' m es 2 d /\ length es = 2%nat /\ d_acc d = 0 /\
    own s' cX [6]%nat 1 (first_in (d_layers d)) ([[bz 1; bz 2]] : pm (B64 L)).
Proof. exact (ex_loaded L). Qed.

(** C60: exactly when LoadModel panics. *)
Theorem C60_panic_iff (K : Num) (B : FBits K) (s : state K) buf : int_faithful K -> feq (f0 : K) f0 = true ->
  (exists p s', LoadModel B buf s = (Panic p, s')) <->
  (5 <= length buf)%nat /\ string_at 0 4 buf = "NNML"%string /\
  ((h_logger s = false /\ string_at 4 5 buf <> VERSION) \/
   ((30 <= length buf)%nat /\ exists k kvs rest, Z.of_nat k < int8_at 29 buf /\ decode_pairs B k (skipn 30 buf) = Good (kvs, rest) /\ rest <> [] /\ int8_at 0 rest < 0)).
Proof. exact (fun HI HF => panic_iff B HI HF s buf). Qed.
Theorem C60_negative_length_refuted (K : Num) (B : FBits K) : exists (s : state K) buf p s', h_logger s = true /\ LoadModel B buf s = (Panic p, s').
Proof. exact (neg_key_witness B). Qed.
Theorem C60_no_logger_refuted (K : Num) (B : FBits K) : exists (s : state K) buf p s', h_logger s = false /\ string_at 4 5 buf <> VERSION /\ LoadModel B buf s = (Panic p, s').
Proof. exact (old_version_witness B). Qed.
Print Assumptions C60_panic_iff.
Print Assumptions C60_negative_length_refuted.
Print Assumptions C60_no_logger_refuted.
Example C60_ex L : h_logger (ces L f0) = true /\ length neg_key = 31%nat /\ string_at 0 4 neg_key = "NNML"%string /\ string_at 4 5 neg_key = VERSION /\
  decode_pairs (B64_bits L) 0 (skipn 30 neg_key) = Good ([], [xff]) /\ 0 < int8_at 29 neg_key /\ int8_at 0 [xff] = -1.
Proof. exact (ex_neg_key L). Qed.

(** C61: the bytes, and how many there are. *)
Theorem C61_layer (K : Num) (B : FBits K) (s : state K) lref l rw rb p buf : int_faithful K -> nth_error (h_layers s) lref = Some l ->
  lown s l rw rb p -> small_player p ->
  save_layer B lref buf s = (Ret (buf ++ list_byte_of_string "LA" ++ enc 1 (lkind_code (p_kind p)) ++ enc 4 (Z.of_nat (p_in p)) ++ enc 4 (Z.of_nat (p_out p)) ++
    f64s B [stored_slope p] ++ f64s B [stored_drop p] ++ f64s B (concat (p_w p)) ++ f64s B (concat (p_b p))), s) /\
  length (layer_bytes B p) = (27 + 8 * (p_in p * p_out p) + 8 * p_out p)%nat.
Proof. exact (fun HI => layer_format B HI s lref l rw rb p buf). Qed.
Theorem C61_model (K : Num) (B : FBits K) (s : state K) m es i o ord : int_faithful K -> consistent s m es i o -> Forall (fun e => small_player (e_p e)) es ->
  save B m ord s = (Ret (list_byte_of_string "NNML" ++ list_byte_of_string "1.0.3" ++ enc 1 (m_size m) ++ enc 4 (m_in m) ++ enc 4 (m_out m) ++
    enc 1 (m_losstype m) ++ enc 1 (m_acctype m) ++ f64s B [m_prec m] ++ enc 1 (m_opttype m) ++
    enc 1 (Z.of_nat (length (m_optvals m))) ++ concat (map (pair_bytes B) ord) ++ concat (map (layer_bytes B) (net es))), s) /\
  length (model_bytes B m ord (net es)) =
    (30 + list_total (map (fun kv => 9 + String.length (fst kv)) ord) + list_total (map layer_size (net es)))%nat.
Proof. exact (fun HI => model_format B HI s m es i o ord). Qed.
(** [enc] is little-endian two's complement: reading it back gives the number. *)
Theorem C61_little_endian : (forall n z, length (enc n z) = n) /\ (forall n z, sum_bytes (enc n z) = z mod 256 ^ Z.of_nat n) /\
  (forall z, -128 <= z < 128 -> int8_at 0 (enc 1 z) = z) /\ (forall z, -2^31 <= z < 2^31 -> int32_at 0 (enc 4 z) = z).
Proof. exact enc_correct. Qed.
Print Assumptions C61_layer.
Print Assumptions C61_model.
Print Assumptions C61_little_endian.
Example C61_ex : enc 4 258 = [x02; x01; x00; x00] /\ enc 1 (-1) = [xff] /\ int32_at 0 [xfe; xff; xff; xff] = -2.
Proof. repeat split. Qed.

(** C62: more than 127 layers. *)
Theorem C62_long (K : Num) (B : FBits K) (s : state K) m es l o ord s2 : int_faithful K -> feq (f0 : K) f0 = true -> bits_ok B ->
  finalized s m es l o -> Forall small_player (net es) -> -128 <= m_acctype m < 128 -> (128 <= length es <= 256)%nat -> Permutation ord (m_optvals m) ->
  exists bytes, save B m ord s = (Ret bytes, s) /\ exists e s2', LoadModel B bytes s2 = (Fail e, s2').
Proof. exact (fun HI HF HB => long_rejected B HI HF HB s m es l o ord s2). Qed.
Theorem C62_round_trip_refuted (L : libm) : exists (s : state (B64 L)) m es l o ord bytes s2 e s2', finalized s m es l o /\ length es = 128%nat /\ Permutation ord (m_optvals m) /\
  save (B64_bits L) m ord s = (Ret bytes, s) /\ LoadModel (B64_bits L) bytes s2 = (Fail e, s2').
Proof. exact (long_witness L). Qed.
(** With 257 layers the file loads, as a model of one layer. *)
Theorem C62_silent_loss_refuted (L : libm) : exists (s : state (B64 L)) m es l o ord bytes s2 m' rest s2', finalized s m es l o /\ m_size m = 257 /\ Permutation ord (m_optvals m) /\
  save (B64_bits L) m ord s = (Ret bytes, s) /\ LoadModel (B64_bits L) bytes s2 = (Ret (m', rest), s2') /\ m_size m' = 1 /\ rest <> [].
Proof. exact (lost_layers_witness L). Qed.
Print Assumptions C62_long.
Print Assumptions C62_round_trip_refuted.
Print Assumptions C62_silent_loss_refuted.
Example C62_ex L : finalized (ces L f0) (cMn L 200) (cEn L 200) MSE (cO L f0) /\ Forall small_player (net (cEn L 200)) /\ length (cEn L 200) = 200%nat.
Proof. exact (ex_long L). Qed.

(** C63: files. *)
Theorem C63_save (K : Num) (B : FBits K) (s : state K) m es l o ord env f : int_faithful K -> finalized s m es l o -> Forall fits53 (net es) ->
  let bytes := model_bytes B m ord (net es) in
  SaveFile B m ord env f s =
    (Ret (if negb (se_create_ok env) then (Some (EMsg "create"), f)
          else if (length bytes <=? se_written env)%nat then (None, Some bytes)
          else (Some (EMsg "write"), Some (firstn (se_written env) bytes))), s).
Proof. exact (fun HI => SaveFile_run B HI s m es l o ord env f). Qed.
Theorem C63_load (K : Num) (B : FBits K) (s : state K) m es l o ord nread s2 : int_faithful K -> feq (f0 : K) f0 = true -> bits_ok B ->
  finalized s m es l o -> storable m (net es) -> Permutation ord (m_optvals m) -> let bytes := model_bytes B m ord (net es) in (length bytes <= nread)%nat ->
  exists m' es' s2', LoadFile B (Some bytes) nread s2 = (Ret m', s2') /\
    represents s2' m' es' (length (h_opts s2)) (PMod (map stored (net es)) l (m_acctype m) (m_prec m) o).
Proof. exact (fun HI HF HB => LoadFile_saved B HI HF HB s m es l o ord nread s2). Qed.
Theorem C63_prefix (K : Num) (B : FBits K) (s : state K) m es l o ord n nread s2 : int_faithful K -> feq (f0 : K) f0 = true -> bits_ok B ->
  finalized s m es l o -> storable m (net es) -> Permutation ord (m_optvals m) -> let bytes := model_bytes B m ord (net es) in
  (n < length bytes)%nat -> h_logger s2 = true \/ (n < 5)%nat \/ (9 <= n)%nat -> (n <= nread)%nat ->
  exists e s2', LoadFile B (Some (firstn n bytes)) nread s2 = (Fail e, s2') /\ grows s2 s2'.
Proof. exact (fun HI HF HB => LoadFile_prefix B HI HF HB s m es l o ord n nread s2). Qed.
(** Whatever a crash leaves behind is the old file, or loads as the complete new model, or is
    rejected with an error: never a different model. *)
Theorem C63_crash (K : Num) (B : FBits K) (s : state K) m es l o ord old f nread s2 : int_faithful K -> feq (f0 : K) f0 = true -> bits_ok B ->
  finalized s m es l o -> storable m (net es) -> Permutation ord (m_optvals m) -> let bytes := model_bytes B m ord (net es) in
  crash_state old bytes f -> h_logger s2 = true -> (length bytes <= nread)%nat ->
  f = old \/
  (exists m' es' s2', LoadFile B f nread s2 = (Ret m', s2') /\
     represents s2' m' es' (length (h_opts s2)) (PMod (map stored (net es)) l (m_acctype m) (m_prec m) o)) \/
  exists e s2', LoadFile B f nread s2 = (Fail e, s2') /\ grows s2 s2'.
Proof. exact (fun HI HF HB => crash_outcomes B HI HF HB s m es l o ord old f nread s2). Qed.
Theorem C63_atomic_refuted (L : libm) : exists (s : state (B64 L)) m ord old e s' s2 m2 s2' e2 s3, (1 <= length old)%nat /\
  LoadFile (B64_bits L) (Some old) (length old) s2 = (Ret m2, s2') /\
  SaveFile (B64_bits L) m ord (MkSaveEnv true (length old)) (Some old) s = (Ret (Some e, Some []), s') /\
  LoadFile (B64_bits L) (Some []) 0 s2 = (Fail e2, s3).
Proof. exact (not_atomic_witness L). Qed.
Print Assumptions C63_save.
Print Assumptions C63_load.
Print Assumptions C63_prefix.
Print Assumptions C63_crash.
Print Assumptions C63_atomic_refuted.
Example C63_ex L : finalized (ces L f0) (cM L f0) (cEs L) MSE (cO L f0) /\ storable (cM L f0) (net (cEs L)) /\ Forall fits53 (net (cEs L)) /\
  h_logger (ces L f0) = true /\ (100 < length (model_bytes (B64_bits L) (cM L f0) (m_optvals (cM L f0)) (net (cEs L))))%nat.
Proof. exact (ex_file L). Qed.

(** C64: reads of fewer bytes. *)
Theorem C64_full (K : Num) (B : FBits K) content nread (s : state K) : (length content <= nread)%nat ->
  LoadFile B (Some content) nread s = (r <- LoadModel B content ;; ret (fst r)) s.
Proof. exact (LoadFile_full B content nread s). Qed.
Theorem C64_short (K : Num) (B : FBits K) (s : state K) m es ps p l o ord j s2 : int_faithful K -> feq (f0 : K) f0 = true -> bits_ok B ->
  to_bits B (of_bits B 0) = 0 ->
  finalized s m es l o -> net es = ps ++ [p] -> storable m (net es) -> Permutation ord (m_optvals m) -> (j <= p_out p)%nat ->
  let bytes := model_bytes B m ord (net es) in
  exists m' es' s2', LoadFile B (Some bytes) (length bytes - 8 * j) s2 = (Ret m', s2') /\
    represents s2' m' es' (length (h_opts s2)) (PMod (map stored (ps ++ [tail_lost B j p])) l (m_acctype m) (m_prec m) o).
Proof. exact (fun HI HF HB HZ => short_read B HI HF HB HZ s m es ps p l o ord j s2). Qed.
Theorem C64_short_read_refuted (L : libm) : exists (s : state (B64 L)) m es l o ord nread s2 m' es' n d s2',
  finalized s m es l o /\ storable m (net es) /\ Permutation ord (m_optvals m) /\
  LoadFile (B64_bits L) (Some (model_bytes (B64_bits L) m ord (net es))) nread s2 = (Ret m', s2') /\ represents s2' m' es' n d /\ d_layers d <> map stored (net es).
Proof. exact (short_read_witness L). Qed.
Print Assumptions C64_full.
Print Assumptions C64_short.
Print Assumptions C64_short_read_refuted.
Example C64_ex L : finalized (ces L f0) (cM L f0) (cEs L) MSE (cO L f0) /\ net (cEs L) = [cP0 L] ++ [cP1 L] /\ (1 <= p_out (cP1 L))%nat /\
  p_b (cP1 L) = ([[bz (-1)]] : pm (B64 L)) /\ p_b (tail_lost (B64_bits L) 1 (cP1 L)) = ([[of_bits (B64_bits L) 0]] : pm (B64 L)).
Proof. exact (ex_short L). Qed.

(** C65: 27 bytes allocate any r * c cells. *)
Theorem C65_allocates (K : Num) (B : FBits K) (s : state K) k r c : (1 <= r)%nat -> (1 <= c)%nat -> Z.of_nat r < 2 ^ 31 -> Z.of_nat c < 2 ^ 31 ->
  length (bare_header k r c) = 27%nat /\ exists e s', LoadLayer B (bare_header k r c) s = (Fail e, s') /\ cells s' = (cells s + r * c)%nat.
Proof. exact (header_allocates_27 B s k r c). Qed.
Theorem C65_bounded_refuted (K : Num) (B : FBits K) : exists bytes (s : state K) e s', (length bytes <= 27)%nat /\ LoadLayer B bytes s = (Fail e, s') /\
  Z.of_nat (cells s') = Z.of_nat (cells s) + (2 ^ 31 - 1) * (2 ^ 31 - 1).
Proof. exact (huge_allocation_witness B). Qed.
Print Assumptions C65_allocates.
Print Assumptions C65_bounded_refuted.
Example C65_ex L : cells (ces L f0) = 8%nat /\ match LoadLayer (B64_bits L) (bare_header Linear 3 5) (ces L f0) with (Fail _, s') => cells s' = 23%nat | _ => False end.
Proof. exact (ex_cells L). Qed.

(** C66: loading, saving and loading again. *)
Theorem C66_resave (K : Num) (B : FBits K) (s : state K) buf m rest s' ord rest2 s2 : int_faithful K -> feq (f0 : K) f0 = true -> bits_ok B ->
  LoadModel B buf s = (Ret (m, rest), s') -> Permutation ord (m_optvals m) ->
  exists d es bytes, decode_model B (h_logger s) buf = Good (d, rest) /\ represents s' m es (length (h_opts s)) d /\ save B m ord s' = (Ret bytes, s') /\
    exists m2 es2 s2', LoadModel B (bytes ++ rest2) s2 = (Ret (m2, rest2), s2') /\ represents s2' m2 es2 (length (h_opts s2)) d.
Proof. exact (fun HI HF HB => resave B HI HF HB s buf m rest s' ord rest2 s2). Qed.
Print Assumptions C66_resave.
Example C66_ex L : let b := model_bytes (B64_bits L) (cM L f0) (m_optvals (cM L f0)) (net (cEs L)) in
  exists m s', LoadModel (B64_bits L) (b ++ [x2a]) (ces L f0) = (Ret (m, [x2a]), s') /\ save (B64_bits L) m (m_optvals m) s' = (Ret b, s').
Proof. exact (ex_resave L). Qed.

(** C68: training on after saving and loading. *)
Theorem C68_plain_sgd (K : Num) (s : state K) m es xs i k l o s' m' es' n x rsx y rsy x' rsx' y' rsy' rr X Y epochs bs xv yv xv' yv' :
  min_faithful K -> 0 <= bs -> Z.of_nat rr + bs <= 2 ^ 52 -> (1 <= rr)%nat ->
  trainable s m es xs i k l -> Forall (plain_sgd (o_lr o)) (map x_po xs) ->
  o_kind o = SGD -> feq (o_decay o) f0 = true -> feq (o_momentum o) f0 = true ->
  represents s' m' es' n (PMod (map stored (net es)) l (m_acctype m) (m_prec m) o) -> i = first_in (net es) -> k = last_out (net es) ->
  data_ok s es x rsx y rsy rr i k X Y -> data_ok s' es' x' rsx' y' rsy' rr i k X Y ->
  r_uni (h_rng s') = r_uni (h_rng s) -> r_upos (h_rng s') = r_upos (h_rng s) ->
  exists s1 s1' es1 xs1 es1' xs1', Fit m x y epochs bs xv yv 0 s = (Ret tt, s1) /\ Fit m' x' y' epochs bs xv' yv' 0 s' = (Ret tt, s1') /\
    trainable s1 m es1 xs1 i k l /\ Forall2 same_place es es1 /\ Forall (plain_sgd (o_lr o)) (map x_po xs1) /\
    trainable s1' m' es1' xs1' i k l /\ Forall2 same_place es' es1' /\
    map stored (net es1) = map stored (net es1').
Proof. exact (resume_plain s m es xs i k l o s' m' es' n x rsx y rsy x' rsx' y' rsy' rr X Y epochs bs xv yv xv' yv'). Qed.
Theorem C68_momentum_refuted (L : libm) : exists (s : state (B64 L)) m es l o x y v v', finalized s m es l o /\ storable m (net es) /\
  result L ((Fit m x y 1 0 matrix0 matrix0 0 ;; Fit m x y 1 0 matrix0 matrix0 0 ;; weight L m) s) = Some v /\
  result L ((Fit m x y 1 0 matrix0 matrix0 0 ;; bytes <- save (B64_bits L) m (m_optvals m) ;; r <- LoadModel (B64_bits L) bytes ;;
           Fit (fst r) x y 1 0 matrix0 matrix0 0 ;; weight L (fst r)) s) = Some v' /\ v <> v'.
Proof. exact (momentum_lost_witness L). Qed.
Print Assumptions C68_plain_sgd.
Print Assumptions C68_momentum_refuted.
Example C68_ex L : trainable (ces L f0) (cM L f0) (cEs L) (cXs L) 2 1 MSE /\ Forall (plain_sgd (o_lr (cO L f0))) (map x_po (cXs L)) /\
  data_ok (ces L f0) (cEs L) cX [6]%nat cY [7]%nat 1 2 1 ([[bz 1; bz 2]] : pm (B64 L)) ([[bz 4]] : pm (B64 L)) /\
  exists m' es' s' n, (b <- save (B64_bits L) (cM L f0) (m_optvals (cM L f0)) ;; LoadModel (B64_bits L) b) (ces L f0) = (Ret (m', []), s') /\
    represents s' m' es' n (PMod (map stored (net (cEs L))) MSE 0 bhalf (cO L f0)) /\
    data_ok s' es' cX [6]%nat cY [7]%nat 1 2 1 ([[bz 1; bz 2]] : pm (B64 L)) ([[bz 4]] : pm (B64 L)) /\
    r_uni (h_rng s') = r_uni (h_rng (ces L f0)) /\ r_upos (h_rng s') = r_upos (h_rng (ces L f0)).
Proof. exact (ex_resume L). Qed.
