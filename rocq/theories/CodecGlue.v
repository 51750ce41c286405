(** * CodecGlue: the remaining statements and examples of PropCodec. *)
From Coq.Strings Require Import Byte.
From Coq Require Import String ZArith List Bool Arith Lia Permutation.
From Flocq Require Import IEEE754.Bits.
From Verif Require Import Num NumB64 Heap Spec Matrix Network Loss Optimizers ModelGo LayerData ModelData PureSpec Repr OptSpec ModelSpec HeapLemmas
  Ex ModelEx CodecSpec CodecBytes CodecLoad CodecModel CodecSave CodecFacts CodecMore CodecResume CodecEx CodecRefute.
Import ListNotations.
Open Scope Z_scope.
Open Scope go_scope.

Lemma enc_correct : (forall n z, length (enc n z) = n) /\ (forall n z, sum_bytes (enc n z) = z mod 256 ^ Z.of_nat n) /\
  (forall z, -128 <= z < 128 -> int8_at 0 (enc 1 z) = z) /\ (forall z, -2^31 <= z < 2^31 -> int32_at 0 (enc 4 z) = z).
Proof.
  split; [exact enc_length|]. split; [exact sum_enc|]. split; intros z Hz.
  - rewrite <- (app_nil_r (enc 1 z)). now apply int8_enc.
  - rewrite <- (app_nil_r (enc 4 z)). now apply int32_enc.
Qed.

Section Generic.
Context {K : Num} (B : FBits K).
Implicit Types (s : state K).
Definition state1 (logger : bool) : state K := MkState [] [] [] [] (MkRng (K := K) (fun _ => f0) (fun _ => f0) (fun _ => 0) 0 0 0) logger [].
Lemma neg_key_witness : exists s buf p s', h_logger s = true /\ LoadModel B buf s = (Panic p, s').
Proof. exists (state1 true), neg_key, PMake, (state1 true). split; [reflexivity|apply neg_key_panics]. Qed.
Lemma old_version_witness : exists s buf p s', h_logger s = false /\ string_at 4 5 buf <> VERSION /\ LoadModel B buf s = (Panic p, s').
Proof. exists (state1 false), old_version, PNil, (state1 false). split; [reflexivity|]. split; [discriminate|reflexivity]. Qed.
Lemma load_good_represents (HI : int_faithful K) (HF : feq (f0 : K) f0 = true) s buf d rest : decode_model B (h_logger s) buf = Good (d, rest) ->
  exists m es s', LoadModel B buf s = (Ret (m, rest), s') /\ represents s' m es (length (h_opts s)) d.
Proof. intros H. destruct (load_good B HI HF s buf d rest H) as (m & es & s' & H1 & H2). exists m, es, s'. split; [exact H1|apply H2]. Qed.
Lemma crash_outcomes (HI : int_faithful K) (HF : feq (f0 : K) f0 = true) (HB : bits_ok B) s m es l o ord old f nread s2 :
  finalized s m es l o -> storable m (net es) -> Permutation ord (m_optvals m) -> let bytes := model_bytes B m ord (net es) in
  crash_state old bytes f -> h_logger s2 = true -> (length bytes <= nread)%nat ->
  f = old \/
  (exists m' es' s2', LoadFile B f nread s2 = (Ret m', s2') /\
     represents s2' m' es' (length (h_opts s2)) (PMod (map stored (net es)) l (m_acctype m) (m_prec m) o)) \/
  exists e s2', LoadFile B f nread s2 = (Fail e, s2') /\ grows s2 s2'.
Proof.
  intros HN HS HP bytes HC HL Hn. destruct HC as [|n]; [now left|]. right.
  destruct (Nat.lt_ge_cases n (length bytes)) as [H|H].
  - right. refine (LoadFile_prefix B HI HF HB s m es l o ord n nread s2 HN HS HP H (or_introl HL) _). apply Nat.lt_le_incl. now apply Nat.lt_le_trans with (length bytes).
  - left. rewrite firstn_all2 by exact H. exact (LoadFile_saved B HI HF HB s m es l o ord nread s2 HN HS HP Hn).
Qed.
Lemma load_layer_total s buf :
  match decode_layer B buf with
  | Some (p, rest) => exists l rw rb s', LoadLayer B buf s = (Ret (length (h_layers s), rest), s') /\ loaded s s' l rw rb p
  | None => exists e s', LoadLayer B buf s = (Fail e, s') /\ ext s s'
  end.
Proof. destruct (decode_layer B buf) as [[p rest]|] eqn:E; [now apply load_layer_good|now apply load_layer_bad]. Qed.
Lemma layer_format (HI : int_faithful K) s lref l rw rb p buf : nth_error (h_layers s) lref = Some l -> lown s l rw rb p -> small_player p ->
  save_layer B lref buf s = (Ret (buf ++ list_byte_of_string "LA" ++ enc 1 (lkind_code (p_kind p)) ++ enc 4 (Z.of_nat (p_in p)) ++ enc 4 (Z.of_nat (p_out p)) ++
    f64s B [stored_slope p] ++ f64s B [stored_drop p] ++ f64s B (concat (p_w p)) ++ f64s B (concat (p_b p))), s) /\
  length (layer_bytes B p) = (27 + 8 * (p_in p * p_out p) + 8 * p_out p)%nat.
Proof.
  intros Hl Ho Hs. split.
  - unfold save_layer. erewrite bind_eq by (apply (NewSaved_run HI s lref l Hl); eapply lown_small; eauto; destruct Hs; lia). eapply (SerializeLayer_run B). exact Ho.
  - destruct (lown_shapes _ _ _ _ _ Ho) as (H1 & H2 & _). rewrite (layer_bytes_length B p H1 H2). unfold layer_size. lia.
Qed.
Lemma model_format (HI : int_faithful K) s m es i o ord : consistent s m es i o -> Forall (fun e => small_player (e_p e)) es ->
  save B m ord s = (Ret (list_byte_of_string "NNML" ++ list_byte_of_string "1.0.3" ++ enc 1 (m_size m) ++ enc 4 (m_in m) ++ enc 4 (m_out m) ++
    enc 1 (m_losstype m) ++ enc 1 (m_acctype m) ++ f64s B [m_prec m] ++ enc 1 (m_opttype m) ++
    enc 1 (Z.of_nat (length (m_optvals m))) ++ concat (map (pair_bytes B) ord) ++ concat (map (layer_bytes B) (net es))), s) /\
  length (model_bytes B m ord (net es)) =
    (30 + list_total (map (fun kv => 9 + String.length (fst kv)) ord) + list_total (map layer_size (net es)))%nat.
Proof.
  intros HC Hs. split.
  - apply (save_run B HI s m es i o ord HC). eapply Forall_impl; [|exact Hs]. intros e (H1 & H2). unfold fits53. lia.
  - rewrite model_bytes_length.
    + unfold model_length. f_equal. f_equal. f_equal. clear. induction ord as [|a t IH]; [reflexivity|]. cbn [map list_total fold_right] in *. f_equal; [lia|exact IH].
    + apply Forall_forall. intros p Hp. apply in_map_iff in Hp. destruct Hp as (e & <- & He). destruct HC as (_ & _ & _ & _ & _ & HC).
      rewrite Forall_forall in HC. destruct (HC e He) as (l & _ & Ho). destruct (lown_shapes _ _ _ _ _ Ho) as (H1 & H2 & _). auto.
Qed.
Lemma header_allocates_27 s k r c : (1 <= r)%nat -> (1 <= c)%nat -> Z.of_nat r < 2 ^ 31 -> Z.of_nat c < 2 ^ 31 ->
  length (bare_header k r c) = 27%nat /\ exists e s', LoadLayer B (bare_header k r c) s = (Fail e, s') /\ cells s' = (cells s + r * c)%nat.
Proof. intros. split; [apply bare_header_length|now apply header_allocates]. Qed.
End Generic.

Section Examples.
Context (L : libm).
Notation BN := (B64 L).
Notation BB := (B64_bits L).
Lemma codec_semantics : int_faithful BN /\ feq (f0 : BN) f0 = true /\ bits_ok BB /\ to_bits BB (of_bits BB 0) = 0.
Proof. split; [apply B64_int_faithful|]. split; [apply f0_c|]. split; [apply B64_bits_ok|]. apply B64_bits_surj. lia. Qed.
Lemma ex_layer : nth_error (h_layers (ces L f0)) 0 = Some (cL0 L) /\ lown (ces L f0) (cL0 L) [1; 2]%nat [3]%nat (cP0 L) /\ small_player (cP0 L) /\
  stored (cP0 L) = cP0 L /\ length (layer_bytes BB (cP0 L)) = 51%nat /\
  match (b <- save_layer BB 0 [] ;; LoadLayer BB (b ++ [x2a])) (ces L f0) with
  | (Ret (r, rest), s') => r = 2%nat /\ rest = [x2a] /\ length (h_layers s') = 3%nat | _ => False end.
Proof.
  split; [reflexivity|]. split; [lown_tac|]. split; [split; reflexivity|]. split; [reflexivity|]. split; [reflexivity|]. vm_compute. auto.
Qed.
Lemma ex_model : finalized (ces L f0) (cM L f0) (cEs L) MSE (cO L f0) /\ storable (cM L f0) (net (cEs L)) /\
  Permutation (rev (m_optvals (cM L f0))) (m_optvals (cM L f0)) /\
  match (b <- save BB (cM L f0) (rev (m_optvals (cM L f0))) ;; LoadModel BB b) (ces L f0) with
  | (Ret (m, rest), _) => rest = [] /\ m_layers m = [2; 3]%nat /\ m_opts m = [2; 3]%nat /\ m_out m = 1 | _ => False end.
Proof. split; [apply finalized_c|]. split; [apply storable_c|]. split; [symmetry; apply Permutation_rev|]. vm_compute. auto. Qed.
Lemma ex_predict : finalized (ces L f0) (cM L f0) (cEs L) MSE (cO L f0) /\ own (ces L f0) cX [6]%nat 1 2 ([[bz 1; bz 2]] : pm BN) /\
  result L ((P <- Predict (cM L f0) cX ;; getc P 0 0) (ces L f0)) = Some (bits_of_b64 (bz 27)) /\
  result L ((b <- save BB (cM L f0) (m_optvals (cM L f0)) ;; r <- LoadModel BB b ;; P <- Predict (fst r) cX ;; getc P 0 0) (ces L f0)) = Some (bits_of_b64 (bz 27)).
Proof. split; [apply finalized_c|]. split; [apply own_cX|]. split; vm_compute; reflexivity. Qed.
Lemma codable_c0 : codable (cP0 L).
Proof. split; [simpl; lia|]. split; [simpl; lia|]. split; [split; reflexivity|]. split; split; try reflexivity; repeat constructor. Qed.
Lemma ex_truncated : let b := model_bytes BB (cM L f0) (m_optvals (cM L f0)) (net (cEs L)) in
  finalized (ces L f0) (cM L f0) (cEs L) MSE (cO L f0) /\ storable (cM L f0) (net (cEs L)) /\ codable (cP0 L) /\ h_logger (ces L f0) = true /\
  length b = 176%nat /\ (exists e s', LoadModel BB (firstn 175 b) (ces L f0) = (Fail e, s')).
Proof.
  cbv zeta. split; [apply finalized_c|]. split; [apply storable_c|]. split; [apply codable_c0|]. split; [reflexivity|]. split; [vm_compute; reflexivity|].
  destruct (LoadModel BB (firstn 175 (model_bytes BB (cM L f0) (m_optvals (cM L f0)) (net (cEs L)))) (ces L f0)) as [r s'] eqn:E.
  assert (H : match fst (LoadModel BB (firstn 175 (model_bytes BB (cM L f0) (m_optvals (cM L f0)) (net (cEs L)))) (ces L f0)) with Fail _ => True | _ => False end) by (vm_compute; exact I).
  rewrite E in H. destruct r; try contradiction. eauto.
Qed.
Lemma loaded_c rest : exists m es s', LoadModel BB (model_bytes BB (cM L f0) (m_optvals (cM L f0)) (net (cEs L)) ++ rest) (ces L f0) = (Ret (m, rest), s') /\
  represents s' m es 2 (described (cM L f0) (net (cEs L)) MSE (cO L f0)) /\ fresh (ces L f0) (prows es) /\ grows (ces L f0) s' /\ length es = 2%nat.
Proof.
  destruct (model_round_trip BB (B64_int_faithful L) (f0_c L) (B64_bits_ok L) (ces L f0) (cM L f0) (cEs L) MSE (cO L f0) (m_optvals (cM L f0)) rest (ces L f0)) as
    (_ & m & es & s' & HL & HR & _ & HF & HG & _).
  - apply finalized_c.
  - apply storable_c.
  - apply Permutation_refl.
  - exists m, es, s'. split; [exact HL|]. split; [exact HR|]. split; [exact HF|]. split; [exact HG|].
    assert (Hn := represents_net _ _ _ _ _ HR). apply (f_equal (@length _)) in Hn. unfold net in Hn. rewrite map_length in Hn. exact Hn.
Qed.
Lemma ex_loaded : let b := model_bytes BB (cM L f0) (m_optvals (cM L f0)) (net (cEs L)) in
  exists m es s' d, LoadModel BB b (ces L f0) = (Ret (m, []), s') /\ represents s' m es 2 d /\ length es = 2%nat /\ d_acc d = 0 /\
    own s' cX [6]%nat 1 (first_in (d_layers d)) ([[bz 1; bz 2]] : pm BN).
Proof.
  cbv zeta. destruct (loaded_c []) as (m & es & s' & HL & HR & _ & HG & Hl). rewrite app_nil_r in HL. exists m, es, s', (described (cM L f0) (net (cEs L)) MSE (cO L f0)).
  split; [exact HL|]. split; [exact HR|]. split; [exact Hl|]. split; [reflexivity|]. destruct HG as (HF & _). eapply own_frame; [apply own_cX|exact HF|]. intros z _ [].
Qed.
Lemma ex_neg_key : h_logger (ces L f0) = true /\ length neg_key = 31%nat /\ string_at 0 4 neg_key = "NNML"%string /\ string_at 4 5 neg_key = VERSION /\
  decode_pairs BB 0 (skipn 30 neg_key) = Good ([], [xff]) /\ 0 < int8_at 29 neg_key /\ int8_at 0 [xff] = -1.
Proof. repeat split. Qed.
Lemma ex_long : finalized (ces L f0) (cMn L 200) (cEn L 200) MSE (cO L f0) /\ Forall small_player (net (cEn L 200)) /\ length (cEn L 200) = 200%nat.
Proof. split; [apply finalized_n; lia|]. split; [apply small_n|]. unfold cEn. apply repeat_length. Qed.
Lemma ex_file : finalized (ces L f0) (cM L f0) (cEs L) MSE (cO L f0) /\ storable (cM L f0) (net (cEs L)) /\ Forall fits53 (net (cEs L)) /\
  h_logger (ces L f0) = true /\ (100 < length (model_bytes BB (cM L f0) (m_optvals (cM L f0)) (net (cEs L))))%nat.
Proof.
  split; [apply finalized_c|]. split; [apply storable_c|]. split; [repeat constructor; simpl; lia|]. split; [reflexivity|].
  replace (length (model_bytes BB (cM L f0) (m_optvals (cM L f0)) (net (cEs L)))) with 176%nat by (vm_compute; reflexivity). lia.
Qed.
Lemma ex_short : finalized (ces L f0) (cM L f0) (cEs L) MSE (cO L f0) /\ net (cEs L) = [cP0 L] ++ [cP1 L] /\ (1 <= p_out (cP1 L))%nat /\
  p_b (cP1 L) = ([[bz (-1)]] : pm BN) /\ p_b (tail_lost BB 1 (cP1 L)) = ([[of_bits BB 0]] : pm BN).
Proof. split; [apply finalized_c|]. split; [reflexivity|]. split; [simpl; lia|]. split; reflexivity. Qed.
Lemma ex_cells : cells (ces L f0) = 8%nat /\ match LoadLayer BB (bare_header Linear 3 5) (ces L f0) with (Fail _, s') => cells s' = 23%nat | _ => False end.
Proof. split; vm_compute; reflexivity. Qed.
Lemma ex_resave : let b := model_bytes BB (cM L f0) (m_optvals (cM L f0)) (net (cEs L)) in
  exists m s', LoadModel BB (b ++ [x2a]) (ces L f0) = (Ret (m, [x2a]), s') /\ save BB m (m_optvals m) s' = (Ret b, s').
Proof.
  cbv zeta. destruct (loaded_c [x2a]) as (m & es & s' & HL & HR & _ & HG & Hl). exists m, s'. split; [exact HL|].
  destruct HR as (HC & HN & _ & _ & Ht & Ha & Hp & Ho & Hv & _). rewrite (save_run BB (B64_int_faithful L) s' m es _ _ (m_optvals m) HC).
  - rewrite HN. unfold model_bytes. destruct HC as (_ & -> & -> & -> & _). rewrite Ht, Ha, Hp, Ho, Hv, Hl. reflexivity.
  - apply Forall_forall. intros e He. assert (Hi : In (e_p e) (net es)) by (apply in_map; exact He). rewrite HN in Hi. unfold fits53.
    destruct Hi as [<- | [<- | []]]; simpl; lia.
Qed.
Lemma ex_resume : trainable (ces L f0) (cM L f0) (cEs L) (cXs L) 2 1 MSE /\ Forall (plain_sgd (o_lr (cO L f0))) (map x_po (cXs L)) /\
  data_ok (ces L f0) (cEs L) cX [6]%nat cY [7]%nat 1 2 1 ([[bz 1; bz 2]] : pm BN) ([[bz 4]] : pm BN) /\
  exists m' es' s' n, (b <- save BB (cM L f0) (m_optvals (cM L f0)) ;; LoadModel BB b) (ces L f0) = (Ret (m', []), s') /\
    represents s' m' es' n (PMod (map stored (net (cEs L))) MSE 0 bhalf (cO L f0)) /\
    data_ok s' es' cX [6]%nat cY [7]%nat 1 2 1 ([[bz 1; bz 2]] : pm BN) ([[bz 4]] : pm BN) /\
    r_uni (h_rng s') = r_uni (h_rng (ces L f0)) /\ r_upos (h_rng s') = r_upos (h_rng (ces L f0)).
Proof.
  split; [apply trainable_c|]. split; [repeat constructor|]. split; [apply data_c|].
  destruct (loaded_c []) as (m & es & s' & HL & HR & HF & HG & Hl). rewrite app_nil_r in HL. exists m, es, s', 2%nat. split.
  - destruct (model_round_trip BB (B64_int_faithful L) (f0_c L) (B64_bits_ok L) (ces L f0) (cM L f0) (cEs L) MSE (cO L f0) (m_optvals (cM L f0)) [] (ces L f0)) as (HS & _);
      [apply finalized_c|apply storable_c|apply Permutation_refl|]. rewrite (bind_eq _ _ _ _ _ HS). exact HL.
  - split; [exact HR|]. destruct HG as (HFr & _ & _ & Hr & _). split; [|rewrite Hr; auto]. destruct (data_c L) as (H1 & H2 & _ & _).
    split; [eapply own_frame; [exact H1|exact HFr|]; intros z _ []|]. split; [eapply own_frame; [exact H2|exact HFr|]; intros z _ []|].
    unfold fresh in HF. rewrite Forall_forall in HF.
    split; intros z Hz Hz'; apply HF in Hz'; simpl in Hz; destruct Hz as [<- | []]; unfold nrows in Hz'; simpl in Hz'; lia.
Qed.
End Examples.
