(** * CodecMore: loaded models, oversized models, files, and hostile headers. *)
From Coq.Strings Require Import Byte.
From Coq Require Import String Ascii ZArith List Bool Arith Lia ZifyBool Permutation.
From Verif Require Import Num Heap Spec Matrix Network Loss Optimizers ModelGo LayerData ModelData PureSpec Repr OptSpec ModelSpec HeapLemmas LoopLemmas
  MatrixProofs LayerProofs ModelProofs OptFacts OptProofs EvalProofs MatrixFacts ModelFacts CodecSpec CodecBytes CodecLoad CodecModel CodecSave CodecFacts.
Import ListNotations.
Open Scope Z_scope.
Open Scope go_scope.

Section WithNum.
Context {K : Num} (B : FBits K).
Implicit Types (s : state K) (m : model K) (es : list (lent K)) (ps : list (player K)) (o : optimizer K) (d : plain_model K) (buf rest : list byte).

(** ** Loaded models *)
Lemma represents_trainable s m es n d : represents s m es n d -> (1 <= length es)%nat -> Forall (fun p => p_kind p <> SigmoidK) (d_layers d) ->
  trainable s m es (new_opts n (d_opt d) es) (first_in (d_layers d)) (last_out (d_layers d)) (d_loss d).
Proof.
  intros (H1 & H2 & H3 & H4 & H5 & _ & _ & _ & _ & H10 & H11) Hn HK. unfold trainable. split; [exact H1|]. split; [exact H3|]. split; [exact Hn|]. rewrite new_opts_eq.
  assert (Href : map x_ref (map (fun ne : nat * lent K => OE (fst ne) [] (new_po (clone (d_opt d)) (p_in (e_p (snd ne))) (p_out (e_p (snd ne)))))
      (combine (seq n (length es)) es)) = seq n (length es)).
  { rewrite map_map. simpl. clear. revert n. induction es as [|e es IH]; intros n; [reflexivity|]. simpl. f_equal. apply IH. }
  split; [rewrite Href; exact H10|]. split; [rewrite Href; apply seq_NoDup|].
  split; [|split; [|split; [exact H4|split; [exact H5|]]]].
  - assert (G : forall es1 es2 k, es = es1 ++ es2 -> k = (n + length es1)%nat ->
        Forall2 (ook s) es2 (map (fun ne : nat * lent K => OE (fst ne) [] (new_po (clone (d_opt d)) (p_in (e_p (snd ne))) (p_out (e_p (snd ne)))))
          (combine (seq k (length es2)) es2))).
    { clear - H11. intros es1 es2. revert es1. induction es2 as [|e es2 IH]; intros es1 k He ->; [constructor|]. simpl. constructor.
      - exists (clone (d_opt d)). split.
        + simpl. apply H11. rewrite He, app_length. simpl. lia.
        + simpl. apply new_oown. unfold clone. destruct (o_kind (d_opt d)); reflexivity.
      - apply (IH (es1 ++ [e])); [rewrite <- app_assoc; exact He|rewrite app_length; simpl; lia]. }
    apply (G [] es); [reflexivity|simpl; lia].
  - assert (E : orows (map (fun ne : nat * lent K => OE (fst ne) [] (new_po (clone (d_opt d)) (p_in (e_p (snd ne))) (p_out (e_p (snd ne)))))
        (combine (seq n (length es)) es)) = []).
    { unfold orows. rewrite map_map. simpl. clear. revert n. induction es as [|e es IH]; intros n; [reflexivity|]. simpl. apply IH. }
    rewrite E. intros z _ [].
  - rewrite <- H2 in HK. unfold net in HK. now rewrite Forall_map in HK.
Qed.
Lemma loaded_predicts s m es n d x rs r X : represents s m es n d -> (1 <= length es)%nat -> 0 <= d_acc d <= 2 -> (1 <= r)%nat ->
  own s x rs r (first_in (d_layers d)) X ->
  exists c A, ppredict (d_acc d) r (last_out (d_layers d)) (pnet (d_layers d) r X) = Some (c, A) /\
  returns (Predict m x) s (fun P s' => exists ro, own s' P ro r c A).
Proof.
  intros HR Hn Ha Hr Hx. destruct (predict_some (d_acc d) r (last_out (d_layers d)) (pnet (d_layers d) r X) Ha) as (c & A & HP). exists c, A. split; [exact HP|].
  assert (Hnet := represents_net _ _ _ _ _ HR). destruct HR as (Hc & _ & _ & _ & _ & Hacc & _). rewrite <- Hacc in HP. rewrite <- Hnet in HP at 2.
  apply returns_wp. eapply wp_conseq; [exact (wp_Predict s m es _ _ x rs r X c A Hc Hn HP Hx Hr)|]. cbv beta. intros P s' (ro & HO & _). now exists ro.
Qed.
Lemma decode_layer_stored buf (p : player K) rest : decode_layer B buf = Some (p, rest) -> stored p = p.
Proof.
  unfold decode_layer. destruct (_ && String.eqb _ _); [|discriminate]. destruct (kind_of_code _) as [k|]; [|discriminate]. cbv zeta.
  destruct (_ && _); [|discriminate]. intros [= <- _]. unfold stored, stored_slope, stored_drop. cbn. destruct k; reflexivity.
Qed.
Lemma decode_layers_stored n : forall buf ps rest, decode_layers B n buf = Some (ps, rest) -> map stored ps = ps /\ length ps = n.
Proof.
  induction n as [|n IH]; intros buf ps rest; cbn [decode_layers]; [intros [= <- _]; auto|].
  destruct (decode_layer B buf) as [[p b1]|] eqn:E1; [|discriminate]. destruct (decode_layers B n b1) as [[ps1 b2]|] eqn:E2; [|discriminate].
  intros [= <- _]. destruct (IH _ _ _ E2) as (H1 & H2). cbn [map length]. rewrite (decode_layer_stored _ _ _ E1), H1, H2. auto.
Qed.
Lemma decode_model_facts lg buf d rest : decode_model B lg buf = Good (d, rest) ->
  map stored (d_layers d) = d_layers d /\ (length (d_layers d) <= 127)%nat /\ -128 <= d_acc d < 128 /\ flt (d_prec d) f0 = false.
Proof.
  unfold decode_model. destruct (negb (_ && _)); [discriminate|]. destruct (negb _ && negb lg); [discriminate|]. destruct (_ <? _)%nat; [discriminate|].
  destruct (decode_pairs _ _ _) as [[kvs r]| |]; try discriminate. destruct (decode_layers _ _ r) as [[ps r2]|] eqn:E; [|discriminate].
  destruct (loss_of_code _); [|discriminate]. destruct (opt_of_code _); [|discriminate].
  destruct (fits None ps && _ && negb (flt (f64_at B 20 buf) f0)) eqn:EC; [|discriminate]. intros [= <- _]. cbn [d_layers d_acc d_prec].
  destruct (decode_layers_stored _ _ _ _ E) as (H1 & H2). split; [exact H1|]. rewrite H2. pose proof (int8_range 9 buf). pose proof (int8_range 19 buf).
  split; [lia|]. split; [lia|]. apply andb_true_iff in EC as [_ EC]. now apply negb_true_iff in EC.
Qed.
Lemma represents_finalized s m es n d : represents s m es n d -> flt (d_prec d) f0 = false -> finalized s m es (d_loss d) (d_opt d).
Proof.
  intros (H1 & H2 & H3 & H4 & H5 & H6 & H7 & H8 & H9 & _) Hp. unfold finalized. rewrite H2, H7. tauto.
Qed.
Lemma resave (HI : int_faithful K) (HF : feq (f0 : K) f0 = true) (HB : bits_ok B) s buf m rest s' ord rest2 s2 :
  LoadModel B buf s = (Ret (m, rest), s') -> Permutation ord (m_optvals m) ->
  exists d es bytes, decode_model B (h_logger s) buf = Good (d, rest) /\ represents s' m es (length (h_opts s)) d /\ save B m ord s' = (Ret bytes, s') /\
    exists m2 es2 s2', LoadModel B (bytes ++ rest2) s2 = (Ret (m2, rest2), s2') /\ represents s2' m2 es2 (length (h_opts s2)) d.
Proof.
  intros HL HP. destruct (load_ret B HI HF _ _ _ _ _ HL) as (d & es & HD & HR & _ & _ & Hsm & _). destruct (decode_model_facts _ _ _ _ HD) as (E1 & E2 & E3 & E4).
  assert (Hnet := represents_net _ _ _ _ _ HR). assert (Hf := represents_finalized _ _ _ _ _ HR E4).
  assert (Hst : storable m (net es)). { unfold storable. rewrite Hnet. split; [exact E2|]. split; [rewrite <- Hnet; unfold net; now rewrite Forall_map|].
    destruct HR as (_ & _ & _ & _ & _ & -> & _). exact E3. }
  destruct (model_round_trip B HI HF HB s' m es _ _ ord rest2 s2 Hf Hst HP) as (HS & m2 & es2 & s2' & HL2 & HR2 & _).
  exists d, es, (model_bytes B m ord (net es)). split; [exact HD|]. split; [exact HR|]. split; [exact HS|]. exists m2, es2, s2'. split; [exact HL2|].
  assert (E : described m (net es) (d_loss d) (d_opt d) = d).
  { unfold described. rewrite Hnet, E1. destruct HR as (_ & _ & _ & _ & _ & -> & -> & _). destruct d; reflexivity. }
  now rewrite E in HR2.
Qed.

(** ** More than 127 layers *)
Definition header_any m (ord : gomap K) ps (l : losskind) (k : okind) : Prop :=
  m_size m = Z.of_nat (length ps) /\ m_out m = Z.of_nat (last_out ps) /\ Z.of_nat (last_out ps) < 2 ^ 31 /\
  m_losstype m = losskind_code l /\ m_opttype m = okind_code k /\ -128 <= m_acctype m < 128 /\ flt (m_prec m) f0 = false /\
  length (m_optvals m) = length ord /\ (length ord <= 127)%nat /\ Forall (fun kv => (String.length (fst kv) < 128)%nat) ord.
Lemma claimed_le n : (claimed n <= n)%nat.
Proof. unfold claimed, signed. pose proof (Z.mod_pos_bound (Z.of_nat n) 256). pose proof (Z.mod_le (Z.of_nat n) 256). destruct (_ <? _); lia. Qed.
Lemma claimed_enc n rest : Z.to_nat (int8_at 0 (enc 1 (Z.of_nat n) ++ rest)) = claimed n.
Proof.
  unfold int8_at, claimed. f_equal. f_equal. unfold field. cbn [skipn]. rewrite (firstn_app 1), enc_length, Nat.sub_diag, firstn_O, app_nil_r.
  rewrite firstn_all2 by (rewrite enc_length; lia). rewrite sum_enc. reflexivity.
Qed.
Lemma decode_some_layers (HB : bits_ok B) k ps rest : Forall codable ps -> (k <= length ps)%nat ->
  decode_layers B k (concat (map (layer_bytes B) ps) ++ rest) = Some (map stored (firstn k ps), concat (map (layer_bytes B) (skipn k ps)) ++ rest).
Proof.
  intros Hc Hk. rewrite <- (firstn_skipn k ps) at 1. rewrite map_app, concat_app, <- app_assoc. replace k with (length (firstn k ps)) at 1 by (rewrite firstn_length; lia).
  apply decode_layers_enc; [exact HB|]. apply Forall_forall. intros p Hp. rewrite Forall_forall in Hc. apply Hc. rewrite <- (firstn_skipn k ps). apply in_or_app. now left.
Qed.
Lemma fits_firstn k : forall ps prev, fits prev ps = true -> fits prev (firstn k ps) = true.
Proof.
  induction k as [|k IH]; intros ps prev H; [reflexivity|]. destruct ps as [|p ps]; [reflexivity|]. cbn [firstn fits] in *. apply andb_true_iff in H as [H1 H2]. rewrite H1. now apply IH.
Qed.
Lemma decode_model_any (HB : bits_ok B) lg m ord ps l k rest : header_any m ord ps l k -> Forall codable ps -> fits None ps = true ->
  decode_model B lg (model_bytes B m ord ps ++ rest) =
    let n := claimed (length ps) in
    if (last_out ps =? last_out (firstn n ps))%nat
    then Good (PMod (map stored (firstn n ps)) l (m_acctype m) (m_prec m) (optimizer_of k ord), concat (map (layer_bytes B) (skipn n ps)) ++ rest)
    else Bad.
Proof.
  intros (Hsz & Hout & Ho & Hlt & Hot & Hacc & Hprec & Hov & Hno & Hkeys) Hc Hf.
  assert (HL : (30 <= length (model_bytes B m ord ps ++ rest))%nat).
  { unfold model_bytes. rewrite !app_length, !enc_length, !list_byte_length, f64s_length. cbn [length String.length]. lia. }
  unfold decode_model. replace (5 <=? length (model_bytes B m ord ps ++ rest))%nat with true by lia.
  replace (length (model_bytes B m ord ps ++ rest) <? 30)%nat with false by lia. clear HL.
  unfold model_bytes. rewrite <- !app_assoc. rewrite string_at_enc by reflexivity. rewrite (string_at_app 4 0) by reflexivity. rewrite string_at_enc by reflexivity.
  change (String.eqb "NNML" "NNML") with true. change (String.eqb "1.0.3" VERSION) with true. cbn [andb negb].
  change 30%nat with (4 + (5 + (1 + (4 + (4 + (1 + (1 + (8 * 1 + (1 + (1 + 0))))))))))%nat.
  change 29%nat with (4 + (5 + (1 + (4 + (4 + (1 + (1 + (8 * 1 + (1 + 0)))))))))%nat.
  change 28%nat with (4 + (5 + (1 + (4 + (4 + (1 + (1 + (8 * 1 + 0))))))))%nat.
  change 20%nat with (4 + (5 + (1 + (4 + (4 + (1 + (1 + 0)))))))%nat.
  change 19%nat with (4 + (5 + (1 + (4 + (4 + (1 + 0))))))%nat.
  change 18%nat with (4 + (5 + (1 + (4 + (4 + 0)))))%nat.
  change 14%nat with (4 + (5 + (1 + (4 + 0))))%nat.
  change 9%nat with (4 + (5 + 0))%nat.
  rewrite !skipn_past, !int8_at_app, !int32_at_app, !f64_at_app by first [reflexivity|apply enc_length|apply f64s_length]. cbn [skipn].
  rewrite Hsz, (claimed_enc (length ps)).
  rewrite !int8_enc, int32_enc; try lia.
  2:{ rewrite Hot. destruct k; cbn; lia. } 2:{ rewrite Hlt. destruct l; cbn; lia. }
  rewrite Hov, Nat2Z.id, decode_pairs_enc by auto. rewrite decode_some_layers by (auto using claimed_le).
  rewrite Hlt, Hot, loss_code_inv, opt_code_inv, fits_stored, fits_firstn, last_out_stored, Hout by exact Hf.
  rewrite (f64_at_f64s B HB [m_prec m] _ 0) by (cbn [length]; lia). cbn [nth]. rewrite Hprec. cbn [negb andb].
  rewrite andb_true_r. cbv zeta. destruct (Nat.eqb_spec (last_out ps) (last_out (firstn (claimed (length ps)) ps))) as [E|E].
  - rewrite <- E, Z.eqb_refl. reflexivity.
  - replace (Z.of_nat (last_out ps) =? Z.of_nat (last_out (firstn (claimed (length ps)) ps))) with false by lia. reflexivity.
Qed.
Definition storable_but_long m ps : Prop := (127 < length ps)%nat /\ Forall small_player ps /\ -128 <= m_acctype m < 128.
Lemma claimed_less n : (127 < n)%nat -> (claimed n < n)%nat.
Proof. intros H. unfold claimed, signed. pose proof (Z.mod_pos_bound (Z.of_nat n) 256). destruct (Z.ltb_spec (Z.of_nat n mod 256) (2 ^ (8 - 1))); lia. Qed.
Lemma claimed_none n : (127 < n <= 256)%nat -> claimed n = O.
Proof.
  intros H. unfold claimed, signed. destruct (Nat.eq_dec n 256) as [->|Hn]; [reflexivity|]. rewrite Z.mod_small by lia.
  destruct (Z.ltb_spec (Z.of_nat n) (2 ^ (8 - 1))); lia.
Qed.
Lemma finalized_any s m es l o ord : finalized s m es l o -> Forall small_player (net es) -> -128 <= m_acctype m < 128 -> Permutation ord (m_optvals m) ->
  header_any m ord (net es) l (o_kind o).
Proof.
  intros ((_ & Hsz & _ & Ho & _ & _) & _ & Hlt & Hot & Hov & Hp) Hs Ha HP. rewrite Hov in HP. destruct (opt_keys_short _ _ HP) as (H1 & H2 & H3).
  unfold header_any. rewrite Hov. unfold net at 1. rewrite map_length. repeat split; auto; try lia.
  destruct (last_out_cases (net es)) as [->|(p & Hi & ->)]; [cbn; lia|]. rewrite Forall_forall in Hs. now apply Hs.
Qed.
Lemma fits53_small ps : Forall small_player ps -> Forall (@fits53 K) ps.
Proof. apply Forall_impl. intros p (H1 & H2). unfold fits53. lia. Qed.
Lemma long_saved (HI : int_faithful K) (HF : feq (f0 : K) f0 = true) (HB : bits_ok B) s m es l o ord s2 :
  finalized s m es l o -> storable_but_long m (net es) -> Permutation ord (m_optvals m) ->
  exists bytes, save B m ord s = (Ret bytes, s) /\
  let n := claimed (length es) in (n < length es)%nat /\
  if (last_out (net es) =? last_out (firstn n (net es)))%nat
  then exists m' es' rest s2', LoadModel B bytes s2 = (Ret (m', rest), s2') /\ represents s2' m' es' (length (h_opts s2)) (described m (firstn n (net es)) l o) /\ rest <> []
  else exists e s2', LoadModel B bytes s2 = (Fail e, s2').
Proof.
  intros Hf (Hn & Hs & Ha) HP. exists (model_bytes B m ord (net es)). split. { eapply finalized_save; eauto using fits53_small. }
  assert (Hlen : length (net es) = length es) by (unfold net; apply map_length). rewrite Hlen in Hn.
  cbv zeta. split; [now apply claimed_less|].
  assert (HD := decode_model_any HB (h_logger s2) m ord (net es) l (o_kind o) [] (finalized_any _ _ _ _ _ _ Hf Hs Ha HP) (finalized_codable _ _ _ _ _ Hf Hs) (finalized_fits _ _ _ _ _ Hf)).
  rewrite !app_nil_r, Hlen in HD. cbv zeta in HD. destruct (last_out (net es) =? last_out (firstn (claimed (length es)) (net es)))%nat.
  - destruct (load_good B HI HF s2 _ _ _ HD) as (m' & es' & s2' & HL & (_ & HR & _)).
    eexists m', es', _, s2'. split; [exact HL|]. split.
    + destruct Hf as (_ & _ & _ & _ & Hov & _). rewrite Hov in HP. destruct (opt_of_order _ _ HP) as (E1 & E2 & E3). unfold described. eapply represents_opt; eauto.
    + pose proof (claimed_less _ Hn) as Hcl. destruct (skipn (claimed (length es)) (net es)) as [|p t] eqn:E.
      * apply (f_equal (@length _)) in E. rewrite skipn_length, Hlen in E. cbn [length] in E. lia.
      * cbn. discriminate.
  - destruct (load_bad B HI HF s2 _ HD) as (e & s2' & HL & _). now exists e, s2'.
Qed.
Lemma long_rejected (HI : int_faithful K) (HF : feq (f0 : K) f0 = true) (HB : bits_ok B) s m es l o ord s2 :
  finalized s m es l o -> Forall small_player (net es) -> -128 <= m_acctype m < 128 -> (128 <= length es <= 256)%nat -> Permutation ord (m_optvals m) ->
  exists bytes, save B m ord s = (Ret bytes, s) /\ exists e s2', LoadModel B bytes s2 = (Fail e, s2').
Proof.
  intros Hf Hs Ha Hn HP. destruct (long_saved HI HF HB s m es l o ord s2 Hf) as (bytes & HS & H); auto.
  { split; [unfold net; rewrite map_length; lia|auto]. }
  exists bytes. split; [exact HS|]. cbv zeta in H. rewrite claimed_none in H by lia. destruct H as (_ & H).
  replace (last_out (net es) =? last_out (firstn 0 (net es)))%nat with false in H; [exact H|]. symmetry. apply Nat.eqb_neq. cbn [firstn].
  destruct (last_out_cases (net es)) as [E|(p & Hi & ->)].
  - apply (f_equal (@length _)) in E. unfold net in E. rewrite map_length in E. cbn [length] in E. lia.
  - assert (Hcd := finalized_codable _ _ _ _ _ Hf Hs). rewrite Forall_forall in Hcd. destruct (Hcd p Hi) as (_ & Hp & _). cbn. lia.
Qed.


(** ** Files *)
Lemma save_parts (HI : int_faithful K) s m es l o ord : finalized s m es l o -> Forall fits53 (net es) ->
  exists sd, NewSavedModelData m s = (Ret sd, s) /\ Serialize B sd ord [] s = (Ret (model_bytes B m ord (net es)), s).
Proof.
  intros Hf Hs. assert (HS := finalized_save B HI s m es l o ord Hf Hs). destruct Hf as (Hc & _). assert (Hok := Hc). destruct Hok as (_ & _ & _ & _ & _ & Hok).
  destruct (entries _ _ Hok) as (ls & HE). assert (HN := NewSavedModel_run HI s m es ls _ _ Hc HE).
  unfold net in Hs. rewrite Forall_map in Hs. specialize (HN Hs). eexists. split; [exact HN|]. unfold save in HS. erewrite bind_eq in HS by exact HN. exact HS.
Qed.
Lemma SaveFile_run (HI : int_faithful K) s m es l o ord env f : finalized s m es l o -> Forall fits53 (net es) ->
  let bytes := model_bytes B m ord (net es) in
  SaveFile B m ord env f s =
    (Ret (if negb (se_create_ok env) then (Some (EMsg "create"), f)
          else if (length bytes <=? se_written env)%nat then (None, Some bytes)
          else (Some (EMsg "write"), Some (firstn (se_written env) bytes))), s).
Proof.
  intros Hf Hs bytes. destruct (save_parts HI s m es l o ord Hf Hs) as (sd & HN & HS). unfold SaveFile. erewrite bind_eq by exact HN.
  destruct (negb (se_create_ok env)); [reflexivity|]. unfold bind, catch. rewrite HS. fold bytes. destruct (length bytes <=? se_written env)%nat; reflexivity.
Qed.
Lemma SaveFile_lost s m ord env f sd s1 e s2 : NewSavedModelData m s = (Ret sd, s1) -> Serialize B sd ord [] s1 = (Fail e, s2) -> se_create_ok env = true ->
  SaveFile B m ord env f s = (Ret (Some e, Some []), s2).
Proof. intros HN HS HC. unfold SaveFile. erewrite bind_eq by exact HN. rewrite HC. cbn [negb]. unfold bind, catch. rewrite HS. reflexivity. Qed.
Lemma LoadFile_full content nread s : (length content <= nread)%nat ->
  LoadFile B (Some content) nread s = (r <- LoadModel B content ;; ret (fst r)) s.
Proof.
  intros H. unfold LoadFile. rewrite Nat.min_r by exact H. destruct content as [|b t]; [reflexivity|]. cbn [length Nat.eqb andb].
  rewrite (firstn_all2 (b :: t)) by (cbn; lia). rewrite Nat.sub_diag. cbn [repeat]. now rewrite app_nil_r.
Qed.
Lemma LoadFile_saved (HI : int_faithful K) (HF : feq (f0 : K) f0 = true) (HB : bits_ok B) s m es l o ord nread s2 :
  finalized s m es l o -> storable m (net es) -> Permutation ord (m_optvals m) -> let bytes := model_bytes B m ord (net es) in (length bytes <= nread)%nat ->
  exists m' es' s2', LoadFile B (Some bytes) nread s2 = (Ret m', s2') /\ represents s2' m' es' (length (h_opts s2)) (described m (net es) l o).
Proof.
  intros Hf Hst HP bytes Hn. destruct (model_round_trip B HI HF HB s m es l o ord [] s2 Hf Hst HP) as (_ & m' & es' & s2' & HL & HR & _). rewrite app_nil_r in HL.
  exists m', es', s2'. split; [|exact HR]. rewrite LoadFile_full by exact Hn. unfold bytes. erewrite bind_eq by exact HL. reflexivity.
Qed.
Lemma LoadFile_prefix (HI : int_faithful K) (HF : feq (f0 : K) f0 = true) (HB : bits_ok B) s m es l o ord n nread s2 :
  finalized s m es l o -> storable m (net es) -> Permutation ord (m_optvals m) -> let bytes := model_bytes B m ord (net es) in
  (n < length bytes)%nat -> h_logger s2 = true \/ (n < 5)%nat \/ (9 <= n)%nat -> (n <= nread)%nat ->
  exists e s2', LoadFile B (Some (firstn n bytes)) nread s2 = (Fail e, s2') /\ grows s2 s2'.
Proof.
  intros Hf Hst HP bytes Hn Hc Hr. destruct (truncated_rejected B HI HF HB s m es l o ord n s2 Hf Hst HP Hn Hc) as (e & s2' & HL & Hg).
  exists e, s2'. split; [|exact Hg]. rewrite LoadFile_full by (rewrite firstn_length; lia). unfold bytes. erewrite bind_fail by exact HL. reflexivity.
Qed.
(** Short reads. *)
Lemma zeros_f64s j : to_bits B (of_bits B 0) = 0 -> repeat x00 (8 * j) = f64s B (repeat (of_bits B 0) j).
Proof.
  intros H. unfold f64s. induction j as [|j IH]; [reflexivity|]. replace (8 * S j)%nat with (8 + 8 * j)%nat by lia. rewrite repeat_app. cbn [repeat map concat]. rewrite H, IH. reflexivity.
Qed.
Lemma short_bytes m ord ps (p : player K) j : to_bits B (of_bits B 0) = 0 -> shape 1 (p_out p) (p_b p) -> (j <= p_out p)%nat ->
  let bytes := model_bytes B m ord (ps ++ [p]) in
  firstn (length bytes - 8 * j) bytes ++ repeat x00 (8 * j) = model_bytes B m ord (ps ++ [tail_lost B j p]).
Proof.
  intros HZ (Hb & Hr) Hj bytes. destruct (p_b p) as [|row [|? ?]] eqn:Eb; try discriminate. apply Forall_inv in Hr.
  set (pre := list_byte_of_string "NNML" ++ list_byte_of_string "1.0.3" ++ enc 1 (m_size m) ++ enc 4 (m_in m) ++ enc 4 (m_out m) ++
    enc 1 (m_losstype m) ++ enc 1 (m_acctype m) ++ f64s B [m_prec m] ++ enc 1 (m_opttype m) ++
    enc 1 (Z.of_nat (length (m_optvals m))) ++ concat (map (pair_bytes B) ord) ++ concat (map (layer_bytes B) ps) ++
    list_byte_of_string "LA" ++ enc 1 (lkind_code (p_kind p)) ++ enc 4 (Z.of_nat (p_in p)) ++ enc 4 (Z.of_nat (p_out p)) ++
    f64s B [stored_slope p] ++ f64s B [stored_drop p] ++ f64s B (concat (p_w p))).
  assert (E1 : bytes = pre ++ f64s B row).
  { unfold bytes, model_bytes, pre. rewrite map_app, concat_app. cbn [map concat]. rewrite app_nil_r. unfold layer_bytes. rewrite Eb. cbn [concat]. rewrite app_nil_r, <- !app_assoc. reflexivity. }
  assert (E2 : model_bytes B m ord (ps ++ [tail_lost B j p]) = pre ++ f64s B (firstn (p_out p - j) row ++ repeat (of_bits B 0) j)).
  { unfold model_bytes, pre. rewrite map_app, concat_app. cbn [map concat]. rewrite app_nil_r. unfold layer_bytes, tail_lost. rewrite Eb. cbn [p_kind p_in p_out p_w p_b p_slope p_drop stored_slope stored_drop concat nth].
    rewrite app_nil_r, <- !app_assoc. unfold stored_slope, stored_drop. cbn. reflexivity. }
  rewrite E2, E1. rewrite app_length, f64s_length, Hr.
  rewrite firstn_app. rewrite firstn_all2 by lia. rewrite <- app_assoc. f_equal.
  replace (length pre + 8 * p_out p - 8 * j - length pre)%nat with (8 * (p_out p - j))%nat by lia.
  rewrite zeros_f64s by exact HZ. rewrite f64s_app. f_equal.
  rewrite <- (firstn_skipn (p_out p - j) row) at 1. rewrite f64s_app, firstn_app, f64s_length, firstn_length, Hr.
  replace (8 * (p_out p - j) - 8 * Nat.min (p_out p - j) (p_out p))%nat with O by lia. rewrite firstn_O, app_nil_r. apply firstn_all2. rewrite f64s_length, firstn_length. lia.
Qed.
Lemma net_snoc es ps p : net (K := K) es = ps ++ [p] -> exists es0 e, es = es0 ++ [e] /\ net es0 = ps /\ e_p e = p.
Proof.
  unfold net. destruct es as [|e es] using rev_ind; intros H. { destruct ps; discriminate. }
  rewrite map_app in H. cbn [map] in H. apply app_inj_tail in H as [H1 H2]. now exists es, e.
Qed.
Lemma short_read (HI : int_faithful K) (HF : feq (f0 : K) f0 = true) (HB : bits_ok B) (HZ : to_bits B (of_bits B 0) = 0) s m es ps p l o ord j s2 :
  finalized s m es l o -> net es = ps ++ [p] -> storable m (net es) -> Permutation ord (m_optvals m) -> (j <= p_out p)%nat ->
  let bytes := model_bytes B m ord (net es) in
  exists m' es' s2', LoadFile B (Some bytes) (length bytes - 8 * j) s2 = (Ret m', s2') /\
    represents s2' m' es' (length (h_opts s2)) (described m (ps ++ [tail_lost B j p]) l o).
Proof.
  intros Hf Hps Hst HP Hj bytes.
  assert (Hcd := finalized_codable _ _ _ _ _ Hf (proj1 (proj2 Hst))). assert (Hh := finalized_header _ _ _ _ _ _ Hf Hst HP). assert (Hft := finalized_fits _ _ _ _ _ Hf).
  rewrite Hps in Hcd, Hh, Hft. rewrite Forall_app in Hcd. destruct Hcd as (Hc1 & Hc2). apply Forall_inv in Hc2. destruct Hc2 as (P1 & P2 & P3 & P4 & P5).
  assert (HL : (8 * p_out p + 30 <= length bytes)%nat).
  { unfold bytes. rewrite Hps. unfold model_bytes. rewrite map_app, concat_app. cbn [map concat]. rewrite app_nil_r. rewrite !app_length, layer_bytes_length by assumption. unfold layer_size.
    rewrite !enc_length, !list_byte_length, f64s_length. cbn [length String.length]. lia. }
  assert (HE := short_bytes m ord ps p j HZ P5 Hj). cbv zeta in HE. rewrite <- Hps in HE. fold bytes in HE.
  set (p' := tail_lost B j p) in *.
  assert (Hlast : last_out (ps ++ [p']) = last_out (ps ++ [p])) by (unfold last_out; rewrite !map_app; reflexivity).
  assert (Hfit : forall prev, fits prev (ps ++ [p']) = fits prev (ps ++ [p])).
  { clear. intros prev. revert prev. induction ps as [|q ps IH]; intros prev; [reflexivity|]. cbn [app fits]. now rewrite IH. }
  assert (HD : decode_model B (h_logger s2) (model_bytes B m ord (ps ++ [p'])) = Good (PMod (map stored (ps ++ [p'])) l (m_acctype m) (m_prec m) (optimizer_of (o_kind o) ord), [])).
  { rewrite <- (app_nil_r (model_bytes B m ord (ps ++ [p']))). apply decode_model_enc; [exact HB| | |].
    - unfold header_ok in *. rewrite Hlast. rewrite app_length in *. cbn [length] in *. exact Hh.
    - apply Forall_app. split; [exact Hc1|]. constructor; [|constructor]. unfold p', codable, tail_lost. cbn [p_in p_out p_w p_b small_player].
      split; [exact P1|]. split; [exact P2|]. split; [exact P3|]. split; [exact P4|]. split; [reflexivity|]. constructor; [|constructor].
      rewrite app_length, firstn_length, repeat_length. destruct P5 as (Hb & Hr). destruct (p_b p) as [|row [|? ?]]; try discriminate. apply Forall_inv in Hr. cbn [nth]. lia.
    - now rewrite Hfit. }
  destruct (load_good B HI HF s2 _ _ _ HD) as (m' & es' & s2' & HLd & (_ & HR & _)). exists m', es', s2'. split.
  - unfold LoadFile. rewrite Nat.min_l by lia. replace (length bytes - 8 * j =? 0)%nat with false by lia. cbn [andb].
    replace (length bytes - (length bytes - 8 * j))%nat with (8 * j)%nat by lia. rewrite HE. erewrite bind_eq by exact HLd. reflexivity.
  - destruct Hf as (_ & _ & _ & _ & Hov & _). rewrite Hov in HP. destruct (opt_of_order _ _ HP) as (E1 & E2 & E3). unfold described. eapply represents_opt; eauto.
Qed.

(** ** A header makes the loader allocate *)
Lemma list_total_app a b : list_total (a ++ b) = (list_total a + list_total b)%nat.
Proof. unfold list_total. induction a as [|x a IH]; [reflexivity|]. cbn. rewrite IH. lia. Qed.
Lemma list_total_repeat x n : list_total (repeat x n) = (n * x)%nat.
Proof. induction n as [|n IH]; [reflexivity|]. cbn. rewrite <- IH. reflexivity. Qed.
Lemma cells_new s r c : cells (new_state s r c) = (cells s + r * c)%nat.
Proof.
  unfold cells, new_state. cbn [h_rows with_outs with_rows]. rewrite map_app, list_total_app. f_equal.
  induction r as [|r IH]; [reflexivity|]. cbn [repeat map list_total fold_right Nat.mul]. unfold list_total in IH. rewrite IH. unfold zeros. now rewrite repeat_length.
Qed.
Lemma bare_header_length k r c : length (bare_header k r c) = 27%nat.
Proof. unfold bare_header. rewrite !app_length, !enc_length, list_byte_length, repeat_length. reflexivity. Qed.
Lemma bare_sizes k r c : Z.of_nat r < 2 ^ 31 -> Z.of_nat c < 2 ^ 31 ->
  int32_at 3 (bare_header k r c) = Z.of_nat r /\ int32_at 7 (bare_header k r c) = Z.of_nat c.
Proof.
  intros Hr Hc. unfold bare_header. split.
  - change 3%nat with (2 + (1 + 0))%nat at 1. rewrite !int32_at_app by first [reflexivity|apply enc_length]. rewrite int32_enc by lia. reflexivity.
  - change 7%nat with (2 + (1 + (4 + 0)))%nat. rewrite !int32_at_app by first [reflexivity|apply enc_length]. rewrite int32_enc by lia. reflexivity.
Qed.
Lemma read_nothing s (w : matrix) (r c : nat) : (1 <= r)%nat -> (1 <= c)%nat -> read_matrix B w (Z.of_nat r) (Z.of_nat c) [] s = (Fail EEOF, s).
Proof.
  intros Hr Hc. unfold read_matrix, read_row, for_acc. rewrite !Nat2Z.id. destruct r as [|r]; [lia|]. destruct c as [|c]; [lia|]. reflexivity.
Qed.
Lemma header_allocates s k r c : (1 <= r)%nat -> (1 <= c)%nat -> Z.of_nat r < 2 ^ 31 -> Z.of_nat c < 2 ^ 31 ->
  exists e s', LoadLayer B (bare_header k r c) s = (Fail e, s') /\ cells s' = (cells s + r * c)%nat.
Proof.
  intros Hr Hc Hr2 Hc2.
  assert (W : wpx (LoadLayer B (bare_header k r c)) s (fun _ _ => False) (fun s' => cells s' = (cells s + r * c)%nat) (fun _ => False)).
  { unfold LoadLayer. apply wpx_bind. apply loadLayerBuffer_header.
    - intros H. exfalso. unfold layer_header in H. rewrite bare_header_length in H. unfold bare_header in H. rewrite string_at_enc in H by reflexivity. discriminate.
    - intros _. unfold load_tail. destruct (bare_sizes k r c Hr2 Hc2) as (-> & ->). cbv zeta. eapply wpx_run; [now apply NewMatrix_run|].
      rewrite (skipn_all2 (bare_header k r c)) by (rewrite bare_header_length; lia). eapply wpx_stop; [now apply read_nothing|]. apply cells_new. }
  unfold wpx in W. destruct (LoadLayer B (bare_header k r c) s) as [[x|e|p] s']; [destruct W| |destruct W]. now exists e, s'.
Qed.
End WithNum.
