(** * CorruptProofs: which damage the loader notices. *)
From Coq.Strings Require Import Byte.
From Coq Require Import String Ascii ZArith List Bool Arith Lia Permutation.
From Verif Require Import Num Heap Spec Matrix Network Loss Optimizers ModelGo LayerData ModelData PureSpec Repr OptSpec ModelSpec HeapLemmas LoopLemmas
  MatrixProofs LayerProofs ModelProofs EvalProofs MatrixFacts ModelFacts CodecSpec CodecBytes CodecLoad CodecModel CodecSave CodecFacts CodecGlue CorruptSpec.
Import ListNotations.
Open Scope Z_scope.

Lemma le_of_le bs : le_bytes (length bs) (of_le bs) = bs.
Proof.
  induction bs as [|b t IH]; [reflexivity|]. cbn [length of_le le_bytes]. pose proof (Z_of_byte_range b).
  f_equal.
  - rewrite <- (byte_of_Z_of_byte b) at 2. unfold byte_of_Z. replace ((Z_of_byte b + 256 * of_le t) mod 256) with (Z_of_byte b mod 256); [reflexivity|].
    rewrite (Z.mul_comm 256), Z.mod_add by lia. reflexivity.
  - replace ((Z_of_byte b + 256 * of_le t) / 256) with (of_le t); [exact IH|]. rewrite (Z.mul_comm 256), Z.div_add, Z.div_small by lia. reflexivity.
Qed.
Lemma enc_sum bs : enc (length bs) (sum_bytes bs) = bs.
Proof. rewrite <- le_bytes_enc, <- of_le_sum. apply le_of_le. Qed.
Lemma patch_mid a bs pre mid post : length pre = a -> length mid = length bs -> patch a bs (pre ++ mid ++ post) = pre ++ bs ++ post.
Proof.
  intros <- H. unfold patch. rewrite firstn_app, Nat.sub_diag, firstn_all, app_nil_r. f_equal. f_equal.
  rewrite skipn_app. rewrite skipn_all2 by lia. replace (length pre + length bs - length pre)%nat with (length mid) by lia.
  cbn [app]. rewrite skipn_app, skipn_all, Nat.sub_diag. reflexivity.
Qed.
Lemma split_nth {A} (l : list A) d k : (k < length l)%nat -> l = firstn k l ++ nth k l d :: skipn (S k) l.
Proof. revert k. induction l as [|x l IH]; intros k H; [simpl in H; lia|]. destruct k; [reflexivity|]. cbn [firstn nth skipn app]. f_equal. apply IH. simpl in H. lia. Qed.

Section WithNum.
Context {K : Num} (B : FBits K).
Lemma mk_shape r c (g : nat -> nat -> K) : shape r c (mk r c g).
Proof. split; [unfold mk; now rewrite map_length, seq_length|]. apply Forall_forall. intros x Hx. unfold mk in Hx. apply in_map_iff in Hx as (i & <- & _). now rewrite map_length, seq_length. Qed.
Lemma mk_entry r c (g : nat -> nat -> K) x y : (x < r)%nat -> (y < c)%nat -> entry (mk r c g) x y = g x y.
Proof.
  intros Hx Hy. unfold entry, mk. rewrite (nth_indep _ [] (map (g 0%nat) (seq 0 c))) by now rewrite map_length, seq_length.
  rewrite (map_nth (fun i => map (g i) (seq 0 c))), seq_nth by assumption. simpl.
  rewrite (nth_indep _ f0 (g x 0%nat)) by now rewrite map_length, seq_length. rewrite map_nth, seq_nth by assumption. reflexivity.
Qed.
Lemma concat_set r c (A : pm K) a b v : shape r c A -> (a < r)%nat -> (b < c)%nat ->
  concat (mk r c (fun x y => if (x =? a)%nat && (y =? b)%nat then v else entry A x y)) =
  firstn (a * c + b) (concat A) ++ v :: skipn (S (a * c + b)) (concat A).
Proof.
  intros HA Ha Hb. set (M := mk r c _). assert (HM : shape r c M) by apply mk_shape.
  pose proof (length_concat _ _ _ HM) as LM. pose proof (length_concat _ _ _ HA) as LA.
  assert (Hk : (a * c + b < r * c)%nat) by nia.
  assert (Lf : length (firstn (a * c + b) (concat A)) = (a * c + b)%nat) by (rewrite firstn_length; lia).
  apply (nth_ext _ _ f0 f0); [rewrite app_length, Lf; cbn [length]; rewrite skipn_length; lia|].
  intros j Hj. rewrite LM in Hj. assert (c <> 0)%nat by lia.
  assert (Ej : j = (j / c * c + j mod c)%nat) by (pose proof (Nat.div_mod j c); nia). set (x := (j / c)%nat) in *. set (y := (j mod c)%nat) in *.
  assert (Hy : (y < c)%nat) by (apply Nat.mod_upper_bound; lia). assert (Hx : (x < r)%nat) by (apply Nat.div_lt_upper_bound; nia).
  clearbody x y. subst j. rewrite (nth_concat _ _ _ HM) by assumption. unfold M. rewrite mk_entry by assumption.
  destruct (Nat.lt_trichotomy (x * c + y) (a * c + b)) as [H1|[H1|H1]].
  - rewrite app_nth1 by lia. replace ((x =? a)%nat && (y =? b)%nat) with false.
    + rewrite <- (nth_concat _ _ _ HA) by assumption. rewrite <- (firstn_skipn (a * c + b) (concat A)) at 1. rewrite app_nth1 by lia. reflexivity.
    + symmetry. apply andb_false_iff. rewrite !Nat.eqb_neq. destruct (Nat.eq_dec x a); [right|left]; nia.
  - assert (x = a) by nia. assert (y = b) by nia. subst x y. rewrite !Nat.eqb_refl. rewrite app_nth2, Lf, Nat.sub_diag by lia. reflexivity.
  - rewrite app_nth2, Lf by lia. replace (x * c + y - (a * c + b))%nat with (S (x * c + y - S (a * c + b))) by lia. cbn [nth].
    replace ((x =? a)%nat && (y =? b)%nat) with false.
    + rewrite <- (nth_concat _ _ _ HA) by assumption. rewrite <- (firstn_skipn (S (a * c + b)) (concat A)) at 1. rewrite app_nth2; rewrite firstn_length, Nat.min_l by lia; [reflexivity|lia].
    + symmetry. apply andb_false_iff. rewrite !Nat.eqb_neq. destruct (Nat.eq_dec x a); [right|left]; nia.
Qed.
Lemma f64s_set l k v : (k < length l)%nat -> f64s B l = f64s B (firstn k l) ++ enc 8 (to_bits B (nth k l f0)) ++ f64s B (skipn (S k) l) /\
  f64s B (firstn k l ++ v :: skipn (S k) l) = f64s B (firstn k l) ++ enc 8 (to_bits B v) ++ f64s B (skipn (S k) l).
Proof. intros Hk. split; [|now rewrite f64s_app, f64s_cons]. rewrite (split_nth l f0 k Hk) at 1. now rewrite f64s_app, f64s_cons. Qed.

(** The file of a model with another parameter. *)
Lemma layer_weight p a b bs : codable p -> bits_onto B -> (a < p_in p)%nat -> (b < p_out p)%nat -> length bs = 8%nat ->
  exists pre mid post, layer_bytes B p = pre ++ mid ++ post /\ length pre = (27 + 8 * (a * p_out p + b))%nat /\ length mid = 8%nat /\
    layer_bytes B (with_weight p a b (of_bits B (sum_bytes bs))) = pre ++ bs ++ post.
Proof.
  intros (Hi & Ho & Hs & HW & HB) Hon Ha Hb Hl. set (v := of_bits B (sum_bytes bs)).
  assert (Hk : (a * p_out p + b < length (concat (p_w p)))%nat) by (rewrite (length_concat _ _ _ HW); nia).
  destruct (f64s_set _ _ v Hk) as (E1 & E2). pose proof (concat_set _ _ _ a b v HW Ha Hb) as E3.
  set (h := list_byte_of_string "LA" ++ enc 1 (lkind_code (p_kind p)) ++ enc 4 (Z.of_nat (p_in p)) ++ enc 4 (Z.of_nat (p_out p)) ++ f64s B [stored_slope p] ++ f64s B [stored_drop p]).
  exists (h ++ f64s B (firstn (a * p_out p + b) (concat (p_w p)))), (enc 8 (to_bits B (nth (a * p_out p + b) (concat (p_w p)) f0))), (f64s B (skipn (S (a * p_out p + b)) (concat (p_w p))) ++ f64s B (concat (p_b p))).
  assert (Ev : enc 8 (to_bits B v) = bs).
  { unfold v. rewrite Hon by (pose proof (sum_range bs); rewrite Hl in *; exact H). rewrite <- Hl at 1. apply enc_sum. }
  split; [|split; [|split]].
  - unfold layer_bytes. rewrite E1. unfold h. rewrite <- !app_assoc. reflexivity.
  - unfold h. rewrite !app_length, !enc_length, !f64s_length, firstn_length, list_byte_length. cbn [length String.length]. lia.
  - apply enc_length.
  - unfold layer_bytes, with_weight, stored_slope, stored_drop. cbn [p_kind p_in p_out p_w p_b p_slope p_drop]. rewrite E3, E2, Ev. unfold h. rewrite <- !app_assoc. reflexivity.
Qed.
Lemma layer_bias p b bs : codable p -> bits_onto B -> (b < p_out p)%nat -> length bs = 8%nat ->
  exists pre mid post, layer_bytes B p = pre ++ mid ++ post /\ length pre = (27 + 8 * (p_in p * p_out p + b))%nat /\ length mid = 8%nat /\
    layer_bytes B (with_bias p b (of_bits B (sum_bytes bs))) = pre ++ bs ++ post.
Proof.
  intros (Hi & Ho & Hs & HW & HB) Hon Hb Hl. set (v := of_bits B (sum_bytes bs)).
  assert (Hk : (b < length (concat (p_b p)))%nat) by (rewrite (length_concat _ _ _ HB); lia).
  destruct (f64s_set _ _ v Hk) as (E1 & E2).
  assert (E3 : concat (mk 1 (p_out p) (fun x y => if (y =? b)%nat then v else entry (p_b p) x y)) = firstn b (concat (p_b p)) ++ v :: skipn (S b) (concat (p_b p))).
  { pose proof (concat_set _ _ _ 0 b v HB ltac:(lia) Hb) as E. cbn [Nat.mul Nat.add] in E. rewrite <- E. reflexivity. }
  set (h := list_byte_of_string "LA" ++ enc 1 (lkind_code (p_kind p)) ++ enc 4 (Z.of_nat (p_in p)) ++ enc 4 (Z.of_nat (p_out p)) ++ f64s B [stored_slope p] ++ f64s B [stored_drop p] ++ f64s B (concat (p_w p))).
  exists (h ++ f64s B (firstn b (concat (p_b p)))), (enc 8 (to_bits B (nth b (concat (p_b p)) f0))), (f64s B (skipn (S b) (concat (p_b p)))).
  assert (Ev : enc 8 (to_bits B v) = bs).
  { unfold v. rewrite Hon by (pose proof (sum_range bs); rewrite Hl in *; exact H). rewrite <- Hl at 1. apply enc_sum. }
  split; [|split; [|split]].
  - unfold layer_bytes. rewrite E1. unfold h. rewrite <- !app_assoc. reflexivity.
  - unfold h. rewrite !app_length, !enc_length, !f64s_length, firstn_length, list_byte_length, (length_concat _ _ _ HW). cbn [length String.length]. lia.
  - apply enc_length.
  - unfold layer_bytes, with_bias, stored_slope, stored_drop. cbn [p_kind p_in p_out p_w p_b p_slope p_drop]. rewrite E3, E2, Ev. unfold h. rewrite <- !app_assoc. reflexivity.
Qed.
Lemma model_split (m : model K) ord ps1 ps2 : Forall codable ps1 -> exists head,
  length head = layer_offset ord ps1 /\ forall q, model_bytes B m ord (ps1 ++ q :: ps2) = head ++ layer_bytes B q ++ concat (map (layer_bytes B) ps2).
Proof.
  intros Hc. exists (list_byte_of_string "NNML" ++ list_byte_of_string "1.0.3" ++ enc 1 (m_size m) ++ enc 4 (m_in m) ++ enc 4 (m_out m) ++
    enc 1 (m_losstype m) ++ enc 1 (m_acctype m) ++ f64s B [m_prec m] ++ enc 1 (m_opttype m) ++
    enc 1 (Z.of_nat (length (m_optvals m))) ++ concat (map (pair_bytes B) ord) ++ concat (map (layer_bytes B) ps1)).
  split.
  - rewrite !app_length, !enc_length, !f64s_length, !list_byte_length. cbn [length String.length].
    rewrite (concat_map_length _ (fun kv => (9 + String.length (fst kv))%nat)) by (apply Forall_forall; intros kv _; rewrite pair_bytes_length; lia).
    rewrite (concat_map_length _ layer_size). 2:{ eapply Forall_impl; [|exact Hc]. intros q (_ & _ & _ & H1 & H2). now apply layer_bytes_length. }
    unfold layer_offset. lia.
  - intros q. unfold model_bytes. rewrite map_app, concat_app. cbn [map concat]. rewrite <- !app_assoc. reflexivity.
Qed.
Lemma fits_mid ps1 (p q : player K) ps2 : p_in q = p_in p -> p_out q = p_out p -> forall prev, fits prev (ps1 ++ q :: ps2) = fits prev (ps1 ++ p :: ps2).
Proof. intros H1 H2. induction ps1 as [|r ps1 IH]; intros prev; cbn [app fits]; [now rewrite H1, H2|now rewrite IH]. Qed.
Lemma last_mid ps1 (p q : player K) ps2 : p_out q = p_out p -> last_out (ps1 ++ q :: ps2) = last_out (ps1 ++ p :: ps2).
Proof. intros H. unfold last_out. rewrite !map_app. cbn [map]. now rewrite H. Qed.

Section Load.
Hypotheses (HI : int_faithful K) (HF : feq (f0 : K) f0 = true) (HB : bits_ok B) (Hon : bits_onto B).
Context (s : state K) (m : model K) (es : list (lent K)) (l : losskind) (o : optimizer K) (ord : gomap K) (ps1 : list (player K)) (p : player K) (ps2 : list (player K)) (rest : list byte) (s2 : state K).
Hypotheses (Hf : finalized s m es l o) (Hst : storable m (net es)) (HP : Permutation ord (m_optvals m)) (Hn : net es = ps1 ++ p :: ps2).
Lemma load_other q : codable q -> p_in q = p_in p -> p_out q = p_out p ->
  exists m' es' s2', LoadModel B (model_bytes B m ord (ps1 ++ q :: ps2) ++ rest) s2 = (Ret (m', rest), s2') /\
    represents s2' m' es' (length (h_opts s2)) (PMod (map stored (ps1 ++ q :: ps2)) l (m_acctype m) (m_prec m) o) /\ h_log s2' = h_log s2.
Proof.
  intros Hq H1 H2. pose proof (finalized_header _ _ _ _ _ _ Hf Hst HP) as Hh. rewrite Hn in Hh.
  pose proof (finalized_codable _ _ _ _ _ Hf (proj1 (proj2 Hst))) as Hc. rewrite Hn in Hc. pose proof (finalized_fits _ _ _ _ _ Hf) as Hft. rewrite Hn in Hft.
  assert (Hh' : header_ok m ord (ps1 ++ q :: ps2) l (o_kind o)).
  { unfold header_ok in *. rewrite (last_mid ps1 p q ps2 H2), app_length in *. cbn [length] in *. exact Hh. }
  assert (Hc' : Forall codable (ps1 ++ q :: ps2)).
  { apply Forall_app in Hc as (Hc1 & Hc2). inversion Hc2; subst. apply Forall_app. split; [exact Hc1|]. now constructor. }
  rewrite <- (fits_mid ps1 p q ps2 H1 H2) in Hft.
  destruct (load_good B HI HF s2 (model_bytes B m ord (ps1 ++ q :: ps2) ++ rest) _ rest (decode_model_enc B HB (h_logger s2) m ord _ l (o_kind o) rest Hh' Hc' Hft))
    as (m' & es' & s2' & HL & (_ & HR & _ & _ & _ & _ & Hlog)).
  exists m', es', s2'. split; [exact HL|]. split.
  - destruct Hf as (_ & _ & _ & _ & Hov & _). rewrite Hov in HP. destruct (opt_of_order _ _ HP) as (E1 & E2 & E3). eapply represents_opt; eauto.
  - rewrite version_ok, app_nil_r in Hlog. tauto.
Qed.
Lemma damaged_weight a b bs : (a < p_in p)%nat -> (b < p_out p)%nat -> length bs = 8%nat ->
  exists m' es' s2', LoadModel B (patch (weight_offset ord ps1 p a b) bs (model_bytes B m ord (net es)) ++ rest) s2 = (Ret (m', rest), s2') /\
    represents s2' m' es' (length (h_opts s2)) (PMod (map stored (ps1 ++ with_weight p a b (of_bits B (sum_bytes bs)) :: ps2)) l (m_acctype m) (m_prec m) o) /\
    h_log s2' = h_log s2.
Proof.
  intros Ha Hb Hl. pose proof (finalized_codable _ _ _ _ _ Hf (proj1 (proj2 Hst))) as Hc. rewrite Hn in Hc. apply Forall_app in Hc as (Hc1 & Hc2). inversion Hc2 as [|? ? Hcp Hc3]; subst.
  destruct (layer_weight p a b bs Hcp Hon Ha Hb Hl) as (pre & mid & post & E1 & L1 & L2 & E2). destruct (model_split m ord ps1 ps2 Hc1) as (head & Lh & Eh).
  rewrite Hn, Eh, E1, <- !app_assoc. rewrite (app_assoc head pre). rewrite patch_mid by (rewrite ?app_length; unfold weight_offset; lia).
  replace ((head ++ pre) ++ bs ++ post ++ concat (map (layer_bytes B) ps2)) with (model_bytes B m ord (ps1 ++ with_weight p a b (of_bits B (sum_bytes bs)) :: ps2)) by (rewrite Eh, E2, <- !app_assoc; reflexivity).
  apply load_other; [|reflexivity|reflexivity]. destruct Hcp as (H1 & H2 & H3 & H4 & H5). repeat split; try assumption; try apply H3; try apply mk_shape; apply H5.
Qed.
Lemma damaged_bias b bs : (b < p_out p)%nat -> length bs = 8%nat ->
  exists m' es' s2', LoadModel B (patch (bias_offset ord ps1 p b) bs (model_bytes B m ord (net es)) ++ rest) s2 = (Ret (m', rest), s2') /\
    represents s2' m' es' (length (h_opts s2)) (PMod (map stored (ps1 ++ with_bias p b (of_bits B (sum_bytes bs)) :: ps2)) l (m_acctype m) (m_prec m) o) /\
    h_log s2' = h_log s2.
Proof.
  intros Hb Hl. pose proof (finalized_codable _ _ _ _ _ Hf (proj1 (proj2 Hst))) as Hc. rewrite Hn in Hc. apply Forall_app in Hc as (Hc1 & Hc2). inversion Hc2 as [|? ? Hcp Hc3]; subst.
  destruct (layer_bias p b bs Hcp Hon Hb Hl) as (pre & mid & post & E1 & L1 & L2 & E2). destruct (model_split m ord ps1 ps2 Hc1) as (head & Lh & Eh).
  rewrite Hn, Eh, E1, <- !app_assoc. rewrite (app_assoc head pre). rewrite patch_mid by (rewrite ?app_length; unfold bias_offset; lia).
  replace ((head ++ pre) ++ bs ++ post ++ concat (map (layer_bytes B) ps2)) with (model_bytes B m ord (ps1 ++ with_bias p b (of_bits B (sum_bytes bs)) :: ps2)) by (rewrite Eh, E2, <- !app_assoc; reflexivity).
  apply load_other; [|reflexivity|reflexivity]. destruct Hcp as (H1 & H2 & H3 & H4 & H5). repeat split; try assumption; try apply H3; try apply mk_shape; apply H4.
Qed.
(** The number of inputs in the header is not looked at. *)
Lemma damaged_inputs bs : length bs = 4%nat ->
  exists m' es' s2', LoadModel B (patch 10 bs (model_bytes B m ord (net es)) ++ rest) s2 = (Ret (m', rest), s2') /\
    represents s2' m' es' (length (h_opts s2)) (PMod (map stored (net es)) l (m_acctype m) (m_prec m) o) /\ h_log s2' = h_log s2.
Proof.
  intros Hl. set (m1 := MkModel (m_size m) (sum_bytes bs) (m_out m) (m_losstype m) (m_loss m) (m_acctype m) (m_prec m) (m_opttype m) (m_optvals m) (m_layers m) (m_opts m)).
  assert (E : patch 10 bs (model_bytes B m ord (net es)) = model_bytes B m1 ord (net es)).
  { unfold model_bytes. cbn [m1 m_size m_in m_out m_losstype m_acctype m_prec m_opttype m_optvals]. assert (Eb : enc 4 (sum_bytes bs) = bs) by (rewrite <- Hl; apply enc_sum). rewrite Eb.
    set (t := enc 4 (m_out m) ++ _). rewrite !app_assoc. rewrite <- (app_assoc _ (enc 4 (m_in m)) t). rewrite patch_mid; [now rewrite <- !app_assoc|rewrite !app_length, enc_length, !list_byte_length; reflexivity|now rewrite enc_length]. }
  rewrite E. pose proof (finalized_header _ _ _ _ _ _ Hf Hst HP) as Hh. 
  destruct (load_good B HI HF s2 (model_bytes B m1 ord (net es) ++ rest) _ rest (decode_model_enc B HB (h_logger s2) m1 ord _ l (o_kind o) rest Hh
     (finalized_codable _ _ _ _ _ Hf (proj1 (proj2 Hst))) (finalized_fits _ _ _ _ _ Hf)))
    as (m' & es' & s2' & HL & (_ & HR & _ & _ & _ & _ & Hlog)).
  exists m', es', s2'. split; [exact HL|]. split.
  - destruct Hf as (_ & _ & _ & _ & Hov & _). rewrite Hov in HP. destruct (opt_of_order _ _ HP) as (E1 & E2 & E3). eapply represents_opt; eauto.
  - rewrite version_ok, app_nil_r in Hlog. tauto.
Qed.
(** The tags are. *)
Lemma header_then lg body : decode_layers B (length (net es)) body = None -> decode_model B lg (model_bytes B m ord [] ++ body) = Bad.
Proof.
  intros Hd. destruct (finalized_header _ _ _ _ _ _ Hf Hst HP) as (Hsz & Hsn & Hout & Ho & Hlt & Hot & Hacc & Hprec & Hov & Hno & Hkeys).
  assert (HL : (30 <= length (model_bytes B m ord [] ++ body))%nat).
  { unfold model_bytes. rewrite !app_length, !enc_length, !list_byte_length, f64s_length. cbn [length String.length]. lia. }
  unfold decode_model. replace (5 <=? length (model_bytes B m ord [] ++ body))%nat with true by (symmetry; apply Nat.leb_le; lia).
  replace (length (model_bytes B m ord [] ++ body) <? 30)%nat with false by (symmetry; apply Nat.ltb_ge; lia). clear HL.
  unfold model_bytes. rewrite <- !app_assoc. rewrite string_at_enc by reflexivity. rewrite (string_at_app 4 0) by reflexivity. rewrite string_at_enc by reflexivity.
  change (String.eqb "NNML" "NNML") with true. change (String.eqb "1.0.3" VERSION) with true. cbn [andb negb].
  change 30%nat with (4 + (5 + (1 + (4 + (4 + (1 + (1 + (8 * 1 + (1 + (1 + 0))))))))))%nat.
  change 29%nat with (4 + (5 + (1 + (4 + (4 + (1 + (1 + (8 * 1 + (1 + 0)))))))))%nat.
  change 9%nat with (4 + (5 + 0))%nat.
  rewrite !skipn_past by first [reflexivity|apply enc_length|apply f64s_length].
  rewrite !int8_at_app by first [reflexivity|apply enc_length|apply f64s_length]. rewrite !int8_enc by lia. rewrite Hov, Nat2Z.id. cbn [skipn]. rewrite decode_pairs_enc by auto. cbn [map concat app].
  rewrite Hsz, Nat2Z.id, Hd. reflexivity.
Qed.
Lemma layers_tag n bs post qs : length bs = 2%nat -> bs <> list_byte_of_string "LA" -> Forall codable qs ->
  decode_layers B (length qs + S n) (concat (map (layer_bytes B) qs) ++ bs ++ post) = None.
Proof.
  intros Hl Hb Hc. induction Hc as [|q qs Hq _ IH].
  - cbn [length map concat app Nat.add decode_layers]. unfold decode_layer.
    replace (String.eqb (string_at 0 2 (bs ++ post)) "LA") with false; [now rewrite andb_false_r|].
    symmetry. apply String.eqb_neq. unfold string_at. rewrite field_head by exact Hl. intros E. apply Hb. rewrite <- E. symmetry. apply list_byte_of_string_of_list_byte.
  - cbn [length map concat Nat.add decode_layers]. rewrite <- app_assoc, decode_layer_enc by auto. now rewrite IH.
Qed.
Lemma damaged_tag bs : length bs = 2%nat -> bs <> list_byte_of_string "LA" ->
  exists e s2', LoadModel B (patch (layer_offset ord ps1) bs (model_bytes B m ord (net es)) ++ rest) s2 = (Fail e, s2') /\ grows s2 s2' /\ h_log s2' = h_log s2.
Proof.
  intros Hl Hb. pose proof (finalized_codable _ _ _ _ _ Hf (proj1 (proj2 Hst))) as Hc. rewrite Hn in Hc. apply Forall_app in Hc as (Hc1 & Hc2).
  assert (E : exists post, patch (layer_offset ord ps1) bs (model_bytes B m ord (net es)) ++ rest = model_bytes B m ord [] ++ concat (map (layer_bytes B) ps1) ++ bs ++ post).
  { destruct (model_split m ord ps1 ps2 Hc1) as (head & Lh & Eh). rewrite Hn, Eh. unfold layer_bytes at 1. rewrite <- app_assoc. rewrite patch_mid; [|exact Lh|now rewrite list_byte_length].
    eexists. rewrite <- !app_assoc. rewrite (app_assoc (model_bytes B m ord [])). apply f_equal2; [|reflexivity].
    pose proof (Eh p) as E. unfold model_bytes in E. rewrite map_app, concat_app in E. cbn [map concat] in E. rewrite !app_assoc in E.
    apply app_inv_tail in E. apply app_inv_tail in E. rewrite <- E. unfold model_bytes. cbn [map concat]. rewrite <- !app_assoc. reflexivity. }
  destruct E as (post & E).
  assert (HD : decode_model B (h_logger s2) (model_bytes B m ord [] ++ concat (map (layer_bytes B) ps1) ++ bs ++ post) = Bad).
  { apply header_then. rewrite Hn, app_length. cbn [length]. now apply layers_tag. }
  rewrite E. destruct (load_bad B HI HF s2 _ HD) as (e & s2' & H1 & H2 & H3). exists e, s2'. split; [exact H1|]. split; [exact H2|].
  rewrite version_ok, app_nil_r in H3. exact H3.
Qed.
End Load.
Lemma damaged_magic (HI : int_faithful K) (HF : feq (f0 : K) f0 = true) s buf : firstn 4 buf <> list_byte_of_string "NNML" ->
  exists e s', LoadModel B buf s = (Fail e, s') /\ grows s s'.
Proof.
  intros H. destruct (load_bad B HI HF s buf) as (e & s' & H1 & H2 & _); [|now exists e, s'].
  unfold decode_model. replace (String.eqb (string_at 0 4 buf) "NNML") with false; [now rewrite andb_false_r|].
  symmetry. apply String.eqb_neq. unfold string_at, field. cbn [skipn]. intros E. apply H. rewrite <- E. symmetry. apply list_byte_of_string_of_list_byte.
Qed.
End WithNum.
