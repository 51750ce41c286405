(** * CodecSave: what Serialize writes, and that the decoder inverts it. *)
From Coq.Strings Require Import Byte.
From Coq Require Import String Ascii ZArith List Bool Arith Lia ZifyBool Permutation.
From Verif Require Import Num Heap Spec Matrix MatrixFacts MatrixProofs LoopLemmas LayerProofs Network Loss Optimizers ModelGo LayerData ModelData
  PureSpec Repr OptSpec ModelSpec ModelProofs ModelFacts CodecSpec HeapLemmas CodecBytes CodecLoad CodecModel.
Import ListNotations.
Open Scope Z_scope.
Open Scope go_scope.

Section WithNum.
Context {K : Num} (B : FBits K).
Implicit Types s : state K.

(** ** Writing *)
Lemma write_row s m rs r c A i buf : own s m rs r c A -> (i < r)%nat ->
  for_acc (mcols m) (fun j buf => v <- getc m (Z.of_nat i) j ;; ret (buf ++ put_f64 B v)) buf s = (Ret (buf ++ f64s B (nth i A [])), s).
Proof.
  intros HO Hi. rewrite (own_cols _ _ _ _ _ _ HO).
  erewrite for_acc_read with (f := fun j buf => buf ++ enc 8 (to_bits B (entry A i j))).
  2:{ intros j b Hj. erewrite bind_eq by (eapply getc_own; eauto). unfold put_f64, ret. now rewrite le_bytes_enc. }
  do 2 f_equal. assert (HL : length (nth i A []) = c) by (eapply shape_row; [eapply own_shape; eauto|exact Hi]).
  assert (G : forall n b, (n <= c)%nat -> fold_left (fun a j => a ++ enc 8 (to_bits B (entry A i j))) (seq 0 n) b = b ++ f64s B (firstn n (nth i A []))).
  { induction n as [|n IH]; intros b Hn; [cbn; now rewrite app_nil_r|]. rewrite seq_S, fold_left_app, IH by lia. cbn [fold_left Nat.add].
    rewrite <- app_assoc. f_equal. replace (S n) with (n + 1)%nat by lia.
    unfold entry.
    assert (E : firstn (n + 1) (nth i A []) = firstn n (nth i A []) ++ [nth n (nth i A []) f0]).
    { clear - HL Hn. revert n Hn. generalize dependent (nth i A []). intros l. revert c. induction l as [|x l IH]; intros c HL n Hn; [cbn [length] in HL; lia|].
      destruct n as [|n]; [reflexivity|]. cbn [Nat.add firstn nth app]. f_equal. apply (IH (pred c)); cbn [length] in HL; lia. }
    rewrite E, f64s_app. f_equal. }
  rewrite G by lia. now rewrite firstn_all2 by lia.
Qed.
Lemma write_matrix s m rs r c A buf : own s m rs r c A ->
  for_acc (mrows m) (fun i buf => for_acc (mcols m) (fun j buf => v <- getc m i j ;; ret (buf ++ put_f64 B v)) buf) buf s =
  (Ret (buf ++ f64s B (concat A)), s).
Proof.
  intros HO. rewrite (own_rows _ _ _ _ _ _ HO) at 1.
  erewrite for_acc_read with (f := fun i buf => buf ++ f64s B (nth i A [])).
  2:{ intros i b Hi. eapply write_row; eauto. }
  do 2 f_equal. assert (HL : length A = r) by (apply own_shape in HO as [? _]; auto). subst r. clear.
  revert buf. induction A as [|row A IH] using rev_ind; intros buf; [cbn; now rewrite app_nil_r|].
  rewrite app_length. cbn [length]. rewrite Nat.add_1_r, seq_S, fold_left_app. cbn [Nat.add fold_left].
  rewrite concat_app, f64s_app. cbn [concat]. rewrite app_nil_r, app_nth2, Nat.sub_diag by lia. cbn [nth]. rewrite app_assoc. f_equal.
  rewrite <- IH. assert (G : forall l b, (forall i, In i l -> (i < length A)%nat) ->
    fold_left (fun a i => a ++ f64s B (nth i (A ++ [row]) [])) l b = fold_left (fun a i => a ++ f64s B (nth i A [])) l b).
  { induction l as [|i l IHl]; intros b Hl; [reflexivity|]. cbn [fold_left]. rewrite app_nth1 by (apply Hl; now left). apply IHl. intros; apply Hl; now right. }
  apply G. intros i Hi. apply in_seq in Hi. lia.
Qed.

Definition saved_of (l : layer K) : saved_layer K :=
  MkSaved (lkind_code (l_kind l)) (l_in l) (l_out l) (match l_kind l with Leaky => l_slope l | _ => f0 end)
          (match l_kind l with Dropout => l_drop l | _ => f0 end) (l_w l) (l_b l).
Lemma NewSaved_run (HI : int_faithful K) s lref l : nth_error (h_layers s) lref = Some l -> small_layer l ->
  NewSavedLayerData lref s = (Ret (saved_of l), s).
Proof.
  intros Hl [H1 H2]. unfold NewSavedLayerData. erewrite bind_eq by (unfold get_layer; rewrite Hl; reflexivity).
  unfold ret, saved_of, layer_inputs, layer_outputs. rewrite !HI; auto.
  2:{ destruct (l_kind l); cbn; unfold small_int; lia. } do 3 f_equal. destruct (l_kind l); reflexivity.
Qed.
Lemma SerializeLayer_run s l rw rb p buf : lown s l rw rb p -> SerializeLayer B (saved_of l) buf s = (Ret (buf ++ layer_bytes B p), s).
Proof.
  intros (Hk & Hin & Hout & Hsl & Hdr & H1 & H2 & HW & HBi). unfold SerializeLayer, saved_of.
  cbn [sv_type sv_in sv_out sv_slope sv_drop sv_w sv_b].
  pose proof (own_rows _ _ _ _ _ _ HW) as E1. pose proof (own_cols _ _ _ _ _ _ HW) as E2.
  pose proof (own_rows _ _ _ _ _ _ HBi) as E3. pose proof (own_cols _ _ _ _ _ _ HBi) as E4.
  replace (negb (mrows (l_w l) =? l_in l) || negb (mcols (l_w l) =? l_out l)) with false by lia.
  replace (negb (mrows (l_b l) =? 1) || negb (mcols (l_b l) =? l_out l)) with false by lia.
  erewrite bind_eq by (eapply write_matrix; eauto). erewrite write_matrix by eauto. do 2 f_equal.
  unfold put_string, put_int8, put_int32, put_f64, layer_bytes, stored_slope, stored_drop. rewrite !le_bytes_enc, Hk, Hin, Hout, Hsl, Hdr.
  rewrite <- !app_assoc. reflexivity.
Qed.
Lemma SerializeLayer_err s (d : saved_layer K) buf :
  mrows (sv_w d) <> sv_in d \/ mcols (sv_w d) <> sv_out d \/ mrows (sv_b d) <> 1 \/ mcols (sv_b d) <> sv_out d ->
  SerializeLayer B d buf s = (Fail (ELayerDims (sv_in d) (sv_out d)), s).
Proof.
  intros H. unfold SerializeLayer.
  destruct (negb (mrows (sv_w d) =? sv_in d) || negb (mcols (sv_w d) =? sv_out d)) eqn:E1; [reflexivity|].
  destruct (negb (mrows (sv_b d) =? 1) || negb (mcols (sv_b d) =? sv_out d)) eqn:E2; [reflexivity|]. lia.
Qed.

(** ** Whole models *)
Definition saved_model_of s (m : model K) (ls : list (layer K)) : saved_model K :=
  MkSavedModel VERSION (m_size m) (m_in m) (m_out m) (m_losstype m) (m_acctype m) (m_prec m) (m_opttype m) (m_optvals m) (map saved_of ls).
Lemma small_layer_of s e l : nth_error (h_layers s) (e_ref e) = Some l -> lown s l (e_rw e) (e_rb e) (e_p e) ->
  Z.of_nat (p_in (e_p e)) <= 2 ^ 53 -> Z.of_nat (p_out (e_p e)) <= 2 ^ 53 -> small_layer l.
Proof. intros _ (_ & H1 & H2 & _) H3 H4. unfold small_layer, small_int. lia. Qed.
Definition fits53 (p : player K) : Prop := Z.of_nat (p_in p) <= 2 ^ 53 /\ Z.of_nat (p_out p) <= 2 ^ 53.
Lemma entries s es : Forall (lok s) es -> exists ls, Forall2 (entry_of s) es ls.
Proof. induction 1 as [|e es (l & H) _ (ls & IH)]; [exists []; constructor|]. exists (l :: ls). constructor; assumption. Qed.
Lemma NewSavedModel_run (HI : int_faithful K) s m es ls i o :
  consistent s m es i o -> Forall2 (entry_of s) es ls -> Forall (fun e => fits53 (e_p e)) es ->
  NewSavedModelData m s = (Ret (saved_model_of s m ls), s).
Proof.
  intros (Hl & Hsz & _ & _ & _ & _) HE Hs. unfold NewSavedModelData. rewrite Hl, Hsz.
  assert (HL : for_acc (Z.of_nat (length es)) (fun i layers => lref <- go_nth (map e_ref es) i ;; d <- NewSavedLayerData lref ;; ret (layers ++ [d])) [] s =
    (Ret (map saved_of ls), s)).
  { assert (G : forall k, (k <= length es)%nat -> loop k 0 (fun i layers => lref <- go_nth (map e_ref es) i ;; d <- NewSavedLayerData lref ;; ret (layers ++ [d])) [] s =
      (Ret (map saved_of (firstn k ls)), s)).
    { pose proof (Forall2_length _ _ _ HE) as HLen.
      induction k as [|k IH]; intros Hk; [reflexivity|]. replace (S k) with (k + 1)%nat at 1 by lia. rewrite loop_app. erewrite bind_eq by (apply IH; lia).
      cbn [loop Z.add]. destruct (nth_error es k) as [e|] eqn:Ee; [|apply nth_error_None in Ee; lia].
      destruct (nth_error ls k) as [l|] eqn:El; [|apply nth_error_None in El; lia].
      assert (HR : entry_of s e l).
      { clear - HE Ee El. revert k Ee El. induction HE as [|? ? ? ? H HE IH]; intros [|k] Ee El; try discriminate; cbn in *; [congruence|eauto]. }
      destruct HR as [HR1 HR2]. rewrite Forall_forall in Hs. destruct (Hs e (nth_error_In _ _ Ee)) as [Hs1 Hs2].
      erewrite bind_eq.
      2:{ erewrite bind_eq by (apply go_nth_run; rewrite nth_error_map, Ee; reflexivity).
          erewrite bind_eq by (eapply NewSaved_run; eauto; eapply small_layer_of; eauto). reflexivity. }
      unfold ret. do 2 f_equal.
      assert (EF : firstn (S k) ls = firstn k ls ++ [l]).
      { clear - El. revert k El. induction ls as [|x ls IH]; intros [|k] El; try discriminate; cbn in *; [congruence|]. f_equal. eauto. }
      rewrite EF, map_app. reflexivity. }
    unfold for_acc. rewrite Nat2Z.id, G by lia. rewrite firstn_all2; [reflexivity|]. now rewrite (Forall2_length _ _ _ HE). }
  erewrite bind_eq by exact HL. unfold ret, saved_model_of. now rewrite Hsz.
Qed.

Lemma fold_pairs ord : forall buf, fold_left (fun buf kv => buf ++ put_pair B kv) ord buf = buf ++ concat (map (pair_bytes B) ord).
Proof.
  induction ord as [|kv ord IH]; intros buf; cbn [fold_left map concat]; [now rewrite app_nil_r|]. rewrite IH, <- app_assoc. do 2 f_equal.
  unfold put_pair, pair_bytes, put_int8, put_string, put_f64. rewrite !le_bytes_enc. reflexivity.
Qed.
Lemma Forall2_nth_error {A C} (R : A -> C -> Prop) l l' k a c : Forall2 R l l' -> nth_error l k = Some a -> nth_error l' k = Some c -> R a c.
Proof. intros H. revert k. induction H as [|? ? ? ? H HF IH]; intros [|k] Ea Ec; try discriminate; cbn in *; [congruence|eauto]. Qed.
Lemma firstn_snoc {A} (l : list A) k x : nth_error l k = Some x -> firstn (S k) l = firstn k l ++ [x].
Proof. revert k. induction l as [|y l IH]; intros [|k] E; try discriminate; cbn in *; [congruence|]. f_equal. eauto. Qed.
Lemma serialize_layers s es ls buf : Forall2 (entry_of s) es ls ->
  for_acc (Z.of_nat (length es)) (fun i buf => l <- go_nth (map saved_of ls) i ;; SerializeLayer B l buf) buf s =
  (Ret (buf ++ concat (map (layer_bytes B) (net es))), s).
Proof.
  intros HE. pose proof (Forall2_length _ _ _ HE) as HLen.
  assert (G : forall k, (k <= length es)%nat -> loop k 0 (fun i buf => l <- go_nth (map saved_of ls) i ;; SerializeLayer B l buf) buf s =
    (Ret (buf ++ concat (map (layer_bytes B) (net (firstn k es)))), s)).
  { induction k as [|k IH]; intros Hk; [cbn; unfold ret; now rewrite app_nil_r|]. replace (S k) with (k + 1)%nat at 1 by lia. rewrite loop_app. erewrite bind_eq by (apply IH; lia).
    cbn [loop Z.add]. destruct (nth_error es k) as [e|] eqn:Ee; [|apply nth_error_None in Ee; lia].
    destruct (nth_error ls k) as [l|] eqn:El; [|apply nth_error_None in El; lia].
    destruct (Forall2_nth_error _ _ _ _ _ _ HE Ee El) as [HR1 HR2].
    erewrite bind_eq.
    2:{ erewrite bind_eq by (apply go_nth_run; rewrite nth_error_map, El; reflexivity). eapply SerializeLayer_run; eauto. }
    unfold ret. do 2 f_equal. rewrite (firstn_snoc _ _ _ Ee). unfold net. rewrite !map_app, concat_app, <- app_assoc. cbn [map concat]. now rewrite app_nil_r. }
  unfold for_acc. rewrite Nat2Z.id, G by lia. now rewrite firstn_all.
Qed.
Lemma save_run (HI : int_faithful K) s m es i o ord :
  consistent s m es i o -> Forall (fun e => fits53 (e_p e)) es ->
  save B m ord s = (Ret (model_bytes B m ord (net es)), s).
Proof.
  intros HC Hs. pose proof HC as (Hl & Hsz & _ & _ & _ & Hok). destruct (entries _ _ Hok) as [ls HE].
  unfold save. erewrite bind_eq by (eapply NewSavedModel_run; eauto). unfold Serialize, saved_model_of.
  cbn [sm_version sm_size sm_in sm_out sm_losstype sm_acctype sm_prec sm_opttype sm_optvals sm_layers].
  rewrite fold_pairs. rewrite Hsz at 1. rewrite (serialize_layers _ _ _ _ HE). do 2 f_equal.
  unfold model_bytes, put_string, put_int8, put_int32, put_f64. rewrite !le_bytes_enc. cbn [app]. rewrite <- !app_assoc. reflexivity.
Qed.

(** ** Lengths *)
Lemma layer_bytes_length p : shape (p_in p) (p_out p) (p_w p) -> shape 1 (p_out p) (p_b p) -> length (layer_bytes B p) = layer_size p.
Proof.
  intros HW HBi. unfold layer_bytes, layer_size. rewrite !app_length, !enc_length, !f64s_length, (length_concat _ _ _ HW), (length_concat _ _ _ HBi).
  rewrite list_byte_length. cbn [length String.length]. lia.
Qed.
Lemma pair_bytes_length kv : length (pair_bytes B kv) = (1 + String.length (fst kv) + 8)%nat.
Proof. unfold pair_bytes. rewrite !app_length, enc_length, list_byte_length, f64s_length. cbn [length]. lia. Qed.
Lemma concat_map_length {A C} (f : A -> list C) (g : A -> nat) l : Forall (fun x => length (f x) = g x) l -> length (concat (map f l)) = list_total (map g l).
Proof. induction 1 as [|x l H _ IH]; [reflexivity|]. cbn [map concat list_total fold_right]. rewrite app_length, H, IH. reflexivity. Qed.
Lemma model_bytes_length m ord ps : Forall (fun p => shape (p_in p) (p_out p) (p_w p) /\ shape 1 (p_out p) (p_b p)) ps ->
  length (model_bytes B m ord ps) = model_length ord ps.
Proof.
  intros HS. unfold model_bytes, model_length. rewrite !app_length, !enc_length, !list_byte_length, f64s_length.
  rewrite (concat_map_length (pair_bytes B) (fun kv => 1 + String.length (fst kv) + 8)%nat) by (apply Forall_forall; intros; apply pair_bytes_length).
  rewrite (concat_map_length (layer_bytes B) (@layer_size K)) by (eapply Forall_impl; [|exact HS]; cbv beta; intros p [H1 H2]; now apply layer_bytes_length).
  cbn [length String.length]. lia.
Qed.
Lemma lown_shapes s l rw rb (p : player K) : lown s l rw rb p -> shape (p_in p) (p_out p) (p_w p) /\ shape 1 (p_out p) (p_b p) /\ (1 <= p_in p)%nat /\ (1 <= p_out p)%nat.
Proof. intros (_ & _ & _ & _ & _ & H1 & H2 & HW & HBi). split; [eapply own_shape; eauto|]. split; [eapply own_shape; eauto|auto]. Qed.

(** ** Decoding what was encoded *)
Definition codable (p : player K) : Prop :=
  (1 <= p_in p)%nat /\ (1 <= p_out p)%nat /\ small_player p /\ shape (p_in p) (p_out p) (p_w p) /\ shape 1 (p_out p) (p_b p).
Lemma kind_code_inv k : kind_of_code (lkind_code k) = Some k.
Proof. destruct k; reflexivity. Qed.
Lemma loss_code_inv k : loss_of_code (losskind_code k) = Some k.
Proof. destruct k; reflexivity. Qed.
Lemma opt_code_inv k : opt_of_code (okind_code k) = Some k.
Proof. destruct k; reflexivity. Qed.
Lemma decode_layer_enc (HB : bits_ok B) p rest : codable p -> decode_layer B (layer_bytes B p ++ rest) = Some (stored p, rest).
Proof.
  intros (H1 & H2 & [H3 H4] & HW & HBi).
  assert (HL : length (layer_bytes B p) = layer_size p) by now apply layer_bytes_length.
  unfold decode_layer. rewrite app_length, HL. replace (27 <=? layer_size p + length rest)%nat with true by (unfold layer_size; lia).
  unfold layer_bytes. rewrite <- !app_assoc.
  rewrite string_at_enc by reflexivity. cbn [String.eqb Ascii.eqb Bool.eqb andb].
  rewrite (int8_at_app 2 0) by reflexivity. rewrite int8_enc by (destruct (p_kind p); cbn; lia). rewrite kind_code_inv.
  rewrite (int32_at_app 2 1), (int32_at_app 1 0) by (reflexivity || apply enc_length). rewrite int32_enc by lia.
  rewrite (int32_at_app 2 5), (int32_at_app 1 4), (int32_at_app 4 0) by (reflexivity || apply enc_length). rewrite int32_enc by lia.
  cbv zeta. replace ((1 <=? Z.of_nat (p_in p)) && (1 <=? Z.of_nat (p_out p)) && (27 + 8 * (Z.of_nat (p_in p) * Z.of_nat (p_out p)) + 8 * Z.of_nat (p_out p) <=? Z.of_nat (layer_size p + length rest))) with true
    by (unfold layer_size; lia).
  rewrite !Nat2Z.id. f_equal. f_equal.
  - unfold stored. f_equal.
    + apply (shape_ext (p_in p) (p_out p)); [apply shape_mk|exact HW|]. intros a b Ha Hb. rewrite entry_mk by auto.
      replace (27 + 8 * (a * p_out p + b))%nat with (2 + (1 + (4 + (4 + (8 * 1 + (8 * 1 + 8 * (a * p_out p + b)))))))%nat by lia.
      rewrite !f64_at_app by first [reflexivity|apply enc_length|apply f64s_length].
      rewrite f64_at_f64s; [now apply (nth_concat _ (p_in p))|exact HB|]. rewrite (length_concat _ _ _ HW). nia.
    + apply (shape_ext 1 (p_out p)); [apply shape_mk|exact HBi|]. intros a b Ha Hb. rewrite entry_mk by auto. assert (a = O) by lia. subst a.
      replace (27 + 8 * (p_in p * p_out p + b))%nat with (2 + (1 + (4 + (4 + (8 * 1 + (8 * 1 + (8 * (p_in p * p_out p) + 8 * b)))))))%nat by lia.
      rewrite !f64_at_app by first [reflexivity|apply enc_length|apply f64s_length|rewrite f64s_length; now rewrite (length_concat _ _ _ HW)].
      rewrite f64_at_f64s; [|exact HB|]. { rewrite <- (nth_concat _ 1 (p_out p) HBi 0 b) by lia. reflexivity. } rewrite (length_concat _ _ _ HBi). lia.
    + unfold stored_slope. destruct (p_kind p); try reflexivity.
      rewrite (f64_at_app B 2 9), (f64_at_app B 1 8), (f64_at_app B 4 4), (f64_at_app B 4 0) by first [reflexivity|apply enc_length]. apply (f64_at_f64s B HB [p_slope p] _ 0). cbn [length]. lia.
    + unfold stored_drop. destruct (p_kind p); try reflexivity.
      rewrite (f64_at_app B 2 17), (f64_at_app B 1 16), (f64_at_app B 4 12), (f64_at_app B 4 8), (f64_at_app B 8 0) by first [reflexivity|apply enc_length|apply f64s_length]. apply (f64_at_f64s B HB [p_drop p] _ 0). cbn [length]. lia.
  - replace (27 + 8 * (p_in p * p_out p) + 8 * p_out p)%nat with (2 + (1 + (4 + (4 + (8 * 1 + (8 * 1 + (8 * (p_in p * p_out p) + (8 * (1 * p_out p) + 0))))))))%nat by lia.
    rewrite !skipn_past by first [reflexivity|apply enc_length|apply f64s_length|rewrite f64s_length; first [now rewrite (length_concat _ _ _ HW)|now rewrite (length_concat _ _ _ HBi)]]. reflexivity.
Qed.

Lemma decode_layers_enc (HB : bits_ok B) ps rest : Forall codable ps ->
  decode_layers B (length ps) (concat (map (layer_bytes B) ps) ++ rest) = Some (map stored ps, rest).
Proof.
  induction 1 as [|p ps Hp _ IH]; [reflexivity|]. cbn [length map concat decode_layers]. rewrite <- app_assoc, decode_layer_enc by auto. now rewrite IH.
Qed.
Lemma string_length_nat (n : nat) x : String.length x = n -> length (list_byte_of_string x) = n.
Proof. intros <-. apply list_byte_length. Qed.
Lemma decode_pairs_enc (HB : bits_ok B) ord rest : Forall (fun kv => (String.length (fst kv) < 128)%nat) ord ->
  decode_pairs B (length ord) (concat (map (pair_bytes B) ord) ++ rest) = Good (ord, rest).
Proof.
  induction 1 as [|[k v] ord Hk _ IH]; [reflexivity|]. cbn [length map concat fst] in *.
  rewrite <- app_assoc. set (tl := concat (map (pair_bytes B) ord) ++ rest) in *.
  assert (HL : length (pair_bytes B (k, v) ++ tl) = (1 + String.length k + 8 + length tl)%nat) by (rewrite app_length, pair_bytes_length; reflexivity).
  cbn [decode_pairs]. destruct (pair_bytes B (k, v) ++ tl) as [|b t] eqn:E; [cbn [length] in HL; lia|]. rewrite HL, <- E. clear E HL b t.
  unfold pair_bytes. cbn [fst snd]. rewrite <- !app_assoc. rewrite int8_enc by lia. cbv zeta.
  replace (Z.of_nat (String.length k) <? 0) with false by lia. rewrite Nat2Z.id.
  replace (Z.of_nat (1 + String.length k + 8 + length tl) <? 1 + Z.of_nat (String.length k) + 8) with false by lia.
  replace (1 + String.length k + 8)%nat with (1 + (String.length k + (8 * 1 + 0)))%nat by lia.
  rewrite !skipn_past by first [apply enc_length|apply list_byte_length|apply f64s_length]. cbn [skipn]. rewrite IH.
  do 3 f_equal. f_equal.
  - rewrite (string_at_app 1 0) by apply enc_length. now apply string_at_enc.
  - replace (1 + String.length k)%nat with (1 + (String.length k + 0))%nat by lia.
    rewrite !f64_at_app by first [apply enc_length|apply list_byte_length]. apply (f64_at_f64s B HB [v] _ 0). cbn [length]. lia.
Qed.
(** The conditions under which a model fits the format. *)
Definition header_ok (m : model K) (ord : gomap K) (ps : list (player K)) (l : losskind) (k : okind) : Prop :=
  m_size m = Z.of_nat (length ps) /\ (length ps <= 127)%nat /\ m_out m = Z.of_nat (last_out ps) /\ Z.of_nat (last_out ps) < 2 ^ 31 /\
  m_losstype m = losskind_code l /\ m_opttype m = okind_code k /\ -128 <= m_acctype m < 128 /\ flt (m_prec m) f0 = false /\
  length (m_optvals m) = length ord /\ (length ord <= 127)%nat /\ Forall (fun kv => (String.length (fst kv) < 128)%nat) ord.
Lemma fits_stored ps : forall prev, fits prev (map (@stored K) ps) = fits prev ps.
Proof. induction ps as [|p ps IH]; intros prev; [reflexivity|]. cbn [map fits]. now rewrite IH. Qed.
Lemma last_out_stored ps : last_out (map (@stored K) ps) = last_out ps.
Proof. unfold last_out. now rewrite map_map. Qed.
Lemma chain_fits (ps : list (player K)) : forall i o prev, chain i ps o -> (prev = None \/ prev = Some i) -> fits prev ps = true.
Proof.
  induction ps as [|p ps IH]; intros i o prev HC Hp; [reflexivity|]. destruct HC as [<- HC]. cbn [fits]. rewrite (IH _ _ (Some (p_out p)) HC) by auto.
  destruct Hp as [-> | ->]; [reflexivity|]. now rewrite Nat.eqb_refl.
Qed.
Lemma decode_model_enc (HB : bits_ok B) lg m ord ps l k rest : header_ok m ord ps l k -> Forall codable ps -> fits None ps = true ->
  decode_model B lg (model_bytes B m ord ps ++ rest) =
    Good (PMod (map stored ps) l (m_acctype m) (m_prec m) (optimizer_of k ord), rest).
Proof.
  intros (Hsz & Hn & Hout & Ho & Hlt & Hot & Hacc & Hprec & Hov & Hno & Hkeys) Hc Hf.
  assert (HL : (30 <= length (model_bytes B m ord ps ++ rest))%nat).
  { unfold model_bytes. rewrite !app_length, !enc_length, !list_byte_length, f64s_length. cbn [length String.length]. lia. }
  unfold decode_model. replace (5 <=? length (model_bytes B m ord ps ++ rest))%nat with true by lia.
  replace (length (model_bytes B m ord ps ++ rest) <? 30)%nat with false by lia. clear HL.
  unfold model_bytes. rewrite <- !app_assoc. rewrite string_at_enc by reflexivity. rewrite (string_at_app 4 0) by reflexivity. rewrite string_at_enc by reflexivity.
  change (String.eqb "NNML" "NNML") with true. change (String.eqb "1.0.3" VERSION) with true. cbn [andb negb].
  change 30%nat with (4 + (5 + (1 + (4 + (4 + (1 + (1 + (8 * 1 + (1 + (1 + 0))))))))))%nat.
  change 29%nat with (4 + (5 + (1 + (4 + (4 + (1 + (1 + (8 * 1 + (1 + 0)))))))))%nat.
  change 28%nat with (4 + (5 + (1 + (4 + (4 + (1 + (1 + (8 * 1 + 0))))))))%nat.
  change 20%nat with (4 + (5 + (1 + (4 + (4 + (1 + (1 + 0)))))))%nat.
  change 19%nat with (4 + (5 + (1 + (4 + (4 + (1 + 0))))))%nat.
  change 18%nat with (4 + (5 + (1 + (4 + (4 + 0)))))%nat.
  change 14%nat with (4 + (5 + (1 + (4 + 0))))%nat.
  change 9%nat with (4 + (5 + 0))%nat.
  rewrite !skipn_past, !int8_at_app, !int32_at_app, !f64_at_app by first [reflexivity|apply enc_length|apply f64s_length]. cbn [skipn].
  rewrite !int8_enc, int32_enc; try lia.
  2:{ rewrite Hot. destruct k; cbn; lia. } 2:{ rewrite Hlt. destruct l; cbn; lia. }
  rewrite Hov, Nat2Z.id, decode_pairs_enc by auto. rewrite Hsz, Nat2Z.id, decode_layers_enc by auto.
  rewrite Hlt, Hot, loss_code_inv, opt_code_inv, fits_stored, Hf, last_out_stored, Hout, Z.eqb_refl.
  rewrite (f64_at_f64s B HB [m_prec m] _ 0) by (cbn [length]; lia). cbn [nth]. rewrite Hprec. reflexivity.
Qed.

(** ** More bytes do not change what was decoded *)
Lemma decode_layer_mono b x p rest : decode_layer B b = Some (p, rest) -> decode_layer B (b ++ x) = Some (p, rest ++ x).
Proof.
  unfold decode_layer. destruct (27 <=? length b)%nat eqn:HL; [|discriminate]. apply Nat.leb_le in HL. cbn [andb].
  rewrite app_length. replace (27 <=? length b + length x)%nat with true by lia. cbn [andb].
  rewrite string_at_l by lia. destruct (String.eqb (string_at 0 2 b) "LA"); [|discriminate].
  rewrite int8_at_l by lia. destruct (kind_of_code (int8_at 2 b)) as [k|]; [|discriminate]. cbv zeta. rewrite !int32_at_l by lia.
  set (i := int32_at 3 b). set (o := int32_at 7 b).
  destruct ((1 <=? i) && (1 <=? o) && (27 + 8 * (i * o) + 8 * o <=? Z.of_nat (length b))) eqn:HC; [|discriminate].
  apply andb_true_iff in HC as [HC HC3]. apply andb_true_iff in HC as [HC1 HC2]. apply Z.leb_le in HC1, HC2, HC3.
  replace ((1 <=? i) && (1 <=? o) && (27 + 8 * (i * o) + 8 * o <=? Z.of_nat (length b + length x))) with true by lia.
  intros [= <- <-].
  assert (HN : (27 + 8 * (Z.to_nat i * Z.to_nat o) + 8 * Z.to_nat o <= length b)%nat).
  { rewrite <- Z2Nat.inj_mul by lia. lia. }
  rewrite app_as_firstn_skipn by lia. do 2 f_equal. f_equal.
  - apply mk_ext. intros a c Ha Hc. apply f64_at_l. nia.
  - apply mk_ext. intros a c Ha Hc. apply f64_at_l. nia.
  - destruct k; try reflexivity. apply f64_at_l. lia.
  - destruct k; try reflexivity. apply f64_at_l. lia.
Qed.
Lemma decode_layers_mono n : forall b x ps rest, decode_layers B n b = Some (ps, rest) -> decode_layers B n (b ++ x) = Some (ps, rest ++ x).
Proof.
  induction n as [|n IH]; intros b x ps rest; cbn [decode_layers]; [now intros [= <- <-]|].
  destruct (decode_layer B b) as [[p b1]|] eqn:E1; [|discriminate]. rewrite (decode_layer_mono _ _ _ _ E1).
  destruct (decode_layers B n b1) as [[ps1 b2]|] eqn:E2; [|discriminate]. rewrite (IH _ _ _ _ E2). now intros [= <- <-].
Qed.
Definition res_app {A} (r : res (A * list byte)) (x : list byte) : res (A * list byte) :=
  match r with Good (a, rest) => Good (a, rest ++ x) | Bad => Bad | Crash => Crash end.
Lemma decode_pairs_mono n : forall b x, decode_pairs B n b <> Bad -> decode_pairs B n (b ++ x) = res_app (decode_pairs B n b) x.
Proof.
  induction n as [|n IH]; intros b x H; cbn [decode_pairs] in *; [reflexivity|].
  destruct b as [|b0 t]; [congruence|]. cbn [app]. change (b0 :: t ++ x) with ((b0 :: t) ++ x). set (b := b0 :: t) in *.
  assert (HL : (1 <= length b)%nat) by (cbn; lia). cbv zeta in *. rewrite int8_at_l by lia.
  destruct (int8_at 0 b <? 0) eqn:E1; [reflexivity|]. apply Z.ltb_ge in E1. rewrite app_length.
  destruct (Z.ltb_spec (Z.of_nat (length b)) (1 + int8_at 0 b + 8)) as [E2|E2]; [congruence|].
  replace (Z.of_nat (length b + length x) <? 1 + int8_at 0 b + 8) with false by lia.
  rewrite app_as_firstn_skipn by lia. rewrite IH.
  - destruct (decode_pairs B n (skipn (1 + Z.to_nat (int8_at 0 b) + 8) b)) as [[kvs r]| |]; try reflexivity.
    cbn [res_app]. rewrite string_at_l, f64_at_l by lia. reflexivity.
  - intros E. rewrite E in H. congruence.
Qed.
Lemma decode_model_mono lg b x : (9 <= length b)%nat \/ lg = true -> decode_model B lg b <> Bad -> decode_model B lg (b ++ x) = res_app (decode_model B lg b) x.
Proof.
  intros HV H. unfold decode_model in *. rewrite app_length.
  destruct (5 <=? length b)%nat eqn:E5; [|cbn [andb negb] in H; congruence]. apply Nat.leb_le in E5. replace (5 <=? length b + length x)%nat with true by lia.
  cbn [andb] in *. rewrite (string_at_l 0 4) by lia. destruct (String.eqb (string_at 0 4 b) "NNML"); cbn [negb] in *; [|congruence].
  destruct (le_lt_dec 9 (length b)) as [H9|H9].
  - rewrite (string_at_l 4 5) by lia. destruct (negb (String.eqb (string_at 4 5 b) VERSION) && negb lg); [reflexivity|].
    destruct (Nat.ltb_spec (length b) 30) as [H30|H30]; [congruence|]. replace (length b + length x <? 30)%nat with false by lia.
    rewrite !int8_at_l, int32_at_l, f64_at_l, app_as_firstn_skipn by lia.
    rewrite decode_pairs_mono. 2:{ intros E. rewrite E in H. congruence. }
    destruct (decode_pairs B (Z.to_nat (int8_at 29 b)) (skipn 30 b)) as [[kvs r]| |]; try reflexivity. cbn [res_app].
    destruct (decode_layers B (Z.to_nat (int8_at 9 b)) r) as [[ps r2]|] eqn:E2; [|congruence]. rewrite (decode_layers_mono _ _ _ _ _ E2).
    destruct (loss_of_code (int8_at 18 b)), (opt_of_code (int8_at 28 b)); try congruence.
    destruct (fits None ps && (int32_at 14 b =? Z.of_nat (last_out ps)) && negb (flt (f64_at B 20 b) f0)); [reflexivity|congruence].
  - exfalso. destruct HV as [HV| ->]; [lia|]. rewrite andb_false_r in H. replace (length b <? 30)%nat with true in H by lia. congruence.
Qed.
End WithNum.
