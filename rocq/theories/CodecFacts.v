(** * CodecFacts: saving and loading models. *)
From Coq.Strings Require Import Byte.
From Coq Require Import String Ascii ZArith List Bool Arith Lia Permutation.
From Verif Require Import Num Heap Spec Matrix Network Loss Optimizers ModelGo LayerData ModelData PureSpec Repr OptSpec ModelSpec HeapLemmas LoopLemmas
  MatrixProofs LayerProofs ModelProofs EvalProofs MatrixFacts ModelFacts CodecSpec CodecBytes CodecLoad CodecModel CodecSave.
Import ListNotations.
Open Scope Z_scope.
Open Scope go_scope.

Section WithNum.
Context {K : Num} (B : FBits K).
Implicit Types (s : state K) (m : model K) (es : list (lent K)) (ps : list (player K)) (o : optimizer K) (d : plain_model K) (buf rest : list byte).

(** ** LoadModel by cases *)
Lemma load_good (HI : int_faithful K) (HF : feq (f0 : K) f0 = true) s buf d rest : decode_model B (h_logger s) buf = Good (d, rest) ->
  exists m es s', LoadModel B buf s = (Ret (m, rest), s') /\ assembled B s m es d rest buf s'.
Proof.
  intros H. pose proof (LoadModel_spec B HI HF s buf) as W. unfold wpx in W. destruct (LoadModel B buf s) as [[[m r]|e|p] s'].
  - destruct W as (d' & es & HA). cbn [fst snd] in HA. assert (E : (d', r) = (d, rest)) by (destruct HA as (HA & _); congruence).
    injection E as -> ->. now exists m, es, s'.
  - destruct W as (W & _). congruence.
  - destruct W as (W & _). congruence.
Qed.
Lemma load_bad (HI : int_faithful K) (HF : feq (f0 : K) f0 = true) s buf : decode_model B (h_logger s) buf = Bad ->
  exists e s', LoadModel B buf s = (Fail e, s') /\ grows s s' /\ h_log s' = h_log s ++ version_warning buf.
Proof.
  intros H. pose proof (LoadModel_spec B HI HF s buf) as W. unfold wpx in W. destruct (LoadModel B buf s) as [[[m r]|e|p] s'].
  - destruct W as (d' & es & (HA & _)). congruence.
  - exists e, s'. tauto.
  - destruct W as (W & _). congruence.
Qed.
Lemma load_crash (HI : int_faithful K) (HF : feq (f0 : K) f0 = true) s buf : decode_model B (h_logger s) buf = Crash ->
  exists p s', LoadModel B buf s = (Panic p, s') /\ grows s s'.
Proof.
  intros H. pose proof (LoadModel_spec B HI HF s buf) as W. unfold wpx in W. destruct (LoadModel B buf s) as [[[m r]|e|p] s'].
  - destruct W as (d' & es & (HA & _)). congruence.
  - destruct W as (W & _). congruence.
  - exists p, s'. tauto.
Qed.
Lemma load_ret (HI : int_faithful K) (HF : feq (f0 : K) f0 = true) s buf m rest s' : LoadModel B buf s = (Ret (m, rest), s') ->
  exists d es, assembled B s m es d rest buf s'.
Proof. intros H. pose proof (LoadModel_spec B HI HF s buf) as W. unfold wpx in W. rewrite H in W. exact W. Qed.
Lemma load_panic (HI : int_faithful K) (HF : feq (f0 : K) f0 = true) s buf p s' : LoadModel B buf s = (Panic p, s') -> decode_model B (h_logger s) buf = Crash.
Proof. intros H. pose proof (LoadModel_spec B HI HF s buf) as W. unfold wpx in W. rewrite H in W. apply W. Qed.

(** ** The optimizer table in any order *)
Lemma value_of_app k (a b : gomap K) : forall v, fold_left (fun v kv => if String.eqb k (fst kv) then snd kv else v) (a ++ b) v =
  fold_left (fun v kv => if String.eqb k (fst kv) then snd kv else v) b (fold_left (fun v kv => if String.eqb k (fst kv) then snd kv else v) a v).
Proof. intros v. apply fold_left_app. Qed.
Lemma value_none k (ord : gomap K) : ~ In k (map fst ord) -> forall v, fold_left (fun v kv => if String.eqb k (fst kv) then snd kv else v) ord v = v.
Proof.
  induction ord as [|[k' v'] ord IH]; intros H v; [reflexivity|]. cbn [fold_left fst snd map In] in *.
  destruct (String.eqb_spec k k') as [->|_]; [exfalso; apply H; now left|]. apply IH. tauto.
Qed.
Lemma value_of_in k v (ord : gomap K) : NoDup (map fst ord) -> In (k, v) ord -> value_of k ord = v.
Proof.
  intros HN HI. apply in_split in HI as (a & b & ->). unfold value_of. rewrite value_of_app. cbn [fold_left fst snd]. rewrite String.eqb_refl.
  apply value_none. rewrite map_app in HN. cbn [map fst] in HN. apply NoDup_remove_2 in HN. intros HI. apply HN. apply in_or_app. now right.
Qed.
Lemma opt_keys_nodup o : NoDup (map fst (opt_values o)).
Proof. unfold opt_values. destruct (o_kind o); cbn [map fst]; repeat constructor; cbn [In]; intros H; repeat (destruct H as [H|H]; [discriminate|]); exact H. Qed.
Lemma opt_of_order o ord : Permutation ord (opt_values o) ->
  clone (optimizer_of (o_kind o) ord) = clone o /\ opt_values (optimizer_of (o_kind o) ord) = opt_values o /\ o_kind (optimizer_of (o_kind o) ord) = o_kind o.
Proof.
  intros HP. assert (HN : NoDup (map fst ord)) by (eapply Permutation_NoDup; [apply Permutation_map, Permutation_sym, HP|apply opt_keys_nodup]).
  assert (HV : forall k v, In (k, v) (opt_values o) -> value_of k ord = v)
    by (intros k v H; apply value_of_in; [exact HN|eapply Permutation_in; [apply Permutation_sym, HP|exact H]]).
  unfold opt_values in HV |- *. unfold clone, optimizer_of. destruct (o_kind o) eqn:E; cbn [o_kind o_lr o_decay o_momentum o_eps o_beta1 o_beta2];
    repeat match goal with |- context [value_of ?k ord] => erewrite (HV k) by (cbn [In]; tauto) end; rewrite ?E; auto.
Qed.
Lemma opt_keys_short o ord : Permutation ord (opt_values o) ->
  (length ord <= 5)%nat /\ length (opt_values o) = length ord /\ Forall (fun kv => (String.length (fst kv) < 128)%nat) ord.
Proof.
  intros HP. split; [rewrite (Permutation_length HP); unfold opt_values; destruct (o_kind o); cbn; lia|].
  split; [now rewrite (Permutation_length HP)|]. apply Forall_forall. intros kv H. apply (Permutation_in _ HP) in H.
  unfold opt_values in H. destruct (o_kind o); cbn [In] in H; repeat (destruct H as [<-|H]; [cbn; lia|]); destruct H.
Qed.

(** ** Saving and loading *)
Lemma finalized_codable s m es l o : finalized s m es l o -> Forall small_player (net es) -> Forall codable (net es).
Proof.
  intros ((_ & _ & _ & _ & _ & Hok) & _) Hs. unfold net in *. rewrite Forall_map in *. apply Forall_forall. intros e He.
  rewrite Forall_forall in Hok, Hs. destruct (Hok e He) as (ly & _ & Ho). destruct (lown_shapes _ _ _ _ _ Ho) as (H1 & H2 & H3 & H4).
  specialize (Hs e He). now unfold codable.
Qed.
Lemma last_out_cases ps : ps = [] \/ exists p, In p ps /\ last_out ps = p_out p.
Proof.
  unfold last_out. destruct ps as [|p ps] using rev_ind; [now left|right]. exists p. rewrite map_app. cbn [map]. rewrite last_last. split; [apply in_or_app; cbn; tauto|reflexivity].
Qed.
Lemma finalized_header s m es l o ord : finalized s m es l o -> storable m (net es) -> Permutation ord (m_optvals m) ->
  header_ok m ord (net es) l (o_kind o).
Proof.
  intros ((_ & Hsz & _ & Ho & _ & _) & _ & Hlt & Hot & Hov & Hp) (Hn & Hs & Ha) HP. rewrite Hov in HP. destruct (opt_keys_short _ _ HP) as (H1 & H2 & H3).
  unfold header_ok. rewrite Hov. unfold net at 1. rewrite map_length. repeat split; auto; try lia.
  destruct (last_out_cases (net es)) as [->|(p & Hi & ->)]; [cbn; lia|]. rewrite Forall_forall in Hs. now apply Hs.
Qed.
Lemma finalized_fits s m es l o : finalized s m es l o -> fits None (net es) = true.
Proof. intros ((_ & _ & _ & _ & Hc & _) & _). eapply chain_fits; [exact Hc|now left]. Qed.
Lemma small53 s es : Forall small_player (net (K := K) es) -> Forall (fun e => fits53 (e_p e)) es.
Proof. unfold net. rewrite Forall_map. apply Forall_impl. intros e (H1 & H2). unfold fits53. lia. Qed.
Lemma finalized_save (HI : int_faithful K) s m es l o ord : finalized s m es l o -> Forall fits53 (net es) ->
  save B m ord s = (Ret (model_bytes B m ord (net es)), s).
Proof. intros (Hc & _) Hs. eapply save_run; eauto. unfold net in Hs. now rewrite Forall_map in Hs. Qed.
Lemma version_ok m ord ps rest : version_warning (K := K) (model_bytes B m ord ps ++ rest) = [].
Proof.
  unfold version_warning, model_bytes. rewrite <- !app_assoc. rewrite (string_at_app 4 0) by reflexivity. rewrite !string_at_enc by reflexivity.
  change (String.eqb "1.0.3" VERSION) with true. cbn [negb]. now rewrite andb_false_r.
Qed.
Lemma represents_opt s m es n ps l a pr o o' : represents s m es n (PMod ps l a pr o) -> clone o = clone o' -> opt_values o = opt_values o' -> o_kind o = o_kind o' ->
  represents s m es n (PMod ps l a pr o').
Proof.
  unfold represents. cbn [d_layers d_loss d_acc d_prec d_opt]. intros (H1 & H2 & H3 & H4 & H5 & H6 & H7 & H8 & H9 & H10 & H11) E1 E2 E3.
  rewrite <- E1, <- E2, <- E3. tauto.
Qed.
Lemma model_round_trip (HI : int_faithful K) (HF : feq (f0 : K) f0 = true) (HB : bits_ok B) s m es l o ord rest s2 :
  finalized s m es l o -> storable m (net es) -> Permutation ord (m_optvals m) ->
  save B m ord s = (Ret (model_bytes B m ord (net es)), s) /\
  exists m' es' s2', LoadModel B (model_bytes B m ord (net es) ++ rest) s2 = (Ret (m', rest), s2') /\
    represents s2' m' es' (length (h_opts s2)) (described m (net es) l o) /\
    map e_ref es' = seq (length (h_layers s2)) (length es') /\ fresh s2 (prows es') /\ grows s2 s2' /\ h_log s2' = h_log s2.
Proof.
  intros Hf Hst HP. split. { eapply finalized_save; eauto. destruct Hst as (_ & Hs & _). eapply Forall_impl; [|exact Hs]. intros p (H1 & H2). unfold fits53. lia. }
  destruct (load_good HI HF s2 (model_bytes B m ord (net es) ++ rest) _ rest
    (decode_model_enc B HB (h_logger s2) m ord (net es) l (o_kind o) rest (finalized_header _ _ _ _ _ _ Hf Hst HP)
      (finalized_codable _ _ _ _ _ Hf (proj1 (proj2 Hst))) (finalized_fits _ _ _ _ _ Hf)))
    as (m' & es' & s2' & HL & (_ & HR & Href & Hfr & _ & Hg & Hlog)).
  exists m', es', s2'. split; [exact HL|]. split.
  - unfold described. destruct Hf as (_ & _ & _ & _ & Hov & _). rewrite Hov in HP. destruct (opt_of_order _ _ HP) as (E1 & E2 & E3).
    eapply represents_opt; eauto.
  - rewrite version_ok, app_nil_r in Hlog. tauto.
Qed.


(** ** Layers *)
Lemma load_layer_good s buf p rest : decode_layer B buf = Some (p, rest) ->
  exists l rw rb s', LoadLayer B buf s = (Ret (length (h_layers s), rest), s') /\ loaded s s' l rw rb p.
Proof.
  intros H. pose proof (LoadLayer_spec B s buf) as W. unfold wpx in W. destruct (LoadLayer B buf s) as [[[r b]|e|q] s'].
  - destruct W as (p' & l & rw & rb & Hd & Hr & HL). cbn [fst snd] in *. assert (E : (p', b) = (p, rest)) by congruence. injection E as -> ->. subst r. now exists l, rw, rb, s'.
  - destruct W. congruence.
  - destruct W.
Qed.
Lemma load_layer_bad s buf : decode_layer B buf = None -> exists e s', LoadLayer B buf s = (Fail e, s') /\ ext s s'.
Proof.
  intros H. pose proof (LoadLayer_spec B s buf) as W. unfold wpx in W. destruct (LoadLayer B buf s) as [[[r b]|e|q] s'].
  - destruct W as (p' & l & rw & rb & Hd & _). congruence.
  - exists e, s'. tauto.
  - destruct W.
Qed.
Lemma load_layer_no_panic s buf q s' : LoadLayer B buf s <> (Panic q, s').
Proof. intros H. pose proof (LoadLayer_spec B s buf) as W. unfold wpx in W. now rewrite H in W. Qed.
Lemma load_layer_ret s buf r rest s' : LoadLayer B buf s = (Ret (r, rest), s') ->
  exists p l rw rb, decode_layer B buf = Some (p, rest) /\ r = length (h_layers s) /\ loaded s s' l rw rb p.
Proof. intros H. pose proof (LoadLayer_spec B s buf) as W. unfold wpx in W. now rewrite H in W. Qed.
Lemma lown_small s (l : layer K) rw rb p : lown s l rw rb p -> Z.of_nat (p_in p) <= 2 ^ 53 -> Z.of_nat (p_out p) <= 2 ^ 53 -> small_layer l.
Proof. intros (Hk & Hi & Ho & _) H1 H2. unfold small_layer, small_int. rewrite Hi, Ho. lia. Qed.
Lemma layer_round_trip (HI : int_faithful K) (HB : bits_ok B) s lref l rw rb p buf rest s2 :
  nth_error (h_layers s) lref = Some l -> lown s l rw rb p -> small_player p ->
  save_layer B lref buf s = (Ret (buf ++ layer_bytes B p), s) /\
  exists l' rw' rb' s2', LoadLayer B (layer_bytes B p ++ rest) s2 = (Ret (length (h_layers s2), rest), s2') /\ loaded s2 s2' l' rw' rb' (stored p).
Proof.
  intros HN Ho Hs. destruct (lown_shapes _ _ _ _ _ Ho) as (H1 & H2 & H3 & H4). split.
  - unfold save_layer. erewrite bind_eq by (apply (NewSaved_run HI s lref l HN); eapply lown_small; eauto; destruct Hs; lia). eapply SerializeLayer_run; eauto.
  - apply load_layer_good. apply decode_layer_enc; [exact HB|]. now unfold codable.
Qed.
Lemma layer_save_error (HI : int_faithful K) s lref l buf : nth_error (h_layers s) lref = Some l -> small_layer l ->
  mrows (l_w l) <> l_in l \/ mcols (l_w l) <> l_out l \/ mrows (l_b l) <> 1 \/ mcols (l_b l) <> l_out l ->
  save_layer B lref buf s = (Fail (ELayerDims (l_in l) (l_out l)), s).
Proof.
  intros HN Hs H. unfold save_layer. erewrite bind_eq by (apply (NewSaved_run HI s lref l HN Hs)). apply SerializeLayer_err. exact H.
Qed.

(** ** Predictions *)
Lemma pforward_stored (p : player K) r X : pforward (stored p) r X = pforward p r X.
Proof.
  unfold pforward, paffine, pact. assert (E : act1 (stored p) = act1 p) by (unfold act1, stored, stored_slope; cbn; destruct (p_kind p); reflexivity).
  rewrite E. reflexivity.
Qed.
Lemma pnet_stored ps : forall r X, pnet (map stored ps) r X = pnet ps r X.
Proof. unfold pnet. induction ps as [|p ps IH]; intros r X; [reflexivity|]. cbn [map fold_left]. now rewrite pforward_stored, IH. Qed.
Lemma first_in_stored ps : first_in (map (@stored K) ps) = first_in ps.
Proof. destruct ps; reflexivity. Qed.
Lemma represents_net s m es n d : represents s m es n d -> net es = d_layers d.
Proof. intros (_ & H & _). exact H. Qed.
Lemma predict_some a r c (P : pm K) : 0 <= a <= 2 -> exists c' A, ppredict a r c P = Some (c', A).
Proof. intros H. unfold ppredict. assert (E : a = 0 \/ a = 1 \/ a = 2) by lia. destruct E as [->|[->| ->]]; cbn; eauto. Qed.
Lemma accuracy_some a pr r c (P Y : pm K) : 0 <= a <= 2 -> exists v, paccuracy a pr r c P Y = Some v.
Proof. intros H. unfold paccuracy. assert (E : a = 0 \/ a = 1 \/ a = 2) by lia. destruct E as [->|[->| ->]]; cbn; eauto. Qed.
Lemma same_predictions s m es l o s' m' es' n x rs r X x' rs' :
  finalized s m es l o -> represents s' m' es' n (described m (net es) l o) -> (1 <= length es)%nat -> 0 <= m_acctype m <= 2 -> (1 <= r)%nat ->
  own s x rs r (first_in (net es)) X -> own s' x' rs' r (first_in (net es)) X ->
  exists P P' s1 s1', Predict m x s = (Ret P, s1) /\ Predict m' x' s' = (Ret P', s1') /\
    exists ro ro' c A, own s1 P ro r c A /\ own s1' P' ro' r c A.
Proof.
  intros (Hc & _) HR Hn Ha Hr Hx Hx'. assert (Hnet := represents_net _ _ _ _ _ HR). destruct HR as (Hc' & _ & _ & _ & _ & Hacc & _).
  cbn [d_layers d_acc described] in *. rewrite first_in_stored, last_out_stored in Hc'.
  destruct (predict_some (m_acctype m) r (last_out (net es)) (pnet (net es) r X) Ha) as (c & A & HP).
  assert (Hlen : length es' = length es). { rewrite <- (map_length e_p es'), <- (map_length e_p es). fold (net es') (net es). rewrite Hnet. apply map_length. }
  assert (W := wp_Predict s m es _ _ x rs r X c A Hc Hn HP Hx Hr).
  assert (W' := wp_Predict s' m' es' _ _ x' rs' r X c A Hc' ltac:(lia)).
  rewrite Hacc, Hnet, pnet_stored in W'. specialize (W' HP Hx' Hr).
  apply wp_ex in W as (P & s1 & E1 & ro & HO & _). apply wp_ex in W' as (P' & s1' & E2 & ro' & HO' & _).
  exists P, P', s1, s1'. split; [exact E1|]. split; [exact E2|]. now exists ro, ro', c, A.
Qed.
Lemma same_evaluations (HI : int_faithful K) s m es l o s' m' es' n x rs r X x' rs' y ry Y y' ry' :
  finalized s m es l o -> represents s' m' es' n (described m (net es) l o) -> (1 <= length es)%nat -> 0 <= m_acctype m <= 2 -> (1 <= r)%nat ->
  Z.of_nat (last_out (net es)) <= 2 ^ 53 ->
  own s x rs r (first_in (net es)) X -> own s' x' rs' r (first_in (net es)) X ->
  own s y ry r (last_out (net es)) Y -> own s' y' ry' r (last_out (net es)) Y ->
  (exists v, fst (CalculateLoss m x y s) = Ret v /\ fst (CalculateLoss m' x' y' s') = Ret v) /\
  (exists v, fst (CalculateAccuracy m x y s) = Ret v /\ fst (CalculateAccuracy m' x' y' s') = Ret v).
Proof.
  intros (Hc & Hl & _) HR Hn Ha Hr Ho Hx Hx' Hy Hy'. assert (Hnet := represents_net _ _ _ _ _ HR). destruct HR as (Hc' & _ & _ & Hl' & _ & Hacc & Hpr & _).
  cbn [d_layers d_acc d_loss d_prec described] in *. rewrite first_in_stored, last_out_stored in Hc'. rewrite last_out_stored in Hl'.
  assert (Hlen : length es' = length es). { rewrite <- (map_length e_p es'), <- (map_length e_p es). fold (net es') (net es). rewrite Hnet. apply map_length. }
  split.
  - assert (W := wp_CalculateLoss s m es _ _ l x rs y ry r X Y Hc Hn Hl Hx Hy Hr).
    assert (W' := wp_CalculateLoss s' m' es' _ _ l x' rs' y' ry' r X Y Hc' ltac:(lia) Hl' Hx' Hy' Hr). rewrite Hnet, pnet_stored in W'.
    apply wp_ex in W as (v & s1 & E1 & -> & _). apply wp_ex in W' as (v' & s1' & E2 & -> & _). rewrite E1, E2. eexists. split; reflexivity.
  - destruct (accuracy_some (m_acctype m) (m_prec m) r (last_out (net es)) (pnet (net es) r X) Y Ha) as (a & HA).
    assert (W := wp_CalculateAccuracy s m es _ _ x rs y ry r X Y a HI Ho Hc Hn HA Hx Hy Hr).
    assert (W' := wp_CalculateAccuracy s' m' es' _ _ x' rs' y' ry' r X Y a HI Ho Hc' ltac:(lia)). rewrite Hnet, pnet_stored, Hacc, Hpr in W'. specialize (W' HA Hx' Hy' Hr).
    apply wp_ex in W as (v & s1 & E1 & -> & _). apply wp_ex in W' as (v' & s1' & E2 & -> & _). rewrite E1, E2. eexists. split; reflexivity.
Qed.


(** ** Finalized models *)
Lemma finalize_finalized (HI : int_faithful K) (HF : feq (f0 : K) f0 = true) s m es l o acc prec :
  consistent s m es (first_in (net es)) (last_out (net es)) -> Z.of_nat (last_out (net es)) <= 2 ^ 53 -> flt prec f0 = false ->
  returns (Finalize m (MkLoss l (Z.of_nat (last_out (net es)))) o acc prec) s (fun r s' =>
    snd r = None /\ finalized s' (fst r) es l o /\ m_acctype (fst r) = acc /\ m_prec (fst r) = prec).
Proof.
  intros (L1 & L2 & L3 & L4 & L5 & L6) H53 Hp. apply returns_wp. eapply wp_eq; [apply (finalize_match HI HF); [simpl; unfold small_int; lia|simpl; exact L4]|].
  cbn [fst snd m_acctype m_prec ls_kind]. rewrite Hp. split; [reflexivity|]. split; [|split; reflexivity].
  split. { split; [exact L1|]. split; [exact L2|]. split; [exact L3|]. split; [exact L4|]. split; [exact L5|].
    eapply Forall_impl; [|exact L6]. intros e. apply lok_with_opts. }
  cbn. repeat split; auto.
Qed.
Lemma like_sizes es es' : Forall2 (@same_place K) es es' -> first_in (net es') = first_in (net es) /\ map p_out (net es') = map p_out (net es) /\ length es' = length es.
Proof.
  induction 1 as [|e e' es es' (H1 & H2 & H3 & (H4 & H5 & H6 & _)) _ (IH1 & IH2 & IH3)]; [auto|]. unfold net in *. cbn [map first_in length]. rewrite H5, H6, IH2, IH3. auto.
Qed.
Lemma trained_finalized s m es l o s' es' i k : finalized s m es l o -> Forall2 same_place es es' -> consistent s' m es' i k -> finalized s' m es' l o.
Proof.
  intros (Hc & H2) HP Hc'. destruct (like_sizes _ _ HP) as (E1 & E2 & E3). unfold finalized, last_out in *. rewrite E1, E2. split; [|exact H2].
  destruct Hc as (_ & _ & Hi & Ho & _). destruct Hc' as (L1 & L2 & L3 & L4 & L5 & L6).
  assert (i = first_in (net es)) by lia. assert (k = last (map p_out (net es)) 0%nat) by lia. subst i k. now repeat split.
Qed.

(** ** Truncated data *)
Lemma res_app_nil {A} (r : res (A * list byte)) x a : res_app r x = Good (a, []) -> x = [].
Proof. destruct r as [[a' rest]| |]; cbn; try discriminate. intros [= _ H]. now apply app_eq_nil in H. Qed.
Lemma prefix_bad lg bs d n : decode_model B lg bs = Good (d, []) -> (n < length bs)%nat -> lg = true \/ (n < 5)%nat \/ (9 <= n)%nat ->
  decode_model B lg (firstn n bs) = Bad.
Proof.
  intros H Hn Hc. assert (HL : length (firstn n bs) = n) by (rewrite firstn_length; lia).
  destruct (le_lt_dec 5 n) as [H5|H5].
  - assert (HV : (9 <= length (firstn n bs))%nat \/ lg = true) by (rewrite HL; destruct Hc as [Hc|[Hc|Hc]]; [now right|lia|now left]).
    assert (HM := decode_model_mono B lg (firstn n bs) (skipn n bs) HV). rewrite firstn_skipn, H in HM.
    assert (HX : decode_model B lg (firstn n bs) <> Bad -> skipn n bs = []) by (intros X; eapply res_app_nil; symmetry; exact (HM X)).
    destruct (decode_model B lg (firstn n bs)) eqn:E; try reflexivity; exfalso;
      (assert (HY : skipn n bs = []) by (apply HX; discriminate)); apply (f_equal (@length _)) in HY; rewrite skipn_length in HY; cbn [length] in HY; lia.
  - unfold decode_model. rewrite HL. replace (5 <=? n)%nat with false by (symmetry; apply Nat.leb_gt; lia). reflexivity.
Qed.
Lemma layer_prefix_bad bs p n : decode_layer B bs = Some (p, []) -> (n < length bs)%nat -> decode_layer B (firstn n bs) = None.
Proof.
  intros H Hn. destruct (decode_layer B (firstn n bs)) as [[p' r]|] eqn:E; [exfalso|reflexivity].
  apply (decode_layer_mono B _ (skipn n bs)) in E. rewrite firstn_skipn, H in E. injection E as _ E. symmetry in E. apply app_eq_nil in E as [_ E].
  apply (f_equal (@length _)) in E. rewrite skipn_length in E. cbn in E. lia.
Qed.
Lemma decode_saved (HB : bits_ok B) lg s m es l o ord : finalized s m es l o -> storable m (net es) -> Permutation ord (m_optvals m) ->
  forall rest, decode_model B lg (model_bytes B m ord (net es) ++ rest) = Good (PMod (map stored (net es)) l (m_acctype m) (m_prec m) (optimizer_of (o_kind o) ord), rest).
Proof.
  intros Hf Hst HP rest. apply decode_model_enc; [exact HB|eapply finalized_header; eauto|eapply finalized_codable; eauto; apply Hst|eapply finalized_fits; eauto].
Qed.
Lemma truncated_rejected (HI : int_faithful K) (HF : feq (f0 : K) f0 = true) (HB : bits_ok B) s m es l o ord n s2 :
  finalized s m es l o -> storable m (net es) -> Permutation ord (m_optvals m) ->
  (n < length (model_bytes B m ord (net es)))%nat -> h_logger s2 = true \/ (n < 5)%nat \/ (9 <= n)%nat ->
  exists e s2', LoadModel B (firstn n (model_bytes B m ord (net es))) s2 = (Fail e, s2') /\ grows s2 s2'.
Proof.
  intros Hf Hst HP Hn Hc. assert (HD := decode_saved HB (h_logger s2) s m es l o ord Hf Hst HP []). rewrite app_nil_r in HD.
  destruct (load_bad HI HF s2 _ (prefix_bad _ _ _ _ HD Hn Hc)) as (e & s2' & HL & Hg & _). now exists e, s2'.
Qed.
Lemma truncated_layer (HB : bits_ok B) (p : player K) n s2 : codable p -> (n < length (layer_bytes B p))%nat ->
  exists e s2', LoadLayer B (firstn n (layer_bytes B p)) s2 = (Fail e, s2') /\ ext s2 s2'.
Proof.
  intros Hp Hn. apply load_layer_bad. eapply layer_prefix_bad; [|exact Hn]. rewrite <- (app_nil_r (layer_bytes B p)). now apply decode_layer_enc.
Qed.
Lemma short_version n m ord ps : (5 <= n < 9)%nat -> decode_model B false (firstn n (model_bytes B m ord ps)) = Crash.
Proof.
  intros Hn. unfold model_bytes. set (t := enc 1 _ ++ _).
  change (list_byte_of_string "NNML" ++ list_byte_of_string "1.0.3" ++ t) with (list_byte_of_string "NNML1.0.3" ++ t).
  rewrite firstn_app. replace (n - length (list_byte_of_string "NNML1.0.3"))%nat with 0%nat by (rewrite list_byte_length; cbn; lia). cbn [firstn]. rewrite app_nil_r.
  assert (E : n = 5%nat \/ n = 6%nat \/ n = 7%nat \/ n = 8%nat) by lia. destruct E as [->|[->|[->| ->]]]; reflexivity.
Qed.
Lemma truncated_panics (HI : int_faithful K) (HF : feq (f0 : K) f0 = true) m ord ps n s2 : (5 <= n < 9)%nat -> h_logger s2 = false ->
  exists p s2', LoadModel B (firstn n (model_bytes B m ord ps)) s2 = (Panic p, s2').
Proof.
  intros Hn Hl. destruct (load_crash HI HF s2 (firstn n (model_bytes B m ord ps))) as (p & s2' & H & _); [rewrite Hl; now apply short_version|]. now exists p, s2'.
Qed.

(** ** Panics *)
Lemma pairs_crash n : forall buf, decode_pairs B n buf = Crash <->
  exists k kvs rest, (k < n)%nat /\ decode_pairs B k buf = Good (kvs, rest) /\ rest <> [] /\ int8_at 0 rest < 0.
Proof.
  induction n as [|n IH]; intros buf.
  - split; [discriminate|]. intros (k & _ & _ & H & _). lia.
  - cbn [decode_pairs]. destruct buf as [|b0 t].
    + split; [discriminate|]. intros (k & kvs & rest & Hk & HD & Hr & _). destruct k; cbn in HD; [|discriminate]. injection HD as <- <-. congruence.
    + set (buf := b0 :: t). cbv zeta. destruct (int8_at 0 buf <? 0) eqn:E1.
      * split; [|reflexivity]. intros _. exists O, [], buf. split; [lia|]. split; [reflexivity|]. split; [discriminate|]. now apply Z.ltb_lt.
      * apply Z.ltb_ge in E1. destruct (Z.of_nat (length buf) <? 1 + int8_at 0 buf + 8) eqn:E2.
        -- split; [discriminate|]. intros (k & kvs & rest & Hk & HD & Hr & Hneg). destruct k as [|k]; cbn [decode_pairs] in HD.
           ++ injection HD as <- <-. lia.
           ++ fold buf in HD. cbv zeta in HD. replace (int8_at 0 buf <? 0) with false in HD by (symmetry; apply Z.ltb_ge; lia). rewrite E2 in HD. discriminate.
        -- specialize (IH (skipn (1 + Z.to_nat (int8_at 0 buf) + 8) buf)). split.
           ++ destruct (decode_pairs B n (skipn (1 + Z.to_nat (int8_at 0 buf) + 8) buf)) as [[kvs r]| |] eqn:E3; try discriminate. intros _.
              destruct (proj1 IH eq_refl) as (k & kvs & rest & Hk & HD & Hr & Hneg).
              exists (S k), ((string_at 1 (Z.to_nat (int8_at 0 buf)) buf, f64_at B (1 + Z.to_nat (int8_at 0 buf)) buf) :: kvs), rest.
              split; [lia|]. split; [|auto]. cbn [decode_pairs]. fold buf. cbv zeta. replace (int8_at 0 buf <? 0) with false by (symmetry; apply Z.ltb_ge; lia). rewrite E2, HD. reflexivity.
           ++ intros (k & kvs & rest & Hk & HD & Hr & Hneg). destruct k as [|k]; cbn [decode_pairs] in HD.
              ** injection HD as <- <-. lia.
              ** fold buf in HD. cbv zeta in HD. replace (int8_at 0 buf <? 0) with false in HD by (symmetry; apply Z.ltb_ge; lia). rewrite E2 in HD.
                 destruct (decode_pairs B k (skipn (1 + Z.to_nat (int8_at 0 buf) + 8) buf)) as [[kvs' r']| |] eqn:E3; try discriminate. injection HD as <- <-.
                 rewrite (proj2 IH); [reflexivity|]. exists k, kvs', r'. split; [lia|]. auto.
Qed.
Lemma panic_iff (HI : int_faithful K) (HF : feq (f0 : K) f0 = true) s buf :
  (exists p s', LoadModel B buf s = (Panic p, s')) <->
  (5 <= length buf)%nat /\ string_at 0 4 buf = "NNML"%string /\
  ((h_logger s = false /\ string_at 4 5 buf <> VERSION) \/
   ((30 <= length buf)%nat /\ exists k kvs rest, Z.of_nat k < int8_at 29 buf /\ decode_pairs B k (skipn 30 buf) = Good (kvs, rest) /\ rest <> [] /\ int8_at 0 rest < 0)).
Proof.
  assert (HC : (exists p s', LoadModel B buf s = (Panic p, s')) <-> decode_model B (h_logger s) buf = Crash).
  { split; [intros (p & s' & H); eapply load_panic; eauto|]. intros H. destruct (load_crash HI HF s buf H) as (p & s' & HL & _). now exists p, s'. }
  rewrite HC. unfold decode_model. destruct (Nat.leb_spec 5 (length buf)) as [H5|H5]; cbn [andb negb]; [|split; [discriminate|lia]].
  destruct (String.eqb_spec (string_at 0 4 buf) "NNML") as [E1|E1]; cbn [negb]; [|split; [discriminate|tauto]].
  destruct (String.eqb_spec (string_at 4 5 buf) VERSION) as [E2|E2]; cbn [negb andb].
  - assert (HP := pairs_crash (Z.to_nat (int8_at 29 buf)) (skipn 30 buf)). destruct (Nat.ltb_spec (length buf) 30) as [H30|H30].
    { split; [discriminate|]. intros (_ & _ & [[_ H]|[H _]]); [tauto|lia]. }
    destruct (decode_pairs B (Z.to_nat (int8_at 29 buf)) (skipn 30 buf)) as [[kvs r]| |] eqn:E3.
    + split. { destruct (decode_layers _ _ _) as [[? ?]|]; [|discriminate]. destruct (loss_of_code _); [|discriminate]. destruct (opt_of_code _); [|discriminate]. destruct (_ && _); discriminate. }
      intros (_ & _ & [[_ H]|[_ (k & kvs' & rest & Hk & H)]]); [tauto|]. exfalso. assert (X : Good (kvs, r) = Crash) by (apply HP; exists k, kvs', rest; split; [lia|exact H]). discriminate.
    + split; [discriminate|]. intros (_ & _ & [[_ H]|[_ (k & kvs' & rest & Hk & H)]]); [tauto|]. exfalso. assert (X : @Bad (gomap K * list byte) = Crash) by (apply HP; exists k, kvs', rest; split; [lia|exact H]). discriminate.
    + split; [|reflexivity]. intros _. split; [exact H5|]. split; [exact E1|]. right. split; [exact H30|].
      destruct (proj1 HP eq_refl) as (k & kvs' & rest & Hk & H). exists k, kvs', rest. split; [lia|exact H].
  - destruct (h_logger s) eqn:EL; cbn [negb].
    + assert (HP := pairs_crash (Z.to_nat (int8_at 29 buf)) (skipn 30 buf)). destruct (Nat.ltb_spec (length buf) 30) as [H30|H30].
      { split; [discriminate|]. intros (_ & _ & [[H _]|[H _]]); [discriminate|lia]. }
      destruct (decode_pairs B (Z.to_nat (int8_at 29 buf)) (skipn 30 buf)) as [[kvs r]| |] eqn:E3.
      * split. { destruct (decode_layers _ _ _) as [[? ?]|]; [|discriminate]. destruct (loss_of_code _); [|discriminate]. destruct (opt_of_code _); [|discriminate]. destruct (_ && _); discriminate. }
        intros (_ & _ & [[H _]|[_ (k & kvs' & rest & Hk & H)]]); [discriminate|]. exfalso. assert (X : Good (kvs, r) = Crash) by (apply HP; exists k, kvs', rest; split; [lia|exact H]). discriminate.
      * split; [discriminate|]. intros (_ & _ & [[H _]|[_ (k & kvs' & rest & Hk & H)]]); [discriminate|]. exfalso. assert (X : @Bad (gomap K * list byte) = Crash) by (apply HP; exists k, kvs', rest; split; [lia|exact H]). discriminate.
      * split; [|reflexivity]. intros _. split; [exact H5|]. split; [exact E1|]. right. split; [exact H30|].
        destruct (proj1 HP eq_refl) as (k & kvs' & rest & Hk & H). exists k, kvs', rest. split; [lia|exact H].
    + split; [|reflexivity]. intros _. split; [exact H5|]. split; [exact E1|]. left. split; [reflexivity|exact E2].
Qed.
End WithNum.
