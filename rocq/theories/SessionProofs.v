(** * SessionProofs: the whole life of a model. *)
From Coq Require Import String ZArith List Bool Arith Lia Permutation.
From Verif Require Import Num Heap Spec Matrix Activation Misc Accuracy Loss Network Optimizers ModelGo LayerData ModelData PureSpec Repr HeapLemmas LoopLemmas MatrixProofs MatrixFacts LayerProofs LayerFacts LayerGlue MiscProofs OptSpec OptProofs OptFacts ModelSpec ModelProofs EvalProofs FitProofs FitLoop ModelFacts FitFacts CodecSpec CodecSave CodecFacts Session.
Import ListNotations.
Open Scope Z_scope.
Open Scope go_scope.

Section WithNum.
Context {K : Num}.
Implicit Types (s : state K).

Lemma returns_both {A} (p : M K A) s Q1 Q2 : returns p s Q1 -> returns p s Q2 -> returns p s (fun a s' => Q1 a s' /\ Q2 a s').
Proof. intros (a & s' & E & H) (a2 & s2 & E2 & H2). rewrite E in E2. injection E2 as <- <-. exists a, s'. auto. Qed.

(** ** Constructing and adding layers *)
Definition blank (sp : lspec K) : player K :=
  PL (sp_kind sp) (sp_in sp) (sp_out sp) (mk (sp_in sp) (sp_out sp) (fun _ _ => f0)) (mk 1 (sp_out sp) (fun _ _ => f0))
     (match sp_kind sp with Leaky => sp_rate sp | _ => f0 end) (match sp_kind sp with Dropout => sp_rate sp | _ => f0 end).
Lemma new_of_run s sp : spec_ok sp -> returns (new_of sp) s (new_layer s (sp_kind sp) (sp_in sp) (sp_out sp)
  (match sp_kind sp with Leaky => sp_rate sp | _ => f0 end) (match sp_kind sp with Dropout => sp_rate sp | _ => f0 end)).
Proof.
  intros (H1 & H2 & _ & _ & H). destruct (C20_new_layer_proof K s _ _ H1 H2) as (A1 & A2 & A3 & A4 & A5 & A6).
  unfold new_of. destruct (sp_kind sp); auto. apply A6; apply H.
Qed.
Lemma last_out_snoc (ps : list (player K)) p : last_out (ps ++ [p]) = p_out p.
Proof. unfold last_out. rewrite map_app. simpl. apply last_last. Qed.
Lemma first_in_app (ps qs : list (player K)) : ps <> [] -> first_in (ps ++ qs) = first_in ps.
Proof. destruct ps; [congruence|reflexivity]. Qed.
Lemma lown_ext s s' (l : layer K) rw rb p : lown s l rw rb p -> frame nothing s s' -> lown s' l rw rb p.
Proof. intros H HF. eapply lown_frame; eauto. Qed.
Lemma frame_rows s s' : h_rows s' = h_rows s -> h_outs s' = h_outs s -> frame nothing s s'.
Proof. intros H1 H2. destruct s, s'; simpl in *; subst. exact (frame_refl nothing (MkState h_rows h_outs h_layers h_opts h_rng h_logger h_log)). Qed.

Lemma add_all_run : int_faithful K -> forall sps m es s,
  consistent s m es (first_in (net es)) (last_out (net es)) -> unshared es -> Forall (fun e => (e_ref e < length (h_layers s))%nat) es ->
  Forall spec_ok sps -> linked (match es with [] => in_of sps | _ => last_out (net es) end) sps ->
  exists m' es' s', add_all m sps s = (Ret m', s') /\
    consistent s' m' (es ++ es') (first_in (net (es ++ es'))) (last_out (net (es ++ es'))) /\ unshared (es ++ es') /\
    net es' = map blank sps /\ fresh s (prows es') /\ frame nothing s s' /\ rest2 s s' /\ h_rng s' = h_rng s.
Proof.
  intros HI. induction sps as [|sp sps IH]; intros m es s HC HU HR HS HL.
  - exists m, [], s. rewrite app_nil_r. split; [reflexivity|]. split; [exact HC|]. split; [exact HU|]. split; [reflexivity|].
    split; [constructor|]. split; [apply frame_refl|]. split; [split; auto|reflexivity].
  - inversion HS as [|? ? H1 H2]; subst. cbn [add_all].
    destruct (new_of_run s sp H1) as (l & s1 & E1 & N1 & N2 & N3 & N4 & N5 & rw & rb & (O1 & F1 & D1 & _) & (O2 & F2 & D2 & _) & DD & (FR & RS)).
    set (s2 := with_layers s1 (h_layers s1 ++ [l])).
    assert (FR2 : frame nothing s1 s2) by (apply frame_rows; reflexivity).
    assert (EL : h_layers s1 = h_layers s) by apply RS.
    set (e := LE (length (h_layers s1)) rw rb (blank sp)).
    assert (Hn : nth_error (h_layers s2) (e_ref e) = Some l) by (simpl; rewrite nth_error_app2, Nat.sub_diag; [reflexivity|lia]).
    assert (Hlo : lown s2 l rw rb (blank sp)).
    { destruct H1 as (A1 & A2 & _). unfold lown. simpl. repeat (split; [assumption|]). split; (eapply own_frame; [eassumption|exact FR2|intros ? ? []]). }
    assert (HL6 : Forall (lok s2) (es ++ [e])).
    { apply Forall_app. split; [|constructor; [exists l; split; [exact Hn|exact Hlo]|constructor]].
      destruct HC as (_ & _ & _ & _ & _ & HLo). rewrite Forall_forall in *. intros e0 He0. destruct (HLo e0 He0) as (l0 & Hl0 & Hlo0).
      exists l0. split.
      - simpl. rewrite nth_error_app1, EL; [exact Hl0|]. rewrite EL. apply HR. exact He0.
      - eapply lown_ext; [eapply lown_ext; [exact Hlo0|exact FR]|exact FR2]. }
    assert (SL : small_layer l).
    { unfold small_layer, small_int. rewrite N2, N3. destruct H1 as (_ & _ & B1 & B2 & _). split; lia. }
    assert (HF : m_size m = 0 \/ m_out m = l_in l).
    { destruct HC as (_ & C2 & _ & C4 & _). destruct es as [|e0 es0]; [left; exact C2|]. right. rewrite C4, N2. destruct HL as [-> _]. reflexivity. }
    destruct (add_layer_rejects HI s2 m (length (h_layers s1)) l Hn SL) as [_ HA]. destruct (HA HF) as (m' & EA & M1 & M2 & M3 & M4 & _).
    assert (HC2 : consistent s2 m' (es ++ [e]) (first_in (net (es ++ [e]))) (last_out (net (es ++ [e])))).
    { destruct HC as (C1 & C2 & C3 & C4 & C5 & C6). rewrite net_app. cbn [net map e_p e]. rewrite last_out_snoc.
      split; [rewrite M2, C1, map_app; reflexivity|]. split; [rewrite M1, C2, app_length; simpl; lia|].
      split.
      { rewrite M4. destruct es as [|e0 es0]; simpl in C2; rewrite C2; [simpl; exact N2|]. simpl. destruct (Z.eqb_spec (Z.pos (Pos.of_succ_nat (length es0))) 0); [lia|].
        rewrite C3. reflexivity. }
      split; [rewrite M3, N3; reflexivity|]. split; [|exact HL6].
      rewrite net_app. cbn [net map e_p e]. apply chain_snoc. split; [|reflexivity]. destruct es as [|e0 es0]; [reflexivity|].
      rewrite first_in_app by discriminate. destruct HL as [HL _]. simpl p_in. rewrite HL. exact C5. }
    assert (HU2 : unshared (es ++ [e])).
    { destruct HU as [U1 U2]. split.
      - rewrite map_app. apply NoDup_app_; [exact U1|repeat constructor; intros []|]. intros z Hz [<-|[]]. apply in_map_iff in Hz as (e0 & E0 & He0).
        rewrite Forall_forall in HR. specialize (HR e0 He0). simpl in E0. rewrite E0, EL in HR. lia.
      - unfold prows in *. rewrite map_app, concat_app. simpl. rewrite app_nil_r. apply NoDup_app_; [exact U2|apply NoDup_app_; assumption|].
        intros z Hz Hz'. assert (Hz0 := prows_old s es z ltac:(apply HC) Hz).
        apply in_app_iff in Hz' as [Hz'|Hz']; [pose proof (fresh_in _ _ _ F1 Hz')|pose proof (fresh_in _ _ _ F2 Hz')]; lia. }
    destruct (IH m' (es ++ [e]) s2 HC2 HU2) as (m3 & es3 & s3 & E3 & C3 & U3 & T3 & F3 & FR3 & R3 & G3).
    + apply Forall_app. split; [|constructor; [simpl; rewrite app_length; simpl; lia|constructor]].
      eapply Forall_impl; [|exact HR]. intros e0 He0. unfold s2. cbn [h_layers with_layers]. rewrite app_length, EL. cbv beta in He0. lia.
    + exact H2.
    + destruct HL as [_ HL]. rewrite net_app. cbn [net map e_p e]. rewrite last_out_snoc. destruct es; exact HL.
    + exists m3, (e :: es3), s3. split.
      { rewrite (bind_eq _ _ _ _ _ E1). rewrite (bind_eq (alloc_layer l) _ s1 (length (h_layers s1)) s2) by reflexivity.
        assert (EC : check_err (AddLayer m (length (h_layers s1))) s2 = (Ret m', s2)) by (unfold check_err; rewrite (bind_eq _ _ _ _ _ EA); reflexivity).
        rewrite (bind_eq _ _ _ _ _ EC). exact E3. }
      rewrite <- !app_assoc in *. simpl in *. split; [exact C3|]. split; [exact U3|]. split; [f_equal; exact T3|].
      assert (N01 : (nrows s <= nrows s2)%nat).
      { eapply Nat.le_trans; [eapply frame_nrows; exact FR|eapply frame_nrows; exact FR2]. }
      split.
      { unfold fresh in *. rewrite prows_cons. apply Forall_app. split; [apply Forall_app; split; assumption|]. eapply Forall_impl; [|exact F3]. simpl. lia. }
      assert (FR13 : frame nothing s1 s3) by (eapply frame_trans; [exact FR2|exact FR3|tauto]).
      split; [eapply frame_trans; [exact FR|exact FR13|tauto]|].
      destruct RS as (_ & Q2 & Q3 & Q4 & Q5). destruct R3 as (R3a & R3b & R3c). simpl in *. split; [split; [|split]|]; congruence.
Qed.

(** ** Initialising *)
Fixpoint reinit (z : nat -> K) (ps : list (player K)) : list (player K) :=
  match ps with
  | [] => []
  | p :: t => reparam p (pinit (p_in p) (p_out p) z) (p_b p) :: reinit (fun n => z (p_in p * p_out p + n)%nat) t
  end.
Definition weights (ps : list (player K)) : nat := fold_right (fun p n => (p_in p * p_out p + n)%nat) O ps.
Lemma reinit_ext ps : forall z z', (forall n, z n = z' n) -> reinit z ps = reinit z' ps.
Proof.
  induction ps as [|p ps IH]; intros z z' H; [reflexivity|]. simpl. f_equal; [|apply IH; intros n; apply H].
  unfold reparam. f_equal. apply mk_ext. intros i j _ _. rewrite H. reflexivity.
Qed.
Lemma init_loop (m : model K) es2 : forall es1 s, m_layers m = map e_ref (es1 ++ es2) -> Forall (lok s) es2 -> NoDup (prows es2) ->
  wp (loop (length es2) (Z.of_nat (length es1)) (fun i (_ : unit) => lref <- go_nth (m_layers m) i ;; Init lref) tt) s (fun _ s' =>
    exists es2', Forall (lok s') es2' /\ Forall2 same_place es2 es2' /\ net es2' = reinit (normals s) (net es2) /\
      frame (among (prows es2)) s s' /\ rest2 s s' /\ h_layers s' = h_layers s /\ h_rng s' = adv_nrm (h_rng s) (weights (net es2))).
Proof.
  induction es2 as [|e es2 IH]; intros es1 s HL HLo HND.
  - apply wp_ret. exists []. split; [constructor|]. split; [constructor|]. split; [reflexivity|]. split; [apply frame_refl|].
    split; [split; auto|]. split; [reflexivity|]. unfold adv_nrm. simpl. rewrite Nat.add_0_r. destruct (h_rng s); reflexivity.
  - inversion HLo as [|? ? (l & Hl & Hlo) HLo']; subst. rewrite prows_cons in HND.
    apply NoDup_app_inv in HND as (NDe & NDes & Dees). apply NoDup_app_inv in NDe as (NDw & NDb & Dwb).
    cbn [length loop]. apply wp_bind. apply wp_bind. eapply wp_eq.
    { apply go_nth_app' with (l1 := map e_ref es1) (x := e_ref e) (l2 := map e_ref es2); [|now rewrite map_length]. rewrite HL, map_app. reflexivity. }
    eapply wp_conseq; [eapply wp_Init; eauto|]. intros [] s1 (O1 & F1 & R1 & L1 & G1).
    set (e' := LE (e_ref e) (e_rw e) (e_rb e) (reparam (e_p e) (pinit (p_in (e_p e)) (p_out (e_p e)) (normals s)) (p_b (e_p e)))).
    assert (HLo1 : Forall (lok s1) es2).
    { rewrite Forall_forall in *. intros e0 He0. destruct (HLo' e0 He0) as (l0 & Hl0 & Hlo0). exists l0. rewrite L1. split; [exact Hl0|].
      eapply lown_frame; [exact Hlo0|exact F1|]. intros z Hz Hz'. apply (Dees z); [apply in_or_app; left; exact Hz'|].
      unfold prows. apply in_concat. exists (e_rw e0 ++ e_rb e0). split; [apply in_map_iff; eauto|apply in_or_app; exact Hz]. }
    replace (Z.of_nat (length es1) + 1) with (Z.of_nat (length (es1 ++ [e]))) by (rewrite app_length; simpl; lia).
    eapply wp_conseq; [apply (IH (es1 ++ [e]) s1); [rewrite <- app_assoc; exact HL|exact HLo1|exact NDes]|].
    intros [] s2 (es2' & A1 & A2 & A3 & A4 & A5 & A6 & A7).
    exists (e' :: es2'). split; [|split; [|split; [|split; [|split; [|split]]]]].
    + constructor; [|exact A1]. exists l. simpl. rewrite A6, L1. split; [exact Hl|].
      destruct Hlo as (B1 & B2 & B3 & B4 & B5 & B6 & B7 & B8 & B9). unfold lown. simpl. repeat (split; [assumption|]).
      split; (eapply own_frame; [|exact A4|]).
      * exact O1.
      * intros z Hz Hz'. apply (Dees z); [apply in_or_app; auto|exact Hz'].
      * eapply own_frame; [exact B9|exact F1|]. intros z Hz Hz'. exact (Dwb z Hz' Hz).
      * intros z Hz Hz'. apply (Dees z); [apply in_or_app; auto|exact Hz'].
    + constructor; [|exact A2]. unfold same_place, like, e'. simpl. auto 10.
    + simpl. f_equal. rewrite A3. apply reinit_ext. intros n. unfold normals. rewrite G1. unfold adv_nrm. simpl. f_equal. lia.
    + rewrite prows_cons. eapply frame_trans; [exact F1|exact A4|]. intros z _ Hz. unfold among in *. rewrite !in_app_iff in *. tauto.
    + destruct R1 as (? & ? & ?), A5 as (? & ? & ?). split; [|split]; congruence.
    + congruence.
    + rewrite A7, G1. unfold adv_nrm. simpl. f_equal. lia.
Qed.

Lemma reinit_blank sps : forall z, reinit z (map blank sps) = start_net (K := K) z sps.
Proof. induction sps as [|sp sps IH]; intros z; [reflexivity|]. cbn [map reinit start_net]. f_equal. apply IH. Qed.
Lemma new_opts_po n (o : optimizer K) es sps : map (fun p => (p_in p, p_out p)) (net es) = map (fun sp => (sp_in sp, sp_out sp)) sps ->
  map x_po (new_opts n o es) = map (start_opt o) sps.
Proof.
  unfold new_opts. revert n sps. induction es as [|e es IH]; intros n [|sp sps] H; try discriminate; [reflexivity|].
  injection H as H1 H2 H3. cbn [length seq combine map]. f_equal; [|apply IH; exact H3].
  unfold start_opt. cbn [x_po fst snd]. rewrite H1, H2. reflexivity.
Qed.
Lemma start_sizes sps : forall z, map (fun p => (p_in p, p_out p)) (start_net (K := K) z sps) = map (fun sp => (sp_in sp, sp_out sp)) sps.
Proof. induction sps as [|sp sps IH]; intros z; [reflexivity|]. simpl. f_equal. apply IH. Qed.
Lemma start_last sps z : last_out (start_net (K := K) z sps) = out_of sps.
Proof.
  unfold last_out, out_of. f_equal. pose proof (f_equal (map snd) (start_sizes sps z)) as H. rewrite !map_map in H. exact H.
Qed.
Lemma start_first sps z : first_in (start_net (K := K) z sps) = in_of sps.
Proof. destruct sps; reflexivity. Qed.
Lemma start_kinds sps : forall z, Forall spec_ok sps -> Forall (fun p => p_kind p <> SigmoidK) (start_net (K := K) z sps).
Proof.
  induction sps as [|sp sps IH]; intros z H; [constructor|]. inversion H as [|? ? H1 H2]; subst. constructor; [|apply IH; exact H2].
  destruct H1 as (_ & _ & _ & _ & H1). simpl. destruct (sp_kind sp); try discriminate. contradiction.
Qed.
Lemma out_small sps : sps <> [] -> Forall (spec_ok (K := K)) sps -> (1 <= out_of sps)%nat /\ Z.of_nat (out_of sps) < 2 ^ 31.
Proof.
  intros HN H. unfold out_of. induction sps as [|sp sps IH]; [congruence|]. inversion H as [|? ? H1 H2]; subst.
  destruct sps as [|sp2 sps]; [|apply IH; [discriminate|exact H2]]. destruct H1 as (_ & A & _ & B & _). simpl. auto.
Qed.
Lemma net_length (es : list (lent K)) : length (net es) = length es.
Proof. apply map_length. Qed.
Lemma fresh_frame s s1 s2 rs : frame nothing s s1 -> fresh s rs -> frame (among rs) s1 s2 -> frame nothing s s2.
Proof. intros H HF H2. eapply frame_trans; [exact H|exact H2|]. intros r Hr [[]|Hx]. pose proof (fresh_in _ _ _ HF Hx). lia. Qed.
Lemma fresh_disjoint s m rs r c A rs' : own s m rs r c A -> fresh s rs' -> disjoint rs rs'.
Proof. intros HO HF x Hx Hx'. pose proof (own_old_in _ _ _ _ _ _ _ HO Hx). pose proof (fresh_in _ _ _ HF Hx'). lia. Qed.

(** ** Building and training *)
Definition built (m : model K) s s' es : Prop :=
  consistent s' m es (first_in (net es)) (last_out (net es)) /\ unshared es /\ fresh s (prows es) /\ frame nothing s s' /\ rest2 s s'.
Lemma build_run sps s : int_faithful K -> Forall spec_ok sps -> linked (in_of sps) sps ->
  returns (m <- add_all NewModel sps ;; InitLayers m ;; ret m) s (fun m s' => exists es, built m s s' es /\
    net es = start_net (normals s) sps /\ h_rng s' = adv_nrm (h_rng s) (weights (net es))).
Proof.
  intros HI HS HL. destruct (add_all_run HI sps NewModel [] s) as (m & es & s1 & E1 & HC & HU & HN & HF & FR & RS & G); auto.
  - unfold consistent. simpl. repeat split; constructor.
  - split; constructor.
  - simpl in *. assert (HI2 : wp (InitLayers m) s1 (fun _ s2 => exists es2, Forall (lok s2) es2 /\ Forall2 same_place es es2 /\ net es2 = reinit (normals s1) (net es) /\
      frame (among (prows es)) s1 s2 /\ rest2 s1 s2 /\ h_layers s2 = h_layers s1 /\ h_rng s2 = adv_nrm (h_rng s1) (weights (net es)))).
    { unfold InitLayers, for_, for_acc. destruct HC as (C1 & C2 & _ & _ & _ & C6). rewrite C2, Nat2Z.id. apply (init_loop m es [] s1); [exact C1|exact C6|apply HU]. }
    apply wp_ex in HI2 as ([] & s2 & E2 & es2 & A1 & A2 & A3 & A4 & A5 & A6 & A7).
    destruct (same_place_maps _ _ A2) as (P1 & P2 & P3). destruct (like_sizes _ _ A2) as (Q1 & Q2 & Q3).
    exists m, s2. split; [rewrite (bind_eq _ _ _ _ _ E1), (bind_eq _ _ _ _ _ E2); reflexivity|].
    exists es2. unfold built. unfold last_out in *. rewrite Q1, Q2. split; [|split].
    + split; [|split; [|split; [|split]]].
      * destruct HC as (C1 & C2 & C3 & C4 & C5 & C6). unfold consistent. rewrite P1, P3. repeat (split; [assumption|]). split; [|exact A1].
        eapply same_place_chain; eauto.
      * unfold unshared. rewrite P1, P2. exact HU.
      * rewrite P2. exact HF.
      * eapply fresh_frame; eauto.
      * destruct RS as (? & ? & ?), A5 as (? & ? & ?). split; [|split]; congruence.
    + rewrite A3, HN, reinit_blank. f_equal. unfold normals. rewrite G. reflexivity.
    + rewrite A7, G. f_equal. rewrite A3. clear. generalize (normals s1). induction (net es) as [|p ps IH]; intros z; [reflexivity|]. simpl. f_equal. apply IH.
Qed.

Lemma map_fst_combine {A C} (l : list A) : forall (l' : list C), length l' = length l -> map fst (combine l l') = l.
Proof. induction l as [|a l IH]; intros [|c l'] H; try discriminate; [reflexivity|]. simpl. f_equal. apply IH. simpl in H. lia. Qed.
Lemma prepare_run sps k (opt : optimizer K) acctype prec s x rsx y rsy n X Y epochs bs :
  int_faithful K -> min_faithful K -> feq (f0 : K) f0 = true ->
  sps <> [] -> Forall spec_ok sps -> linked (in_of sps) sps -> flt prec f0 = false ->
  own s x rsx n (in_of sps) X -> own s y rsy n (out_of sps) Y -> (1 <= n)%nat -> 0 <= bs -> Z.of_nat n + bs <= 2 ^ 52 ->
  returns (prepare sps k opt acctype prec x y epochs bs) s (fun m s' => exists es xs,
    trainable s' m es xs (in_of sps) (out_of sps) k /\ finalized s' m es k opt /\ m_acctype m = acctype /\ m_prec m = prec /\
    net es = final_net sps k opt (normals s) (r_uni (h_rng s)) (r_upos (h_rng s)) X Y epochs bs /\
    Forall2 like (start_net (normals s) sps) (net es) /\ frame nothing s s' /\ h_log s' = h_log s).
Proof.
  intros HI HM HF HN HS HL HP HX HY Hn Hb Hnb.
  destruct (build_run sps s HI HS HL) as (m1 & s1 & E1 & es & (HC & HU & HFr & FR1 & RS1) & HNet & G1).
  assert (EF : first_in (net es) = in_of sps) by (rewrite HNet; apply start_first).
  assert (EO : last_out (net es) = out_of sps) by (rewrite HNet; apply start_last).
  destruct (out_small sps HN HS) as [HO1 HO2].
  assert (HLen : (1 <= length es)%nat).
  { rewrite <- net_length, HNet. destruct sps; [congruence|simpl; lia]. }
  assert (H53 : Z.of_nat (last_out (net es)) <= 2 ^ 53) by (rewrite EO; lia).
  assert (HK : Forall (fun e => p_kind (e_p e) <> SigmoidK) es).
  { apply (proj1 (Forall_map e_p (fun p => p_kind p <> SigmoidK) es)). change (map e_p es) with (net es). rewrite HNet. apply start_kinds. exact HS. }
  destruct (returns_both _ _ _ _ (finalize_trainable HI HF s1 m1 es _ _ k opt acctype prec HC HU HLen H53 HK HP)
    (finalize_finalized HI HF s1 m1 es k opt acctype prec HC H53 HP)) as ([m2 er] & s2 & E2 & (R1 & R2 & R3 & HT & HE & HR & _) & (_ & HFin & _)).
  simpl in R1, R2, R3, HT, HFin. subst er. rewrite EF, EO in HT.
  assert (FR2 : frame nothing s1 s2) by (destruct HE as [HE _]; eapply frame_trans; [exact HE|apply (frame_rows _ s2); reflexivity|tauto]).
  assert (FR02 : frame nothing s s2) by (eapply frame_trans; [exact FR1|exact FR2|tauto]).
  assert (G2 : h_rng s2 = h_rng s1) by apply HE.
  assert (HD : data_ok s2 es x rsx y rsy n (in_of sps) (out_of sps) X Y).
  { split; [eapply own_frame; [exact HX|exact FR02|intros ? ? []]|]. split; [eapply own_frame; [exact HY|exact FR02|intros ? ? []]|].
    split; eapply fresh_disjoint; eauto. }
  destruct (fit_trains s2 m2 es _ _ _ k x rsx y rsy n X Y epochs bs matrix0 matrix0 HM Hb Hnb Hn HT HD) as ([] & s3 & E3 & nn & _ & (es' & xs' & HT' & SP & _ & ET & EE) & _).
  exists m2, s3. split.
  { unfold prepare. unfold InitLayers in E1 |- *. destruct (add_all NewModel sps s) as [[ma|?|?] sa] eqn:Ea; unfold bind at 1 in E1; rewrite Ea in E1; try discriminate.
    rewrite (bind_eq _ _ _ _ _ Ea). fold (InitLayers ma) in *. unfold bind at 1 in E1. destruct (InitLayers ma sa) as [[[]|?|?] sb] eqn:Eb; try discriminate.
    injection E1 as <- <-. rewrite (bind_eq _ _ _ _ _ Eb).
    rewrite (bind_eq (NewLoss k (Z.of_nat (out_of sps))) _ sb (MkLoss k (Z.of_nat (out_of sps))) sb) by (unfold NewLoss; destruct (Z.ltb_spec (Z.of_nat (out_of sps)) 1); [lia|reflexivity]).
    rewrite <- EO. rewrite (bind_eq (check_err _) _ sb m2 s2) by (unfold check_err; rewrite (bind_eq _ _ _ _ _ E2); reflexivity).
    rewrite (bind_eq _ _ _ _ _ E3). reflexivity. }
  exists es', xs'. split; [exact HT'|]. split; [eapply trained_finalized; [exact HFin|exact SP|apply HT']|]. split; [exact R2|]. split; [exact R3|].
  assert (EX : map x_po (new_opts (length (h_opts s1)) opt es) = map (start_opt opt) sps) by (apply new_opts_po; rewrite HNet; apply start_sizes).
  split; [|split; [|split]].
  - unfold final_net. unfold trainer in ET. rewrite EX, HNet in ET.
    assert (EU : r_uni (h_rng s2) = r_uni (h_rng s) /\ r_upos (h_rng s2) = r_upos (h_rng s)) by (rewrite G2, G1; auto). destruct EU as [EU1 EU2].
    rewrite EU1, EU2 in ET. destruct (own_lengths _ _ _ _ _ _ HX) as [_ ELX]. rewrite ELX, <- ET. rewrite map_fst_combine; [reflexivity|].
    rewrite map_length, net_length. destruct HT' as (_ & _ & _ & _ & _ & H & _). apply Forall2_length in H. lia.
  - rewrite <- HNet. clear -SP. unfold net. induction SP as [|e e' ? ? H]; [constructor|]. simpl. constructor; [apply H|assumption].
  - eapply fresh_frame; [exact FR02| |apply EE]. exact HFr.
  - destruct EE as (_ & _ & _ & _ & _ & EE). rewrite EE, app_nil_r. destruct HE as (_ & _ & _ & _ & _ & HE). simpl in HE. rewrite HE. apply RS1.
Qed.

Lemma like_storable (sps : list (lspec K)) z : Forall spec_ok sps -> forall ps, Forall2 like (start_net z sps) ps -> Forall small_player ps.
Proof.
  revert z. induction sps as [|sp sps IH]; intros z HS ps H; inversion H as [|? p ? ps' HL HR]; subst; [constructor|]. inversion HS as [|? ? H1 H2]; subst.
  constructor; [|eapply IH; eauto]. destruct HL as (_ & A & B & _). destruct H1 as (_ & _ & C & D & _). unfold small_player. rewrite A, B. auto.
Qed.
Lemma session_run (B : FBits K) sps k (opt : optimizer K) acctype prec s x rsx y rsy z rsz n r X Y Zs epochs bs ord :
  int_faithful K -> min_faithful K -> feq (f0 : K) f0 = true -> bits_ok B ->
  sps <> [] -> (length sps <= 127)%nat -> Forall spec_ok sps -> linked (in_of sps) sps -> flt prec f0 = false -> 0 <= acctype <= 2 ->
  own s x rsx n (in_of sps) X -> own s y rsy n (out_of sps) Y -> (1 <= n)%nat -> 0 <= bs -> Z.of_nat n + bs <= 2 ^ 52 ->
  own s z rsz r (in_of sps) Zs -> (1 <= r)%nat -> Permutation ord (opt_values opt) ->
  returns (session B sps k opt acctype prec x y epochs bs z ord) s (fun PP s' => exists c A rs1 rs2,
    ppredict acctype r (out_of sps) (pnet (final_net sps k opt (normals s) (r_uni (h_rng s)) (r_upos (h_rng s)) X Y epochs bs) r Zs) = Some (c, A) /\
    own s' (fst PP) rs1 r c A /\ own s' (snd PP) rs2 r c A /\ disjoint rs1 rs2 /\
    own s' x rsx n (in_of sps) X /\ own s' y rsy n (out_of sps) Y /\ own s' z rsz r (in_of sps) Zs /\ h_log s' = h_log s).
Proof.
  intros HI HM HF HB HN HL7 HS HL HP HA HX HY Hn Hb Hnb HZ Hr HO.
  destruct (prepare_run sps k opt acctype prec s x rsx y rsy n X Y epochs bs HI HM HF HN HS HL HP HX HY Hn Hb Hnb)
    as (m & s1 & E1 & es & xs & HT & HFin & MA & MP & HNet & HLk & FR1 & LG1).
  set (N := final_net _ _ _ _ _ _ _ _ _ _) in *.
  assert (HPr : exists c A, ppredict acctype r (out_of sps) (pnet N r Zs) = Some (c, A)).
  { unfold ppredict. assert (acctype = 0 \/ acctype = 1 \/ acctype = 2) as [-> | [-> | ->]] by lia; simpl; eauto. }
  destruct HPr as (c & A & HPr).
  assert (HZ1 : own s1 z rsz r (in_of sps) Zs) by (eapply own_frame; [exact HZ|exact FR1|intros ? ? []]).
  assert (W1 : wp (Predict m z) s1 (fun out s' => exists rs, own s' out rs r c A /\ fresh s1 rs /\ NoDup rs /\ forward_effect (map e_ref es) 0 s1 s')).
  { eapply wp_Predict; [apply HT|apply HT| |exact HZ1|exact Hr]. rewrite MA, HNet. exact HPr. }
  apply wp_ex in W1 as (P1 & s2 & E2 & rs1 & OP1 & F1 & ND1 & FE1).
  assert (FR2 : frame nothing s1 s2) by apply FE1.
  assert (HFin2 : finalized s2 m es k opt).
  { destruct HFin as (HC & HR). split; [|exact HR]. eapply consistent_effect; eauto. }
  assert (HSt : storable m (net es)).
  { split; [|split].
    - apply Forall2_length in HLk. rewrite <- HLk. rewrite <- (map_length (fun p => (p_in p, p_out p))), start_sizes, map_length. exact HL7.
    - eapply like_storable; eauto.
    - rewrite MA. lia. }
  assert (HPm : Permutation ord (m_optvals m)) by (destruct HFin as (_ & _ & _ & _ & -> & _); exact HO).
  destruct (model_round_trip B HI HF HB s2 m es k opt ord [] s2 HFin2 HSt HPm) as (E3 & m' & es' & s3 & E4 & HRep & _ & FP & GR & LG3).
  rewrite app_nil_r in E4. assert (FR3 : frame nothing s2 s3) by apply GR.
  assert (FR03 : frame nothing s s3) by (eapply frame_trans; [exact FR1|eapply (frame_trans nothing nothing nothing); [exact FR2|exact FR3|tauto]|tauto]).
  assert (HZ3 : own s3 z rsz r (in_of sps) Zs) by (eapply own_frame; [exact HZ|exact FR03|intros ? ? []]).
  assert (HSz : forall ps, first_in (map stored ps) = first_in ps /\ last_out (map stored ps) = last_out (K := K) ps).
  { intros ps. split; [destruct ps; reflexivity|]. unfold last_out. rewrite map_map. reflexivity. }
  assert (EF : first_in (net es) = in_of sps /\ last_out (net es) = out_of sps).
  { destruct HT as (HC & _). destruct HFin as (HC' & _). destruct HC as (_ & _ & C1 & C2 & _), HC' as (_ & _ & C3 & C4 & _). split; lia. }
  destruct HRep as (RC & RN & RU & _ & _ & RA & _ & _). simpl in RC, RN, RA. destruct (HSz (net es)) as [HS1 HS2]. rewrite HS1, HS2 in RC. destruct EF as [EF1 EF2]. rewrite EF1, EF2 in RC.
  assert (W2 : wp (Predict m' z) s3 (fun out s' => exists rs, own s' out rs r c A /\ fresh s3 rs /\ NoDup rs /\ forward_effect (map e_ref es') 0 s3 s')).
  { eapply wp_Predict; [exact RC| | |exact HZ3|exact Hr].
    - apply (f_equal (@length _)) in RN. rewrite map_length, !net_length in RN. rewrite RN. apply HT.
    - rewrite RA, MA, RN, pnet_stored, HNet. exact HPr. }
  apply wp_ex in W2 as (P2 & s4 & E5 & rs2 & OP2 & F2 & ND2 & FE2).
  assert (FR4 : frame nothing s3 s4) by apply FE2.
  assert (OP3 : own s3 P1 rs1 r c A) by (eapply own_frame; [exact OP1|exact FR3|intros ? ? []]).
  assert (FR04 : frame nothing s s4) by (eapply frame_trans; [exact FR03|exact FR4|tauto]).
  exists (P1, P2), s4. split.
  { unfold session. rewrite (bind_eq _ _ _ _ _ E1), (bind_eq _ _ _ _ _ E2), (bind_eq _ _ _ _ _ E3), (bind_eq _ _ _ _ _ E4). simpl fst. rewrite (bind_eq _ _ _ _ _ E5). reflexivity. }
  exists c, A, rs1, rs2. split; [exact HPr|]. simpl.
  split; [eapply own_frame; [exact OP3|exact FR4|intros ? ? []]|]. split; [exact OP2|]. split; [eapply fresh_disjoint; [exact OP3|exact F2]|].
  split; [eapply own_frame; [exact HX|exact FR04|intros ? ? []]|]. split; [eapply own_frame; [exact HY|exact FR04|intros ? ? []]|].
  split; [eapply own_frame; [exact HZ|exact FR04|intros ? ? []]|].
  destruct FE2 as (_ & (_ & _ & L4) & _), FE1 as (_ & (_ & _ & L2) & _). congruence.
Qed.
End WithNum.
