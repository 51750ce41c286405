(** * ExamplesSine: the training loop of the sine example does what Fit does. *)
From Coq Require Import String ZArith List Bool Arith Lia Permutation.
From Verif Require Import Num LayerData Heap Spec Matrix Activation Misc Accuracy Network Loss Optimizers ModelGo ModelData
  PureSpec Repr HeapLemmas LoopLemmas MatrixProofs MatrixFacts LayerProofs LayerFacts LayerGlue LossProofs OptSpec OptProofs OptFacts ModelSpec ModelProofs ModelFacts FitProofs FitLoop
  CodecSpec Session SessionProofs Tests TestProofs TestModels HandSpec TestLoop TestOpt Built ExamplesGo ExamplesSpec ExamplesData.
Import ListNotations.
Open Scope Z_scope.
Open Scope go_scope.

Section AnyNum.
Context {K : Num}.
Implicit Types s : state K.

(** ** One batch *)
Lemma sine_bwd (m : model K) l1 l2 l3 x o1 o2 o3 y j k s (Q : bool -> state K -> Prop) :
  m_layers m = [l1; l2; l3] -> m_size m = 3 -> m_loss m = Some j -> m_losstype m = 0 ->
  wp (Backward m [x; o1; o2; o3] y) s (fun gs s' => forall g3 g2 g1, gs = [MkGrad (g_w g3) (g_b g3); MkGrad (g_w g2) (g_b g2); MkGrad (g_w g1) (g_b g1)] -> wp (k g3 g2 g1) s' Q) ->
  wp (must (Loss_Backward j o3 y) (fun dv => must (Layer_Backward l3 o2 dv) (fun g3 => must (Layer_Backward l2 o1 (g_x g3)) (fun g2 => must (Layer_Backward l1 x (g_x g2)) (fun g1 => k g3 g2 g1))))) s Q.
Proof.
  intros HL HS HJ HT. unfold Backward. rewrite HL, HS, HJ, HT. change (0 =? 2) with false. change (3 - 1) with 2. change (Z.to_nat 3) with 3%nat.
  unfold must, wp, catch, is_softmax, bind, get_layer, ret. change (go_nth (K := K) [l1; l2; l3] 2 s) with (Ret l3, s). cbn iota beta.
  destruct (nth_error (h_layers s) l3) as [c|] eqn:Ec; [|tauto]. rewrite andb_false_r. cbn iota beta.
  change (go_nth (K := K) [x; o1; o2; o3] 3 s) with (Ret o3, s). cbn iota beta.
  destruct (Loss_Backward j o3 y s) as [[dv|?|?] s0]; try tauto. cbn iota beta.
  cbn [backward_loop]. rewrite HL, HS, HT. change (0 =? 2) with false. change (Z.of_nat 2) with 2. change (Z.of_nat 1) with 1. change (Z.of_nat 0) with 0.
  unfold is_softmax, bind, get_layer, ret. change (go_nth (K := K) [l1; l2; l3] 2 s0) with (Ret l3, s0). cbn iota beta.
  destruct (nth_error (h_layers s0) l3) as [c'|]; [|tauto]. rewrite andb_false_r. cbn [andb]. cbn iota beta. change (go_nth (K := K) [x; o1; o2; o3] 2 s0) with (Ret o2, s0). cbn iota beta.
  destruct (Layer_Backward l3 o2 dv s0) as [[g3|?|?] s1]; try tauto. cbn iota beta.
  change (go_nth (K := K) [l1; l2; l3] 1 s1) with (Ret l2, s1). cbn iota beta.
  destruct (nth_error (h_layers s1) l2) as [a|]; [|tauto]. rewrite andb_false_r. cbn [andb]. cbn iota beta. change (go_nth (K := K) [x; o1; o2; o3] 1 s1) with (Ret o1, s1). cbn iota beta.
  destruct (Layer_Backward l2 o1 (g_x g3) s1) as [[g2|?|?] s2]; try tauto. cbn iota beta.
  change (go_nth (K := K) [l1; l2; l3] 0 s2) with (Ret l1, s2). cbn iota beta.
  destruct (nth_error (h_layers s2) l1) as [b|]; [|tauto]. rewrite andb_false_r. cbn [andb]. cbn iota beta. change (go_nth (K := K) [x; o1; o2; o3] 0 s2) with (Ret x, s2). cbn iota beta.
  destruct (Layer_Backward l1 x (g_x g2) s2) as [[g1|?|?] s3]; try tauto. cbn iota beta. cbn [app]. intros H. apply (H g3 g2 g1). reflexivity.
Qed.
Lemma sine_upd (m : model K) l1 l2 l3 o1 o2 o3 g1 g2 g3 k s (Q : bool -> state K -> Prop) :
  m_layers m = [l3; l2; l1] -> m_opts m = [o3; o2; o1] -> m_size m = 3 ->
  wp (loop 3 0 (fun i (_ : unit) => upd_body m [g1; g2; g3] i) tt) s (fun _ s' => wp k s' Q) ->
  wp (ignore_err tt (upd_one l3 o3 g3) ;; ignore_err tt (upd_one l2 o2 g2) ;; ignore_err tt (upd_one l1 o1 g1) ;; k) s Q.
Proof.
  intros HL HO HS. cbn [loop]. unfold upd_body, upd_one. rewrite HL, HO, HS.
  change (0 + 1) with 1. change (1 + 1) with 2. unfold or_log, ignore_err, wp, catch, bind, get_layer, ret.
  change (go_nth (K := K) [l3; l2; l1] 0 s) with (Ret l3, s). cbn iota beta.
  destruct (nth_error (h_layers s) l3) as [a|]; [|tauto].
  change (go_nth (K := K) [o3; o2; o1] 0 s) with (Ret o3, s). cbn iota beta. change (go_nth (K := K) [g1; g2; g3] (3 - 0 - 1) s) with (Ret g3, s). cbn iota beta.
  destruct (Opt_Update o3 (l_w a) (l_b a) (g_dw g3) (g_db g3) s) as [[u3|?|?] s1]; cbn iota beta; try (unfold log_print, fail; destruct (h_logger _); tauto); try tauto.
  change (go_nth (K := K) [l3; l2; l1] 1 s1) with (Ret l2, s1). cbn iota beta.
  destruct (nth_error (h_layers s1) l2) as [b|]; [|tauto].
  change (go_nth (K := K) [o3; o2; o1] 1 s1) with (Ret o2, s1). cbn iota beta. change (go_nth (K := K) [g1; g2; g3] (3 - 1 - 1) s1) with (Ret g2, s1). cbn iota beta.
  destruct (Opt_Update o2 (l_w b) (l_b b) (g_dw g2) (g_db g2) s1) as [[u2|?|?] s2]; cbn iota beta; try (unfold log_print, fail; destruct (h_logger _); tauto); try tauto.
  change (go_nth (K := K) [l3; l2; l1] 2 s2) with (Ret l1, s2). cbn iota beta.
  destruct (nth_error (h_layers s2) l1) as [c|]; [|tauto].
  change (go_nth (K := K) [o3; o2; o1] 2 s2) with (Ret o1, s2). cbn iota beta. change (go_nth (K := K) [g1; g2; g3] (3 - 2 - 1) s2) with (Ret g1, s2). cbn iota beta.
  destruct (Opt_Update o1 (l_w c) (l_b c) (g_dw g1) (g_db g1) s2) as [[u1|?|?] s3]; cbn iota beta; try (unfold log_print, fail; destruct (h_logger _); tauto); try tauto.
Qed.
Lemma wp_sine_check s a ra b rb r c (A B : pm K) n (epoch : Z) : own s a ra r c A -> own s b rb r c B -> (n <= r)%nat -> (1 <= c)%nat ->
  (if Z.rem epoch 100 =? 0 then for_ (Z.of_nat n) (fun n => getc a n 0 ;; getc b n 0 ;; ret tt) else ret tt) s = (Ret tt, s).
Proof.
  intros HA HB Hn Hc. destruct (Z.rem epoch 100 =? 0); [|reflexivity].
  assert (W : wp (for_ (Z.of_nat n) (fun n => getc a n 0 ;; getc b n 0 ;; ret tt)) s (fun _ s' => s' = s)).
  { eapply (wp_for n _ _ (fun _ st => st = s)); [reflexivity| |auto]. intros i st Hi ->. change 0 with (Z.of_nat 0).
    apply wp_bind. eapply wp_eq; [eapply getc_own; [exact HA|lia|lia]|]. apply wp_bind. eapply wp_eq; [eapply getc_own; [exact HB|lia|lia]|]. now apply wp_ret. }
  apply wp_ex in W as ([] & s' & E & ->). exact E.
Qed.

Lemma wp_sine_batch s m e1 e2 e3 x1 x2 x3 i o x rsx y rsy n X Y lo b checked epoch :
  let es := [e1; e2; e3] in let xs := [x1; x2; x3] in
  trainable s m es xs i o MSE -> data_ok s es x rsx y rsy n i o X Y -> (1 <= b)%nat -> (lo + b <= n)%nat -> (checked <= b)%nat ->
  wp (sine_batch (e_ref e1) (e_ref e2) (e_ref e3) (x_ref x1) (x_ref x2) (x_ref x3) (MkLoss MSE (Z.of_nat o)) x y (Z.of_nat b) (Z.of_nat checked) epoch (Z.of_nat lo)) s
    (fun ok s' => ok = true /\ train_result s s' m es xs i o MSE (pbatch MSE o (trainer es xs) (sub lo b X) (sub lo b Y) (r_uni (h_rng s)) (r_upos (h_rng s)))
      (net_draws true (net es) b) []).
Proof.
  intros es xs HT (HX & HY & DX & DY) Hb Hlo Hch. pose proof HT as (HC & (NR & NP) & Hlen & HXr & NX & HOO & HDO & HLs & HLt & HK).
  pose proof HC as (L1 & L2 & L3 & L4 & L5 & L6).
  destruct (trainable_sizes _ _ _ _ _ _ _ HT) as [Pi Po].
  destruct (batch_own _ _ _ _ _ _ lo b HX Hlo Hb Pi) as (sx & R1 & N1 & HBX).
  destruct (batch_own _ _ _ _ _ _ lo b HY Hlo Hb Po) as (sy & R2 & N2 & HBY).
  unfold sine_batch. replace (Z.of_nat lo + Z.of_nat b) with (Z.of_nat (lo + b)) by lia.
  apply wp_bind. eapply wp_eq; [exact R1|]. apply wp_bind. eapply wp_eq; [exact N1|].
  apply wp_bind. eapply wp_eq; [exact R2|]. apply wp_bind. eapply wp_eq; [exact N2|].
  set (bx := MkMatrix _ _ sx) in *. set (by_ := MkMatrix _ _ sy) in *. set (XB := sub lo b X) in *. set (YB := sub lo b Y) in *.
  set (rbx := sub lo b rsx) in *. set (rby := sub lo b rsy) in *.
  apply hand_fwd. eapply wp_conseq; [apply (wp_fwd true es s [bx] bx rbx b XB i o); auto|]. cbv beta.
  intros acc s1 (outs & rss & EA & HR & HF & HND & HOld & HE) out1 out2 out3 EA'. rewrite EA in EA'. injection EA' as ->. clear acc EA.
  set (U := r_uni (h_rng s)) in *. set (q := r_upos (h_rng s)) in *.
  assert (HE' := HE). destruct HE' as (HF01 & (R1' & R2' & R3') & HKl & HG).
  assert (HLo1 : Forall (lok s1) es) by (eapply Forall_impl; [|exact L6]; intros e He; eapply lok_kept; eauto).
  assert (OldX : forall w, In w rbx -> (w <= nrows s)%nat) by (intros w Hw; exact (own_old_in _ _ _ _ _ _ _ HBX Hw)).
  assert (OldY : forall w, In w rby -> (w <= nrows s)%nat) by (intros w Hw; exact (own_old_in _ _ _ _ _ _ _ HBY Hw)).
  assert (OldP : forall w, In w (prows es) -> (w <= nrows s)%nat) by (intros w Hw; eapply prows_old; eauto).
  assert (HBX1 : own s1 bx rbx b i XB) by (eapply own_frame; [exact HBX|exact HF01|intros ? _ []]).
  assert (HBY1 : own s1 by_ rby b o YB) by (eapply own_frame; [exact HBY|exact HF01|intros ? _ []]).
  assert (HO3 : exists rs O3, own s1 out3 rs b o O3).
  { change es with ([e1; e2] ++ [e3]) in HR. destruct (fwd_rep_snoc _ _ _ _ _ _ _ _ _ _ HR) as (outs0 & out & rss0 & rs & rsm & EO & -> & _ & HRe).
    assert (out = out3) as -> by (change [out1; out2; out3] with ([out1; out2] ++ [out3]) in EO; apply app_inj_tail in EO as [_ <-]; reflexivity).
    destruct HRe as (HO3 & _). assert (Eo : p_out (e_p e3) = o) by (destruct L5 as (_ & _ & _ & E); exact E). rewrite Eo in HO3. eauto. }
  destruct HO3 as (ro & O3 & HO3).
  apply wp_must. eapply wp_conseq; [apply (wp_MSE_Forward s1 out3 by_ ro rby b o O3 YB HO3 HBY1 Hb Po)|]. cbv beta.
  intros v s2 (_ & HE12). clear v. pose proof HE12 as [HF12 HR12].
  apply wp_bind. eapply wp_eq; [eapply (wp_sine_check s2 out3 ro by_ rby b o O3 YB checked epoch); [exact (own_ext _ _ _ _ _ _ _ HO3 HE12)|exact (own_ext _ _ _ _ _ _ _ HBY1 HE12)|exact Hch|exact Po]|].
  assert (HR2 : fwd_rep s2 true es b XB U q [out1; out2; out3] rss).
  { eapply (fwd_rep_frame _ []); [exact HR|exact HF12|apply layers_kept_eq; apply HR12|intros w _ []|intros _ w _ []]. }
  assert (N12 := frame_nrows _ _ _ HF12). assert (N01 := frame_nrows _ _ _ HF01).
  assert (HF02 : frame nothing s s2) by (eapply frame_trans; [exact HF01|exact HF12|tauto]).
  assert (HReady : ready s2 m es i o MSE bx rbx b XB by_ rby YB U q [out1; out2; out3] rss).
  { split; [split; [exact L1|]; split; [exact L2|]; split; [exact L3|]; split; [exact L4|]; split; [exact L5|]|].
    { eapply Forall_impl; [|exact HLo1]. intros e He. eapply (lok_kept _ []); [exact He|exact HF12|apply layers_kept_eq; apply HR12|intros ? _ []]. }
    split; [exact Hlen|]. split; [exact HLs|]. split; [exact HLt|]. split; [exact HK|]. split; [exact HR2|].
    split; [exact (own_ext _ _ _ _ _ _ _ HBX1 HE12)|]. split; [exact (own_ext _ _ _ _ _ _ _ HBY1 HE12)|]. split; [exact Hb|].
    split; [eapply Forall_impl; [|exact HOld]; cbv beta; intros; lia|]. split; [exact HND|].
    eapply disjoint_old_fresh; [|exact HF]. rewrite Forall_forall. intros z Hz. rewrite !in_app_iff in Hz. destruct Hz as [Hz|[Hz|Hz]]; auto. }
  apply (sine_bwd m (e_ref e1) (e_ref e2) (e_ref e3) bx out1 out2 out3 by_ (MkLoss MSE (Z.of_nat o))); [exact L1|exact L2|exact HLs|exact HLt|].
  eapply wp_conseq; [eapply wp_Backward; exact HReady|]. cbv beta.
  intros gs s4 (gs' & grws & -> & HGr & HFg & HF24 & HR24) g3 g2 g1 EG.
  destruct gs' as [|ga [|gb [|gc [|gd gs']]]]; try (exfalso; apply (f_equal (@List.length _)) in EG; cbn [rev] in EG; rewrite ?app_length, ?rev_length in EG; simpl in EG; lia).
  simpl in EG. injection EG as -> -> ->.
  set (D := snd (pbackprop MSE YB o (net es) b XB U q)) in *.
  destruct D as [|Ga [|Gb [|Gc [|Gd D']]]] eqn:ED; simpl in HGr; try tauto; destruct grws as [|[rwa rba] [|[rwb rbb] [|[rwc rbc] [|? grws]]]]; simpl in HGr; try tauto.
  destruct HGr as (GA1 & GA2 & GB1 & GB2 & GC1 & GC2 & _).
  assert (N24 := frame_nrows _ _ _ HF24).
  assert (HF04 : frame nothing s s4) by (eapply frame_fresh'; [exact HF02|exact HF24|exact HF]).
  set (m' := MkModel (K := K) 3 0 0 0 None 0 f0 0 [] [e_ref e3; e_ref e2; e_ref e1] [x_ref x3; x_ref x2; x_ref x1]).
  apply (sine_upd m' (e_ref e1) (e_ref e2) (e_ref e3) (x_ref x1) (x_ref x2) (x_ref x3) (MkGrad (g_w g1) (g_b g1)) (MkGrad (g_w g2) (g_b g2)) (MkGrad (g_w g3) (g_b g3)));
    [reflexivity|reflexivity|reflexivity|].
  assert (HR14 : Repr.rest s1 s4) by (eapply rest_trans; eauto).
  assert (E4 : train_effect es xs (net_draws true (net es) b) [] s s4).
  { destruct HR14 as (A1 & A2 & A3 & A4 & A5). split; [apply frame_nothing, HF04|].
    split; [eapply layers_kept_trans; [exact HKl|eapply (layers_kept_eq []); exact A1| |]; auto using incl_refl; intros w []|].
    split; [apply opts_kept_eq; congruence|]. rewrite A3. split; [exact HG|]. rewrite app_nil_r. split; congruence. }
  assert (HLo4 : Forall (lok s4) es).
  { eapply Forall_impl; [|exact L6]. intros e He. destruct E4 as (_ & E4 & _). eapply lok_kept; [exact He|exact HF04|exact E4|intros ? _ []]. }
  assert (HOO4 : Forall2 (ook s4) es xs).
  { eapply Forall2_in; [|exact HOO]. intros e x0 He Hx' H. eapply (ook_frame _ []); [exact H|exact HF04| |intros []|intros w _ []].
    apply opts_kept_eq. destruct HR14 as (_ & A2 & _). congruence. }
  assert (PP : Permutation (prows es) (prows [e3; e2; e1])) by apply perm3.
  assert (PO' : Permutation (orows xs) (orows [x3; x2; x1])) by apply perm3.
  assert (HL3' : Forall (lok s4) [e3; e2; e1]) by exact (Forall_rev HLo4).
  eapply wp_conseq; [eapply (wp_upd_loop m' [e3; e2; e1] [] [] [x3; x2; x1] [] [MkGrad (g_w g3) (g_b g3); MkGrad (g_w g2) (g_b g2); MkGrad (g_w g1) (g_b g1)]
    [Gc; Gb; Ga] [(rwc, rbc); (rwb, rbb); (rwa, rba)] s4); try reflexivity|].
  - exact HL3'.
  - eapply Permutation_NoDup; eauto.
  - inversion_clear HOO4 as [|? ? ? ? O1 HO']. inversion_clear HO' as [|? ? ? ? O2 HO'']. inversion_clear HO'' as [|? ? ? ? O3' _]. auto.
  - exact (NoDup_rev NX).
  - intros w Hw Hw'. apply (HDO w); [exact (Permutation_in _ (Permutation_sym PP) Hw)|exact (Permutation_in _ (Permutation_sym PO') Hw')].
  - cbn [net map e_p grads_rep fst snd]. auto 8.
  - eapply (disjoint_old_fresh s2).
    + rewrite Forall_forall. intros w Hw. apply Permutation_sym in PP. pose proof (OldP w (Permutation_in _ PP Hw)). lia.
    + unfold orow_all in *. cbn [map concat fst snd] in *. rewrite app_nil_r in *. unfold fresh in *. rewrite !Forall_app in *. tauto.
  - intros [] s5 (es' & xs' & SP & SO & HTr & HL5 & HO5 & Ff & HF5 & HR5 & HK5). apply wp_ret. split; [reflexivity|].
    destruct es' as [|e3' [|e2' [|e1' [|? ?]]]]; try (exfalso; apply Forall2_length in SP; discriminate).
    destruct xs' as [|x3' [|x2' [|x1' [|? ?]]]]; try (exfalso; apply Forall2_length in SO; discriminate).
    assert (SP' : Forall2 same_place es [e1'; e2'; e3']).
    { inversion_clear SP as [|? ? ? ? O1 HO']. inversion_clear HO' as [|? ? ? ? O2 HO'']. inversion_clear HO'' as [|? ? ? ? O3' _]. unfold es. auto. }
    assert (SO' : Forall2 same_oplace xs [x1'; x2'; x3']).
    { inversion_clear SO as [|? ? ? ? O1 HO']. inversion_clear HO' as [|? ? ? ? O2 HO'']. inversion_clear HO'' as [|? ? ? ? O3' _]. unfold xs. auto. }
    assert (Ff' : fresh s4 (orows [x1'; x2'; x3'])).
    { unfold fresh in *. rewrite Forall_forall in *. intros w Hw. apply Ff. eapply Permutation_in; [|exact Hw]. apply (perm3 (fun x => x_ro x) x1' x2' x3'). }
    assert (N04 := frame_nrows _ _ _ HF04).
    destruct (same_place_maps _ _ SP') as (M1 & M2 & M3). destruct (same_oplace_map _ _ SO') as (M4 & M5).
    assert (HF5' : frame (among (prows es)) s4 s5).
    { eapply frame_weaken; [exact HF5|]. intros w _ Hw. unfold among in *. eapply Permutation_in; [apply Permutation_sym; exact PP|exact Hw]. }
    exists [e1'; e2'; e3'], [x1'; x2'; x3']. split; [|split; [exact SP'|split; [apply same_slots_fresh; [exact SO'|eapply fresh_mono; [exact N04|exact Ff']]|split]]].
    + split; [|split; [|split; [|split; [|split; [|split; [|split; [|split; [|split]]]]]]]].
      * split; [congruence|]. split; [congruence|]. split; [exact L3|]. split; [exact L4|]. split; [eapply same_place_chain; eauto|exact (Forall_rev HL5)].
      * unfold unshared. rewrite M1, M2. auto.
      * simpl; lia.
      * congruence.
      * rewrite M4. exact NX.
      * inversion_clear HO5 as [|? ? ? ? O1 HO']. inversion_clear HO' as [|? ? ? ? O2 HO'']. inversion_clear HO'' as [|? ? ? ? O3' _]. auto.
      * rewrite M2. eapply disjoint_old_fresh; [|eapply fresh_mono; [exact N04|exact Ff']]. rewrite Forall_forall. exact OldP.
      * exact HLs.
      * exact HLt.
      * exact (same_place_kind _ _ (fun kd => kd <> SigmoidK) SP' HK).
    + unfold pbatch. rewrite trainer_net by reflexivity. pose proof (own_shape _ _ _ _ _ _ HBX) as [-> _]. fold D. rewrite ED.
      unfold trainer in *. cbn [net map combine fst snd] in *. injection HTr as T3 T2 T1. rewrite T1, T2, T3. reflexivity.
    + replace (net_draws true (net es) b) with (net_draws true (net es) b + 0)%nat by lia.
      change (@nil (logline K)) with (@nil (logline K) ++ []). eapply train_effect_trans; [exact E4|].
      destruct HR5 as (A1 & A2 & A3 & A4). split; [exact HF5'|]. split; [apply layers_kept_eq; exact A1|].
      split; [eapply opts_kept_trans; [apply opts_kept_refl|exact HK5| |]; [apply incl_refl|]; intros w Hw; simpl in *; tauto|].
      rewrite A2, adv_uni_0, app_nil_r. auto.
Qed.

(** ** All batches, all epochs *)
Lemma three_entries (es es' : list (lent K)) (e1 e2 e3 : lent K) : es = [e1; e2; e3] -> Forall2 same_place es es' -> exists a b c, es' = [a; b; c] /\ e_ref a = e_ref e1 /\ e_ref b = e_ref e2 /\ e_ref c = e_ref e3.
Proof.
  intros -> H. destruct (same_place_maps _ _ H) as (M & _). apply Forall2_length in H. destruct es' as [|a [|b [|c [|? ?]]]]; try discriminate. cbn in M. injection M as A B C. eauto 8.
Qed.
Lemma three_opts s (xs xs' : list (oent K)) (e1 e2 e3 : oent K) : xs = [e1; e2; e3] -> same_slots s xs xs' -> exists a b c, xs' = [a; b; c] /\ x_ref a = x_ref e1 /\ x_ref b = x_ref e2 /\ x_ref c = x_ref e3.
Proof.
  intros -> H. apply same_slots_places in H. destruct (same_oplace_map _ _ H) as (M & _). apply Forall2_length in H. destruct xs' as [|a [|b [|c [|? ?]]]]; try discriminate. cbn in M. injection M as A B C. eauto 8.
Qed.
Lemma sub_length {A} lo b (l : list A) : (lo + b <= length l)%nat -> length (sub lo b l) = b.
Proof. intros H. unfold sub. rewrite firstn_length, skipn_length. lia. Qed.
Definition batches_from (b : nat) (X Y : pm K) j c : list (pm K * pm K) := map (fun a => (sub (a * b) b X, sub (a * b) b Y)) (seq j c).
Section Loop.
Context (m : model K) (i o : nat) (x y : matrix) (rsx rsy : list nat) (n b checked : nat) (X Y : pm K) (Hb : (1 <= b)%nat) (Hch : (checked <= b)%nat).
Lemma wp_sine_batches epoch : forall c j s e1 e2 e3 x1 x2 x3, let es := [e1; e2; e3] in let xs := [x1; x2; x3] in
  trainable s m es xs i o MSE -> data_ok s es x rsx y rsy n i o X Y -> ((j + c) * b <= n)%nat ->
  wp (sine_batches c (e_ref e1) (e_ref e2) (e_ref e3) (x_ref x1) (x_ref x2) (x_ref x3) (MkLoss MSE (Z.of_nat o)) x y (Z.of_nat b) (Z.of_nat checked) epoch (Z.of_nat (j * b))) s
    (fun ok s' => ok = true /\ exists nn, let tq := ptrain_on MSE o (trainer es xs) (r_uni (h_rng s)) (r_upos (h_rng s)) (batches_from b X Y j c) in
      snd tq = (r_upos (h_rng s) + nn)%nat /\ train_result s s' m es xs i o MSE (fst tq) nn []).
Proof.
  induction c as [|c IH]; intros j s e1 e2 e3 x1 x2 x3 es xs HT HD Hj.
  - apply wp_ret. split; [reflexivity|]. exists 0%nat. cbv zeta. split; [cbn; lia|]. apply train_result_refl; exact HT.
  - cbn [sine_batches]. apply wp_bind. eapply wp_conseq; [eapply (wp_sine_batch s m e1 e2 e3 x1 x2 x3 i o x rsx y rsy n X Y (j * b) b checked epoch HT HD Hb ltac:(nia) Hch)|]. cbv beta.
    fold es xs. intros ok s1 (-> & es1 & xs1 & HT1 & P1 & Q1 & T1 & E1).
    destruct (three_entries _ _ e1 e2 e3 eq_refl P1) as (a1 & a2 & a3 & -> & A1 & A2 & A3). destruct (three_opts _ _ _ x1 x2 x3 eq_refl Q1) as (b1 & b2 & b3 & -> & B1 & B2 & B3).
    assert (HR : r_uni (h_rng s1) = r_uni (h_rng s) /\ r_upos (h_rng s1) = (r_upos (h_rng s) + net_draws true (net es) b)%nat) by (destruct E1 as (_ & _ & _ & -> & _); split; reflexivity).
    destruct HR as [HR1 HR2]. replace (Z.of_nat (j * b) + Z.of_nat b) with (Z.of_nat (S j * b)) by nia. rewrite <- A1, <- A2, <- A3, <- B1, <- B2, <- B3.
    eapply wp_conseq; [apply (IH (S j) s1 a1 a2 a3 b1 b2 b3 HT1)|]; [eapply data_ok_effect; eauto|nia|]. cbv beta zeta.
    intros ok s2 (-> & nn & Hn & H). split; [reflexivity|]. rewrite HR1, HR2, T1 in Hn, H.
    assert (LX : length (sub (j * b) b X) = b).
    { apply sub_length. destruct HD as (HX & _). destruct (own_shape _ _ _ _ _ _ HX) as [-> _]. nia. }
    exists (net_draws true (net es) b + nn)%nat. unfold batches_from in *. cbn [seq map ptrain_on]. rewrite trainer_net by reflexivity. rewrite LX. split; [rewrite Hn; lia|].
    change (@nil (logline K)) with (@nil (logline K) ++ []). eapply train_result_trans; eauto.
Qed.
Context (c : nat) (Hc : (1 <= c)%nat) (En : n = (c * b)%nat).
Lemma sine_turns : Z.to_nat ((Z.of_nat n + Z.of_nat b - 1) / Z.of_nat b) = c.
Proof.
  rewrite En. replace ((Z.of_nat (c * b) + Z.of_nat b - 1) / Z.of_nat b) with (Z.of_nat c); [apply Nat2Z.id|]. apply Z.div_unique with (r := Z.of_nat b - 1); nia.
Qed.
Lemma sine_chunks : length X = n -> length Y = n -> combine (chunks b X) (chunks b Y) = batches_from b X Y 0 c.
Proof.
  intros LX LY. rewrite !chunks_seq by exact Hb. rewrite LX, LY. assert (nsteps n b = c) as ->.
  { unfold nsteps. rewrite En, Nat.div_mul by lia. rewrite Nat.ltb_irrefl. reflexivity. }
  unfold batches_from. rewrite combine_map. reflexivity.
Qed.
Lemma wp_sine_epochs : forall e epoch s e1 e2 e3 x1 x2 x3, let es := [e1; e2; e3] in let xs := [x1; x2; x3] in
  trainable s m es xs i o MSE -> data_ok s es x rsx y rsy n i o X Y ->
  wp (sine_epochs e (e_ref e1) (e_ref e2) (e_ref e3) (x_ref x1) (x_ref x2) (x_ref x3) (MkLoss MSE (Z.of_nat o)) x y (Z.of_nat n) (Z.of_nat b) (Z.of_nat checked) epoch) s
    (fun ok s' => ok = true /\ exists nn, let tq := ptrain_on MSE o (trainer es xs) (r_uni (h_rng s)) (r_upos (h_rng s)) (epochs_of e b X Y) in
      snd tq = (r_upos (h_rng s) + nn)%nat /\ train_result s s' m es xs i o MSE (fst tq) nn []).
Proof.
  induction e as [|e IH]; intros epoch s e1 e2 e3 x1 x2 x3 es xs HT HD.
  - apply wp_ret. split; [reflexivity|]. exists 0%nat. cbv zeta. split; [cbn; lia|]. apply train_result_refl; exact HT.
  - cbn [sine_epochs]. rewrite sine_turns. apply wp_bind. eapply wp_conseq; [eapply (wp_sine_batches epoch c 0 s e1 e2 e3 x1 x2 x3 HT HD ltac:(lia))|]. cbv beta zeta.
    fold es xs. intros ok s1 (-> & n1 & Hn1 & es1 & xs1 & HT1 & P1 & Q1 & T1 & E1).
    destruct (three_entries _ _ e1 e2 e3 eq_refl P1) as (a1 & a2 & a3 & -> & A1 & A2 & A3). destruct (three_opts _ _ _ x1 x2 x3 eq_refl Q1) as (b1 & b2 & b3 & -> & B1 & B2 & B3).
    assert (HR : r_uni (h_rng s1) = r_uni (h_rng s) /\ r_upos (h_rng s1) = (r_upos (h_rng s) + n1)%nat) by (destruct E1 as (_ & _ & _ & -> & _); split; reflexivity).
    destruct HR as [HR1 HR2]. rewrite <- A1, <- A2, <- A3, <- B1, <- B2, <- B3.
    eapply wp_conseq; [apply (IH (epoch + 1) s1 a1 a2 a3 b1 b2 b3 HT1)|]; [eapply data_ok_effect; eauto|]. cbv beta zeta.
    intros ok s2 (-> & nn & Hn & H). split; [reflexivity|]. rewrite HR1, HR2, T1, <- Hn1 in Hn, H.
    assert (LX : length X = n) by (destruct HD as (HX & _); apply (own_shape _ _ _ _ _ _ HX)). assert (LY : length Y = n) by (destruct HD as (_ & HY & _); apply (own_shape _ _ _ _ _ _ HY)).
    exists (n1 + nn)%nat. unfold epochs_of in *. cbn [repeat concat]. rewrite (sine_chunks LX LY) in *. rewrite (ptrain_on_app MSE o (r_uni (h_rng s)) (batches_from b X Y 0 c)). cbn [fst snd] in *.
    destruct (ptrain_on MSE o (trainer es xs) _ _ (batches_from b X Y 0 c)) as [ts1 q1]. cbn [fst snd] in *.
    split; [rewrite Hn, Hn1; lia|]. change (@nil (logline K)) with (@nil (logline K) ++ []). eapply train_result_trans; eauto.
Qed.
End Loop.

(** ** The whole program *)
Definition sine_specs (h1 h2 : nat) : list (lspec K) := [LSpec Hidden 1 h1 f0; LSpec Hidden h1 h2 f0; LSpec Linear h2 1 f0].
Lemma add_refs_layers refs : forall (m : model K) s m' s', add_refs m refs s = (Ret m', s') -> incl (m_layers m') (m_layers m ++ refs) /\ (length (m_layers m') = length (m_layers m) + length refs -> m_layers m' = m_layers m ++ refs)%nat.
Proof.
  induction refs as [|r t IH]; intros m s m' s' H.
  - injection H as <- <-. rewrite app_nil_r. split; [apply incl_refl|auto].
  - cbn [add_refs] in H. unfold bind at 1, AddLayer, get_layer, ret in H. unfold bind at 1 in H. destruct (nth_error (h_layers s) r) as [l|]; [|discriminate].
    destruct (_ || _); cbn [fst] in H; destruct (IH _ _ _ _ H) as [I1 I2]; cbn [m_layers] in *.
    + rewrite <- app_assoc in *. split; [exact I1|]. intros E. apply I2. rewrite app_length in *. cbn [length] in *. lia.
    + split; [intros z Hz; apply I1 in Hz; apply in_app_iff in Hz; apply in_app_iff; cbn; tauto|].
      intros E. exfalso. cbn [length] in E.
      assert (L : forall refs (m : model K) s m' s', add_refs m refs s = (Ret m', s') -> (length (m_layers m') <= length (m_layers m) + length refs)%nat).
      { clear. induction refs as [|r t IH]; intros m s m' s' H; [injection H as <- <-; lia|]. cbn [add_refs] in H. unfold bind at 1, AddLayer, get_layer, ret in H. unfold bind at 1 in H.
        destruct (nth_error (h_layers s) r) as [l|]; [|discriminate]. destruct (_ || _); cbn [fst] in H; apply IH in H; cbn [m_layers length] in *; rewrite ?app_length in H; cbn [length] in *; lia. }
      apply L in H. lia.
Qed.
Lemma sine_init (m : model K) l1 l2 l3 {A} (k : M K A) s (Q : A -> state K -> Prop) : m_layers m = [l1; l2; l3] ->
  wp (loop 3 0 (fun i (_ : unit) => lref <- go_nth (m_layers m) i ;; Init lref) tt) s (fun _ s' => wp k s' Q) -> wp (Init l1 ;; Init l2 ;; Init l3 ;; k) s Q.
Proof.
  intros HL. rewrite HL. cbn [loop]. change (0 + 1) with 1. change (1 + 1) with 2. unfold wp, bind, ret.
  change (go_nth (K := K) [l1; l2; l3] 0 s) with (Ret l1, s). cbn iota beta. destruct (Init l1 s) as [[[]|?|?] s1]; try tauto.
  change (go_nth (K := K) [l1; l2; l3] 1 s1) with (Ret l2, s1). cbn iota beta. destruct (Init l2 s1) as [[[]|?|?] s2]; try tauto.
  change (go_nth (K := K) [l1; l2; l3] 2 s2) with (Ret l3, s2). cbn iota beta. destruct (Init l3 s2) as [[[]|?|?] s3]; try tauto.
Qed.
Lemma wp_create3 a b c s {A} (k : nat -> nat -> nat -> M K A) Q : wp (create_all [a; b; c]) s (fun refs s' => forall l1 l2 l3, refs = [l1; l2; l3] -> wp (k l1 l2 l3) s' Q) ->
  wp (l1 <- obj (new_of a) ;; l2 <- obj (new_of b) ;; l3 <- obj (new_of c) ;; k l1 l2 l3) s Q.
Proof.
  cbn [create_all]. unfold wp, bind, ret. destruct (obj (new_of a) s) as [[l1|?|?] s1]; try tauto. destruct (obj (new_of b) s1) as [[l2|?|?] s2]; try tauto. destruct (obj (new_of c) s2) as [[l3|?|?] s3]; try tauto.
  intros H. apply (H l1 l2 l3 eq_refl).
Qed.
(** The array behind the samples is as long as there are samples. *)
Definition full_array s (x : matrix) n : Prop := exists arr, out_at s (sl_loc (mdata x)) = Some arr /\ (length arr - sl_off (mdata x) = n)%nat /\ (sl_off (mdata x) <= length arr)%nat.
Lemma sine_data_full fsin n s xy s' : (1 <= n)%nat -> sine_data fsin (Z.of_nat n) s = (Ret xy, s') -> full_array s' (fst xy) n.
Proof.
  intros Hn. unfold sine_data. change 1 with (Z.of_nat 1) at 1. rewrite (bind_eq _ _ _ _ _ (NewMatrix__run s n 1 Hn ltac:(lia))).
  set (x := new_header s n 1). set (s1 := new_state s n 1).
  set (m := bind (NewMatrix_ (Z.of_nat n) 1) _). intros E.
  assert (B : built m).
  { unfold m. apply b_bind; [apply b_NewMatrix_|]. intros y. apply b_bind; [|intros; apply b_ShuffleDataset]. apply b_for. intros i. apply b_bind; [|intros _]; apply b_ignore; apply b_Set. }
  assert (ST := built_stable m B s1). rewrite E in ST. cbn [snd] in ST.
  assert (EX : fst xy = x).
  { revert E. unfold m, bind at 1. destruct (NewMatrix_ _ _ s1) as [[y|?|?] sa]; try discriminate. unfold bind at 1. destruct (for_ _ _ sa) as [[?|?|?] sb]; try discriminate.
    unfold ShuffleDataset, bind, ret. destruct (rand_Shuffle _ _ sb) as [[?|?|?] sc]; try discriminate. intros [= <- _]. reflexivity. }
  rewrite EX. assert (H1 : out_at s1 (S (nouts s)) = Some (seq (S (nrows s)) n)).
  { cbn [out_at]. unfold s1, new_state, nouts. cbn [h_outs with_outs]. rewrite nth_error_app2, Nat.sub_diag by lia. reflexivity. }
  destruct ST as (_ & ST & _). destruct (ST _ _ H1) as (arr & Ha & HL). exists arr. rewrite seq_length in HL. cbn. split; [exact Ha|]. lia.
Qed.
(** Everything before the epoch loop. *)
Definition sine_setup (fsin : K -> K) (new_opt : M K (optimizer K)) (h1 h2 samples : Z) : M K ((nat * nat * nat) * (nat * nat * nat) * loss * (matrix * matrix)) :=
  l1 <- obj (NewLayer 1 h1) ;; l2 <- obj (NewLayer h1 h2) ;; l3 <- obj (NewLinearLayer h2 1) ;;
  j <- ignore_err (MkLoss MSE 0) (NewLoss MSE 1) ;;
  Init l1 ;; Init l2 ;; Init l3 ;;
  o1 <- objo new_opt ;; o2 <- objo new_opt ;; o3 <- objo new_opt ;;
  xy <- sine_data fsin samples ;;
  ret ((l1, l2, l3), (o1, o2, o3), j, xy).
Lemma sine_split fsin new_opt h1 h2 samples size checked epochs s :
  sine_example fsin new_opt h1 h2 samples size checked epochs s =
  bind (sine_setup fsin new_opt h1 h2 samples) (fun '((l1, l2, l3), (o1, o2, o3), j, xy) =>
    ok <- sine_epochs epochs l1 l2 l3 o1 o2 o3 j (fst xy) (snd xy) samples size checked 0 ;; ret (ok, [l1; l2; l3])) s.
Proof.
  unfold sine_example, sine_setup, bind, ret.
  destruct (obj (NewLayer 1 h1) s) as [[l1|?|?] s1]; try reflexivity. destruct (obj (NewLayer h1 h2) s1) as [[l2|?|?] s2]; try reflexivity. destruct (obj (NewLinearLayer h2 1) s2) as [[l3|?|?] s3]; try reflexivity.
  destruct (ignore_err _ _ s3) as [[j|?|?] s4]; try reflexivity.
  destruct (Init l1 s4) as [[?|?|?] s5]; try reflexivity. destruct (Init l2 s5) as [[?|?|?] s6]; try reflexivity. destruct (Init l3 s6) as [[?|?|?] s7]; try reflexivity.
  destruct (objo new_opt s7) as [[o1|?|?] s8]; try reflexivity. destruct (objo new_opt s8) as [[o2|?|?] s9]; try reflexivity. destruct (objo new_opt s9) as [[o3|?|?] s10]; try reflexivity.
  destruct (sine_data fsin samples s10) as [[xy|?|?] s11]; reflexivity.
Qed.
Lemma wp_sine_setup fsin new_opt (opt : optimizer K) h1 h2 n s :
  int_faithful K -> (forall s, new_opt s = (Ret opt, s)) -> clone opt = opt ->
  (1 <= h1)%nat -> (1 <= h2)%nat -> Z.of_nat h1 < 2 ^ 31 -> Z.of_nat h2 < 2 ^ 31 -> (1 <= n)%nat ->
  wp (sine_setup fsin new_opt (Z.of_nat h1) (Z.of_nat h2) (Z.of_nat n)) s (fun r s' =>
    exists p m e1 e2 e3 x1 x2 x3 rsx rsy, let x := fst (snd r) in let y := snd (snd r) in
      r = ((e_ref e1, e_ref e2, e_ref e3), (x_ref x1, x_ref x2, x_ref x3), MkLoss MSE 1, (x, y)) /\
      Permutation (seq 0 n) p /\ trainable s' m [e1; e2; e3] [x1; x2; x3] 1 1 MSE /\
      data_ok s' [e1; e2; e3] x rsx y rsy n 1 1 (pick [] p (sine_X n)) (pick [] p (sine_Y fsin n)) /\
      net [e1; e2; e3] = start_net (normals s) (sine_specs h1 h2) /\ map x_po [x1; x2; x3] = map (start_opt opt) (sine_specs h1 h2) /\
      r_uni (h_rng s') = r_uni (h_rng s) /\ r_upos (h_rng s') = r_upos (h_rng s) /\ full_array s' x n).
Proof.
  intros HI HNew HCl H1 H2 H1b H2b Hn. unfold sine_setup.
  set (sps := sine_specs h1 h2). assert (HS : Forall spec_ok sps) by (repeat constructor; cbn; lia).
  assert (HLk : linked (in_of sps) sps) by (cbn; auto).
  apply (wp_create3 (LSpec Hidden 1 h1 f0) (LSpec Hidden h1 h2 f0) (LSpec Linear h2 1 f0)). eapply wp_conseq; [apply (wp_create sps s HI HS HLk)|]. cbv beta.
  intros refs s1 (m1 & es & HC & HU & HNet & HFr & FR & RS & G & HAdd) l1 l2 l3 ->.
  pose proof HC as (C1 & C2 & C3 & C4 & C5 & C6).
  assert (LE : length es = 3%nat) by (rewrite <- net_length, HNet; reflexivity).
  assert (ML : m_layers m1 = [l1; l2; l3]).
  { destruct (add_refs_layers _ _ _ _ _ (HAdd s1 eq_refl)) as [_ H]. apply H. rewrite C1, map_length, LE. reflexivity. }
  apply wp_bind. apply wp_ignore_err. eapply wp_eq; [reflexivity|].
  apply (sine_init m1 _ _ _ _ _ _ ML). rewrite <- LE. eapply wp_conseq; [apply (init_loop m1 es [] s1); [exact C1|exact C6|apply HU]|]. cbv beta.
  intros [] s2 (es2 & A1 & A2 & A3 & A4 & A5 & A6 & A7).
  destruct (same_place_maps _ _ A2) as (P1 & P2 & P3).
  assert (N2 : net es2 = start_net (normals s) sps) by (rewrite A3, HNet, reinit_blank; f_equal; unfold normals; now rewrite G).
  assert (ER : map e_ref es2 = [l1; l2; l3]) by congruence.
  destruct es2 as [|e1 [|e2 [|e3 [|? ?]]]]; try (simpl in P3; lia). cbn [map] in ER. injection ER as R1 R2 R3. rewrite <- R1, <- R2, <- R3.
  apply (wp_objo _ opt _ _ _ HNew). apply (wp_objo _ opt _ _ _ HNew). apply (wp_objo _ opt _ _ _ HNew). cbn [h_opts with_opts].
  set (o1 := length (h_opts s2)). set (o2 := length (h_opts s2 ++ [opt])). set (o3 := length ((h_opts s2 ++ [opt]) ++ [opt])). set (s3 := with_opts _ _).
  assert (A1' : Forall (lok s3) [e1; e2; e3]) by exact A1.
  pose proof (wp_sine_data fsin n s3 Hn) as WD. apply wp_ex in WD as ([x y] & s4 & ED & WD). pose proof (sine_data_full _ _ _ _ _ Hn ED) as FA. apply wp_bind. eapply wp_eq; [exact ED|]. revert WD.
  intros (p & rsx & rsy & HP & HX & HY & FX & FY & NX & NY & DXY & FR4 & RS4 & HL4 & ip & G4). cbn [fst snd] in *.
  set (X := pick [] p (sine_X n)) in *. set (Y := pick [] p (sine_Y fsin n)) in *.
  assert (HW : o_wm opt = matrix0) by (rewrite <- HCl; unfold clone; destruct (o_kind opt); reflexivity).
  set (x1 := OE o1 [] (new_po opt 1 h1)). set (x2 := OE o2 [] (new_po opt h1 h2)). set (x3 := OE o3 [] (new_po opt h2 1)).
  set (m := MkModel (K := K) 3 1 1 0 (Some (MkLoss MSE 1)) 0 f0 0 [] [e_ref e1; e_ref e2; e_ref e3] [o1; o2; o3]).
  assert (HO : h_opts s4 = ((h_opts s2 ++ [opt]) ++ [opt]) ++ [opt]) by (destruct RS4 as (-> & _); reflexivity).
  assert (EP : e_p e1 :: e_p e2 :: e_p e3 :: [] = start_net (normals s) sps) by exact N2.
  assert (ES : map (fun p => (p_in p, p_out p)) [e_p e1; e_p e2; e_p e3] = [(1, h1); (h1, h2); (h2, 1)]%nat) by (rewrite EP; apply start_sizes).
  injection ES as I1 O1 I2 O2 I3 O3.
  assert (HLo4 : Forall (lok s4) [e1; e2; e3]).
  { eapply Forall_impl; [|exact A1']. intros e (l & Hl & Hlo). exists l. split; [now rewrite HL4|]. eapply lown_frame; [exact Hlo|exact FR4|intros ? ? []]. }
  assert (HT : trainable s4 m [e1; e2; e3] [x1; x2; x3] 1 1 MSE).
  { split; [|split; [|split; [|split; [|split; [|split; [|split; [|split; [|split]]]]]]]].
    - split; [reflexivity|]. split; [reflexivity|]. split; [reflexivity|]. split; [reflexivity|]. split; [cbn; rewrite I1, O1, I2, O2, I3, O3; auto|exact HLo4].
    - unfold unshared. rewrite P1, P2. exact HU.
    - simpl; lia.
    - reflexivity.
    - cbn [map x_ref x1 x2 x3]. unfold o1, o2, o3. rewrite !app_length. simpl. repeat constructor; simpl; lia.
    - assert (OK : forall e r i o, p_in (e_p e) = i -> p_out (e_p e) = o -> nth_error (h_opts s4) r = Some opt -> ook s4 e (OE r [] (new_po opt i o))).
      { intros e r i o <- <- Hr. exists opt. split; [exact Hr|]. cbn [x_ro x_po]. apply new_oown. exact HW. }
      repeat constructor; apply OK; auto; rewrite HO; unfold o1, o2, o3.
      + rewrite <- !app_assoc, nth_error_app2, Nat.sub_diag by lia. reflexivity.
      + rewrite <- !app_assoc, app_length, nth_error_app2 by (simpl; lia). simpl. replace (_ - _)%nat with 1%nat by lia. reflexivity.
      + rewrite nth_error_app2, Nat.sub_diag by lia. reflexivity.
    - intros w _ [].
    - reflexivity.
    - reflexivity.
    - pose proof (start_kinds sps (normals s) HS) as KK. rewrite <- EP in KK. inversion_clear KK as [|? ? K1 KK']. inversion_clear KK' as [|? ? K2 KK'']. inversion_clear KK'' as [|? ? K3 _]. auto. }
  assert (HD : data_ok s4 [e1; e2; e3] x rsx y rsy n 1 1 X Y).
  { split; [exact HX|]. split; [exact HY|]. assert (D : forall rs, fresh s3 rs -> disjoint rs (prows [e1; e2; e3])).
    { intros rs Hrs w Hw Hw'. pose proof (prows_old _ _ _ A1' Hw'). pose proof (fresh_in _ _ _ Hrs Hw). lia. }
    auto. }
  apply wp_ret. exists p, m, e1, e2, e3, x1, x2, x3, rsx, rsy. cbv zeta. cbn [fst snd]. split; [reflexivity|]. split; [exact HP|]. split; [exact HT|]. split; [exact HD|]. split; [exact EP|].
  split; [|rewrite G4; unfold s3; cbn [h_rng with_opts r_uni r_upos]; rewrite A7, G; split; [reflexivity|split; [reflexivity|exact FA]]].
  assert (SO : forall sp, new_po opt (sp_in sp) (sp_out sp) = start_opt opt sp) by (intros sp; unfold start_opt, new_po; rewrite HCl; f_equal; rewrite <- HCl; unfold clone; destruct (o_kind opt); reflexivity).
  cbn [map sps sine_specs]. rewrite <- !SO. reflexivity.
Qed.
Lemma sine_example_run fsin new_opt (opt : optimizer K) h1 h2 c b checked epochs s :
  int_faithful K -> (forall s, new_opt s = (Ret opt, s)) -> clone opt = opt ->
  (1 <= h1)%nat -> (1 <= h2)%nat -> Z.of_nat h1 < 2 ^ 31 -> Z.of_nat h2 < 2 ^ 31 -> (1 <= c)%nat -> (1 <= b)%nat -> (checked <= b)%nat ->
  returns (sine_example fsin new_opt (Z.of_nat h1) (Z.of_nat h2) (Z.of_nat (c * b)) (Z.of_nat b) (Z.of_nat checked) epochs) s (fun r s' =>
    fst r = true /\ exists p es, Permutation (seq 0 (c * b)) p /\ snd r = map e_ref es /\ Forall (lok s') es /\
    net es = final_net (sine_specs h1 h2) MSE opt (normals s) (r_uni (h_rng s)) (r_upos (h_rng s))
      (pick [] p (sine_X (c * b))) (pick [] p (sine_Y fsin (c * b))) (Z.of_nat epochs) (Z.of_nat b)).
Proof.
  intros HI HNew HCl H1 H2 H1b H2b Hc Hb Hch. apply returns_wp. set (n := (c * b)%nat). assert (Hn : (1 <= n)%nat) by (unfold n; nia).
  eapply wp_at; [apply sine_split|]. apply wp_bind. eapply wp_conseq; [apply (wp_sine_setup fsin new_opt opt h1 h2 n s); auto|]. cbv beta.
  intros r s4 (p & m & e1 & e2 & e3 & x1 & x2 & x3 & rsx & rsy & H). cbv zeta in H. remember (fst (snd r)) as x eqn:Ex. remember (snd (snd r)) as y eqn:Ey. clear Ex Ey.
  destruct H as (-> & HP & HT & HD & EP & EX & EU1 & EU2 & _). cbn [fst snd]. set (X := pick [] p (sine_X n)) in *. set (Y := pick [] p (sine_Y fsin n)) in *. set (sps := sine_specs h1 h2) in *.
  apply wp_bind. eapply wp_conseq; [apply (wp_sine_epochs m 1 1 x y rsx rsy n b checked X Y Hb Hch c Hc eq_refl epochs 0 s4 e1 e2 e3 x1 x2 x3 HT HD)|]. cbv beta zeta.
  intros ok s5 (-> & nn & _ & es' & xs' & HT' & SP & _ & ET & _). apply wp_ret. cbn [fst snd]. split; [reflexivity|].
  destruct (same_place_maps _ _ SP) as (M1 & _). exists p, es'. split; [exact HP|]. split; [rewrite M1; reflexivity|]. split; [apply HT'|].
  rewrite EU1, EU2 in ET. unfold trainer in ET. rewrite EX, EP in ET.
  unfold final_net. change (out_of sps) with 1%nat. rewrite Nat2Z.id. unfold batch_rows. destruct (Z.eqb_spec (Z.of_nat b) 0); [lia|]. rewrite Nat2Z.id. fold X Y. rewrite <- ET.
  rewrite map_fst_combine; [reflexivity|]. rewrite map_length, net_length. destruct HT' as (_ & _ & _ & _ & _ & H & _). apply Forall2_length in H. lia.
Qed.

(** A remainder is not trained on: slicing beyond the data panics. *)
Lemma sine_batches_rest (m : model K) i o x y rsx rsy n b checked X Y epoch : (1 <= b)%nat -> (checked <= b)%nat -> forall c j s e1 e2 e3 x1 x2 x3,
  trainable s m [e1; e2; e3] [x1; x2; x3] i o MSE -> data_ok s [e1; e2; e3] x rsx y rsy n i o X Y ->
  ((j + c) * b < n < (j + S c) * b)%nat ->
  full_array s x n ->
  exists s', sine_batches (S c) (e_ref e1) (e_ref e2) (e_ref e3) (x_ref x1) (x_ref x2) (x_ref x3) (MkLoss MSE (Z.of_nat o)) x y (Z.of_nat b) (Z.of_nat checked) epoch (Z.of_nat (j * b)) s = (Panic PSlice, s').
Proof.
  intros Hb Hch. induction c as [|c IH]; intros j s e1 e2 e3 x1 x2 x3 HT HD Hj (arr & Ha & HLn & HLo).
  - exists s. cbn [sine_batches]. unfold sine_batch. apply bind_panic, bind_panic. unfold reslice. rewrite Ha.
    replace ((0 <=? Z.of_nat (j * b)) && (Z.of_nat (j * b) <=? Z.of_nat (j * b) + Z.of_nat b) && (Z.of_nat (j * b) + Z.of_nat b <=? Z.of_nat (length arr) - Z.of_nat (sl_off (mdata x)))) with false by nia. reflexivity.
  - pose proof (wp_sine_batch s m e1 e2 e3 x1 x2 x3 i o x rsx y rsy n X Y (j * b) b checked epoch HT HD Hb ltac:(nia) Hch) as W. cbv zeta in W.
    apply wp_ex in W as (ok & s1 & E & -> & es1 & xs1 & HT1 & P1 & Q1 & T1 & E1).
    destruct (three_entries _ _ e1 e2 e3 eq_refl P1) as (a1 & a2 & a3 & -> & A1 & A2 & A3). destruct (three_opts _ _ _ x1 x2 x3 eq_refl Q1) as (b1 & b2 & b3 & -> & B1 & B2 & B3).
    destruct (IH (S j) s1 a1 a2 a3 b1 b2 b3 HT1) as (s' & E'); [eapply data_ok_effect; eauto|nia| |].
    { exists arr. split; [|auto]. destruct E1 as ((F1 & _) & _). apply F1. exact Ha. }
    exists s'. change (sine_batches (S (S c))) with (fun l1 l2 l3 o1 o2 o3 (jj : loss) (x y : matrix) size checked epoch start =>
      ok <- sine_batch (K := K) l1 l2 l3 o1 o2 o3 jj x y size checked epoch start ;; if ok then sine_batches (S c) l1 l2 l3 o1 o2 o3 jj x y size checked epoch (start + size) else ret false). cbv beta.
    rewrite (bind_eq _ _ _ _ _ E). replace (Z.of_nat (j * b) + Z.of_nat b) with (Z.of_nat (S j * b)) by nia. rewrite <- A1, <- A2, <- A3, <- B1, <- B2, <- B3. exact E'.
Qed.
Lemma sine_remainder_panics fsin new_opt (opt : optimizer K) h1 h2 c b n checked epochs s :
  int_faithful K -> (forall s, new_opt s = (Ret opt, s)) -> clone opt = opt ->
  (1 <= h1)%nat -> (1 <= h2)%nat -> Z.of_nat h1 < 2 ^ 31 -> Z.of_nat h2 < 2 ^ 31 -> (1 <= b)%nat -> (checked <= b)%nat ->
  (c * b < n < (c + 1) * b)%nat ->
  exists s', sine_example fsin new_opt (Z.of_nat h1) (Z.of_nat h2) (Z.of_nat n) (Z.of_nat b) (Z.of_nat checked) (S epochs) s = (Panic PSlice, s').
Proof.
  intros HI HNew HCl H1 H2 H1b H2b Hb Hch Hn. rewrite sine_split. assert (Hn1 : (1 <= n)%nat) by lia.
  pose proof (wp_sine_setup fsin new_opt opt h1 h2 n s HI HNew HCl H1 H2 H1b H2b Hn1) as W.
  apply wp_ex in W as (r & s4 & E & p & m & e1 & e2 & e3 & x1 & x2 & x3 & rsx & rsy & H). cbv zeta in H. remember (fst (snd r)) as x eqn:Ex. remember (snd (snd r)) as y eqn:Ey. clear Ex Ey.
  destruct H as (-> & _ & HT & HD & _ & _ & _ & _ & FA). rewrite (bind_eq _ _ _ _ _ E). cbn [fst snd].
  destruct (sine_batches_rest m 1 1 x y rsx rsy n b checked _ _ 0 Hb Hch c 0 s4 e1 e2 e3 x1 x2 x3 HT HD ltac:(lia) FA) as (s' & E').
  exists s'. apply bind_panic. cbn [sine_epochs]. apply bind_panic. rewrite <- E'.
  replace (Z.to_nat ((Z.of_nat n + Z.of_nat b - 1) / Z.of_nat b)) with (S c); [reflexivity|].
  rewrite <- (Nat2Z.id (S c)). f_equal. apply (Z.div_unique _ _ _ (Z.of_nat n - Z.of_nat c * Z.of_nat b - 1)); nia.
Qed.
End AnyNum.
