(** * TestLoop: the hand-written training loop of optimizers_test.go. *)
From Coq Require Import String ZArith List Bool Arith Lia Permutation.
From Verif Require Import Num LayerData Heap Spec Matrix Activation Misc Accuracy Network Loss Optimizers ModelGo ModelData
  PureSpec Repr HeapLemmas MatrixProofs MatrixFacts LayerProofs LayerFacts LayerGlue LossProofs OptSpec OptProofs OptFacts ModelSpec ModelProofs ModelFacts FitProofs FitLoop
  CodecSpec Session SessionProofs Tests TestProofs TestModels HandSpec.
Import ListNotations.
Open Scope Z_scope.
Open Scope go_scope.

Section AnyNum.
Context {K : Num}.
Implicit Types s : state K.

(** ** The loop body in terms of the model's own loops *)
Lemma hand_fwd l1 l2 l3 x k s (Q : bool -> state K -> Prop) :
  wp (foldM (fwd_body true) [l1; l2; l3] ([x], x)) s (fun acc s' => forall o1 o2 o3, fst acc = [x; o1; o2; o3] -> wp (k o1 o2 o3) s' Q) ->
  wp (must (Layer_Forward l1 x) (fun o1 => must (Layer_Forward l2 o1) (fun o2 => must (Layer_Forward l3 o2) (fun o3 => k o1 o2 o3)))) s Q.
Proof.
  assert (F : forall l y t, forward_layer true l y t = Layer_Forward (K := K) l y t).
  { intros l y t. unfold forward_layer, Layer_Forward, bind, get_layer. destruct (nth_error (h_layers t) l) as [a|] eqn:E; [|reflexivity]. destruct (l_kind a) eqn:Ek; rewrite ?E, ?Ek; reflexivity. }
  cbn [foldM]. unfold fwd_body, must, wp, catch, bind, ret. cbn [fst snd]. rewrite F.
  destruct (Layer_Forward l1 x s) as [[o1|?|?] s1]; try tauto. cbn [fst snd]. rewrite F.
  destruct (Layer_Forward l2 o1 s1) as [[o2|?|?] s2]; try tauto. cbn [fst snd]. rewrite F.
  destruct (Layer_Forward l3 o2 s2) as [[o3|?|?] s3]; try tauto. cbn [fst snd app]. intros H. apply (H o1 o2 o3). reflexivity.
Qed.
Lemma hand_bwd (m : model K) l1 l2 l3 x o1 o2 o3 dv g3 k s (Q : bool -> state K -> Prop) :
  m_layers m = [l1; l2; l3] -> m_size m = 3 ->
  wp (backward_loop m [x; o1; o2; o3] 2 dv [g3]) s (fun gs s' => forall g2 g1, gs = [g3; MkGrad (g_w g2) (g_b g2); MkGrad (g_w g1) (g_b g1)] -> wp (k g2 g1) s' Q) ->
  wp (must (Layer_Backward l2 o1 dv) (fun g2 => must (Layer_Backward l1 x (g_x g2)) (fun g1 => k g2 g1))) s Q.
Proof.
  intros HL HS. cbn [backward_loop]. rewrite HL, HS.
  change (Z.of_nat 1) with 1. change (Z.of_nat 0) with 0. unfold must, wp, catch, is_softmax, bind, get_layer, ret.
  change (go_nth (K := K) [l1; l2; l3] 1 s) with (Ret l2, s).
  cbn [go_nth nth_error]. cbn iota beta.
  destruct (nth_error (h_layers s) l2) as [a|]; [|tauto]. change (1 =? 3 - 1) with false. rewrite andb_false_r. cbn iota beta.
  change (go_nth (K := K) [x; o1; o2; o3] 1 s) with (Ret o1, s). cbn iota beta.
  destruct (Layer_Backward l2 o1 dv s) as [[g2|?|?] s1]; try tauto. cbn iota beta.
  change (go_nth (K := K) [l1; l2; l3] 0 s1) with (Ret l1, s1). cbn iota beta.
  destruct (nth_error (h_layers s1) l1) as [b|]; [|tauto]. change (0 =? 3 - 1) with false. rewrite andb_false_r. cbn iota beta.
  change (go_nth (K := K) [x; o1; o2; o3] 0 s1) with (Ret x, s1). cbn iota beta.
  destruct (Layer_Backward l1 x (g_x g2) s1) as [[g1|?|?] s2]; try tauto. cbn iota beta. intros H. apply (H g2 g1). reflexivity.
Qed.
Definition upd_one (l o : nat) (g : gradients) : M K unit := l <- get_layer l ;; Opt_Update o (l_w l) (l_b l) (g_dw g) (g_db g).
Lemma hand_upd (m : model K) l1 l2 l3 o1 o2 o3 g1 g2 g3 k s (Q : bool -> state K -> Prop) :
  m_layers m = [l3; l2; l1] -> m_opts m = [o3; o2; o1] -> m_size m = 3 ->
  wp (loop 3 0 (fun i (_ : unit) => upd_body m [g1; g2; g3] i) tt) s (fun _ s' => wp k s' Q) ->
  wp (must (upd_one l3 o3 g3) (fun _ => must (upd_one l2 o2 g2) (fun _ => must (upd_one l1 o1 g1) (fun _ => k)))) s Q.
Proof.
  intros HL HO HS. cbn [loop]. unfold upd_body, upd_one. rewrite HL, HO, HS.
  change (0 + 1) with 1. change (1 + 1) with 2. unfold or_log, must, wp, catch, bind, get_layer, ret.
  change (go_nth (K := K) [l3; l2; l1] 0 s) with (Ret l3, s). cbn iota beta.
  destruct (nth_error (h_layers s) l3) as [a|]; [|tauto].
  change (go_nth (K := K) [o3; o2; o1] 0 s) with (Ret o3, s). cbn iota beta. change (go_nth (K := K) [g1; g2; g3] (3 - 0 - 1) s) with (Ret g3, s). cbn iota beta.
  destruct (Opt_Update o3 (l_w a) (l_b a) (g_dw g3) (g_db g3) s) as [[u3|?|?] s1]; cbn iota beta; try (unfold log_print, fail; destruct (h_logger _); tauto); try tauto.
  change (go_nth (K := K) [l3; l2; l1] 1 s1) with (Ret l2, s1). cbn iota beta.
  destruct (nth_error (h_layers s1) l2) as [b|]; [|tauto].
  change (go_nth (K := K) [o3; o2; o1] 1 s1) with (Ret o2, s1). cbn iota beta. change (go_nth (K := K) [g1; g2; g3] (3 - 1 - 1) s1) with (Ret g2, s1). cbn iota beta.
  destruct (Opt_Update o2 (l_w b) (l_b b) (g_dw g2) (g_db g2) s1) as [[u2|?|?] s2]; cbn iota beta; try (unfold log_print, fail; destruct (h_logger _); tauto); try tauto.
  change (go_nth (K := K) [l3; l2; l1] 2 s2) with (Ret l1, s2). cbn iota beta.
  destruct (nth_error (h_layers s2) l1) as [c|]; [|tauto].
  change (go_nth (K := K) [o3; o2; o1] 2 s2) with (Ret o1, s2). cbn iota beta. change (go_nth (K := K) [g1; g2; g3] (3 - 2 - 1) s2) with (Ret g1, s2). cbn iota beta.
  destruct (Opt_Update o1 (l_w c) (l_b c) (g_dw g1) (g_db g1) s2) as [[u1|?|?] s3]; cbn iota beta; try (unfold log_print, fail; destruct (h_logger _); tauto); try tauto.
Qed.

(** ** One epoch *)
Lemma hand_backprop_snoc (Y : pm K) p r ps : forall X U q,
  hand_backprop Y (ps ++ [p]) r X U q =
  (let '(G, gl) := hand_backprop Y [p] r (pend true ps r X U q) U (q + net_draws true ps r) in
   let '(G', gs) := pback_from ps r X U q G in (G', gs ++ gl)).
Proof.
  induction ps as [|p0 ps IH]; intros X U q.
  - cbn [app pend net_draws fold_right pback_from]. rewrite Nat.add_0_r. destruct (hand_backprop Y [p] r X U q). reflexivity.
  - cbn [app]. change (hand_backprop Y (p0 :: ps ++ [p]) r X U q) with
      (let O := ptrain p0 r X (from U q) in
      let '(G, gs) := hand_backprop Y (ps ++ [p]) r O U (q + pdraws p0 r) in
      let G' := match ps ++ [p] with [] => pce_back r (p_out p0) Y (pmap r (p_out p0) clip1 O) | _ => pback p0 r O (ptrain_mask p0 r (from U q)) G end in
      (pdX r (p_in p0) (p_out p0) G' (p_w p0), (pdW r (p_in p0) (p_out p0) X G', psum0 r (p_out p0) G') :: gs)).
    cbv zeta. rewrite IH. cbn [pend player_out player_draws net_draws fold_right pback_from].
    fold (net_draws true ps r). rewrite Nat.add_assoc.
    destruct (hand_backprop Y [p] r _ U _) as [G gl]. destruct (pback_from ps r _ U _ G) as [G1 gs].
    destruct (ps ++ [p]) eqn:E; [destruct ps; discriminate|]. reflexivity.
Qed.
Lemma sub_all {A} n (l : list A) : length l = n -> sub 0 n l = l.
Proof. intros <-. unfold sub. apply firstn_all. Qed.
Lemma perm3 {A} (f : A -> list nat) a b c : Permutation (concat (map f [a; b; c])) (concat (map f [c; b; a])).
Proof. simpl. rewrite !app_nil_r, app_assoc. rewrite Permutation_app_comm. apply Permutation_app_head. apply Permutation_app_comm. Qed.
Lemma hand_slice_run s x rs n c A : own s x rs n c A -> (1 <= n)%nat -> (1 <= c)%nat ->
  exists x', hand_slice x (Z.of_nat n) s = (Ret x', s) /\ own s x' rs n c A.
Proof.
  intros H Hn Hc. destruct (batch_own s x rs n c A 0 n H ltac:(lia) Hn Hc) as (sl & E1 & E2 & E3). eexists. split.
  - unfold hand_slice. unfold bind. change 0 with (Z.of_nat 0). simpl Nat.add in E1. rewrite E1. exact E2.
  - rewrite !sub_all in E3; [exact E3|apply (own_shape _ _ _ _ _ _ H)|].
    pose proof H as (_ & _ & _ & [HS _] & _ & HF). apply Forall2_length in HF. congruence.
Qed.
Lemma wp_hand_epoch rest s m e1 e2 e3 x1 x2 x3 i o x rsx y rsy n X Y (Q : bool -> state K -> Prop) :
  let es := [e1; e2; e3] in let xs := [x1; x2; x3] in
  trainable s m es xs i o CE -> p_kind (e_p e3) = SoftmaxK -> data_ok s es x rsx y rsy n i o X Y -> (1 <= n)%nat ->
  (forall s' e1' e2' e3' x1' x2' x3', let es' := [e1'; e2'; e3'] in let xs' := [x1'; x2'; x3'] in
    trainable s' m es' xs' i o CE -> Forall2 same_place es es' -> same_slots s xs xs' -> data_ok s' es' x rsx y rsy n i o X Y ->
    trainer es' xs' = map (fun tg => tstep (fst tg) (snd tg)) (combine (trainer es xs) (snd (hand_backprop Y (net es) n X (r_uni (h_rng s)) (r_upos (h_rng s))))) ->
    train_effect es xs (net_draws true (net es) n) [] s s' ->
    wp (hand_epochs rest (e_ref e1) (e_ref e2) (e_ref e3) (x_ref x1) (x_ref x2) (x_ref x3) (MkLoss CE (Z.of_nat o)) x y (Z.of_nat n)) s' Q) ->
  wp (hand_epochs (S rest) (e_ref e1) (e_ref e2) (e_ref e3) (x_ref x1) (x_ref x2) (x_ref x3) (MkLoss CE (Z.of_nat o)) x y (Z.of_nat n)) s Q.
Proof.
  intros es xs HT H3 (HX & HY & DX & DY) Hn HQ. pose proof HT as (HC & (NR & NP) & Hlen & HXr & NX & HOO & HDO & HLs & HLt & HK).
  pose proof HC as (L1 & L2 & L3 & L4 & L5 & L6).
  assert (Pi : (1 <= i)%nat) by (destruct L5 as [<- _]; destruct (chain_pos _ _ e1 L6) as [P1 P2]; [now left|exact P1]).
  assert (Eo : p_out (e_p e3) = o) by (destruct L5 as (_ & _ & _ & E); exact E).
  assert (P3 : (1 <= p_in (e_p e3))%nat /\ (1 <= p_out (e_p e3))%nat) by (apply (chain_pos _ _ e3 L6); right; right; now left).
  destruct (hand_slice_run s x rsx n i X HX Hn Pi) as (bx & EX & HBX). destruct (hand_slice_run s y rsy n o Y HY Hn ltac:(lia)) as (by_ & EY & HBY).
  cbn [hand_epochs]. apply wp_bind. eapply wp_eq; [exact EX|]. apply wp_bind. eapply wp_eq; [exact EY|].
  apply hand_fwd. eapply wp_conseq; [apply (wp_fwd true es s [bx] bx rsx n X i o); auto|]. cbv beta.
  intros acc s1 (outs & rss & EA & HR & HF & HND & HOld & HE) out1 out2 out3 EA'. rewrite EA in EA'. injection EA' as ->. clear acc EA.
  set (U := r_uni (h_rng s)) in *. set (q := r_upos (h_rng s)) in *.
  assert (HE' := HE). destruct HE' as (HF01 & (R1 & R2 & R3) & HKl & HG).
  assert (HLo1 : Forall (lok s1) es) by (eapply Forall_impl; [|exact L6]; intros e He; eapply lok_kept; eauto).
  change es with ([e1; e2] ++ [e3]) in HR.
  destruct (fwd_rep_snoc _ _ _ _ _ _ _ _ _ _ HR) as (outs0 & out & rss0 & rs & rsm & EO & -> & HR0 & HRe).
  assert (outs0 = [out1; out2] /\ out = out3) as [-> ->].
  { change [out1; out2; out3] with ([out1; out2] ++ [out3]) in EO. apply app_inj_tail in EO as [<- <-]. auto. }
  clear EO. set (ps := net [e1; e2]) in *. set (X2 := pend true ps n X U q) in *. set (q2 := (q + net_draws true ps n)%nat) in *.
  assert (HCn : chain i (net ([e1; e2] ++ [e3])) o) by exact L5. rewrite net_app in HCn. apply chain_snoc in HCn as [HC2 _].
  assert (HBX1 : own s1 bx rsx n i X) by (eapply own_frame; [exact HBX|exact HF01|intros ? _ []]).
  assert (HBY1 : own s1 by_ rsy n o Y) by (eapply own_frame; [exact HBY|exact HF01|intros ? _ []]).
  destruct (fwd_rep_last _ _ _ _ _ _ _ _ _ bx rsx i _ HR0 HBX1 HC2) as (pre & xl & rsl & EL & LP & HX2 & DL).
  assert (xl = out2) as ->.
  { change [bx; out1; out2] with ([bx; out1] ++ [out2]) in EL. apply app_inj_tail in EL as [_ <-]. reflexivity. }
  clear EL LP pre. fold X2 in HX2.
  destruct HRe as (HO3 & ND3 & HCa & _). destruct (HCa eq_refl) as (l3 & Hl3 & Hlo3 & _). clear HCa.
  cbn [player_out] in HO3. set (O3 := ptrain (e_p e3) n X2 (from U q2)) in *. rewrite Eo in HO3.
  rewrite orow_all_app in HF, HND, HOld. change (orow_all [(rs, rsm)]) with ((rs ++ rsm) ++ []) in HF, HND, HOld. rewrite app_nil_r in HF, HND, HOld.
  apply Forall_app in HF as [HF0 HFe]. apply Forall_app in HFe as [HFrs HFrsm]. apply Forall_app in HOld as [HOld0 HOlde].
  apply NoDup_app_inv in HND as (ND0 & _ & D0).
  assert (OldX : forall w, In w rsx -> (w <= nrows s)%nat) by (intros w Hw; exact (own_old_in _ _ _ _ _ _ _ HX Hw)).
  assert (OldY : forall w, In w rsy -> (w <= nrows s)%nat) by (intros w Hw; exact (own_old_in _ _ _ _ _ _ _ HY Hw)).
  assert (OldP : forall w, In w (prows es) -> (w <= nrows s)%nat) by (intros w Hw; eapply prows_old; eauto).
  assert (Nrs : forall w, (w <= nrows s)%nat -> ~ In w rs) by (intros w Hw Hw'; pose proof (fresh_in _ _ _ HFrs Hw'); lia).
  (* the loss clips out3 in place *)
  apply wp_must. eapply wp_conseq; [apply (wp_Loss_Forward s1 CE out3 by_ rs rsy n o O3 Y HO3 HBY1 ND3)|]; [|exact Hn|lia|].
  { intros w Hw Hw'. exact (Nrs w (OldY w Hw') Hw). }
  cbv beta. intros v s2 (_ & HO3c & HF12 & HR12). cbn [fwd_clips clip_rows clipped] in HO3c, HF12. clear v.
  assert (Hl32 : nth_error (h_layers s2) (e_ref e3) = Some l3) by (rewrite (rest_layers _ _ HR12); exact Hl3).
  assert (Hlo32 : lown s2 l3 (e_rw e3) (e_rb e3) (e_p e3)).
  { eapply lown_frame; [exact Hlo3|exact HF12|]. intros w Hw. apply Nrs, OldP. unfold es, prows. simpl. rewrite !in_app_iff. tauto. }
  assert (HX22 : own s2 out2 rsl n (p_in (e_p e3)) X2).
  { eapply own_frame; [exact HX2|exact HF12|]. intros w Hw Hw'. destruct (DL w Hw) as [H|H]; [exact (Nrs w (OldX w H) Hw')|].
    apply (D0 w H). rewrite in_app_iff. now left. }
  assert (HBY2 : own s2 by_ rsy n o Y) by (eapply own_frame; [exact HBY1|exact HF12|]; intros w Hw; exact (Nrs w (OldY w Hw))).
  apply wp_must. eapply wp_conseq; [apply (wp_BackwardCrossEntropy s2 (e_ref e3) l3 (e_rw e3) (e_rb e3) (e_p e3) out2 rsl n X2 by_ rsy Y out3 rs (pmap n o clip1 O3) Hl32 Hlo32 HX22 Hn)|].
  { rewrite Eo. exact HBY2. } { rewrite Eo. exact HO3c. }
  cbv beta. intros g3 s3 ((rgw & rgb & rgx & Fw & Fb & Fx & DD1 & DD2 & DD3) & HE23).
  assert (HF13 : frame (among rs) s1 s3 /\ Repr.rest s1 s3) by (eapply frame_ext_after; eauto). destruct HF13 as [HF13 HR13].
  assert (N01 := frame_nrows _ _ _ HF01). assert (N12 := frame_nrows _ _ _ HF12). assert (N13 := frame_nrows _ _ _ HF13).
  rewrite Eo in Fw, Fb, Fx. set (G3 := pce_back n o Y (pmap n o clip1 O3)) in *.
  assert (FX3 : fresh s2 rgx) by apply Fx.
  assert (Nrx : forall w, (w <= nrows s1)%nat -> ~ In w rgx) by (intros w Hw Hw'; pose proof (fresh_in _ _ _ FX3 Hw'); lia).
  (* the other two layers *)
  apply (hand_bwd m (e_ref e1) (e_ref e2) (e_ref e3) bx out1 out2 out3 (g_x g3) (MkGrad (g_w g3) (g_b g3))); [exact L1|exact L2|].
  assert (HR3 : fwd_rep s3 true [e1; e2] n X U q [out1; out2] rss0).
  { eapply (fwd_rep_frame _ []); [exact HR0|exact HF13|apply layers_kept_eq; apply HR13| |intros _ w _ []].
    intros w [Hw|Hw]; [intros Hw'; apply (D0 w Hw); rewrite in_app_iff; now left|].
    apply Nrs, OldP. change es with ([e1; e2] ++ [e3]). rewrite prows_app, in_app_iff. now left. }
  apply (wp_bwd_mid m [e1; e2] [] [e3] s3 [] bx [out3] [out1; out2] rss0 rsx n X U q i (p_in (e_p e3)) (g_x g3) rgx
    (pdX n (p_in (e_p e3)) o G3 (p_w (e_p e3))) [MkGrad (g_w g3) (g_b g3)]); auto.
  - rewrite L2. simpl. lia.
  - inversion_clear HK as [|? ? K1 HK']. inversion_clear HK' as [|? ? K2 _]. auto.
  - eapply own_frame; [exact HBX1|exact HF13|]. intros w Hw. exact (Nrs w (OldX w Hw)).
  - apply Fx.
  - apply Fx.
  - intros w Hw. apply Nrx. rewrite !in_app_iff in Hw. destruct Hw as [Hw|[Hw|Hw]].
    + specialize (OldX w Hw). lia.
    + assert (w <= nrows s)%nat; [|lia]. apply OldP. change es with ([e1; e2] ++ [e3]). rewrite prows_app, in_app_iff. now left.
    + rewrite Forall_forall in HOld0. exact (HOld0 w Hw).
  - eapply Forall_impl; [|exact HOld0]. cbv beta. intros; lia.
  - intros s4 dv' rsg' gs grws. fold ps. destruct (pback_from ps n X U q _) as [G' Gs] eqn:EB.
    intros _ _ _ HGr HFg _ HF34 HR34. cbn [length backward_loop]. apply wp_ret. intros g2 g1 EG.
    destruct gs as [|ga [|gb [|gc gs]]]; try (exfalso; apply (f_equal (@List.length _)) in EG; rewrite app_length, rev_length in EG; simpl in EG; lia). simpl in EG. injection EG as -> ->.
    destruct Gs as [|Ga [|Gb [|Gc Gs]]], grws as [|[rwa rba] [|[rwb rbb] [|? grws]]]; simpl in HGr; try tauto.
    destruct HGr as (GA1 & GA2 & GB1 & GB2 & _).
    set (m' := MkModel (K := K) 3 0 0 0 None 0 f0 0 [] [e_ref e3; e_ref e2; e_ref e1] [x_ref x3; x_ref x2; x_ref x1]).
    apply (hand_upd m' (e_ref e1) (e_ref e2) (e_ref e3) (x_ref x1) (x_ref x2) (x_ref x3) (MkGrad (g_w g1) (g_b g1)) (MkGrad (g_w g2) (g_b g2)) (MkGrad (g_w g3) (g_b g3)));
      [reflexivity|reflexivity|reflexivity|].
    set (D3 := (pdW n (p_in (e_p e3)) o X2 G3, psum0 n o G3)).
    assert (N34 := frame_nrows _ _ _ HF34).
    assert (HF03 : frame nothing s s3) by (eapply frame_fresh'; [exact HF01|exact HF13|exact HFrs]).
    assert (HF04 : frame nothing s s4) by (eapply frame_fresh'; [exact HF03|exact HF34|]; eapply fresh_mono; [|exact FX3]; lia).
    assert (HR14 : Repr.rest s1 s4) by (eapply rest_trans; eauto).
    assert (E4 : train_effect es xs (net_draws true (net es) n) [] s s4).
    { destruct HR14 as (A1 & A2 & A3 & A4 & A5). split; [apply frame_nothing, HF04|].
      split; [eapply layers_kept_trans; [exact HKl|eapply (layers_kept_eq []); exact A1| |]; auto using incl_refl; intros w []|].
      split; [apply opts_kept_eq; congruence|]. rewrite A3. split; [exact HG|]. rewrite app_nil_r. split; congruence. }
    assert (HLo4 : Forall (lok s4) es).
    { eapply Forall_impl; [|exact L6]. intros e He. destruct E4 as (_ & E4 & _). eapply lok_kept; [exact He|exact HF04|exact E4|intros ? _ []]. }
    assert (HOO4 : Forall2 (ook s4) es xs).
    { eapply Forall2_in; [|exact HOO]. intros e x0 He Hx' H. eapply (ook_frame _ []); [exact H|exact HF04| |intros []|intros w _ []].
      apply opts_kept_eq. destruct HR14 as (_ & A2 & _). congruence. }
    assert (PP : Permutation (prows es) (prows [e3; e2; e1])) by apply perm3.
    assert (PO' : Permutation (orows xs) (orows [x3; x2; x1])) by apply perm3.
    assert (HL3' : Forall (lok s4) [e3; e2; e1]) by exact (Forall_rev HLo4).
    eapply wp_conseq; [eapply (wp_upd_loop m' [e3; e2; e1] [] [] [x3; x2; x1] [] [MkGrad (g_w g3) (g_b g3); MkGrad (g_w g2) (g_b g2); MkGrad (g_w g1) (g_b g1)]
      [D3; Gb; Ga] [(rgw, rgb); (rwb, rbb); (rwa, rba)] s4); try reflexivity|].
    + exact HL3'.
    + eapply Permutation_NoDup; eauto.
    + inversion_clear HOO4 as [|? ? ? ? O1 HO']. inversion_clear HO' as [|? ? ? ? O2 HO'']. inversion_clear HO'' as [|? ? ? ? O3' _]. auto.
    + exact (NoDup_rev NX).
    + intros w Hw Hw'. apply (HDO w); [exact (Permutation_in _ (Permutation_sym PP) Hw)|exact (Permutation_in _ (Permutation_sym PO') Hw')].
    + cbn [net map e_p grads_rep g_dw g_db fst snd D3]. rewrite Eo. split; [|split; [|auto]].
      * eapply own_frame; [apply Fw|exact HF34|]. exact DD2.
      * eapply own_frame; [apply Fb|exact HF34|]. exact DD3.
    + eapply (disjoint_old_fresh s2); [|].
      * rewrite Forall_forall. intros w Hw. apply Permutation_sym in PP. pose proof (OldP w (Permutation_in _ PP Hw)). lia.
      * unfold orow_all in *. cbn [map concat fst snd] in *. rewrite app_nil_r in *. unfold fresh in *. rewrite !Forall_app in *.
        assert (N23 := frame_nrows _ _ _ (proj1 HE23)). destruct HFg as ((F1 & F2) & F3 & F4).
        assert (MM : forall l, Forall (fun r => (nrows s3 < r)%nat) l -> Forall (fun r => (nrows s2 < r)%nat) l)
          by (intros l; apply Forall_impl; intros; lia).
        repeat split; auto; [apply Fw|apply Fb].
    + intros [] s5 (es' & xs' & SP & SO & HTr & HL5 & HO5 & Ff & HF5 & HR5 & HK5).
      destruct es' as [|e3' [|e2' [|e1' [|? ?]]]]; try (exfalso; apply Forall2_length in SP; discriminate).
      destruct xs' as [|x3' [|x2' [|x1' [|? ?]]]]; try (exfalso; apply Forall2_length in SO; discriminate).
      assert (SP' : Forall2 same_place es [e1'; e2'; e3']).
      { inversion_clear SP as [|? ? ? ? O1 HO']. inversion_clear HO' as [|? ? ? ? O2 HO'']. inversion_clear HO'' as [|? ? ? ? O3' _]. unfold es. auto. }
      assert (SO' : Forall2 same_oplace xs [x1'; x2'; x3']).
      { inversion_clear SO as [|? ? ? ? O1 HO']. inversion_clear HO' as [|? ? ? ? O2 HO'']. inversion_clear HO'' as [|? ? ? ? O3' _]. unfold xs. auto. }
      assert (Ff' : fresh s4 (orows [x1'; x2'; x3'])).
      { unfold fresh in *. rewrite Forall_forall in *. intros w Hw. apply Ff. eapply Permutation_in; [|exact Hw]. apply (perm3 (fun x => x_ro x) x1' x2' x3'). }
      assert (N04 := frame_nrows _ _ _ HF04).
      destruct (same_place_maps _ _ SP') as (M1 & M2 & M3). destruct (same_oplace_map _ _ SO') as (M4 & M5).
      assert (HF5' : frame (among (prows es)) s4 s5).
      { eapply frame_weaken; [exact HF5|]. intros w _ Hw. unfold among in *. eapply Permutation_in; [apply Permutation_sym; exact PP|exact Hw]. }
      assert (HF05 : frame (among (prows es)) s s5) by (eapply frame_trans; [exact HF04|exact HF5'|]; intros w _ [[]|Hw]; exact Hw).
      apply (HQ s5 e1' e2' e3' x1' x2' x3').
      * split; [|split; [|split; [|split; [|split; [|split; [|split; [|split; [|split]]]]]]]].
        -- split; [congruence|]. split; [congruence|]. split; [exact L3|]. split; [exact L4|]. split; [eapply same_place_chain; eauto|exact (Forall_rev HL5)].
        -- unfold unshared. rewrite M1, M2. auto.
        -- simpl; lia.
        -- congruence.
        -- rewrite M4. exact NX.
        -- inversion_clear HO5 as [|? ? ? ? O1 HO']. inversion_clear HO' as [|? ? ? ? O2 HO'']. inversion_clear HO'' as [|? ? ? ? O3' _]. auto.
        -- rewrite M2. eapply disjoint_old_fresh; [|eapply fresh_mono; [exact N04|exact Ff']]. rewrite Forall_forall. exact OldP.
        -- exact HLs.
        -- exact HLt.
        -- exact (same_place_kind _ _ (fun kd => kd <> SigmoidK) SP' HK).
      * exact SP'.
      * apply same_slots_fresh; [exact SO'|eapply fresh_mono; [exact N04|exact Ff']].
      * split; [eapply own_frame; [exact HX|exact HF05|]; exact DX|]. split; [eapply own_frame; [exact HY|exact HF05|]; exact DY|]. rewrite M2. auto.
      * assert (EH : snd (hand_backprop Y (net es) n X U q) = [Ga; Gb; D3]).
        { change (net es) with (ps ++ [e_p e3]). rewrite hand_backprop_snoc. fold X2. fold q2. cbn [hand_backprop]. cbv zeta. fold O3. rewrite Eo. fold G3. rewrite EB. reflexivity. }
        rewrite EH. unfold trainer in *. cbn [net map combine fst snd] in *. injection HTr as T3 T2 T1. rewrite T1, T2, T3. reflexivity.
      * replace (net_draws true (net es) n) with (net_draws true (net es) n + 0)%nat by lia.
        change (@nil (logline K)) with (@nil (logline K) ++ []). eapply train_effect_trans; [exact E4|].
        destruct HR5 as (A1 & A2 & A3 & A4). split; [exact HF5'|]. split; [apply layers_kept_eq; exact A1|].
        split; [eapply opts_kept_trans; [apply opts_kept_refl|exact HK5| |]; [apply incl_refl|]; intros w Hw; simpl in *; tauto|].
        rewrite A2, adv_uni_0, app_nil_r. auto.
Qed.
(** ** All epochs *)
Lemma like_kind (p p' : player K) : like p p' -> p_kind p' = p_kind p. Proof. intros H; apply H. Qed.
Lemma like_draws (p p' : player K) r : like p p' -> pdraws p' r = pdraws p r.
Proof. intros (H1 & H2 & H3 & _). unfold pdraws. rewrite H1, H3. reflexivity. Qed.
Lemma draws_same (es es' : list (lent K)) n : Forall2 same_place es es' -> net_draws true (net es') n = net_draws true (net es) n.
Proof.
  induction 1 as [|e e' l l' (_ & _ & _ & H) _ IH]; [reflexivity|]. unfold net_draws, net in *. cbn [map fold_right player_draws] in *. rewrite IH.
  now rewrite (like_draws _ _ n H).
Qed.
Lemma wp_hand_epochs epochs : forall s m e1 e2 e3 x1 x2 x3 i o x rsx y rsy n X Y,
  let es := [e1; e2; e3] in let xs := [x1; x2; x3] in
  trainable s m es xs i o CE -> p_kind (e_p e3) = SoftmaxK -> data_ok s es x rsx y rsy n i o X Y -> (1 <= n)%nat ->
  wp (hand_epochs epochs (e_ref e1) (e_ref e2) (e_ref e3) (x_ref x1) (x_ref x2) (x_ref x3) (MkLoss CE (Z.of_nat o)) x y (Z.of_nat n)) s (fun b s' => b = true /\
    train_result s s' m es xs i o CE (hand_train epochs (trainer es xs) X Y (r_uni (h_rng s)) (r_upos (h_rng s))) (epochs * net_draws true (net es) n) [] /\
    own s' x rsx n i X /\ own s' y rsy n o Y).
Proof.
  induction epochs as [|epochs IH]; intros s m e1 e2 e3 x1 x2 x3 i o x rsx y rsy n X Y es xs HT H3 HD Hn.
  - apply wp_ret. split; [reflexivity|]. destruct HD as (HX & HY & _). split; [|auto]. exists es, xs. split; [exact HT|].
    split; [repeat constructor; auto|]. split; [repeat constructor; auto|]. split; [reflexivity|].
    split; [apply frame_refl|]. split; [apply layers_kept_refl|]. split; [apply opts_kept_refl|]. cbn [hand_train Nat.mul]. rewrite adv_uni_0, app_nil_r. auto.
  - eapply (wp_hand_epoch epochs s m e1 e2 e3 x1 x2 x3); [exact HT|exact H3|exact HD|exact Hn|].
    intros s' e1' e2' e3' x1' x2' x3' es' xs' HT' SP SS HD' HTr HE.
    destruct (same_place_maps _ _ SP) as (M1 & M2 & M3). destruct (same_oplace_map _ _ (same_slots_places _ _ _ SS)) as (M4 & M5).
    unfold es, es', xs, xs' in M1, M4. cbn [map] in M1, M4. injection M1 as A1 A2 A3. injection M4 as B1 B2 B3.
    rewrite <- A1, <- A2, <- A3, <- B1, <- B2, <- B3.
    assert (K3 : p_kind (e_p e3') = SoftmaxK).
    { inversion_clear SP as [|? ? ? ? O1 HO']. inversion_clear HO' as [|? ? ? ? O2 HO'']. inversion_clear HO'' as [|? ? ? ? O3' _].
      destruct O3' as (_ & _ & _ & O3'). rewrite (like_kind _ _ O3'). exact H3. }
    eapply wp_conseq; [apply (IH s' m e1' e2' e3' x1' x2' x3' i o x rsx y rsy n X Y HT' K3 HD' Hn)|]. cbv beta zeta. fold es' xs'.
    intros b s2 (-> & (es2 & xs2 & T2 & SP2 & SS2 & Tr2 & E2) & HX2 & HY2). split; [reflexivity|]. split; [|auto].
    assert (ED : net_draws true (net es') n = net_draws true (net es) n).
    { exact (draws_same es es' n SP). }
    assert (LX : length X = n) by (apply (own_shape _ _ _ _ _ _ HX2)).
    assert (LT : map fst (trainer es xs) = net es) by (apply trainer_net; reflexivity).
    destruct HE as (F1 & K1 & O1 & G1 & Lg1 & Ll1).
    exists es2, xs2. split; [exact T2|]. split; [eapply same_place_trans; eauto|]. split; [eapply same_slots_trans; [eapply frame_nrows; exact F1|exact SS|exact SS2]|]. split.
    + rewrite Tr2, HTr. cbn [hand_train]. rewrite LT, LX, G1. reflexivity.
    + cbn [Nat.mul]. rewrite ED in E2. change (@nil (logline K)) with (@nil (logline K) ++ []).
      eapply train_effect_trans; [|eapply train_effect_places; [exact SP|exact (same_slots_places _ _ _ SS)|exact E2]]. split; [exact F1|]. auto.
Qed.
End AnyNum.
