(** * SigShape: models with a sigmoid layer that is not square. *)
From Coq Require Import String ZArith List Bool Arith Lia.
From Verif Require Import Num Heap Spec Matrix Activation Misc Accuracy Loss Network Optimizers ModelGo PureSpec Repr HeapLemmas LoopLemmas MatrixProofs MatrixFacts ActivationProofs MiscProofs LayerProofs LayerFacts LossProofs LossCode SgdShape OptSpec OptProofs OptFacts ModelSpec ModelProofs EvalProofs FitProofs FitLoop SigSpec SigFit SigLoop.
Import ListNotations.
Open Scope Z_scope.
Open Scope go_scope.

Section WithNum.
Context {K : Num}.
Implicit Types (s : state K) (p : player K) (ps : list (player K)) (es : list (lent K)) (X Y : pm K).

Lemma grads_rep_len s ps : forall gs Gs grws, grads_rep s ps gs Gs grws -> length gs = length ps.
Proof.
  induction ps as [|p ps IH]; intros [|g gs] [|G Gs] [|grw grws] H; simpl in *; try contradiction; try (destruct grw); try (destruct G); try tauto.
  f_equal. eapply IH. apply H.
Qed.
(** ** Down to the layer [e] *)
Lemma scut_T T m es1 e esm esr s pre xe rse post Xe Xi U q E r out outsm rs rsm rssm o dv rsg G grads : through T ->
  m_layers m = map e_ref (es1 ++ e :: esm ++ esr) -> Z.of_nat (length es1 + S (length esm)) <= m_size m ->
  (forall es0 e', esm = es0 ++ [e'] -> Z.of_nat (length es1 + S (length esm)) <= m_size m - 1 \/ p_kind (e_p e') <> SoftmaxK \/ m_losstype m <> 2) ->
  length pre = length es1 -> chain (p_out (e_p e)) (net esm) o -> Forall square esm ->
  srep s (e :: esm) r Xe U q E (out :: outsm) ((rs, rsm) :: rssm) ->
  own s xe rse r (p_in (e_p e)) Xi -> (1 <= r)%nat -> own s dv rsg r o G -> NoDup rsg ->
  NoDup (rs ++ orow_all rssm) -> disjoint (prows (e :: esm)) (rs ++ orow_all rssm) -> disjoint rse (rs ++ orow_all rssm) ->
  disjoint (prows (e :: esm) ++ rse ++ rs ++ orow_all rssm) rsg -> Forall (fun y => (y <= nrows s)%nat) (orow_all rssm) ->
  (forall s' l dv' rsg' G' grads', nth_error (h_layers s') (e_ref e) = Some l -> lown s' l (e_rw e) (e_rb e) (e_p e) ->
     own s' xe rse r (p_in (e_p e)) Xi -> own s' dv' rsg' r (p_out (e_p e)) G' -> disjoint rsg' rse -> rest s s' ->
     length grads' = (length grads + length esm)%nat ->
     T (backward_loop m (pre ++ xe :: out :: outsm ++ post) (S (length es1)) dv' grads') s') ->
  T (backward_loop m (pre ++ xe :: out :: outsm ++ post) (length es1 + S (length esm)) dv grads) s.
Proof.
  intros HT HL HS HSm Hpre HC HK HR Hxe Hr Hdv NDg NDo DP De DG HOld HQ.
  destruct HR as (HO & (l & Hl & Hlo & Hca) & HR). rewrite prows_cons in DP, DG.
  replace (length es1 + S (length esm))%nat with (length (es1 ++ [e]) + length esm)%nat by (rewrite app_length; simpl; lia).
  replace (pre ++ xe :: out :: outsm ++ post) with ((pre ++ [xe]) ++ out :: outsm ++ post) by (rewrite <- app_assoc; reflexivity).
  eapply (sbwd_T T m esm HT (es1 ++ [e]) esr s (pre ++ [xe]) out post outsm rssm rs r _ U _ E (p_out (e_p e)) o dv rsg G); auto.
  - rewrite HL, <- app_assoc. reflexivity.
  - rewrite app_length. simpl. lia.
  - intros es0 e' Es. destruct (HSm es0 e' Es) as [H|H]; [left|right; exact H]. rewrite app_length. simpl. lia.
  - rewrite !app_length. simpl. lia.
  - exact HR.
  - exact HO.
  - intros z Hz. apply DP. rewrite in_app_iff. auto.
  - intros z Hz. apply DG. rewrite !in_app_iff in *. tauto.
  - intros s' dv' rsg' gs grws. destruct (sback_from (net esm) r _ U _ E G) as [[G' Gs] X'].
    intros Hdv' _ Hr' _ HGr _ _ HF HRe.
    rewrite app_length. cbn [length]. rewrite Nat.add_1_r, <- app_assoc. cbn [app].
    assert (Nx : forall z, In z rse -> ~ In z (rsg ++ rs ++ orow_all rssm)).
    { intros z Hz. rewrite in_app_iff. intros [H|H]; [apply (DG z); [rewrite !in_app_iff; tauto|exact H]|exact (De z Hz H)]. }
    apply (HQ s' l dv' rsg' G').
    + rewrite (rest_layers _ _ HRe). exact Hl.
    + eapply lown_frame; [exact Hlo|exact HF|]. intros z Hz. unfold among. rewrite in_app_iff. intros [H|H].
      * apply (DG z); [rewrite !in_app_iff; tauto|exact H].
      * apply (DP z); [rewrite !in_app_iff; tauto|exact H].
    + eapply own_frame; [exact Hxe|exact HF|]. exact Nx.
    + exact Hdv'.
    + intros z Hz Hz'. destruct Hr' as [->|Hr']; [apply (Nx z Hz'); rewrite in_app_iff; auto|].
      pose proof (fresh_in _ _ _ Hr' Hz). pose proof (own_old_in _ _ _ _ _ _ _ Hxe Hz'). lia.
    + exact HRe.
    + rewrite app_length, rev_length, (grads_rep_len _ _ _ _ _ HGr). unfold net. now rewrite map_length.
Qed.

(** ** Cutting a forward pass at [e] *)
Lemma fwd_cut s e es2 r : forall es1 X U q outs rss x rsx i o,
  fwd_rep s true (es1 ++ e :: es2) r X U q outs rss -> own s x rsx r i X -> NoDup rsx -> chain i (net (es1 ++ e :: es2)) o ->
  NoDup (orow_all rss) -> disjoint rsx (orow_all rss) ->
  exists pre xe rse Xe qe out outs2 rs rsm rss1 rss2,
    x :: outs = pre ++ xe :: out :: outs2 /\ length pre = length es1 /\ rss = rss1 ++ (rs, rsm) :: rss2 /\
    own s xe rse r (p_in (e_p e)) Xe /\ NoDup rse /\ disjoint rse (orow_all ((rs, rsm) :: rss2)) /\
    (forall z, In z rse -> In z rsx \/ In z (orow_all rss)) /\
    fwd_rep s true (e :: es2) r Xe U qe (out :: outs2) ((rs, rsm) :: rss2) /\ chain (p_in (e_p e)) (net (e :: es2)) o.
Proof.
  induction es1 as [|e0 es1 IH]; intros X U q outs rss x rsx i o HR Hx NDx HC NDr HD.
  - destruct outs as [|out outs]; [contradiction|]. destruct rss as [|[rs rsm] rss]; [contradiction|].
    assert (Hi : p_in (e_p e) = i) by (destruct HC as [HC _]; auto).
    exists [], x, rsx, X, q, out, outs, rs, rsm, [], rss. rewrite Hi. repeat (split; [reflexivity|]).
    split; [exact Hx|]. split; [exact NDx|]. split; [exact HD|]. split; [auto|]. split; [exact HR|exact HC].
  - destruct outs as [|out outs]; [contradiction|]. destruct rss as [|[rs rsm] rss]; [contradiction|].
    destruct HR as (HO & ND & _ & HR). destruct HC as [_ HC]. rewrite orow_all_cons in NDr. cbn [fst snd] in NDr.
    apply NoDup_app_inv in NDr as (NDm & NDt & Dm).
    destruct (IH _ U _ outs rss out rs (p_out (e_p e0)) o HR HO ND HC NDt) as
      (pre & xe & rse & Xe & qe & out' & outs2 & rs' & rsm' & rss1 & rss2 & E1 & E2 & E3 & E4 & E5 & E6 & E7 & E8 & E9).
    { intros z Hz. apply Dm. rewrite in_app_iff. auto. }
    exists (x :: pre), xe, rse, Xe, qe, out', outs2, rs', rsm', ((rs, rsm) :: rss1), rss2.
    split; [rewrite E1; reflexivity|]. split; [simpl; lia|]. split; [rewrite E3; reflexivity|]. split; [exact E4|]. split; [exact E5|].
    split; [exact E6|]. split; [|split; [exact E8|exact E9]].
    intros z Hz. right. rewrite orow_all_cons. cbn [fst snd]. rewrite !in_app_iff. destruct (E7 z Hz); auto.
Qed.

(** ** The backward pass, down to the sigmoid layer [e] *)
Definition hready s m es1 e es2 (i o : nat) (k : losskind) x rsx r (X : pm K) y rsy (Y : pm K) U q outs rss : Prop :=
  let es := es1 ++ e :: es2 in
  consistent s m es i o /\ m_loss m = Some (MkLoss k (Z.of_nat o)) /\ m_losstype m = losskind_code k /\
  p_kind (e_p e) = SigmoidK /\ Forall square es2 /\
  fwd_rep s true es r X U q outs rss /\ own s x rsx r i X /\ own s y rsy r o Y /\ (1 <= r)%nat /\
  Forall (fun z => (z <= nrows s)%nat) (orow_all rss) /\ NoDup (orow_all rss) /\
  disjoint (rsx ++ rsy ++ prows es) (orow_all rss) /\ NoDup rsx /\ disjoint rsx (rsy ++ prows es).
Lemma Backward_down T s m es1 e es2 i o k x rsx r X y rsy Y U q outs rss : through T ->
  hready s m es1 e es2 i o k x rsx r X y rsy Y U q outs rss ->
  (forall s' pre xe post rse Xe l dv rsg G grads, x :: outs = pre ++ xe :: post -> length pre = length es1 ->
     nth_error (h_layers s') (e_ref e) = Some l -> lown s' l (e_rw e) (e_rb e) (e_p e) ->
     own s' xe rse r (p_in (e_p e)) Xe -> NoDup rse -> own s' dv rsg r (p_out (e_p e)) G ->
     disjoint rsg rse -> disjoint (e_rw e) rse -> disjoint (e_rb e) rse -> rest s s' -> length grads = length es2 ->
     T (backward_loop m (x :: outs) (S (length es1)) dv grads) s') ->
  T (Backward m (x :: outs) y) s.
Proof.
  intros HT ((HL & HS & Hi & Ho & HC & HLo) & HLoss & HLt & Hsig & HK & HR & Hx & Hy & Hr & HOld & HND & HDis & NDx & HDx) HQ.
  set (es := es1 ++ e :: es2) in *.
  assert (Dx : disjoint rsx (orow_all rss)) by (intros z Hz; apply HDis; rewrite !in_app_iff; auto).
  destruct (fwd_cut s e es2 r es1 X U q outs rss x rsx i o HR Hx NDx HC HND Dx) as
    (pre & xe & rse & Xe & qe & out & outs2 & rs & rsm & rss1 & rss2 & Eo & Lpre & Er & Hxe & NDe & De & Ie & HRe & HCe).
  assert (Sub : forall z, In z (orow_all ((rs, rsm) :: rss2)) -> In z (orow_all rss)).
  { intros z Hz. rewrite Er, orow_all_app, in_app_iff. auto. }
  assert (NDo : NoDup (orow_all ((rs, rsm) :: rss2))) by (rewrite Er, orow_all_app in HND; apply NoDup_app_inv in HND; apply HND).
  rewrite orow_all_cons in NDo, De, Sub. cbn [fst snd] in NDo, De, Sub.
  assert (NDo' : NoDup (rs ++ orow_all rss2)).
  { apply NoDup_app_inv in NDo as (A & B & C). apply NoDup_app_inv in A as (A & _ & _). apply NoDup_app_; auto.
    intros z Hz. apply C. rewrite in_app_iff. auto. }
  assert (Pin : forall z, In z (prows (e :: es2)) -> In z (prows es)).
  { intros z Hz. unfold es. rewrite prows_app, in_app_iff. auto. }
  assert (Dse : disjoint (prows es) rse).
  { intros z Hz Hz'. destruct (Ie z Hz') as [H|H].
    - apply (HDx z H). rewrite in_app_iff. auto.
    - apply (HDis z); [rewrite !in_app_iff; auto|exact H]. }
  assert (Dpo : disjoint (prows es) (orow_all rss)) by (intros z Hz; apply HDis; rewrite !in_app_iff; auto).
  assert (Oz : forall z, In z (prows es) \/ In z (orow_all rss) \/ In z rsx -> (z <= nrows s)%nat).
  { intros z [Hz|[Hz|Hz]].
    - eapply prows_old; eauto.
    - rewrite Forall_forall in HOld. auto.
    - exact (own_old_in _ _ _ _ _ _ _ Hx Hz). }
  assert (Ine : In e es) by (unfold es; rewrite in_app_iff; simpl; auto).
  assert (Pe : forall z, In z (e_rw e) \/ In z (e_rb e) -> In z (prows es)).
  { intros z Hz. unfold es. rewrite prows_app, prows_cons, !in_app_iff. tauto. }
  assert (Lout : length outs = length es) by (apply (proj1 (fwd_rep_length _ _ _ _ _ _ _ _ _ HR))).
  assert (Les : length es = (length es1 + S (length es2))%nat) by (unfold es; rewrite app_length; reflexivity).
  assert (Lo2 : length (out :: outs2) = length (e :: es2)) by (apply (proj1 (fwd_rep_length _ _ _ _ _ _ _ _ _ HRe))).
  assert (Hes : (1 <= length (e :: es2))%nat) by (simpl; lia).
  destruct (list_snoc (e :: es2) Hes) as (es0 & el & Ees).
  assert (HRl := HRe). rewrite Ees in HRl.
  destruct (fwd_rep_snoc _ _ _ _ _ _ _ _ _ _ HRl) as (outs0 & outl & rss0 & rsl & rslm & Eouts & Erss & HR0 & HRel).
  assert (HC0 := HCe). rewrite Ees, net_app in HC0. apply chain_snoc in HC0 as [HC0 HOe]. cbn in HOe.
  assert (Sl : In el es). { assert (In el (e :: es2)) by (rewrite Ees, in_app_iff; simpl; auto). unfold es. rewrite in_app_iff. auto. }
  assert (Irl : forall z, In z rsl -> In z (orow_all rss)).
  { intros z Hz. apply Sub. rewrite <- (orow_all_cons rs rsm rss2), Erss, orow_all_app. unfold orow_all at 2. cbn [map concat fst snd]. rewrite !in_app_iff. auto. }
  destruct HRel as (HO & NDl & HCa & _). destruct (HCa eq_refl) as (l & Hl & Hlo & Hca). clear HCa.
  set (Xl := pend true (net es0) r Xe U qe) in *. set (ql := (qe + net_draws true (net es0) r)%nat) in *.
  cbn [player_out] in HO, Hca. set (O := ptrain (e_p el) r Xl (from U ql)) in *.
  assert (Hkind : l_kind l = p_kind (e_p el)) by apply Hlo.
  assert (Le0 : length es2 = length es0).
  { apply (f_equal (@length _)) in Ees. rewrite app_length in Ees. simpl in Ees. lia. }
  assert (Lm : m_size m - 1 = Z.of_nat (length es1 + length es0)) by lia.
  assert (HLe : m_layers m = map e_ref (es1 ++ es0) ++ [e_ref el]).
  { rewrite HL. unfold es. rewrite Ees, app_assoc, map_app. reflexivity. }
  assert (Hpos := chain_pos _ _ el HLo Sl). destruct Hpos as [Pi Po].
  assert (Eout : x :: outs = (pre ++ xe :: outs0) ++ [outl]) by (rewrite Eo, Eouts, <- app_assoc; reflexivity).
  assert (L0 : length outs0 = length es0) by (apply (proj1 (fwd_rep_length _ _ _ _ _ _ _ _ _ HR0))).
  unfold Backward. rewrite Lm.
  apply HT. eapply wp_eq; [apply go_nth_app' with (l1 := map e_ref (es1 ++ es0)) (x := e_ref el) (l2 := []); [exact HLe | now rewrite map_length, app_length]|].
  apply HT. eapply wp_eq; [apply is_softmax_run; exact Hl|].
  rewrite Hkind, HLt, code_ce.
  destruct ((match p_kind (e_p el) with SoftmaxK => true | _ => false end) && (match k with CE => true | _ => false end)) eqn:EF.
  - (* fused *)
    assert (p_kind (e_p el) = SoftmaxK /\ k = CE) as [Es Ek]
      by (destruct (p_kind (e_p el)); try discriminate; destruct k; try discriminate; auto).
    destruct es0 as [|e' es3]; [cbn [app] in Ees; injection Ees as <- _; congruence|].
    cbn [app] in Ees. injection Ees as <- Ees.
    destruct (fwd_rep_last _ _ _ _ _ _ _ _ _ xe rse _ _ HR0 Hxe HC0) as (pre' & xl & rsl' & EX & Lpre' & Hxl & Drsl).
    fold Xl in Hxl.
    apply HT. eapply wp_eq.
    { apply go_nth_app' with (l1 := pre ++ pre') (x := xl) (l2 := [outl]); [|rewrite app_length; lia].
      rewrite Eout, EX, <- !app_assoc. reflexivity. }
    assert (Hms : m_size m = Z.of_nat (length (pre ++ xe :: outs0))) by (rewrite app_length; simpl in *; lia).
    apply HT. rewrite Hms. eapply wp_eq.
    { apply go_nth_app' with (l1 := pre ++ xe :: outs0) (x := outl) (l2 := []); [exact Eout | reflexivity]. }
    rewrite <- HOe in Hy.
    apply HT. eapply wp_conseq; [eapply (wp_BackwardCrossEntropy s (e_ref el) l _ _ (e_p el) xl rsl' r Xl y rsy Y outl rsl O); eauto|].
    intros g s1 ((rgw & rgb & rgx & Fw & Fb & Fx & E1 & E2 & E3) & (HF & HRr)).
    rewrite Nat2Z.id. rewrite app_length. cbn [length]. rewrite L0. rewrite Nat.add_succ_r. cbn [backward_loop].
    rewrite Lpre.
    apply HT. eapply wp_eq; [apply go_nth_app' with (l1 := map e_ref (es1 ++ e :: es3)) (x := e_ref el) (l2 := []); [exact HLe | now rewrite map_length, app_length]|].
    apply HT. eapply wp_eq; [apply (is_softmax_run s1 _ l); rewrite (rest_layers _ _ HRr); exact Hl|].
    assert (Hlt : Z.of_nat (length es1 + length (e :: es3)) =? m_size m - 1 = true) by (rewrite Lm; apply Z.eqb_refl).
    rewrite HLt, code_ce, Hkind, EF, Hlt. cbn [andb].
    destruct outs0 as [|out' outs3]; [discriminate|]. destruct rss0 as [|[rs' rsm'] rss3]; [simpl in HR0; contradiction|].
    cbn [app] in Eouts, Erss. injection Eouts as <- Eouts. injection Erss as <- <- Erss.
    assert (Sub3 : forall z, In z (rs ++ orow_all rss3) -> In z (orow_all rss)).
    { intros z Hz. apply Sub. rewrite Erss, orow_all_app, !in_app_iff in *. tauto. }
    assert (N01 : (nrows s <= nrows s1)%nat) by (eapply frame_nrows; eauto).
    assert (P3 : forall z, In z (prows (e :: es3)) -> In z (prows es)).
    { intros z Hz. apply Pin. rewrite Ees. change (e :: es3 ++ [el]) with ((e :: es3) ++ [el]). rewrite prows_app, in_app_iff. auto. }
    rewrite Eo, Eouts.
    eapply (scut_T T m es1 e es3 [el] s1 pre xe rse [outl] Xe Xe U qe Xl r out outs3 rs rsm rss3 (p_in (e_p el)) (g_x g) rgx); auto.
    + rewrite HL. unfold es. rewrite Ees. reflexivity.
    + simpl in *. lia.
    + intros e1 e2 _. left. simpl in *. lia.
    + destruct HC0 as [_ HC0]. exact HC0.
    + rewrite Ees in HK. apply Forall_app in HK. apply HK.
    + eapply srep_frame; [apply fwd_srep0; exact HR0|exact HF|apply HRr|]. intros z _ [].
    + eapply own_frame; [exact Hxe|exact HF|]. intros z _ [].
    + apply Fx.
    + apply Fx.
    + rewrite Erss, orow_all_app, app_assoc in NDo'. apply NoDup_app_inv in NDo'. apply NDo'.
    + intros z Hz Hz'. exact (Dpo z (P3 z Hz) (Sub3 z Hz')).
    + intros z Hz Hz'. apply (De z Hz). rewrite Erss, orow_all_app, !in_app_iff in *. tauto.
    + eapply disjoint_old_fresh; [|apply Fx]. rewrite Forall_forall. intros z Hz. rewrite in_app_iff in Hz. destruct Hz as [Hz|Hz]; [auto|].
      rewrite in_app_iff in Hz. destruct Hz as [Hz|Hz]; [|auto]. apply Oz. destruct (Ie z Hz); auto.
    + rewrite Forall_forall. intros z Hz. assert (z <= nrows s)%nat; [|lia]. apply Oz. right. left. apply Sub3. rewrite in_app_iff. auto.
    + intros s' l' dv' rsg' G' grads' H1 H2 H3 H4 H5 HR5 HLg.
      rewrite <- Eouts, <- Eo. eapply (HQ s' pre xe _ rse Xe l' dv' rsg' G'); eauto.
      * intros z Hz. apply Dse. auto.
      * intros z Hz. apply Dse. auto.
      * eapply rest_trans; eauto.
      * simpl in *. lia.
  - (* through the loss *)
    rewrite HLoss. assert (Hms : m_size m = Z.of_nat (length (pre ++ xe :: outs0))) by (rewrite app_length; simpl in *; lia).
    apply HT. rewrite Hms. eapply wp_eq.
    { apply go_nth_app' with (l1 := pre ++ xe :: outs0) (x := outl) (l2 := []); [exact Eout | reflexivity]. }
    assert (Dy : disjoint rsl rsy).
    { intros z Hz Hz'. apply (HDis z); [rewrite !in_app_iff; tauto|auto]. }
    rewrite HOe in *.
    apply HT. eapply wp_conseq; [eapply (wp_Loss_Backward s k outl y rsl rsy r o O Y); eauto|].
    intros dv s1 ((rsg & Hdv) & HO1 & HF1 & HR1). destruct Hdv as (Hdv & Fdv & NDdv & _).
    assert (HFrs : frame (among rsl) s s1) by (eapply frame_weaken; [exact HF1|]; unfold clip_rows; destruct (bwd_clips k); unfold nothing; tauto).
    assert (Hmono := frame_nrows _ _ _ HF1).
    rewrite Nat2Z.id. replace (length (pre ++ xe :: outs0)) with (length es1 + S (length es2))%nat by (rewrite app_length; simpl; lia).
    rewrite Eo. replace (pre ++ xe :: out :: outs2) with (pre ++ xe :: out :: outs2 ++ []) by (rewrite app_nil_r; reflexivity).
    assert (Ise : forall z, In z (rs ++ orow_all rss2) -> In z (orow_all rss)).
    { intros z Hz. apply Sub. rewrite !in_app_iff in *. tauto. }
    eapply (scut_T T m es1 e es2 [] s1 pre xe rse [] Xe Xe U qe (clipped (bwd_clips k) r o O) r out outs2 rs rsm rss2 o dv rsg); auto.
    + rewrite HL, app_nil_r. reflexivity.
    + lia.
    + intros e1 e2 E1. right. assert (e2 = el). { rewrite E1, app_comm_cons in Ees. apply app_inj_tail in Ees. symmetry. symmetry. apply Ees. } subst e2.
      rewrite HLt. destruct (p_kind (e_p el)); try (left; discriminate). right. destruct k; discriminate.
    + destruct HCe as [_ HCe]. exact HCe.
    + rewrite Eouts, Erss. eapply (srep_last s s1 outl rsl rslm o); eauto.
      * rewrite <- Eouts, <- Erss. apply fwd_srep0. exact HRe.
      * apply HR1.
      * rewrite <- Erss, orow_all_cons. exact NDo.
      * intros z Hz Hz'. exact (Dpo z (Pin z Hz) (Irl z Hz')).
    + eapply own_frame; [exact Hxe|exact HFrs|]. intros z Hz Hz'. apply (De z Hz).
      rewrite <- (orow_all_cons rs rsm rss2), Erss, orow_all_app. unfold orow_all at 2. cbn [map concat fst snd]. rewrite !in_app_iff. auto.
    + exact Hdv.
    + intros z Hz Hz'. exact (Dpo z (Pin z Hz) (Ise z Hz')).
    + intros z Hz Hz'. apply (De z Hz). rewrite !in_app_iff in *. tauto.
    + eapply disjoint_old_fresh; [|exact Fdv]. rewrite Forall_forall. intros z Hz. rewrite in_app_iff in Hz. destruct Hz as [Hz|Hz]; [auto|].
      rewrite in_app_iff in Hz. destruct Hz as [Hz|Hz]; [|auto]. apply Oz. destruct (Ie z Hz); auto.
    + rewrite Forall_forall. intros z Hz. assert (z <= nrows s)%nat; [|lia]. apply Oz. right. left. apply Ise. rewrite in_app_iff. auto.
    + intros s' l' dv' rsg' G' grads' H1 H2 H3 H4 H5 HR5 HLg.
      rewrite app_nil_r, <- Eo. eapply (HQ s' pre xe _ rse Xe l' dv' rsg' G'); eauto.
      * intros z Hz. apply Dse. auto.
      * intros z Hz. apply Dse. auto.
      * eapply rest_trans; eauto.
Qed.

(** ** Programs that stop *)
Definition stopped {A} (z : err + panic_kind) : outcome A := match z with inl e => Fail e | inr p => Panic p end.
(** [c] stops with [z], leaving a state in which the logger is set or not, as [b] says. *)
Definition ends {A} (z : err + panic_kind) (b : bool) (c : M K A) s : Prop := exists s', c s = (stopped z, s') /\ h_logger s' = b.
Lemma ends_through {A} z b : through (ends (A := A) z b).
Proof. intros B c f s. unfold wp, ends, bind. destruct (c s) as [[a|e|p] s1]; tauto. Qed.
Lemma ends_bind {A B} z b (c : M K A) (f : A -> M K B) s : ends z b c s -> ends z b (bind c f) s.
Proof. intros (s' & E & H). exists s'. split; [|exact H]. destruct z; [now apply bind_fail|now apply bind_panic]. Qed.
Lemma ends_or_log {A} z b what (c : M K A) s : ends z b c s -> match z with inl _ => b = true | inr _ => True end -> ends z b (or_log what c) s.
Proof.
  intros (s' & E & H) HL. unfold ends, or_log, bind, catch. rewrite E. destruct z as [e|p]; cbn [stopped].
  - unfold log_print. rewrite H, HL. eexists. split; [reflexivity|]. simpl. congruence.
  - exists s'. auto.
Qed.

(** ** Wide sigmoid layers *)
Lemma wp_sig_wide s lref l rw rb p x rsx r X dv rsg G :
  nth_error (h_layers s) lref = Some l -> lown s l rw rb p -> p_kind p = SigmoidK ->
  (p_in p < p_out p)%nat -> (1 <= r)%nat ->
  own s x rsx r (p_in p) X -> own s dv rsg r (p_out p) G -> NoDup rsx -> disjoint rsg rsx ->
  disjoint rw rsx -> disjoint rb rsx ->
  wp (Layer_Backward lref x dv) s (fun g s' => exists rgw rgb dW dB,
    own s' (g_w g) rgw (p_in p) (p_in p) dW /\ own s' (g_b g) rgb 1 (p_in p) dB /\ g_x g = matrix0 /\
    frame (among rsx) s s' /\ rest s s').
Proof.
  intros Hl HL Hk Hio Hr HX HG HND HD D1 D2. pose proof HL as (H1&H2&H3&H4&H5&H6&H7&HW&HB).
  unfold Layer_Backward. get_l Hl. rewrite H1, Hk. unfold Sigmoid_Backward. get_l Hl.
  apply wp_bind. eapply wp_eq; [eapply check_backward_ok; eauto|].
  apply wp_bind.
  assert (HS : wp (SigmoidPrime x dv) s (inplace_result s x rsx r (p_in p) (mk r (p_in p) (fun i j => sigmoid_prime1 (entry X i j) (entry G i j))))).
  { unfold SigmoidPrime. apply wp_bind. eapply wp_conseq; [eapply wp_Sigmoid; eauto|].
    intros x' s1 (-> & HX1 & HF1 & HR1).
    assert (HG1 : own s1 dv rsg r (p_out p) G) by (eapply own_frame; [exact HG|exact HF1|exact HD]).
    apply wp_bind. eapply wp_conseq.
    { eapply wp_inplace with (f := fun i j => sigmoid_prime1 (entry X i j) (entry G i j)); [exact HX1|exact HND|].
      intros i j st A1 Hi Hj HO HFs HRs HE.
      apply wp_bind. eapply wp_eq; [eapply getc_own; [eapply own_frame; [exact HG1|exact HFs|exact HD]|auto|lia]|].
      apply wp_bind. eapply wp_eq; [eapply getc_own; eauto|].
      rewrite HE. unfold pmap. rewrite entry_mk by auto. eapply wp_setc; eauto. }
    simpl. intros _ s2 (HO2 & HF2 & HR2). apply wp_ret. split; [reflexivity|]. split; [exact HO2|].
    split; [|eapply rest_trans; eauto]. eapply frame_trans; [exact HF1|exact HF2|]. tauto. }
  eapply wp_conseq; [exact HS|]. intros x' s1 (-> & HX1 & HF1 & HR1).
  assert (HW1 : own s1 (l_w l) rw (p_in p) (p_out p) (p_w p)) by (eapply own_frame; [exact HW|exact HF1|exact D1]).
  unfold dense_backward.
  apply wp_bind. eapply wp_conseq; [eapply wp_T; eauto|]. intros it s2 (rs2 & HM2 & HE2).
  apply wp_bind. eapply wp_conseq; [eapply wp_T; [exact (own_ext _ _ _ _ _ _ _ HW1 HE2)| |]; eauto|]. intros wt s3 (rs3 & HM3 & HE3).
  pose proof (own_ext _ _ _ _ _ _ _ (proj1 HM2) HE3) as HI3.
  pose proof (own_ext _ _ _ _ _ _ _ HX1 (ext_trans _ _ _ HE2 HE3)) as HX3.
  apply wp_bind. eapply wp_conseq; [eapply wp_Dot; [exact HI3|exact HX3| |]; auto|]. intros dW s4 (rs4 & HM4 & HE4).
  apply wp_bind. eapply wp_conseq; [eapply wp_Sum0; [exact (own_ext _ _ _ _ _ _ _ HX3 HE4)|auto]|]. intros dB s5 (rs5 & HM5 & HE5).
  pose proof (own_ext _ _ _ _ _ _ _ HX3 (ext_trans _ _ _ HE4 HE5)) as HX5.
  apply wp_bind. eapply wp_eq with (a := matrix0) (s' := s5).
  { unfold ignore_err. rewrite Dot_err; [reflexivity|].
    rewrite (own_cols _ _ _ _ _ _ HX5), (own_rows _ _ _ _ _ _ (proj1 HM3)). lia. }
  apply wp_ret. simpl.
  destruct HM4 as (HO4 & _). destruct HM5 as (HO5 & _).
  assert (HE : ext s1 s5) by (eapply ext_trans; [eapply ext_trans; [exact HE2|exact HE3]|eapply ext_trans; [exact HE4|exact HE5]]).
  exists rs4, rs5. eexists. eexists. split; [exact (own_ext _ _ _ _ _ _ _ HO4 HE5)|]. split; [exact HO5|]. split; [reflexivity|].
  destruct HE as [HE1 HE6]. split; [|eapply rest_trans; eauto]. eapply frame_trans; [exact HF1|exact HE1|]. intros z _ [Hz|[]]. exact Hz.
Qed.

(** ** The three ways to fail *)
Lemma step_e m es1 e es2 outs l dv grads s (T : M K (list gradients) -> state K -> Prop) pre xe post : through T ->
  m_layers m = map e_ref (es1 ++ e :: es2) -> outs = pre ++ xe :: post -> length pre = length es1 ->
  nth_error (h_layers s) (e_ref e) = Some l -> l_kind l <> SoftmaxK \/ (1 <= length es2)%nat -> m_size m = Z.of_nat (length (es1 ++ e :: es2)) ->
  T (g <- Layer_Backward (e_ref e) xe dv ;; backward_loop m outs (length es1) (g_x g) (grads ++ [MkGrad (g_w g) (g_b g)])) s ->
  T (backward_loop m outs (S (length es1)) dv grads) s.
Proof.
  intros HT HL Eo Lp Hl Hk HS H. cbn [backward_loop].
  apply HT. eapply wp_eq; [apply go_nth_app' with (l1 := map e_ref es1) (x := e_ref e) (l2 := map e_ref es2); [rewrite HL, map_app; reflexivity|now rewrite map_length]|].
  apply HT. eapply wp_eq; [apply is_softmax_run; exact Hl|].
  replace (match l_kind l with SoftmaxK => true | _ => false end && (m_losstype m =? 2) && (Z.of_nat (length es1) =? m_size m - 1)) with false.
  2:{ symmetry. destruct Hk as [Hk|Hk].
      - destruct (l_kind l); try reflexivity. congruence.
      - apply andb_false_iff. right. rewrite HS, app_length. simpl. lia. }
  apply HT. eapply wp_eq; [apply go_nth_app' with (l1 := pre) (x := xe) (l2 := post); auto|]. exact H.
Qed.

(** Fewer outputs than inputs: index out of range. *)
Lemma Backward_narrow s m es1 e es2 i o k x rsx r X y rsy Y U q outs rss :
  hready s m es1 e es2 i o k x rsx r X y rsy Y U q outs rss -> (p_out (e_p e) < p_in (e_p e))%nat ->
  exists s', Backward m (x :: outs) y s = (Panic PIndex, s').
Proof.
  intros HR Hio. assert (HR' := HR). destruct HR' as ((HL & HS & _) & _ & _ & Hk & _ & _ & _ & _ & Hr & _).
  set (T := fun (c : M K (list gradients)) s => exists s', c s = (Panic PIndex, s')).
  assert (HT : through T).
  { intros B c f s0. unfold wp, T, bind. destruct (c s0) as [[a|er|p] s1]; tauto. }
  apply (Backward_down T s m es1 e es2 i o k x rsx r X y rsy Y U q outs rss HT HR).
  intros s' pre xe post rse Xe l dv rsg G grads Eo Lp Hl Hlo Hxe NDe Hdv Dg _ _ _ _.
  eapply (step_e m es1 e es2 _ l); eauto.
  - left. destruct Hlo as (-> & _). congruence.
  - destruct (Sigmoid_Backward_panics s' (e_ref e) l _ _ (e_p e) xe rse r Xe dv rsg G Hl Hlo Hk Hio Hr Hxe Hdv NDe Dg) as (s2 & E).
    exists s2. now apply bind_panic.
Qed.
(** More outputs than inputs: the layer before gets the zero matrix header. *)
Lemma Backward_wide s m es0 e0 e es2 i o k x rsx r X y rsy Y U q outs rss :
  hready s m (es0 ++ [e0]) e es2 i o k x rsx r X y rsy Y U q outs rss -> (p_in (e_p e) < p_out (e_p e))%nat -> p_kind (e_p e0) <> SoftmaxK ->
  ends (inl (EMatDims 0 0)) (h_logger s) (Backward m (x :: outs) y) s.
Proof.
  intros HR Hio Hk0. assert (HR' := HR). destruct HR' as ((HL & HS & _ & _ & HC & HLo) & _ & _ & Hk & _ & HF & Hx & _ & Hr & _ & HND & HDis & NDx & _).
  rewrite <- app_assoc in HF, HC. cbn [app] in HF, HC.
  destruct (fwd_cut s e0 (e :: es2) r es0 X U q outs rss x rsx i o HF Hx NDx HC HND) as
    (pre0 & xe0 & rse0 & Xe0 & qe0 & out0 & outs0 & rs0 & rsm0 & rss1 & rss2 & Eo0 & Lp0 & _ & Hxe0 & _).
  { intros z Hz. apply HDis. rewrite !in_app_iff. auto. }
  assert (Lk0 : lok s e0) by (rewrite Forall_forall in HLo; apply HLo; rewrite !in_app_iff; simpl; auto).
  destruct Lk0 as (l0 & Hl0 & Hlo0).
  apply (Backward_down _ s m (es0 ++ [e0]) e es2 i o k x rsx r X y rsy Y U q outs rss (ends_through _ _) HR).
  intros s' pre xe post rse Xe l dv rsg G grads Eo Lp Hl Hlo Hxe NDe Hdv Dg D1 D2 HRe _.
  eapply (step_e m (es0 ++ [e0]) e es2 _ l); eauto using ends_through.
  { left. destruct Hlo as (-> & _). congruence. }
  apply ends_through. eapply wp_conseq; [eapply (wp_sig_wide s' (e_ref e) l _ _ (e_p e) xe rse r Xe dv rsg G); eauto|].
  intros g s2 (_ & _ & _ & _ & _ & _ & Hg & _ & HR2). cbv beta. rewrite Hg.
  assert (HR02 := rest_trans _ _ _ HRe HR2).
  rewrite app_length. cbn [length]. rewrite Nat.add_1_r.
  rewrite <- app_assoc in HL, HS. cbn [app] in HL, HS.
  assert (Hl2 : nth_error (h_layers s2) (e_ref e0) = Some l0) by (rewrite (rest_layers _ _ HR02); exact Hl0).
  eapply (step_e m es0 e0 (e :: es2) _ l0 _ _ s2 _ pre0 xe0 (out0 :: outs0) (ends_through _ _) HL Eo0 Lp0 Hl2).
  { right. simpl. lia. }
  { exact HS. }
  apply ends_bind. exists s2. split; [|apply HR02].
  assert (Pos := chain_pos _ _ e0 HLo ltac:(rewrite !in_app_iff; simpl; auto)).
  rewrite (Layer_Backward_err2 s2 (e_ref e0) l0 xe0 matrix0 Hl2); [reflexivity| | |].
  - destruct Hlo0 as (-> & _). exact Hk0.
  - rewrite (own_cols _ _ _ _ _ _ Hxe0). destruct Hlo0 as (_ & -> & _). reflexivity.
  - destruct Hlo0 as (_ & _ & -> & _). simpl. lia.
Qed.
End WithNum.
