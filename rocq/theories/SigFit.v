(** * SigFit: Fit on models with sigmoid layers. *)
From Coq Require Import String ZArith List Bool Arith Lia.
From Verif Require Import Num Heap Spec Matrix Activation Misc Accuracy Loss Network Optimizers ModelGo PureSpec Repr HeapLemmas LoopLemmas MatrixProofs MatrixFacts ActivationProofs MiscProofs LayerProofs LayerFacts LossProofs LossCode OptSpec OptProofs OptFacts ModelSpec ModelProofs EvalProofs FitProofs FitLoop SigSpec.
Import ListNotations.
Open Scope Z_scope.
Open Scope go_scope.

Section WithNum.
Context {K : Num}.
Implicit Types (s : state K) (p : player K) (ps : list (player K)) (es : list (lent K)) (xs : list (oent K)) (X Y : pm K).

(** ** One sigmoid layer *)
Lemma wp_sig_backward s lref l rw rb p x rsx r X dv rsg G :
  nth_error (h_layers s) lref = Some l -> lown s l rw rb p -> p_kind p = SigmoidK ->
  p_out p = p_in p -> (1 <= r)%nat ->
  own s x rsx r (p_in p) X -> own s dv rsg r (p_out p) G -> NoDup rsx -> disjoint rsg rsx ->
  disjoint rw rsx -> disjoint rb rsx ->
  let H := sig_grad p r X G in
  wp (Layer_Backward lref x dv) s (fun g s' =>
    bwd_result s s' g (p_in p) (p_out p) r (pdW r (p_in p) (p_out p) H H) (psum0 r (p_out p) H) (pdX r (p_in p) (p_out p) H (p_w p)) /\
    own s' x rsx r (p_in p) H /\ frame (among rsx) s s' /\ rest s s').
Proof.
  intros Hl HL Hk Hio Hr HX HG HND HD D1 D2 H. pose proof HL as (H1 & _).
  unfold Layer_Backward. get_l Hl. rewrite H1, Hk. unfold Sigmoid_Backward. get_l Hl.
  apply wp_bind. eapply wp_eq; [eapply check_backward_ok; eauto|].
  rewrite Hio in HG.
  apply wp_bind. eapply wp_conseq; [eapply wp_SigmoidPrime; eauto|].
  intros x' s1 (-> & HX1 & HF1 & HR1).
  assert (HL1 : lown s1 l rw rb p).
  { eapply lown_frame; [exact HL|exact HF1|]. intros y [Hy|Hy]; [apply D1|apply D2]; auto. }
  pose proof (wp_dense_backward s1 l rw rb p x rsx r H x rsx H HL1 HX1) as HB. rewrite Hio in HB.
  eapply wp_conseq; [exact (HB HX1 Hr)|].
  rewrite Hio. simpl. intros g s2 (HBr & HE). split; [|split; [|split]].
  - eapply bwd_result_mono; [exact HF1|exact HBr].
  - exact (own_ext _ _ _ _ _ _ _ HX1 HE).
  - destruct HE as [HE _]. eapply frame_trans; [exact HF1|exact HE|]. intros z _ [Hz|[]]. exact Hz.
  - destruct HE as [_ HE]. eapply rest_trans; eauto.
Qed.

(** ** The backward loop *)
(** [E] is what the storage of the last output holds. *)
Fixpoint sback_from ps (r : nat) (X : pm K) (U : nat -> K) (q : nat) (E G : pm K) : pm K * list (pm K * pm K) * pm K :=
  match ps with
  | [] => (G, [], E)
  | p :: t =>
      let O := ptrain p r X (from U q) in
      let '(G1, gs, O') := sback_from t r O U (q + pdraws p r) E G in
      match p_kind p with
      | SigmoidK =>
          let H := sig_grad p r X G1 in
          (pdX r (p_in p) (p_out p) H (p_w p), (pdW r (p_in p) (p_out p) H H, psum0 r (p_out p) H) :: gs, H)
      | _ =>
          let G' := pback p r O' (ptrain_mask p r (from U q)) G1 in
          (pdX r (p_in p) (p_out p) G' (p_w p), (pdW r (p_in p) (p_out p) X G', psum0 r (p_out p) G') :: gs, X)
      end
  end.
Definition endc {A} (es : list A) (E X : pm K) : pm K := match es with [] => E | _ => X end.
Fixpoint srep s es (r : nat) (X : pm K) (U : nat -> K) (q : nat) (E : pm K)
    (outs : list matrix) (rss : list orow) : Prop :=
  match es, outs, rss with
  | [], [], [] => True
  | e :: es', out :: outs', (rs, rsm) :: rss' =>
      let O := ptrain (e_p e) r X (from U q) in
      own s out rs r (p_out (e_p e)) (endc es' E O) /\
      (exists l, nth_error (h_layers s) (e_ref e) = Some l /\
         lown s l (e_rw e) (e_rb e) (e_p e) /\
         cache_ok s l (e_p e) r rs rsm (endc es' E O) (ptrain_mask (e_p e) r (from U q))) /\
      srep s es' r O U (q + pdraws (e_p e) r) E outs' rss'
  | _, _, _ => False
  end.

Definition square (e : lent K) : Prop := p_kind (e_p e) = SigmoidK -> p_out (e_p e) = p_in (e_p e).
Lemma cache_alias W s s' l p r rs rsm O O' Mask out : cache_ok s l p r rs rsm O Mask -> own s' out rs r (p_out p) O' ->
  frame W s s' -> (forall z, In z rsm -> ~ W z) -> cache_ok s' l p r rs rsm O' Mask.
Proof.
  unfold cache_ok. intros H HO HF HW. destruct (p_kind p); auto; try (eapply own_alias; eassumption).
  destruct H as [H1 H2]. split; [eapply own_alias; eassumption|eapply own_frame; eauto].
Qed.

(** For any judgement about programs that looks through steps returning normally. *)
Definition through {B} (T : M K B -> state K -> Prop) : Prop :=
  forall A (c : M K A) (f : A -> M K B) s, wp c s (fun a s' => T (f a) s') -> T (bind c f) s.
Lemma sbwd_T T m es2 : through T -> forall es1 esr s pre x post outs rss rsx r X U q E i o dv rsg G grads,
  m_layers m = map e_ref (es1 ++ es2 ++ esr) -> Z.of_nat (length es1 + length es2) <= m_size m ->
  (forall es0 e, es2 = es0 ++ [e] -> Z.of_nat (length es1 + length es2) <= m_size m - 1 \/ p_kind (e_p e) <> SoftmaxK \/ m_losstype m <> 2) ->
  length pre = length es1 -> chain i (net es2) o -> Forall square es2 ->
  srep s es2 r X U q E outs rss ->
  own s x rsx r i (endc es2 E X) -> (1 <= r)%nat -> own s dv rsg r o G -> NoDup rsg ->
  NoDup (rsx ++ orow_all rss) -> disjoint (prows es2) (rsx ++ orow_all rss) ->
  disjoint (prows es2 ++ rsx ++ orow_all rss) rsg -> Forall (fun y => (y <= nrows s)%nat) (orow_all rss) ->
  (forall s' dv' rsg' gs grws,
     let '(G', Gs, X') := sback_from (net es2) r X U q E G in
     own s' dv' rsg' r i G' -> NoDup rsg' -> rsg' = rsg \/ fresh s rsg' -> own s' x rsx r i X' ->
     grads_rep s' (net es2) gs Gs grws -> fresh s (orow_all grws) -> disjoint rsg' (orow_all grws) ->
     frame (among (rsg ++ rsx ++ orow_all rss)) s s' -> rest s s' ->
     T (backward_loop m (pre ++ x :: outs ++ post) (length es1) dv' (grads ++ rev gs)) s') ->
  T (backward_loop m (pre ++ x :: outs ++ post) (length es1 + length es2) dv grads) s.
Proof.
  intros HT. induction es2 as [|e es2 IH]; intros es1 esr s pre x post outs rss rsx r X U q E i o dv rsg G grads
    HL HS HSm Hpre HC HK HR Hx Hr Hdv ND NDz HPz HD HOld HQ.
  - simpl in HR. destruct outs, rss; try contradiction. simpl in *. subst o.
    rewrite Nat.add_0_r. specialize (HQ s dv rsg [] []). simpl in HQ. rewrite !app_nil_r in HQ.
    apply HQ; auto using frame_refl, rest_refl.
    + constructor. + intros y _ [].
  - destruct outs as [|out outs]; [contradiction|]. destruct rss as [|[rs rsm] rss]; [contradiction|].
    simpl in HR. destruct HR as (HO & (l & Hl & Hlo & Hca) & HR).
    inversion_clear HK as [|? ? Ke Kes]. destruct HC as [Hi HC]. fold (net es2) in HC. subst i.
    cbn [endc] in Hx. rewrite orow_all_cons in NDz, HPz, HD, HOld, HQ. cbn [fst snd] in NDz, HPz, HD, HOld, HQ.
    change (prows (e :: es2)) with ((e_rw e ++ e_rb e) ++ prows es2) in HPz, HD.
    apply NoDup_app_inv in NDz as (NDx & NDo & Dx). apply NoDup_app_inv in NDo as (NDm & NDt & Dm).
    apply NoDup_app_inv in NDm as (NDr & NDrm & Drm).
    replace (length es1 + length (e :: es2))%nat with (length (es1 ++ [e]) + length es2)%nat
      by (rewrite app_length; simpl; lia).
    replace (pre ++ x :: (out :: outs) ++ post) with ((pre ++ [x]) ++ out :: outs ++ post)
      by (rewrite <- app_assoc; reflexivity).
    eapply (IH (es1 ++ [e]) esr s (pre ++ [x]) out post outs rss rs r _ U _ E (p_out (e_p e)) o dv rsg G); auto.
    + rewrite HL, <- app_assoc. reflexivity.
    + rewrite app_length. simpl in *. lia.
    + intros es0 e0 ->. destruct (HSm (e :: es0) e0 eq_refl) as [H|H]; [left|right; exact H].
      rewrite app_length. simpl in *. lia.
    + rewrite !app_length; simpl; lia.
    + exact HR.
    + exact HO.
    + apply NoDup_app_; auto. intros z Hz. apply Dm. rewrite in_app_iff. auto.
    + intros z Hz Hz'. apply (HPz z); rewrite !in_app_iff in *; tauto.
    + intros z Hz. apply HD. rewrite !in_app_iff in *; tauto.
    + apply Forall_app in HOld. apply HOld.
    + intros s' dv' rsg' gs grws. change (net (e :: es2)) with (e_p e :: net es2) in HQ. cbn [sback_from] in HQ.
      destruct (sback_from (net es2) r (ptrain (e_p e) r X (from U q)) U (q + pdraws (e_p e) r) E G) as [[G1 Gs] O'] eqn:EB.
      intros Hdv' ND' HF' Hout HGr HFg HDg HFr HRe.
      rewrite app_length. simpl length. rewrite Nat.add_1_r. cbn [backward_loop].
      apply HT. eapply wp_eq; [apply go_nth_app' with (l1 := map e_ref es1) (x := e_ref e) (l2 := map e_ref (es2 ++ esr))|].
      { rewrite HL. rewrite map_app. reflexivity. }
      { now rewrite map_length. }
      assert (Hl' : nth_error (h_layers s') (e_ref e) = Some l) by (rewrite (rest_layers _ _ HRe); exact Hl).
      apply HT. eapply wp_eq; [apply is_softmax_run; exact Hl'|].
      assert (Hkd : l_kind l = p_kind (e_p e)) by apply Hlo.
      replace (match l_kind l with SoftmaxK => true | _ => false end && (m_losstype m =? 2) && (Z.of_nat (length es1) =? m_size m - 1)) with false.
      2:{ symmetry. destruct (Z.eqb_spec (Z.of_nat (length es1)) (m_size m - 1)) as [Hz|]; [|now rewrite andb_false_r].
          rewrite andb_true_r, Hkd. destruct es2 as [|e' es2].
          - destruct (HSm [] e eq_refl) as [H|[H|H]]; [simpl in H; lia| |].
            + destruct (p_kind (e_p e)); try reflexivity. congruence.
            + apply andb_false_iff. right. now apply Z.eqb_neq.
          - simpl in HS. lia. }
      apply HT. eapply wp_eq; [apply go_nth_app' with (l1 := pre) (x := x) (l2 := out :: outs ++ post)|].
      { rewrite <- app_assoc. reflexivity. } { auto. }
      assert (HX : forall y, (y <= nrows s)%nat -> ~ In y rsg -> ~ In y rsg').
      { intros y Hy N H. destruct HF' as [->|HF']; [tauto|]. pose proof (fresh_in _ _ _ HF' H). lia. }
      assert (HOl : Forall (fun y => (y <= nrows s)%nat) (rs ++ rsm)).
      { apply Forall_app in HOld. apply HOld. }
      rewrite Forall_app, !Forall_forall in HOl. destruct HOl as [HOl1 HOl2].
      assert (Nx : forall z, In z rsx -> ~ In z (rsg ++ rs ++ orow_all rss)).
      { intros z Hz. rewrite !in_app_iff. intros [H|H].
        - apply (HD z); [rewrite !in_app_iff; tauto|exact H].
        - apply (Dx z Hz). rewrite !in_app_iff. tauto. }
      assert (Np : forall z, In z (e_rw e) \/ In z (e_rb e) -> ~ In z (rsg ++ rs ++ orow_all rss)).
      { intros z Hz. rewrite !in_app_iff. intros [H|H].
        - apply (HD z); [rewrite !in_app_iff; tauto|exact H].
        - apply (HPz z); rewrite !in_app_iff; tauto. }
      assert (Nm : forall z, In z rsm -> ~ In z (rsg ++ rs ++ orow_all rss)).
      { intros z Hz. rewrite !in_app_iff. intros [H|[H|H]].
        - apply (HD z); [rewrite !in_app_iff; tauto|exact H].
        - exact (Drm z H Hz).
        - apply (Dm z); [rewrite in_app_iff; auto|exact H]. }
      assert (Hlo' : lown s' l (e_rw e) (e_rb e) (e_p e)) by (eapply lown_frame; eauto).
      assert (Hx' : own s' x rsx r (p_in (e_p e)) X) by (eapply own_frame; eauto).
      assert (Hca' : cache_ok s' l (e_p e) r rs rsm O' (ptrain_mask (e_p e) r (from U q)))
        by (eapply cache_alias; eauto).
      assert (N12 : (nrows s <= nrows s')%nat) by (eapply frame_nrows; eauto).
      assert (Xg : disjoint rsx rsg').
      { intros y Hy. apply HX; [exact (own_old_in _ _ _ _ _ _ _ Hx Hy) |]. intros H. apply (Nx y Hy). rewrite in_app_iff; auto. }
      assert (Fin : forall (G0 dW dB : pm K) X' g s2,
        frame (fun z => In z rsg' \/ In z rsx) s' s2 -> rest s' s2 -> own s2 x rsx r (p_in (e_p e)) X' ->
        bwd_result s' s2 g (p_in (e_p e)) (p_out (e_p e)) r dW dB G0 ->
        (forall s'0 dv'0 rsg'0 gs0 grws0,
          own s'0 dv'0 rsg'0 r (p_in (e_p e)) G0 -> NoDup rsg'0 -> rsg'0 = rsg \/ fresh s rsg'0 ->
          own s'0 x rsx r (p_in (e_p e)) X' ->
          grads_rep s'0 (e_p e :: net es2) gs0 ((dW, dB) :: Gs) grws0 -> fresh s (orow_all grws0) ->
          disjoint rsg'0 (orow_all grws0) ->
          frame (among (rsg ++ rsx ++ (rs ++ rsm) ++ orow_all rss)) s s'0 -> rest s s'0 ->
          T (backward_loop m (pre ++ x :: (out :: outs) ++ post) (length es1) dv'0 (grads ++ rev gs0)) s'0) ->
        T (backward_loop m ((pre ++ [x]) ++ out :: outs ++ post) (length es1) (g_x g)
              ((grads ++ rev gs) ++ [MkGrad (g_w g) (g_b g)])) s2).
      { intros G0 dW dB X' g s2 HF2 HR2 HX2 (rgw & rgb & rgx & Fw & Fb & Fx & E1 & E2 & E3) HC2.
        rewrite <- app_assoc. cbn [app].
        replace ((grads ++ rev gs) ++ [MkGrad (g_w g) (g_b g)])
          with (grads ++ rev (MkGrad (g_w g) (g_b g) :: gs)) by (simpl; rewrite app_assoc; reflexivity).
        eapply (HC2 s2 (g_x g) rgx (MkGrad (g_w g) (g_b g) :: gs) ((rgw, rgb) :: grws)).
        - apply Fx.
        - apply Fx.
        - right. eapply fresh_mono; [exact N12|]. apply Fx.
        - exact HX2.
        - simpl. split; [apply Fw|]. split; [apply Fb|].
          eapply grads_rep_frame; eauto. intros y Hy [Hy'|Hy']; [eapply HDg; eauto|].
          pose proof (fresh_in _ _ _ HFg Hy). pose proof (own_old_in _ _ _ _ _ _ _ Hx Hy'). lia.
        - rewrite orow_all_cons. apply Forall_app. split; [|exact HFg].
          apply Forall_app. split; eapply fresh_mono; try exact N12; [apply Fw|apply Fb].
        - rewrite orow_all_cons. intros y Hy. rewrite !in_app_iff. intros [[H|H]|H].
          + eapply E2; eauto. + eapply E3; eauto.
          + destruct Fx as (_ & Fx & _). pose proof (fresh_in _ _ _ Fx Hy) as Hlt.
            pose proof (grads_rep_old _ _ _ _ _ _ HGr H). lia.
        - eapply frame_trans; [exact HFr|exact HF2|]. unfold among. intros y Hy. rewrite !in_app_iff. intros [H|[H|H]]; [tauto| |tauto].
          destruct HF' as [->|HF']; [tauto|]. pose proof (fresh_in _ _ _ HF' H). lia.
        - eapply rest_trans; eauto. }
      assert (Dec : p_kind (e_p e) = SigmoidK \/ p_kind (e_p e) <> SigmoidK) by (destruct (p_kind (e_p e)); auto; right; discriminate).
      destruct Dec as [Esig|Esig].
      * rewrite Esig in HQ. apply HT. eapply wp_conseq.
        -- eapply (wp_sig_backward s' (e_ref e) l (e_rw e) (e_rb e) (e_p e) x rsx r X dv' rsg' G1); eauto.
           ++ intros y Hy Hy'. exact (Xg y Hy' Hy).
           ++ intros y Hy Hy'. apply (HPz y); rewrite !in_app_iff; tauto.
           ++ intros y Hy Hy'. apply (HPz y); rewrite !in_app_iff; tauto.
        -- intros g s2 (HB & HX2 & HF2 & HR2). eapply Fin; [|exact HR2|exact HX2|exact HB|exact HQ].
           eapply frame_weaken; [exact HF2|]. unfold among. tauto.
      * apply HT. eapply wp_conseq.
        -- eapply (wp_backward s' (e_ref e) l (e_rw e) (e_rb e) (e_p e) x rsx r X dv' rsg' G1 rs rsm); eauto.
           ++ intros y Hy. apply HX; [eapply lown_old; eauto |]. intros H. apply (Np y (or_introl Hy)). rewrite in_app_iff; auto.
           ++ intros y Hy. apply HX; [eapply lown_old; eauto |]. intros H. apply (Np y (or_intror Hy)). rewrite in_app_iff; auto.
           ++ intros y Hy. apply HX; [auto |]. intros H. apply (HD y); [rewrite !in_app_iff; tauto|exact H].
           ++ intros y Hy. apply HX; [auto |]. intros H. apply (Nm y Hy). rewrite in_app_iff; auto.
        -- intros g s2 (HB & (HF2 & HR2) & _).
           eapply Fin; [|exact HR2| |exact HB|].
           ++ eapply frame_weaken; [exact HF2|]. unfold among. tauto.
           ++ eapply own_frame; [exact Hx'|exact HF2|exact Xg].
           ++ destruct (p_kind (e_p e)); try exact HQ. congruence.
Qed.
Lemma wp_sbwd m es2 : forall es1 esr s pre x post outs rss rsx r X U q E i o dv rsg G grads (Q : list gradients -> state K -> Prop),
  m_layers m = map e_ref (es1 ++ es2 ++ esr) -> Z.of_nat (length es1 + length es2) <= m_size m ->
  (forall es0 e, es2 = es0 ++ [e] -> Z.of_nat (length es1 + length es2) <= m_size m - 1 \/ p_kind (e_p e) <> SoftmaxK \/ m_losstype m <> 2) ->
  length pre = length es1 -> chain i (net es2) o -> Forall square es2 ->
  srep s es2 r X U q E outs rss ->
  own s x rsx r i (endc es2 E X) -> (1 <= r)%nat -> own s dv rsg r o G -> NoDup rsg ->
  NoDup (rsx ++ orow_all rss) -> disjoint (prows es2) (rsx ++ orow_all rss) ->
  disjoint (prows es2 ++ rsx ++ orow_all rss) rsg -> Forall (fun y => (y <= nrows s)%nat) (orow_all rss) ->
  (forall s' dv' rsg' gs grws,
     let '(G', Gs, X') := sback_from (net es2) r X U q E G in
     own s' dv' rsg' r i G' -> NoDup rsg' -> rsg' = rsg \/ fresh s rsg' -> own s' x rsx r i X' ->
     grads_rep s' (net es2) gs Gs grws -> fresh s (orow_all grws) -> disjoint rsg' (orow_all grws) ->
     frame (among (rsg ++ rsx ++ orow_all rss)) s s' -> rest s s' ->
     wp (backward_loop m (pre ++ x :: outs ++ post) (length es1) dv' (grads ++ rev gs)) s' Q) ->
  wp (backward_loop m (pre ++ x :: outs ++ post) (length es1 + length es2) dv grads) s Q.
Proof. intros. eapply (sbwd_T (fun c s => wp c s Q) m es2); eauto. intros A c f s0. apply wp_bind. Qed.

(** ** The whole backward pass *)
Lemma fwd_srep0 s es r : forall X U q outs rss, fwd_rep s true es r X U q outs rss ->
  srep s es r X U q (pend true (net es) r X U q) outs rss.
Proof.
  induction es as [|e es IH]; intros X U q [|out outs] [|[rs rsm] rss] H; simpl in H; try contradiction; [exact I|].
  destruct H as (H1 & _ & H3 & H4). destruct (H3 eq_refl) as (l & Hl & Hlo & Hca). clear H3.
  assert (EE : endc es (pend true (net es) r (ptrain (e_p e) r X (from U q)) U (q + pdraws (e_p e) r)) (ptrain (e_p e) r X (from U q)) = ptrain (e_p e) r X (from U q))
    by (destruct es; reflexivity).
  split; [|split; [exists l; split; [exact Hl|split; [exact Hlo|]]|]].
  - eapply eq_ind_r with (P := fun A => own s out rs r (p_out (e_p e)) A); [exact H1|exact EE].
  - eapply eq_ind_r with (P := fun A => cache_ok s l (e_p e) r rs rsm A _); [exact Hca|exact EE].
  - apply IH. exact H4.
Qed.
Lemma srep_frame W s s1 es r : forall X U q E outs rss, srep s es r X U q E outs rss ->
  frame W s s1 -> h_layers s1 = h_layers s -> (forall z, In z (orow_all rss) \/ In z (prows es) -> ~ W z) ->
  srep s1 es r X U q E outs rss.
Proof.
  induction es as [|e es IH]; intros X U q E [|out outs] [|[rs rsm] rss] H HF HL HW; simpl in H; try contradiction; [exact I|].
  destruct H as (H1 & (l & Hl & Hlo & Hca) & H4).
  rewrite orow_all_cons in HW. rewrite prows_cons in HW. cbn [fst snd] in HW.
  split; [|split; [exists l; split; [rewrite HL; exact Hl|split]|]].
  - eapply own_frame; eauto. intros z Hz. apply HW. rewrite !in_app_iff. tauto.
  - eapply lown_frame; eauto. intros z Hz. apply HW. rewrite !in_app_iff. tauto.
  - eapply cache_ok_frame; eauto. intros z Hz. apply HW. rewrite !in_app_iff. tauto.
  - eapply IH; eauto. intros z Hz. apply HW. rewrite !in_app_iff. tauto.
Qed.
(** Changing the contents of the last output. *)
Lemma srep_last s s1 out rsl rslm o E E' r es : forall X U q i outs0 rss0,
  srep s es r X U q E (outs0 ++ [out]) (rss0 ++ [(rsl, rslm)]) -> chain i (net es) o ->
  own s1 out rsl r o E' -> frame (among rsl) s s1 -> h_layers s1 = h_layers s ->
  NoDup (orow_all (rss0 ++ [(rsl, rslm)])) -> disjoint (prows es) rsl ->
  srep s1 es r X U q E' (outs0 ++ [out]) (rss0 ++ [(rsl, rslm)]).
Proof.
  induction es as [|e es IH]; intros X U q i outs0 rss0 H HC HO HF HL ND HD.
  - destruct outs0; simpl in H; contradiction.
  - destruct HC as [_ HC]. fold (net es) in HC. rewrite prows_cons in HD.
    destruct outs0 as [|out0 outs0], rss0 as [|[rs rsm] rss0]; cbn [app] in H.
    + destruct H as (H1 & (l & Hl & Hlo & Hca) & H4). destruct es; [|simpl in H4; contradiction].
      simpl in HC. subst o. cbn [endc app] in *.
      unfold orow_all in ND. cbn [app map concat fst snd] in ND. rewrite app_nil_r in ND. apply NoDup_app_inv in ND as (_ & _ & D).
      split; [exact HO|]. split; [|exact I]. exists l. split; [rewrite HL; exact Hl|]. split.
      * eapply lown_frame; eauto. intros z Hz. apply HD. rewrite !in_app_iff. tauto.
      * eapply cache_alias; eauto. intros z Hz Hz'. exact (D z Hz' Hz).
    + destruct H as (_ & _ & H4). destruct rss0; destruct es; simpl in H4; contradiction.
    + destruct H as (_ & _ & H4). destruct outs0; destruct es; simpl in H4; contradiction.
    + destruct H as (H1 & (l & Hl & Hlo & Hca) & H4).
      destruct es as [|e' es]; [destruct outs0; simpl in H4; contradiction|].
      cbn [app] in ND. rewrite orow_all_cons in ND. cbn [fst snd] in ND. apply NoDup_app_inv in ND as (_ & ND & D).
      assert (Nr : forall z, In z rs \/ In z rsm -> ~ In z rsl).
      { intros z Hz Hz'. apply (D z); [rewrite in_app_iff; exact Hz|]. rewrite orow_all_app. unfold orow_all at 2.
        cbn [map concat fst snd]. rewrite !in_app_iff. tauto. }
      cbn [endc] in H1, Hca. split; [|split; [exists l; split; [rewrite HL; exact Hl|split]|]].
      * cbn [endc]. eapply own_frame; eauto.
      * eapply lown_frame; eauto. intros z Hz. apply HD. rewrite !in_app_iff. tauto.
      * cbn [endc]. eapply cache_ok_frame; eauto.
      * eapply IH; eauto. intros z Hz. apply HD. rewrite in_app_iff. auto.
Qed.

Lemma sbackprop_unfused k Y o r ps : forall X U q, (forall ps0 p, ps = ps0 ++ [p] -> fused k p = false) ->
  sbackprop k Y o ps r X U q =
  sback_from ps r X U q (clipped (bwd_clips k) r o (pend true ps r X U q)) (ploss_back k r o (pend true ps r X U q) Y).
Proof.
  induction ps as [|p ps IH]; intros X U q HF; [reflexivity|]. cbn [sbackprop sback_from pend player_out player_draws].
  rewrite IH by (intros ps0 p0 ->; apply (HF (p :: ps0)); reflexivity).
  destruct (sback_from ps r _ U _ _ _) as [[G1 gs] O'].
  replace (match ps with [] => fused k p | _ => false end) with false; [reflexivity|].
  destruct ps; [|reflexivity]. symmetry. apply (HF []). reflexivity.
Qed.
Lemma sbackprop_fused k Y o r p ps : fused k p = true -> forall X U q,
  sbackprop k Y o (ps ++ [p]) r X U q =
  (let Xl := pend true ps r X U q in
   let G' := pce_back r (p_out p) Y (ptrain p r Xl (from U (q + net_draws true ps r))) in
   let '(G, gs, X') := sback_from ps r X U q Xl (pdX r (p_in p) (p_out p) G' (p_w p)) in
   (G, gs ++ [(pdW r (p_in p) (p_out p) Xl G', psum0 r (p_out p) G')], X')).
Proof.
  intros Hf. induction ps as [|p0 ps IH]; intros X U q.
  - cbn [app sbackprop sback_from pend net_draws fold_right]. rewrite Nat.add_0_r, Hf.
    unfold fused in Hf. destruct k, (p_kind p); try discriminate. reflexivity.
  - cbn [app]. cbn [sbackprop sback_from pend player_out player_draws net_draws fold_right]. rewrite IH. cbv zeta.
    fold (net_draws true ps r). rewrite Nat.add_assoc.
    destruct (sback_from ps r _ U _ _ _) as [[G1 gs] O'].
    replace (match ps ++ [p] with [] => fused k p0 | _ => false end) with false by (destruct ps; reflexivity).
    destruct (p_kind p0); reflexivity.
Qed.

Definition sready s m es (i o : nat) (k : losskind) x rsx r (X : pm K) y rsy (Y : pm K) U q outs rss : Prop :=
  consistent s m es i o /\ (1 <= length es)%nat /\
  m_loss m = Some (MkLoss k (Z.of_nat o)) /\ m_losstype m = losskind_code k /\
  Forall square es /\
  fwd_rep s true es r X U q outs rss /\ own s x rsx r i X /\ own s y rsy r o Y /\ (1 <= r)%nat /\
  Forall (fun z => (z <= nrows s)%nat) (orow_all rss) /\ NoDup (orow_all rss) /\
  disjoint (rsx ++ rsy ++ prows es) (orow_all rss) /\ NoDup rsx /\ disjoint rsx (rsy ++ prows es).

Lemma wp_sBackward s m es i o k x rsx r X y rsy Y U q outs rss :
  sready s m es i o k x rsx r X y rsy Y U q outs rss ->
  wp (Backward m (x :: outs) y) s (fun gs s' => exists gs' grws, gs = rev gs' /\
    grads_rep s' (net es) gs' (snd (fst (sbackprop k Y o (net es) r X U q))) grws /\
    own s' x rsx r i (snd (sbackprop k Y o (net es) r X U q)) /\
    fresh s (orow_all grws) /\ frame (among (rsx ++ orow_all rss)) s s' /\ rest s s').
Proof.
  intros ((HL & HS & Hi & Ho & HC & HLo) & Hlen & HLoss & HLt & HK & HR & Hx & Hy & Hr & HOld & HND & HDis & NDx & HDx).
  destruct (list_snoc es Hlen) as (es0 & e & Ees).
  assert (HC0 := HC). rewrite Ees, net_app in HC0. apply chain_snoc in HC0 as [HC0 HOe]. cbn in HOe.
  assert (HR' := HR). rewrite Ees in HR'.
  destruct (fwd_rep_snoc _ _ _ _ _ _ _ _ _ _ HR') as (outs0 & out & rss0 & rs & rsm & Eouts & Erss & HR0 & HRe).
  destruct (fwd_rep_last _ _ _ _ _ _ _ _ _ x rsx i _ HR0 Hx HC0) as (pre & xl & rsl & EX & Lpre & Hxl & Drsl).
  destruct HRe as (HO & NDo & HCa & _). destruct (HCa eq_refl) as (l & Hl & Hlo & Hca). clear HCa.
  set (Xl := pend true (net es0) r X U q) in *. set (ql := (q + net_draws true (net es0) r)%nat) in *.
  cbn [player_out] in HO, Hca. set (O := ptrain (e_p e) r Xl (from U ql)) in *.
  assert (EO : pend true (net es) r X U q = O).
  { rewrite Ees, net_app. unfold O, ql, Xl. clear. revert X q. induction es0 as [|e0 es0 IH]; intros X q.
    - cbn [net map app pend net_draws fold_right player_out]. rewrite Nat.add_0_r. reflexivity.
    - cbn [net map app pend net_draws fold_right player_out]. fold (net es0). change [e_p e] with (net [e]). rewrite (IH _ (q + player_draws true (e_p e0) r)%nat).
      rewrite Nat.add_assoc. reflexivity. }
  assert (Hkind : l_kind l = p_kind (e_p e)) by apply Hlo.
  assert (Lm : Z.of_nat (length es0) = m_size m - 1) by (rewrite HS, Ees, app_length; simpl; lia).
  assert (HLe : m_layers m = map e_ref es0 ++ [e_ref e]) by (rewrite HL, Ees, map_app; reflexivity).
  assert (Hpos := chain_pos _ _ e HLo ltac:(rewrite Ees; apply in_or_app; simpl; auto)). destruct Hpos as [Pi Po].
  assert (NDz : NoDup (rsx ++ orow_all rss)).
  { apply NoDup_app_; auto. intros z Hz. apply HDis. rewrite !in_app_iff. tauto. }
  assert (DPz : disjoint (prows es) (rsx ++ orow_all rss)).
  { intros z Hz. rewrite in_app_iff. intros [H|H].
    - apply (HDx z H). rewrite in_app_iff. auto.
    - apply (HDis z); [rewrite !in_app_iff; tauto|exact H]. }
  assert (Oz : forall z, In z (prows es ++ rsx ++ orow_all rss) -> (z <= nrows s)%nat).
  { intros z Hz. rewrite !in_app_iff in Hz. destruct Hz as [Hz|[Hz|Hz]].
    - eapply prows_old; eauto.
    - exact (own_old_in _ _ _ _ _ _ _ Hx Hz).
    - rewrite Forall_forall in HOld. auto. }
  unfold Backward. rewrite <- Lm.
  apply wp_bind. eapply wp_eq; [apply go_nth_app' with (l1 := map e_ref es0) (x := e_ref e) (l2 := []); [exact HLe | now rewrite map_length]|].
  apply wp_bind. eapply wp_eq; [apply is_softmax_run; exact Hl|].
  rewrite Hkind, HLt, code_ce.
  assert (Eout : x :: outs = (x :: outs0) ++ [out]) by (rewrite Eouts; reflexivity).
  assert (Exl : x :: outs = pre ++ xl :: [out]) by (rewrite Eout, EX, <- app_assoc; reflexivity).
  assert (Lx : length (x :: outs0) = S (length es0)).
  { simpl. now rewrite (proj1 (fwd_rep_length _ _ _ _ _ _ _ _ _ HR0)). }
  assert (Orss : orow_all rss = orow_all rss0 ++ rs ++ rsm).
  { rewrite Erss, orow_all_app. unfold orow_all at 2. cbn [map concat fst snd]. now rewrite app_nil_r. }
  assert (Pes : prows es = prows es0 ++ e_rw e ++ e_rb e).
  { rewrite Ees, prows_app, prows_cons. unfold prows at 2. simpl. now rewrite app_nil_r. }
  destruct ((match p_kind (e_p e) with SoftmaxK => true | _ => false end) && (match k with CE => true | _ => false end)) eqn:EF.
  - (* fused *)
    assert (p_kind (e_p e) = SoftmaxK /\ k = CE) as [Es Ek]
      by (destruct (p_kind (e_p e)); try discriminate; destruct k; try discriminate; auto).
    assert (Hf : fused k (e_p e) = true) by (unfold fused; rewrite Ek, Es; reflexivity).
    apply wp_bind. eapply wp_eq; [apply go_nth_app' with (l1 := pre) (x := xl) (l2 := [out]); [exact Exl | now rewrite Lpre]|].
    assert (Hms : m_size m = Z.of_nat (S (length es0))) by lia.
    apply wp_bind. rewrite Hms. eapply wp_eq.
    { apply go_nth_app' with (l1 := x :: outs0) (x := out) (l2 := []); [exact Eout | now rewrite Lx]. }
    rewrite <- HOe in Hy.
    apply wp_bind. eapply wp_conseq; [eapply (wp_BackwardCrossEntropy s (e_ref e) l _ _ (e_p e) xl rsl r Xl y rsy Y out rs O); eauto|].
    intros g s1 ((rgw & rgb & rgx & Fw & Fb & Fx & E1 & E2 & E3) & (HF & HRe)).
    rewrite Nat2Z.id. cbn [backward_loop].
    apply wp_bind. eapply wp_eq; [apply go_nth_app' with (l1 := map e_ref es0) (x := e_ref e) (l2 := []); [exact HLe | now rewrite map_length]|].
    apply wp_bind. eapply wp_eq; [apply (is_softmax_run s1 _ l); rewrite (rest_layers _ _ HRe); exact Hl|].
    rewrite HLt, code_ce, Hkind, EF, <- Lm, Z.eqb_refl. cbn [andb].
    rewrite Eouts.
    assert (Onet : net es = net es0 ++ [e_p e]) by (rewrite Ees, net_app; reflexivity).
    assert (Hmono := frame_nrows _ _ _ HF).
    eapply (wp_sbwd m es0 [] [e] s1 [] x [out] outs0 rss0 rsx r X U q Xl i (p_in (e_p e)) (g_x g) rgx _ [MkGrad (g_w g) (g_b g)]); auto.
    + rewrite HL, Ees. reflexivity.
    + simpl. lia.
    + intros es1 e1 _. left. simpl. lia.
    + rewrite Ees in HK. apply Forall_app in HK. apply HK.
    + eapply srep_frame; [apply fwd_srep0; exact HR0|exact HF|apply HRe|]. intros z _ [].
    + replace (endc es0 Xl X) with X by (destruct es0; reflexivity). eapply own_frame; [exact Hx|exact HF|]. intros z _ [].
    + apply Fx.
    + apply Fx.
    + rewrite Orss, app_assoc in NDz. apply NoDup_app_inv in NDz. apply NDz.
    + intros z Hz Hz'. apply (DPz z); [rewrite Pes, in_app_iff; auto|]. rewrite Orss, !in_app_iff in *. tauto.
    + eapply disjoint_old_fresh; [|apply Fx]. rewrite Forall_forall. intros z Hz. apply Oz. rewrite Pes, Orss, !in_app_iff in *. tauto.
    + rewrite Forall_forall. intros z Hz. assert (z <= nrows s)%nat; [|lia]. apply Oz. rewrite Orss, !in_app_iff. tauto.
    + intros s2 dv' rsg' gs grws. rewrite Onet, (sbackprop_fused k Y o r (e_p e) (net es0) Hf). cbv zeta. fold Xl ql. fold O.
      destruct (sback_from (net es0) r X U q _ _) as [[G2 Gs] X'] eqn:EB.
      intros Hdv' ND' HF' HX' HGr HFg HDg HFr2 HRe2.
      cbn [length backward_loop]. apply wp_ret.
      exists (gs ++ [MkGrad (g_w g) (g_b g)]), (grws ++ [(rgw, rgb)]).
      split; [rewrite rev_app_distr; reflexivity|]. cbn [fst snd].
      assert (Fnew : forall z, (nrows s < z)%nat -> ~ In z rgx -> ~ In z (rgx ++ rsx ++ orow_all rss0)).
      { intros z Hz N. rewrite in_app_iff. intros [H|H]; [exact (N H)|]. assert (z <= nrows s)%nat; [|lia].
        apply Oz. rewrite Orss, !in_app_iff in *. tauto. }
      split; [|split; [|split; [|split]]].
      * apply grads_rep_snoc; [exact HGr| |]; (eapply own_frame; [first [apply Fw|apply Fb]|exact HFr2|]); intros z Hz; apply Fnew.
        -- destruct Fw as (_ & Fw & _). exact (fresh_in _ _ _ Fw Hz). -- exact (E2 z Hz).
        -- destruct Fb as (_ & Fb & _). exact (fresh_in _ _ _ Fb Hz). -- exact (E3 z Hz).
      * exact HX'.
      * rewrite orow_all_app. apply Forall_app. split.
        -- eapply fresh_mono; [|exact HFg]. exact Hmono.
        -- unfold orow_all; simpl. rewrite app_nil_r. apply Forall_app; split; [apply Fw|apply Fb].
      * eapply frame_trans; [exact HF|exact HFr2|]. intros z Hz [[]|H]. unfold among in *. rewrite Orss, !in_app_iff in *.
        destruct H as [H|H]; [|tauto]. destruct Fx as (_ & Fx & _). pose proof (fresh_in _ _ _ Fx H). lia.
      * eapply rest_trans; eauto.
  - (* through the loss *)
    rewrite HLoss. assert (Hms : m_size m = Z.of_nat (S (length es0))) by lia. rewrite Hms.
    apply wp_bind. eapply wp_eq.
    { apply go_nth_app' with (l1 := x :: outs0) (x := out) (l2 := []); [exact Eout | now rewrite Lx]. }
    assert (Dy : disjoint rs rsy).
    { intros z Hz Hz'. apply (HDis z); [rewrite !in_app_iff; tauto|rewrite Orss, !in_app_iff; tauto]. }
    rewrite HOe in *. clear HOe.
    apply wp_bind. eapply wp_conseq; [eapply (wp_Loss_Backward s k out y rs rsy r o O Y); eauto|].
    intros dv s1 ((rsg & Hdv) & HO1 & HF1 & HR1). destruct Hdv as (Hdv & Fdv & NDdv & _).
    assert (HFrs : frame (among rs) s s1) by (eapply frame_weaken; [exact HF1|]; unfold clip_rows; destruct (bwd_clips k); unfold nothing; tauto).
    assert (Hmono := frame_nrows _ _ _ HF1).
    rewrite Nat2Z.id. replace (S (length es0)) with (length (@nil (lent K)) + length es)%nat by (rewrite Ees, app_length; simpl; lia).
    replace (x :: outs) with ([] ++ x :: outs ++ []) by (rewrite app_nil_r; reflexivity).
    eapply (wp_sbwd m es [] [] s1 [] x [] outs rss rsx r X U q (clipped (bwd_clips k) r o O) i o dv rsg _ []); auto.
    + rewrite HL, app_nil_r. reflexivity.
    + rewrite HS. simpl. lia.
    + intros es1 e1 E1. right. rewrite Ees in E1. apply app_inj_tail in E1 as [_ <-]. rewrite HLt.
      destruct (p_kind (e_p e)); try (left; discriminate). right. destruct k; discriminate.
    + rewrite Eouts, Erss. eapply (srep_last s s1 out rs rsm o); eauto.
      * rewrite <- Eouts, <- Erss. apply fwd_srep0. exact HR.
      * apply HR1.
      * rewrite <- Erss. exact HND.
      * intros z Hz Hz'. apply (DPz z Hz). rewrite Orss, !in_app_iff. tauto.
    + replace (endc es (clipped (bwd_clips k) r o O) X) with X by (rewrite Ees; destruct es0; reflexivity).
      eapply own_frame; [exact Hx|exact HFrs|]. intros z Hz Hz'. apply (HDis z); [rewrite !in_app_iff; tauto|].
      rewrite Orss, !in_app_iff. tauto.
    + exact Hdv.
    + eapply disjoint_old_fresh; [|exact Fdv]. rewrite Forall_forall. exact Oz.
    + rewrite Forall_forall in *. intros z Hz. specialize (HOld z Hz). lia.
    + intros s2 dv' rsg' gs grws.
      rewrite (sbackprop_unfused k Y o r (net es)).
      2:{ intros ps0 p Ep. rewrite Ees, net_app in Ep. apply app_inj_tail in Ep as [_ <-]. unfold fused.
          destruct k, (p_kind (e_p e)); try discriminate; reflexivity. }
      rewrite EO.
      destruct (sback_from (net es) r X U q _ _) as [[G2 Gs] X'] eqn:EB.
      intros Hdv' ND' HF' HX' HGr HFg HDg HFr2 HRe2.
      cbn [length backward_loop app]. apply wp_ret.
      exists gs, grws. split; [reflexivity|]. cbn [fst snd]. split; [exact HGr|]. split; [exact HX'|].
      split; [eapply fresh_mono; [exact Hmono|exact HFg]|]. split.
      * eapply frame_trans; [exact HFrs|exact HFr2|]. intros z Hz. unfold among. rewrite Orss, !in_app_iff. intros [H|[H|H]]; try tauto.
        pose proof (fresh_in _ _ _ Fdv H). lia.
      * eapply rest_trans; eauto.
Qed.
End WithNum.
