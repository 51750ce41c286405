(** * SigShapeFit: Fit on models with a sigmoid layer that is not square. *)
From Coq Require Import String ZArith List Bool Arith Lia.
From Verif Require Import Num Heap Spec Matrix Activation Misc Accuracy Loss Network Optimizers ModelGo PureSpec Repr HeapLemmas LoopLemmas MatrixProofs MatrixFacts ActivationProofs MiscProofs LayerProofs LayerFacts LossProofs LossCode SgdShape OptSpec OptProofs OptFacts ModelSpec ModelProofs EvalProofs FitProofs FitLoop SigSpec SigFit SigLoop SigShape.
Import ListNotations.
Open Scope Z_scope.
Open Scope go_scope.

Section WithNum.
Context {K : Num}.
Implicit Types (s : state K) (p : player K) (ps : list (player K)) (es : list (lent K)) (X Y : pm K).

(** [c] stops with [z]; the logger is set if [z] is an error value. *)
Definition dies {A} (z : err + panic_kind) (c : M K A) s : Prop :=
  exists s', c s = (stopped z, s') /\ match z with inl _ => h_logger s' = true | inr _ => True end.
Lemma dies_through {A} z : through (dies (A := A) z).
Proof. intros B c f s. unfold wp, dies, bind. destruct (c s) as [[a|e|p] s1]; tauto. Qed.
Lemma dies_bind {A B} z (c : M K A) (f : A -> M K B) s : dies z c s -> dies z (bind c f) s.
Proof. intros (s' & E & H). exists s'. split; [|exact H]. destruct z; [now apply bind_fail|now apply bind_panic]. Qed.
Lemma dies_or_log {A} z what (c : M K A) s : dies z c s -> dies z (or_log what c) s.
Proof.
  intros (s' & E & H). unfold dies, or_log, bind, catch. rewrite E. destruct z as [e|p]; cbn [stopped].
  - unfold log_print. rewrite H. eexists. split; [reflexivity|]. simpl. exact H.
  - exists s'. auto.
Qed.
Lemma dies_loop {A} z n i (f : Z -> A -> M K A) a s : (1 <= n)%nat -> dies z (f i a) s -> dies z (loop n i f a) s.
Proof. intros Hn H. destruct n as [|n]; [lia|]. cbn [loop]. now apply dies_bind. Qed.

(** A model whose last layer with different numbers of inputs and outputs among the sigmoid
    layers is [e], and training data for it. *)
Definition lopsided s m es1 e es2 (i o : nat) (k : losskind) : Prop :=
  let es := es1 ++ e :: es2 in
  consistent s m es i o /\ unshared es /\ m_loss m = Some (MkLoss k (Z.of_nat o)) /\ m_losstype m = losskind_code k /\
  p_kind (e_p e) = SigmoidK /\ Forall square es2.
Definition samples s es x rsx y rsy (n i o : nat) X Y : Prop :=
  own s x rsx n i X /\ own s y rsy n o Y /\ NoDup rsx /\ disjoint rsx rsy /\ disjoint rsx (prows es).

Lemma dies_batch z s m es1 e es2 i o k x rsx y rsy n X Y b :
  min_faithful K -> Z.of_nat (n + b) <= 2 ^ 53 -> (1 <= b)%nat -> (1 <= n)%nat ->
  lopsided s m es1 e es2 i o k -> samples s (es1 ++ e :: es2) x rsx y rsy n i o X Y ->
  (forall s1 outs rss bx rbx by_ rby r X' Y' U q, hready s1 m es1 e es2 i o k bx rbx r X' by_ rby Y' U q outs rss -> rest2 s s1 ->
     dies z (grads <- or_log "Failed to perform forward pass: " (Backward m (bx :: outs) by_) ;; for_ (m_size m) (upd_body m grads)) s1) ->
  dies z (fit_batch m x y (Z.of_nat b) 0) s.
Proof.
  intros HM H53 Hb Hn (HC & (NR & NP) & HLs & HLt & Hk & Hsq) (HX & HY & ND & D1 & D2) H.
  set (es := es1 ++ e :: es2) in *. assert (HC' := HC). destruct HC' as (L1 & L2 & L3 & L4 & L5 & L6).
  assert (Hio : (1 <= i)%nat /\ (1 <= o)%nat).
  { assert (Hok : forall a, In a es -> lok s a) by (apply Forall_forall; exact L6).
    assert (Hne : (1 <= length es)%nat) by (unfold es; rewrite app_length; simpl; lia).
    destruct (list_snoc es Hne) as (es0 & el & Ees). rewrite Ees in L5, Hok.
    assert (Hel : lok s el) by (apply Hok, in_or_app; simpl; auto). destruct Hel as (l & _ & Hl).
    assert (Hc' := L5). rewrite net_app in Hc'. apply chain_snoc in Hc'. destruct Hc' as (_ & <-).
    split; [|apply Hl].
    destruct es0 as [|e0 es0]; simpl in L5; destruct L5 as [<- _].
    - apply Hl.
    - destruct (Hok e0) as (l0 & _ & Hl0); [simpl; auto|]. apply Hl0. }
  destruct Hio as [Hi Ho].
  set (len := Nat.min b n). assert (Hlen : (1 <= len)%nat) by (unfold len; lia).
  unfold fit_batch. rewrite (own_rows _ _ _ _ _ _ HY). rewrite HM by (unfold small_int; nia).
  replace (Z.min ((0 + 1) * Z.of_nat b) (Z.of_nat n)) with (Z.of_nat (0 + len)) by (unfold len; nia).
  replace (0 * Z.of_nat b) with (Z.of_nat 0) by lia.
  destruct (batch_own _ _ _ _ _ _ 0 len HX ltac:(unfold len; lia) Hlen Hi) as (sx & R1 & N1 & O1).
  destruct (batch_own _ _ _ _ _ _ 0 len HY ltac:(unfold len; lia) Hlen Ho) as (sy & R2 & N2 & O2).
  assert (HT := @dies_through unit z).
  apply HT. eapply wp_eq; [exact R1|]. apply HT. eapply wp_eq; [exact N1|].
  apply HT. eapply wp_eq; [exact R2|]. apply HT. eapply wp_eq; [exact N2|].
  apply HT. apply wp_or_log. eapply wp_conseq; [eapply (wp_Forward true s m es i o); eauto|].
  intros outs s1 (outs' & rss & -> & HR & HF & HND & HOld & HE).
  destruct HE as (HFr & HR2 & HKl & HG).
  assert (HLo1 : Forall (lok s1) es).
  { eapply Forall_impl; [|exact L6]. intros a Ha. eapply lok_kept; eauto. }
  eapply H; [|exact HR2].
  split; [split; [exact L1|]; split; [exact L2|]; split; [exact L3|]; split; [exact L4|]; split; [exact L5|exact HLo1]|].
  split; [exact HLs|]. split; [exact HLt|]. split; [exact Hk|]. split; [exact Hsq|]. split; [exact HR|].
  split; [eapply own_frame; [exact O1|exact HFr|]; intros ? _ []|]. split; [eapply own_frame; [exact O2|exact HFr|]; intros ? _ []|].
  split; [exact Hlen|]. split; [exact HOld|]. split; [exact HND|].
  split; [|split; [apply NoDup_sub, ND|]].
  - eapply disjoint_old_fresh; [|exact HF]. rewrite Forall_forall. intros z' Hz. rewrite !in_app_iff in Hz.
    destruct Hz as [Hz|[Hz|Hz]]; [exact (own_old_in _ _ _ _ _ _ _ O1 Hz)|exact (own_old_in _ _ _ _ _ _ _ O2 Hz)|].
    eapply prows_old; eauto.
  - intros z' Hz. apply in_sub in Hz. fold es. rewrite in_app_iff. intros [H'|H']; [apply in_sub in H'; exact (D1 z' Hz H')|exact (D2 z' Hz H')].
Qed.

Lemma dies_Fit z s m x y rsy n o Y epochs bs xv yv every : own s y rsy n o Y -> (1 <= n)%nat -> 0 <= bs -> 1 <= epochs ->
  dies z (fit_batch m x y (Z.of_nat (batch_rows n bs)) 0) s -> dies z (Fit m x y epochs bs xv yv every) s.
Proof.
  intros HY Hn Hbs He H. unfold Fit. cbv zeta. rewrite (own_rows _ _ _ _ _ _ HY). unfold for_, for_acc.
  apply dies_loop; [lia|]. apply dies_bind. unfold batch_rows in H.
  destruct (Z.eqb_spec bs 0) as [->|Hnz]; simpl negb; cbv iota.
  - apply dies_loop; [simpl; lia|exact H].
  - rewrite Z2Nat.id in H by lia. apply dies_loop; [|exact H].
    rewrite Z.quot_div_nonneg by lia.
    destruct (Z.ltb_spec (Z.of_nat n / bs * bs) (Z.of_nat n)) as [Hlt|Hge].
    + assert (0 <= Z.of_nat n / bs) by (apply Z.div_pos; lia). lia.
    + assert (1 <= Z.of_nat n / bs) by nia. lia.
Qed.

(** ** Fewer outputs than inputs *)
Theorem Fit_narrow s m es1 e es2 i o k x rsx y rsy n X Y epochs bs xv yv every :
  min_faithful K -> 0 <= bs -> Z.of_nat n + bs <= 2 ^ 52 -> (1 <= n)%nat -> 1 <= epochs ->
  lopsided s m es1 e es2 i o k -> samples s (es1 ++ e :: es2) x rsx y rsy n i o X Y ->
  (p_out (e_p e) < p_in (e_p e))%nat ->
  exists s', Fit m x y epochs bs xv yv every s = (Panic PIndex, s').
Proof.
  intros HM Hbs H52 Hn He HL HD Hio.
  enough (Hd : dies (inr PIndex) (Fit m x y epochs bs xv yv every) s) by (destruct Hd as (s' & E & _); exists s'; exact E).
  eapply dies_Fit; eauto; [apply HD|].
  assert (Hb : (1 <= batch_rows n bs)%nat /\ Z.of_nat (n + batch_rows n bs) <= 2 ^ 53) by (unfold batch_rows; destruct (Z.eqb_spec bs 0); lia).
  eapply dies_batch; eauto; try tauto.
  intros s1 outs rss bx rbx by_ rby r X' Y' U q HR _. apply dies_bind, dies_or_log.
  destruct (Backward_narrow _ _ _ _ _ _ _ _ _ _ _ _ _ _ _ _ _ _ _ HR Hio) as (s' & E). exists s'. auto.
Qed.

(** ** More outputs than inputs, after another layer *)
Theorem Fit_wide s m es0 e0 e es2 i o k x rsx y rsy n X Y epochs bs xv yv every :
  min_faithful K -> 0 <= bs -> Z.of_nat n + bs <= 2 ^ 52 -> (1 <= n)%nat -> 1 <= epochs ->
  lopsided s m (es0 ++ [e0]) e es2 i o k -> samples s ((es0 ++ [e0]) ++ e :: es2) x rsx y rsy n i o X Y ->
  (p_in (e_p e) < p_out (e_p e))%nat -> p_kind (e_p e0) <> SoftmaxK -> h_logger s = true ->
  exists s', Fit m x y epochs bs xv yv every s = (Fail (EMatDims 0 0), s').
Proof.
  intros HM Hbs H52 Hn He HL HD Hio Hk0 Hlog.
  enough (Hd : dies (inl (EMatDims 0 0)) (Fit m x y epochs bs xv yv every) s) by (destruct Hd as (s' & E & _); exists s'; exact E).
  eapply dies_Fit; eauto; [apply HD|].
  assert (Hb : (1 <= batch_rows n bs)%nat /\ Z.of_nat (n + batch_rows n bs) <= 2 ^ 53) by (unfold batch_rows; destruct (Z.eqb_spec bs 0); lia).
  eapply dies_batch; eauto; try tauto.
  intros s1 outs rss bx rbx by_ rby r X' Y' U q HR (_ & Hl & _). apply dies_bind, dies_or_log.
  destruct (Backward_wide _ _ _ _ _ _ _ _ _ _ _ _ _ _ _ _ _ _ _ _ HR Hio Hk0) as (s' & E & Hl'). exists s'. split; [exact E|]. congruence.
Qed.

(** ** More outputs than inputs in the first layer, with plain gradient descent *)
Lemma Backward_wide_first s m e es2 i o k x rsx r X y rsy Y U q outs rss :
  hready s m [] e es2 i o k x rsx r X y rsy Y U q outs rss -> (p_in (e_p e) < p_out (e_p e))%nat ->
  wp (Backward m (x :: outs) y) s (fun gs s' => exists grads g rgw rgb dW dB,
    gs = grads ++ [g] /\ length grads = length es2 /\ lok s' e /\ h_opts s' = h_opts s /\
    own s' (g_dw g) rgw (p_in (e_p e)) (p_in (e_p e)) dW /\ own s' (g_db g) rgb 1 (p_in (e_p e)) dB).
Proof.
  intros HR Hio. assert (HR' := HR). destruct HR' as ((HL & HS & _) & _ & _ & Hk & _ & _ & _ & _ & Hr & _).
  match goal with |- wp _ _ ?Q => set (T := fun (c : M K (list gradients)) s0 => wp c s0 Q) end.
  assert (HT : through T) by (intros A c f s0; apply wp_bind).
  apply (Backward_down T s m [] e es2 i o k x rsx r X y rsy Y U q outs rss HT HR).
  intros s' pre xe post rse Xe l dv rsg G grads Eo Lp Hl Hlo Hxe NDe Hdv Dg D1 D2 HRe Hlen.
  eapply (step_e m [] e es2 _ l); eauto.
  { left. destruct Hlo as (-> & _). congruence. }
  apply HT. eapply wp_conseq; [eapply (wp_sig_wide s' (e_ref e) l _ _ (e_p e) xe rse r Xe dv rsg G); eauto|].
  intros g s2 (rgw & rgb & dW & dB & HW & HB & Hg & HF & HR2). cbn [length backward_loop]. unfold T. apply wp_ret.
  exists grads, (MkGrad (g_w g) (g_b g)), rgw, rgb, dW, dB. split; [reflexivity|]. split; [exact Hlen|].
  split; [|split; [|split; [exact HW|exact HB]]].
  - exists l. split; [rewrite (rest_layers _ _ HR2); exact Hl|].
    destruct Hlo as (A1 & A2 & A3 & A4 & A5 & A6 & A7 & A8 & A9). repeat (split; [assumption|]).
    split; eapply own_frame; eauto.
  - destruct HRe as (_ & E1 & _), HR2 as (_ & E2 & _). congruence.
Qed.
Theorem Fit_wide_first s m e es2 i o k x rsx y rsy n X Y epochs bs xv yv every oref orefs op :
  min_faithful K -> 0 <= bs -> Z.of_nat n + bs <= 2 ^ 52 -> (1 <= n)%nat -> 1 <= epochs ->
  lopsided s m [] e es2 i o k -> samples s (e :: es2) x rsx y rsy n i o X Y ->
  (p_in (e_p e) < p_out (e_p e))%nat ->
  m_opts m = oref :: orefs -> nth_error (h_opts s) oref = Some op -> o_kind op = SGD -> o_usemom op = false ->
  exists s', Fit m x y epochs bs xv yv every s = (Panic PIndex, s').
Proof.
  intros HM Hbs H52 Hn He HL HD Hio Hm Hop Hkind Hmom.
  enough (Hd : dies (inr PIndex) (Fit m x y epochs bs xv yv every) s) by (destruct Hd as (s' & E & _); exists s'; exact E).
  eapply dies_Fit; eauto; [apply HD|].
  assert (Hb : (1 <= batch_rows n bs)%nat /\ Z.of_nat (n + batch_rows n bs) <= 2 ^ 53) by (unfold batch_rows; destruct (Z.eqb_spec bs 0); lia).
  eapply (dies_batch _ s m []); eauto; try tauto.
  intros s1 outs rss bx rbx by_ rby r X' Y' U q HR (Ho1 & _ & _).
  apply dies_through. apply wp_or_log. eapply wp_conseq; [eapply Backward_wide_first; eauto|].
  intros gs s2 (grads & g & rgw & rgb & dW & dB & -> & Hlen & (l & Hl & Hlo) & Ho2 & HW & HB).
  destruct HL as ((L1 & L2 & _) & (_ & NP) & _ & _ & _). cbn [app] in *.
  unfold for_, for_acc. apply dies_loop; [rewrite L2; simpl; lia|]. unfold upd_body.
  assert (HT := @dies_through unit (inr PIndex)).
  change 0 with (Z.of_nat 0).
  apply HT. eapply wp_eq; [apply go_nth_app' with (l1 := []) (x := e_ref e) (l2 := map e_ref es2); [exact L1|reflexivity]|].
  apply HT. eapply wp_eq; [apply get_layer_run; exact Hl|].
  apply HT. eapply wp_eq; [apply go_nth_app' with (l1 := []) (x := oref) (l2 := orefs); [exact Hm|reflexivity]|].
  replace (m_size m - Z.of_nat 0 - 1) with (Z.of_nat (length grads)) by (rewrite L2, Hlen; cbn [length]; lia).
  apply HT. eapply wp_eq; [apply go_nth_app' with (l1 := grads) (x := g) (l2 := []); reflexivity|].
  apply dies_or_log.
  rewrite prows_cons in NP. apply NoDup_app_inv in NP as (NP & _ & _). apply NoDup_app_inv in NP as (N1 & N2 & N3).
  destruct Hlo as (A1 & A2 & A3 & A4 & A5 & A6 & A7 & A8 & A9).
  destruct (sgd_small_weights s2 oref op (l_w l) (l_b l) (g_dw g) (g_db g) (e_rw e) (e_rb e) rgw rgb (p_in (e_p e)) (p_out (e_p e))
    (p_in (e_p e)) (p_in (e_p e)) 1 (p_in (e_p e)) (p_w (e_p e)) (p_b (e_p e)) dW dB) as (s' & E & _); auto.
  - rewrite Ho2, Ho1. exact Hop.
  - lia.
  - exists s'. auto.
Qed.
End WithNum.
