(** * FitProofs: one mini-batch, and whole training runs. *)
From Coq Require Import String ZArith List Bool Arith Lia.
From Verif Require Import Num Heap Spec Matrix Loss Network Optimizers ModelGo PureSpec Repr HeapLemmas LoopLemmas MatrixProofs MatrixFacts LayerProofs LayerFacts LossProofs LossCode MiscProofs OptSpec OptProofs OptFacts ModelSpec ModelProofs.
Import ListNotations.
Open Scope Z_scope.
Open Scope go_scope.

Section WithNum.
Context {K : Num}.
Implicit Types (s : state K) (p : player K) (ps : list (player K)) (es : list (lent K)) (xs : list (oent K)).

Lemma wp_or_log {A} what (m : M K A) s Q : wp m s Q -> wp (or_log what m) s Q.
Proof. intros H. unfold or_log. apply wp_bind, wp_catch. eapply wp_conseq; [exact H|]. intros a s' HQ. apply wp_ret, HQ. Qed.

Lemma Forall2_in {A B} (P Q : A -> B -> Prop) l l' : (forall a b, In a l -> In b l' -> P a b -> Q a b) -> Forall2 P l l' -> Forall2 Q l l'.
Proof. intros H HF. induction HF; constructor; simpl in *; auto. Qed.
Lemma oown_frame W s s' o ro k c po : oown s o ro k c po -> frame W s s' -> (forall x, In x ro -> ~ W x) -> oown s' o ro k c po.
Proof.
  intros [HS HM] HF HW. split; [exact HS|].
  destruct (po_kind po).
  - destruct (po_usemom po); [|exact HM]. destruct HM as [HM|(r1 & r2 & -> & H1 & H2)]; [left; exact HM|right].
    exists r1, r2. split; [reflexivity|]. split; eapply own_frame; eauto; intros x Hx; apply HW; rewrite in_app_iff; auto.
  - destruct HM as [HM|(r1 & r2 & r3 & r4 & -> & H1 & H2 & H3 & H4)]; [left; exact HM|right].
    exists r1, r2, r3, r4. split; [reflexivity|].
    split; [|split; [|split]]; eapply own_frame; eauto; intros x Hx; apply HW; rewrite !in_app_iff; auto.
Qed.
Lemma oown_old s o ro k c po x : oown s o ro k c po -> In x ro -> (x <= nrows s)%nat.
Proof.
  intros [_ HM] Hx. destruct (po_kind po).
  - destruct (po_usemom po); [|subst; contradiction]. destruct HM as [(_ & -> & _)|(r1 & r2 & -> & H1 & H2)]; [contradiction|].
    apply in_app_iff in Hx as [Hx|Hx]; [exact (own_old_in _ _ _ _ _ _ _ H1 Hx)|exact (own_old_in _ _ _ _ _ _ _ H2 Hx)].
  - destruct HM as [(_ & -> & _)|(r1 & r2 & r3 & r4 & -> & H1 & H2 & H3 & H4)]; [contradiction|].
    rewrite !in_app_iff in Hx. destruct Hx as [Hx|[Hx|[Hx|Hx]]];
      [exact (own_old_in _ _ _ _ _ _ _ H1 Hx)|exact (own_old_in _ _ _ _ _ _ _ H2 Hx)|exact (own_old_in _ _ _ _ _ _ _ H3 Hx)|exact (own_old_in _ _ _ _ _ _ _ H4 Hx)].
Qed.
Lemma opts_kept_refl refs s : opts_kept refs s s. Proof. split; auto. Qed.
Lemma opts_kept_eq refs s s' : h_opts s' = h_opts s -> opts_kept refs s s'.
Proof. intros E. unfold opts_kept. rewrite E. auto. Qed.
Lemma opts_kept_trans r1 r2 refs s1 s2 s3 : opts_kept r1 s1 s2 -> opts_kept r2 s2 s3 -> incl r1 refs -> incl r2 refs -> opts_kept refs s1 s3.
Proof. intros [L1 H1] [L2 H2] I1 I2. split; [congruence|]. intros n N. rewrite H2, H1; auto. Qed.
Lemma opts_kept_upd s s' n o : h_opts s' = upd n o (h_opts s) -> opts_kept [n] s s'.
Proof. intros E. split; [rewrite E; apply upd_length|]. intros k N. rewrite E. apply nth_upd_neq. simpl in N. intuition. Qed.

Lemma ook_frame W refs s s' e (x : oent K) : ook s e x -> frame W s s' -> opts_kept refs s s' ->
  ~ In (x_ref x) refs -> (forall y, In y (x_ro x) -> ~ W y) -> ook s' e x.
Proof. intros (o & Ho & H) HF [_ HK] N HW. exists o. rewrite HK by auto. split; [exact Ho|]. eapply oown_frame; eauto. Qed.

Lemma tstep_like (t : player K * popt K) g : like (fst t) (fst (tstep t g)).
Proof.
  unfold tstep. destruct (pupdate _ _ _ _ _ _ _) as [[po' W'] B']. unfold like, reparam; simpl. auto 10.
Qed.

Definition upd_body (m : model K) (grads : list gradients) (layer : Z) : M K unit :=
  lref <- go_nth (m_layers m) layer ;;
  l <- get_layer lref ;;
  oref <- go_nth (m_opts m) layer ;;
  g <- go_nth grads (m_size m - layer - 1) ;;
  or_log "Failed to update using optimizer: " (Opt_Update oref (l_w l) (l_b l) (g_dw g) (g_db g)).

Lemma prows_cons e es : prows (e :: es) = (e_rw e ++ e_rb e) ++ prows es. Proof. reflexivity. Qed.
Lemma orows_cons x xs : orows (x :: xs) = x_ro x ++ orows xs. Proof. reflexivity. Qed.
Lemma prows_old s es x : Forall (lok s) es -> In x (prows es) -> (x <= nrows s)%nat.
Proof.
  intros HL Hz. unfold prows in Hz. apply in_concat in Hz as (zs & Hzs & Hz). apply in_map_iff in Hzs as (e1 & <- & He1).
  rewrite Forall_forall in HL. destruct (HL e1 He1) as (l1 & _ & Hl1). apply in_app_iff in Hz. eapply lown_old; eauto.
Qed.

Lemma wp_upd_loop m es2 : forall es1 xs1 xs2 gs1 gs2 Gs2 grws s,
  m_layers m = map e_ref (es1 ++ es2) -> m_opts m = map x_ref (xs1 ++ xs2) ->
  length xs1 = length es1 -> length gs1 = length es1 ->
  m_size m = Z.of_nat (length es1 + length es2) ->
  Forall (lok s) es2 -> NoDup (prows es2) -> Forall2 (ook s) es2 xs2 -> NoDup (map x_ref xs2) ->
  disjoint (prows es2) (orows xs2) ->
  grads_rep s (net es2) gs2 Gs2 grws -> disjoint (prows es2) (orow_all grws) ->
  wp (loop (length es2) (Z.of_nat (length es1)) (fun i (_ : unit) => upd_body m (rev (gs1 ++ gs2)) i) tt) s (fun _ s' =>
    exists es2' xs2', Forall2 same_place es2 es2' /\ Forall2 same_oplace xs2 xs2' /\
      trainer es2' xs2' = map (fun tg => tstep (fst tg) (snd tg)) (combine (trainer es2 xs2) Gs2) /\
      Forall (lok s') es2' /\ Forall2 (ook s') es2' xs2' /\ fresh s (orows xs2') /\
      frame (among (prows es2)) s s' /\ rest3 s s' /\ opts_kept (map x_ref xs2) s s').
Proof.
  induction es2 as [|e es2 IH]; intros es1 xs1 xs2 gs1 gs2 Gs2 grws s HL HX Lx Lg HS HLo HND HOo HNx HDo HG HDg.
  - inversion HOo; subst. apply wp_ret. exists [], []. split; [constructor|]. split; [constructor|].
    split; [reflexivity|]. split; [constructor|]. split; [constructor|]. split; [constructor|].
    split; [apply frame_refl|]. split; [apply rest3_refl|apply opts_kept_refl].
  - destruct xs2 as [|x xs3]; [inversion HOo|].
    assert (Hox : ook s e x) by (inversion HOo; assumption).
    assert (HOo' : Forall2 (ook s) es2 xs3) by (inversion HOo; assumption). clear HOo.
    destruct gs2 as [|g gs2]; [contradiction|]. destruct Gs2 as [|G Gs2]; [contradiction|].
    destruct grws as [|[rgw rgb] grws]; [contradiction|]. destruct HG as (HGw & HGb & HG).
    inversion_clear HLo as [|? ? (l & Hl & Hlo) HLo']. rewrite prows_cons in HND, HDo, HDg.
    rewrite orows_cons in HDo. rewrite orow_all_cons in HDg.
    cbn [map] in HNx. inversion_clear HNx as [|? ? Nx HNx'].
    apply NoDup_app_inv in HND as (NDe & NDes & Dees). apply NoDup_app_inv in NDe as (NDw & NDb & Dwb).
    destruct Hox as (ob & Hob & Hoo).
    cbn [length loop]. apply wp_bind. unfold upd_body at 1.
    apply wp_bind. eapply wp_eq.
    { apply go_nth_app' with (l1 := map e_ref es1) (x := e_ref e) (l2 := map e_ref es2); [|now rewrite map_length].
      rewrite HL, map_app. reflexivity. }
    apply wp_bind. eapply wp_eq; [apply get_layer_run; exact Hl|].
    apply wp_bind. eapply wp_eq.
    { apply go_nth_app' with (l1 := map x_ref xs1) (x := x_ref x) (l2 := map x_ref xs3); [|rewrite map_length; congruence].
      rewrite HX, map_app. reflexivity. }
    assert (Lg2 : length gs2 = length es2).
    { clear - HG. revert gs2 Gs2 grws HG. induction (es2) as [|a l0 IHl]; intros [|g gs] [|G Gs] [|[? ?] grws] H; simpl in *; try contradiction; auto.
      destruct H as (_ & _ & H). f_equal. eapply IHl; eauto. }
    apply wp_bind. eapply wp_eq.
    { replace (m_size m - Z.of_nat (length es1) - 1) with (Z.of_nat (length es2)) by (rewrite HS; simpl; lia).
      apply go_nth_app' with (l1 := rev gs2) (x := g) (l2 := rev gs1); [|rewrite rev_length; congruence].
      rewrite rev_app_distr. simpl. now rewrite <- app_assoc. }
    apply wp_or_log.
    assert (HU := wp_Opt_Update s (x_ref x) ob (x_ro x) (x_po x) (l_w l) (l_b l) (g_dw g) (g_db g) (e_rw e) (e_rb e) rgw rgb
        (p_in (e_p e)) (p_out (e_p e)) (p_w (e_p e)) (p_b (e_p e)) (fst G) (snd G) Hob Hoo).
    assert (HA : upd_args s (l_w l) (l_b l) (g_dw g) (g_db g) (e_rw e) (e_rb e) rgw rgb
        (p_in (e_p e)) (p_out (e_p e)) (p_w (e_p e)) (p_b (e_p e)) (fst G) (snd G)).
    { destruct Hlo as (_ & _ & _ & _ & _ & H1 & H2 & H3 & H4). unfold upd_args.
      split; [exact H3|]. split; [exact H4|]. split; [exact HGw|]. split; [exact HGb|].
      split; [exact NDw|]. split; [exact NDb|]. split; [exact Dwb|]. split; [exact H1|exact H2]. }
    specialize (HU HA).
    assert (HT : tstep (e_p e, x_po x) G = (let '(po', W', B') := pupdate (x_po x) (p_in (e_p e)) (p_out (e_p e)) (p_w (e_p e)) (p_b (e_p e)) (fst G) (snd G) in (reparam (e_p e) W' B', po'))) by reflexivity.
    destruct (pupdate (x_po x) (p_in (e_p e)) (p_out (e_p e)) (p_w (e_p e)) (p_b (e_p e)) (fst G) (snd G)) as [[po' W'] B'] eqn:EP.
    eapply wp_conseq; [exact HU|]. clear HU HA.
    intros [] s1 (Hw & Hb & (o' & ro' & (HF1 & HR1 & HO1) & Hoo1 & Fro)).
    assert (HK1 := opts_kept_upd _ _ _ _ HO1).
    assert (Dp : forall z, In z (prows es2) -> ~ In z (e_rw e ++ e_rb e)) by (intros z Hz Hz'; exact (Dees z Hz' Hz)).
    replace (rev (gs1 ++ g :: gs2)) with (rev ((gs1 ++ [g]) ++ gs2)) by (rewrite <- app_assoc; reflexivity).
    replace (Z.of_nat (length es1) + 1) with (Z.of_nat (length (es1 ++ [e]))) by (rewrite app_length; simpl; lia).
    assert (HL1 : Forall (lok s1) es2).
    { rewrite Forall_forall in *. intros e1 He1. eapply lok_kept; [apply HLo'; exact He1 | exact HF1 | apply (layers_kept_eq []); apply HR1 |].
      intros z Hz. apply Dp. unfold prows. apply in_concat. exists (e_rw e1 ++ e_rb e1). split; [apply in_map_iff; eauto|rewrite in_app_iff; tauto]. }
    assert (HOK1 : Forall2 (ook s1) es2 xs3).
    { eapply Forall2_in; [|exact HOo']. intros e1 x1 _ Hx1 H1.
      eapply ook_frame; [exact H1|exact HF1|exact HK1| |].
      - intros [E|[]]. apply Nx. rewrite E. apply in_map; auto.
      - intros z Hz Hz'. apply (HDo z); [rewrite in_app_iff; left; exact Hz'|].
        rewrite in_app_iff. right. unfold orows. apply in_concat. exists (x_ro x1). split; [apply in_map; auto|auto]. }
    eapply wp_conseq; [eapply (IH (es1 ++ [e]) (xs1 ++ [x]) xs3 (gs1 ++ [g]) gs2 Gs2 grws s1); auto|].
    + rewrite HL, <- app_assoc. reflexivity.
    + rewrite HX, <- app_assoc. reflexivity.
    + rewrite !app_length. simpl. congruence.
    + rewrite !app_length. simpl. congruence.
    + rewrite HS, app_length. simpl. f_equal. lia.
    + intros z Hz Hz'. apply (HDo z); rewrite !in_app_iff; tauto.
    + eapply grads_rep_frame; [exact HG|exact HF1|]. intros z Hz Hz'. apply (HDg z); rewrite !in_app_iff; [|tauto].
      unfold among in Hz'. rewrite in_app_iff in Hz'. tauto.
    + intros z Hz Hz'. apply (HDg z); rewrite !in_app_iff; tauto.
    + intros _ s2 (es2' & xs3' & SP & SO & HTr & HL2 & HOK2 & Ff & HF2 & HR2 & HK2).
      exists (LE (e_ref e) (e_rw e) (e_rb e) (reparam (e_p e) W' B') :: es2'), (OE (x_ref x) ro' po' :: xs3').
      assert (N01 := frame_nrows _ _ _ HF1).
      assert (Hl2 : nth_error (h_layers s2) (e_ref e) = Some l).
      { destruct HR2 as (-> & _). destruct HR1 as (-> & _). exact Hl. }
      assert (Dw2 : forall z, In z (e_rw e) \/ In z (e_rb e) -> ~ In z (prows es2)) by (intros z Hz; apply Dees; rewrite in_app_iff; exact Hz).
      split; [constructor; [|exact SP]; unfold same_place, like; simpl; auto 10|].
      split; [constructor; [reflexivity|exact SO]|].
      split; [|split; [|split; [|split; [|split; [|split]]]]].
      * unfold trainer in *. cbn [net map e_p x_po combine fst snd]. rewrite HT. f_equal. exact HTr.
      * constructor; [|exact HL2]. exists l. split; [exact Hl2|]. simpl.
        destruct Hlo as (A1 & A2 & A3 & A4 & A5 & A6 & A7 & _).
        unfold lown; simpl. split; [exact A1|]. split; [exact A2|]. split; [exact A3|]. split; [exact A4|]. split; [exact A5|].
        split; [exact A6|]. split; [exact A7|].
        split; (eapply own_frame; [eassumption|exact HF2|]); intros z Hz; apply Dw2; auto.
      * constructor; [|exact HOK2]. exists o'. simpl. split.
        -- destruct HK2 as [_ HK2]. rewrite HK2 by exact Nx. rewrite HO1. eapply nth_upd_eq; eauto.
        -- eapply oown_frame; [exact Hoo1|exact HF2|]. intros z Hz Hz'. pose proof (fresh_in _ _ _ Fro Hz).
           pose proof (prows_old _ _ _ HLo' Hz'). lia.
      * rewrite orows_cons. apply Forall_app. split; [exact Fro|]. eapply fresh_mono; eauto.
      * rewrite prows_cons. eapply frame_trans; [exact HF1|exact HF2|]. intros z _ Hz. unfold among in *. rewrite !in_app_iff in *. tauto.
      * eapply rest3_trans; eauto.
      * eapply opts_kept_trans; [exact HK1|exact HK2| |]; intros z Hz; simpl in *; tauto.
Qed.

(** ** One batch *)
Definition sub {A} (lo len : nat) (l : list A) : list A := firstn len (skipn lo l).
Lemma in_sub {A} lo len (l : list A) x : In x (sub lo len l) -> In x l.
Proof. unfold sub. intros H. rewrite <- (firstn_skipn lo l), in_app_iff. right. rewrite <- (firstn_skipn len (skipn lo l)), in_app_iff. auto. Qed.
Lemma Forall2_sub {A B} (R : A -> B -> Prop) : forall lo l1 l2 len, Forall2 R l1 l2 -> Forall2 R (sub lo len l1) (sub lo len l2).
Proof.
  unfold sub. induction lo as [|lo IH]; intros l1 l2 len H; simpl.
  - revert len. induction H; intros [|len]; simpl; constructor; auto.
  - inversion H; subst; simpl; auto. rewrite !firstn_nil. constructor.
Qed.
Lemma sub_sub {A} a b lo len (l : list A) : (lo + len <= b)%nat -> sub lo len (sub a b l) = sub (a + lo) len l.
Proof.
  intros H. unfold sub. rewrite skipn_firstn_comm, firstn_firstn. replace (Nat.min len (b - lo)) with len by lia.
  f_equal. revert l. induction a as [|a IH]; intros l; simpl; auto. destruct l; simpl; auto. now rewrite skipn_nil.
Qed.
Lemma shape_sub lo len n c (A : pm K) : shape n c A -> (lo + len <= n)%nat -> shape len c (sub lo len A).
Proof.
  intros [HL HF] H. split.
  - unfold sub. rewrite firstn_length, skipn_length. lia.
  - rewrite Forall_forall in *. intros row Hr. apply HF. eapply in_sub; eauto.
Qed.

Lemma batch_own s x rs n c A lo len : own s x rs n c A -> (lo + len <= n)%nat -> (1 <= len)%nat -> (1 <= c)%nat ->
  exists sl, reslice (mdata x) (Z.of_nat lo) (Z.of_nat (lo + len)) s = (Ret sl, s) /\
    ignore_err matrix0 (NewMatrixFromSlice sl) s = (Ret (MkMatrix (Z.of_nat len) (Z.of_nat c) sl), s) /\
    own s (MkMatrix (Z.of_nat len) (Z.of_nat c) sl) (sub lo len rs) len c (sub lo len A).
Proof.
  intros HO Hlo Hlen Hc. assert (HO' := HO). destruct HO' as (E1 & E2 & E3 & HS & (arr & Ha & Hb & ->) & HF).
  exists (MkSlice (sl_loc (mdata x)) (sl_off (mdata x) + lo) len).
  assert (HOB : own s (MkMatrix (Z.of_nat len) (Z.of_nat c) (MkSlice (sl_loc (mdata x)) (sl_off (mdata x) + lo) len))
      (sub lo len (firstn (sl_len (mdata x)) (skipn (sl_off (mdata x)) arr))) len c (sub lo len A)).
  { split; [reflexivity|]. split; [reflexivity|]. split; [reflexivity|]. split; [eapply shape_sub; eauto|]. split.
    - exists arr. simpl. split; [exact Ha|]. split; [lia|].
      change (firstn (sl_len (mdata x)) (skipn (sl_off (mdata x)) arr)) with (sub (sl_off (mdata x)) (sl_len (mdata x)) arr).
      rewrite sub_sub by lia. reflexivity.
    - apply Forall2_sub. exact HF. }
  split; [|split; [|exact HOB]].
  - unfold reslice. rewrite Ha.
    replace (_ && _ && _) with true by (symmetry; rewrite !andb_true_iff; repeat split; apply Z.leb_le; lia).
    rewrite Nat2Z.id. replace (Z.to_nat (Z.of_nat (lo + len) - Z.of_nat lo)) with len by lia. reflexivity.
  - unfold ignore_err. erewrite NewMatrixFromSlice_run by (exact (own_slice_view _ _ _ _ _ _ HOB)).
    pose proof (own_shape _ _ _ _ _ _ HOB) as [HL HFr].
    destruct (sub lo len A) as [|row0 rows] eqn:E; simpl in HL; [lia|].
    inversion HFr; subst. destruct (Nat.ltb_spec (length row0) 1); [lia|]. simpl. reflexivity.
Qed.

(** ** What training changes *)
Lemma same_place_maps es es' : Forall2 same_place es es' -> map e_ref es' = map e_ref es /\ prows es' = prows es /\ length es' = length es.
Proof.
  induction 1 as [|e e' es es' (H1 & H2 & H3 & _) _ (IH1 & IH2 & IH3)]; [auto|].
  rewrite !prows_cons. simpl. rewrite H1, H2, H3, IH1, IH2, IH3. auto.
Qed.
Lemma same_oplace_map xs xs' : Forall2 same_oplace xs xs' -> map x_ref xs' = map x_ref xs /\ length xs' = length xs.
Proof. induction 1 as [|x x' xs xs' H _ (IH1 & IH2)]; [auto|]. simpl. unfold same_oplace in H. rewrite H, IH1, IH2. auto. Qed.
Lemma same_slots_places s xs xs' : same_slots s xs xs' -> Forall2 same_oplace xs xs'.
Proof. unfold same_slots, same_oplace. induction 1 as [|x x' xs xs' [H _] _ IH]; constructor; auto. Qed.
Lemma same_slots_fresh s xs xs' : Forall2 same_oplace xs xs' -> fresh s (orows xs') -> same_slots s xs xs'.
Proof.
  unfold same_slots, same_oplace, fresh. induction 1 as [|x x' xs xs' H _ IH]; [constructor|]. rewrite orows_cons, Forall_app.
  intros [H1 H2]. constructor; auto.
Qed.
Lemma same_place_chain es es' : Forall2 same_place es es' -> forall i o, chain i (net es) o -> chain i (net es') o.
Proof.
  induction 1 as [|e e' es es' (_ & _ & _ & (H1 & H2 & H3 & _)) _ IH]; intros i o HC; [exact HC|].
  destruct HC as [<- HC]. simpl. rewrite H2, H3. split; [reflexivity|]. apply IH. exact HC.
Qed.
Lemma same_place_kind es es' (P : lkind -> Prop) : Forall2 same_place es es' ->
  Forall (fun e => P (p_kind (e_p e))) es -> Forall (fun e => P (p_kind (e_p e))) es'.
Proof.
  induction 1 as [|e e' es es' (_ & _ & _ & (H1 & _)) _ IH]; intros HF; [constructor|]. inversion HF; subst.
  constructor; [rewrite H1; auto|auto].
Qed.
Lemma trainer_net es xs : length xs = length es -> map fst (trainer es xs) = net es.
Proof.
  unfold trainer, net. intros H. revert xs H. induction es as [|e es IH]; intros [|x xs] H; simpl in *; try discriminate; auto.
  f_equal. auto.
Qed.
Lemma forward_train_effect es xs n s s' : forward_effect (map e_ref es) n s s' -> train_effect es xs n [] s s'.
Proof.
  intros (HF & (R1 & R2 & R3) & HK & HG). split; [apply frame_nothing, HF|]. split; [exact HK|].
  split; [apply opts_kept_eq; exact R1|]. rewrite app_nil_r. auto.
Qed.
Lemma train_effect_trans es xs n1 n2 ls1 ls2 s1 s2 s3 : train_effect es xs n1 ls1 s1 s2 -> train_effect es xs n2 ls2 s2 s3 ->
  train_effect es xs (n1 + n2) (ls1 ++ ls2) s1 s3.
Proof.
  intros (F1 & L1 & O1 & G1 & A1 & B1) (F2 & L2 & O2 & G2 & A2 & B2).
  split; [eapply frame_trans; eauto; tauto|]. split; [eapply layers_kept_trans; eauto using incl_refl|].
  split; [eapply opts_kept_trans; eauto using incl_refl|]. rewrite G2, G1, adv_uni_add. split; [reflexivity|]. split; [congruence|]. rewrite B2, B1, app_assoc. reflexivity.
Qed.
Lemma train_effect_places es es' xs xs' n ls s s' : Forall2 same_place es es' -> Forall2 same_oplace xs xs' ->
  train_effect es' xs' n ls s s' -> train_effect es xs n ls s s'.
Proof.
  intros H1 H2 H. destruct (same_place_maps _ _ H1) as (E1 & E2 & _). destruct (same_oplace_map _ _ H2) as (E3 & _).
  unfold train_effect in *. rewrite E1, E2, E3 in H. exact H.
Qed.
Lemma frame_fresh' (W : nat -> Prop) rs s s1 s2 : frame W s s1 -> frame (among rs) s1 s2 -> fresh s rs -> frame W s s2.
Proof. intros H1 H2 HF. eapply frame_trans; eauto. intros z Hz [H|H]; [exact H|]. pose proof (fresh_in _ _ _ HF H). lia. Qed.

Lemma wp_train_batch s m es xs i o k bx rbx by_ rby r (X Y : pm K) :
  trainable s m es xs i o k -> own s bx rbx r i X -> own s by_ rby r o Y -> (1 <= r)%nat ->
  wp (outputs <- or_log "Failed to perform forward pass: " (Forward m bx true) ;;
      grads <- or_log "Failed to perform forward pass: " (Backward m outputs by_) ;;
      for_ (m_size m) (upd_body m grads)) s (fun _ s' =>
    train_result s s' m es xs i o k (pbatch k o (trainer es xs) X Y (r_uni (h_rng s)) (r_upos (h_rng s)))
      (net_draws true (net es) r) []).
Proof.
  intros (HC & (NR & NP) & Hlen & HX & NX & HOO & HDO & HLs & HLt & HK) Hbx Hby Hr.
  apply wp_bind, wp_or_log. eapply wp_conseq; [eapply (wp_Forward true s m es i o bx rbx r X); eauto|].
  intros outs s1 (outs' & rss & -> & HR & HF & HND & HOld & HE).
  assert (HE' := HE). destruct HE' as (HFr & (R1 & R2 & R3) & HKl & HG).
  assert (HC' := HC). destruct HC' as (L1 & L2 & L3 & L4 & L5 & L6).
  assert (HLo1 : Forall (lok s1) es).
  { eapply Forall_impl; [|exact L6]. intros e He. eapply lok_kept; eauto. }
  set (U := r_uni (h_rng s)) in *. set (q := r_upos (h_rng s)) in *.
  assert (HReady : ready s1 m es i o k bx rbx r X by_ rby Y U q outs' rss).
  { split; [split; [exact L1|]; split; [exact L2|]; split; [exact L3|]; split; [exact L4|]; split; [exact L5|exact HLo1]|].
    split; [exact Hlen|]. split; [exact HLs|]. split; [exact HLt|]. split; [exact HK|]. split; [exact HR|].
    split; [eapply own_frame; eauto|]. split; [eapply own_frame; eauto|]. split; [exact Hr|]. split; [exact HOld|]. split; [exact HND|].
    - eapply disjoint_old_fresh; [|exact HF]. rewrite Forall_forall. intros z Hz. rewrite !in_app_iff in Hz.
      destruct Hz as [Hz|[Hz|Hz]]; [exact (own_old_in _ _ _ _ _ _ _ Hbx Hz)|exact (own_old_in _ _ _ _ _ _ _ Hby Hz)|].
      eapply prows_old; eauto. }
  apply wp_bind, wp_or_log. eapply wp_conseq; [eapply wp_Backward; exact HReady|].
  intros grads s2 (gs & grws & -> & HGr & HFg & HF2 & HR2).
  assert (N01 : (nrows s <= nrows s1)%nat) by (eapply frame_nrows; eauto).
  assert (HF02 : frame nothing s s2) by (eapply frame_fresh'; eauto).
  assert (N02 : (nrows s <= nrows s2)%nat) by (eapply frame_nrows; eauto).
  assert (E2 : train_effect es xs (net_draws true (net es) r) [] s s2).
  { destruct HR2 as (A1 & A2 & A3 & A4 & A5). split; [apply frame_nothing, HF02|].
    split; [eapply layers_kept_trans; [exact HKl|eapply (layers_kept_eq []); exact A1| |]; auto using incl_refl; intros z []|].
    split; [apply opts_kept_eq; congruence|]. rewrite A3. split; [exact HG|]. rewrite app_nil_r. split; congruence. }
  unfold for_, for_acc. rewrite L2, Nat2Z.id.
  assert (LX : length xs = length es) by (symmetry; eapply Forall2_length; eauto).
  assert (HLo2 : Forall (lok s2) es).
  { eapply Forall_impl; [|exact L6]. intros e He. destruct E2 as (_ & E2 & _). eapply lok_kept; eauto. }
  eapply wp_conseq; [eapply (wp_upd_loop m es [] [] xs [] gs _ grws s2); eauto|].
  - eapply Forall2_in; [|exact HOO]. intros e x He Hx' H. eapply (ook_frame _ []); [exact H|exact HF02| |intros []|].
    + apply opts_kept_eq. destruct HR2 as (_ & A2 & _). congruence.
    + intros z _ [].
  - eapply disjoint_old_fresh; [|eapply fresh_mono; [exact N01|exact HFg]]. rewrite Forall_forall. intros z Hz. eapply prows_old; eauto.
  - intros [] s3 (es' & xs' & SP & SO & HT & HL3 & HO3 & Ff & HF3 & HR3 & HK3).
    destruct (same_place_maps _ _ SP) as (M1 & M2 & M3). destruct (same_oplace_map _ _ SO) as (M4 & M5).
    exists es', xs'. split; [|split; [exact SP|split; [apply same_slots_fresh; [exact SO|eapply fresh_mono; [exact N02|exact Ff]]|split]]].
    + split; [|split; [|split; [|split; [|split; [|split; [|split; [|split; [|split]]]]]]]].
      * split; [congruence|]. split; [congruence|]. split; [exact L3|]. split; [exact L4|]. split; [eapply same_place_chain; eauto|exact HL3].
      * unfold unshared. rewrite M1, M2. auto.
      * lia.
      * congruence.
      * rewrite M4. exact NX.
      * exact HO3.
      * rewrite M2. eapply disjoint_old_fresh; [|eapply fresh_mono; [exact N02|exact Ff]]. rewrite Forall_forall. intros z Hz. eapply prows_old; eauto.
      * exact HLs.
      * exact HLt.
      * exact (same_place_kind _ _ (fun kd => kd <> SigmoidK) SP HK).
    + rewrite HT. unfold pbatch. rewrite trainer_net by exact LX.
      pose proof (own_shape _ _ _ _ _ _ Hbx) as [-> _]. reflexivity.
    + replace (net_draws true (net es) r) with (net_draws true (net es) r + 0)%nat by lia.
      change (@nil (logline K)) with (@nil (logline K) ++ []). eapply train_effect_trans; [exact E2|].
      destruct HR3 as (A1 & A2 & A3 & A4). split; [exact HF3|]. split; [apply layers_kept_eq; exact A1|].
      split; [exact HK3|]. rewrite A2, adv_uni_0, app_nil_r. auto.
Qed.
End WithNum.
