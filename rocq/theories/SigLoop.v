(** * SigLoop: mini-batches, epochs and the whole of Fit, with sigmoid layers. *)
From Coq Require Import String ZArith List Bool Arith Lia.
From Verif Require Import Num Heap Spec Matrix Activation Misc Accuracy Loss Network Optimizers ModelGo PureSpec Repr HeapLemmas LoopLemmas MatrixProofs MatrixFacts ActivationProofs MiscProofs LayerProofs LayerFacts LossProofs LossCode OptSpec OptProofs OptFacts ModelSpec ModelProofs EvalProofs FitProofs FitLoop SigSpec SigFit.
Import ListNotations.
Open Scope Z_scope.
Open Scope go_scope.

(** ** Splicing rows *)
Definition splice {A} (lo len : nat) (B l : list A) : list A := firstn lo l ++ B ++ skipn (lo + len) l.
Lemma sub_split {A} lo len (l : list A) : l = firstn lo l ++ sub lo len l ++ skipn (lo + len) l.
Proof.
  unfold sub. rewrite <- (skipn_add len lo l), firstn_skipn, firstn_skipn. reflexivity.
Qed.
Lemma Forall2_skipn_ {A B} (R : A -> B -> Prop) k : forall l1 l2, Forall2 R l1 l2 -> Forall2 R (skipn k l1) (skipn k l2).
Proof. induction k as [|k IH]; intros l1 l2 H; [exact H|]. inversion H; subst; [constructor|]. simpl. auto. Qed.
Lemma Forall2_firstn_ {A B} (R : A -> B -> Prop) k : forall l1 l2, Forall2 R l1 l2 -> Forall2 R (firstn k l1) (firstn k l2).
Proof. induction k as [|k IH]; intros l1 l2 H; [constructor|]. inversion H; subst; [constructor|]. simpl. auto. Qed.
Lemma NoDup_sub {A} lo len (l : list A) : NoDup l -> NoDup (sub lo len l).
Proof.
  intros H. rewrite (sub_split lo len l) in H.
  apply NoDup_app_inv in H as (_ & H & _). apply NoDup_app_inv in H. apply H.
Qed.
Lemma skipn_splice {A} lo len (B l : list A) : (lo <= length l)%nat -> length B = len -> skipn (lo + len) (splice lo len B l) = skipn (lo + len) l.
Proof.
  intros H1 H2. unfold splice.
  assert (L : length (firstn lo l) = lo) by (rewrite firstn_length; lia).
  rewrite skipn_app, skipn_all2 by (rewrite L; lia). rewrite L. replace (lo + len - lo)%nat with len by lia.
  rewrite skipn_app, skipn_all2 by lia. replace (len - length B)%nat with 0%nat by lia. reflexivity.
Qed.
Lemma firstn_splice {A} lo len (B l : list A) : (lo <= length l)%nat -> length B = len ->
  firstn (lo + len) (splice lo len B l) = firstn lo l ++ B.
Proof.
  intros H1 H2. unfold splice. rewrite app_assoc.
  rewrite firstn_app. assert (L : length (firstn lo l ++ B) = (lo + len)%nat) by (rewrite app_length, firstn_length; lia).
  rewrite L, Nat.sub_diag, firstn_O, app_nil_r, <- L. apply firstn_all.
Qed.

Section WithNum.
Context {K : Num}.
Implicit Types (s : state K) (es : list (lent K)) (xs : list (oent K)) (X Y : pm K).

Lemma own_splice W s s' x bx rs n c A lo len B :
  own s x rs n c A -> (lo + len <= n)%nat -> own s' bx (sub lo len rs) len c B -> frame W s s' ->
  (forall z, In z rs -> ~ In z (sub lo len rs) -> ~ W z) -> NoDup rs ->
  own s' x rs n c (splice lo len B A).
Proof.
  intros (H1 & H2 & H3 & (HL & HFs) & H5 & H6) Hle (B1 & B2 & B3 & (BL & BFs) & B5 & B6) HF HW ND.
  split; [exact H1|]. split; [exact H2|]. split; [exact H3|].
  split; [|split; [eapply slice_refs_frame; eauto|]].
  - split.
    + unfold splice. rewrite !app_length, firstn_length, skipn_length. unfold pm in *. lia.
    + unfold splice. rewrite (sub_split lo len A) in HFs. apply Forall_app in HFs as [F1 F2]. apply Forall_app in F2 as [_ F3].
      apply Forall_app. split; [exact F1|]. apply Forall_app. split; [exact BFs|exact F3].
  - rewrite (sub_split lo len rs). unfold splice.
    rewrite (sub_split lo len rs) in ND. apply NoDup_app_inv in ND as (_ & ND & D1). apply NoDup_app_inv in ND as (_ & _ & D2).
    destruct HF as (_ & HF & _).
    apply Forall2_app; [|apply Forall2_app; [exact B6|]].
    + eapply Forall2_in; [|apply Forall2_firstn_; exact H6]. intros z row Hz _ Hrow. apply HF; [exact Hrow|]. apply HW.
      * rewrite (sub_split lo len rs), in_app_iff. auto.
      * intros Hz'. apply (D1 z Hz). rewrite in_app_iff. auto.
    + eapply Forall2_in; [|apply Forall2_skipn_; exact H6]. intros z row Hz _ Hrow. apply HF; [exact Hrow|]. apply HW.
      * rewrite (sub_split lo len rs), !in_app_iff. auto.
      * intros Hz'. exact (D2 z Hz' Hz).
Qed.

(** ** One batch *)
Lemma wp_strain_batch s m es xs i o k bx rbx by_ rby r (X Y : pm K) :
  strainable s m es xs i o k -> own s bx rbx r i X -> own s by_ rby r o Y -> (1 <= r)%nat ->
  NoDup rbx -> disjoint rbx (rby ++ prows es) -> disjoint rbx (orows xs) ->
  wp (outputs <- or_log "Failed to perform forward pass: " (Forward m bx true) ;;
      grads <- or_log "Failed to perform forward pass: " (Backward m outputs by_) ;;
      for_ (m_size m) (upd_body m grads)) s (fun _ s' =>
    exists es' xs', strainable s' m es' xs' i o k /\ Forall2 same_place es es' /\ same_slots s xs xs' /\
      trainer es' xs' = fst (sbatch k o (trainer es xs) X Y (r_uni (h_rng s)) (r_upos (h_rng s))) /\
      own s' bx rbx r i (snd (sbatch k o (trainer es xs) X Y (r_uni (h_rng s)) (r_upos (h_rng s)))) /\
      fresh s (orows xs') /\
      strain_effect es xs rbx (net_draws true (net es) r) [] s s').
Proof.
  intros (HC & (NR & NP) & Hlen & HX & NX & HOO & HDO & HLs & HLt & HK) Hbx Hby Hr NDb Dbx Dbo.
  apply wp_bind, wp_or_log. eapply wp_conseq; [eapply (wp_Forward true s m es i o bx rbx r X); eauto|].
  intros outs s1 (outs' & rss & -> & HR & HF & HND & HOld & HE).
  assert (HE' := HE). destruct HE' as (HFr & (R1 & R2 & R3) & HKl & HG).
  assert (HC' := HC). destruct HC' as (L1 & L2 & L3 & L4 & L5 & L6).
  assert (HLo1 : Forall (lok s1) es).
  { eapply Forall_impl; [|exact L6]. intros e He. eapply lok_kept; eauto. }
  set (U := r_uni (h_rng s)) in *. set (q := r_upos (h_rng s)) in *.
  assert (HReady : sready s1 m es i o k bx rbx r X by_ rby Y U q outs' rss).
  { split; [split; [exact L1|]; split; [exact L2|]; split; [exact L3|]; split; [exact L4|]; split; [exact L5|exact HLo1]|].
    split; [exact Hlen|]. split; [exact HLs|]. split; [exact HLt|]. split; [exact HK|]. split; [exact HR|].
    split; [eapply own_frame; eauto|]. split; [eapply own_frame; eauto|]. split; [exact Hr|]. split; [exact HOld|]. split; [exact HND|].
    split; [|split; [exact NDb|exact Dbx]].
    eapply disjoint_old_fresh; [|exact HF]. rewrite Forall_forall. intros z Hz. rewrite !in_app_iff in Hz.
    destruct Hz as [Hz|[Hz|Hz]]; [exact (own_old_in _ _ _ _ _ _ _ Hbx Hz)|exact (own_old_in _ _ _ _ _ _ _ Hby Hz)|].
    eapply prows_old; eauto. }
  apply wp_bind, wp_or_log. eapply wp_conseq; [eapply wp_sBackward; exact HReady|].
  assert (LX : length xs = length es) by (symmetry; eapply Forall2_length; eauto).
  unfold sbatch. rewrite trainer_net by exact LX. pose proof (own_shape _ _ _ _ _ _ Hbx) as [LXr _]. rewrite LXr.
  destruct (sbackprop k Y o (net es) r X U q) as [[G0 Gs] X'] eqn:EB. cbn [fst snd].
  intros grads s2 (gs & grws & -> & HGr & HbX & HFg & HF2 & HR2).
  assert (N01 : (nrows s <= nrows s1)%nat) by (eapply frame_nrows; eauto).
  assert (HF02 : frame (among rbx) s s2).
  { eapply frame_trans; [exact HFr|exact HF2|]. unfold among. intros z Hz [[]|H]. rewrite in_app_iff in H. destruct H as [H|H]; [exact H|].
    pose proof (fresh_in _ _ _ HF H). lia. }
  assert (N02 : (nrows s <= nrows s2)%nat) by (eapply frame_nrows; eauto).
  assert (E2 : strain_effect es xs rbx (net_draws true (net es) r) [] s s2).
  { destruct HR2 as (A1 & A2 & A3 & A4 & A5). split; [eapply frame_weaken; [exact HF02|]; unfold among; intros; rewrite in_app_iff; auto|].
    split; [eapply layers_kept_trans; [exact HKl|eapply (layers_kept_eq []); exact A1| |]; auto using incl_refl; intros z []|].
    split; [apply opts_kept_eq; congruence|]. rewrite A3. split; [exact HG|]. rewrite app_nil_r. split; congruence. }
  unfold for_, for_acc. rewrite L2, Nat2Z.id.
  assert (Db1 : forall e z, In e es -> In z (e_rw e) \/ In z (e_rb e) -> ~ In z rbx).
  { intros e z He Hz Hz'. apply (Dbx z Hz'). rewrite in_app_iff. right. unfold prows. apply in_concat.
    exists (e_rw e ++ e_rb e). split; [apply in_map_iff; eauto|rewrite in_app_iff; exact Hz]. }
  assert (HLo2 : Forall (lok s2) es).
  { rewrite Forall_forall in *. intros e He. destruct E2 as (_ & E2 & _). eapply lok_kept; [apply L6; exact He|exact HF02|exact E2|].
    intros z Hz. exact (Db1 e z He Hz). }
  eapply wp_conseq; [eapply (wp_upd_loop m es [] [] xs [] gs _ grws s2); eauto|].
  - eapply Forall2_in; [|exact HOO]. intros e x He Hx' H. eapply (ook_frame _ []); [exact H|exact HF02| |intros []|].
    + apply opts_kept_eq. destruct HR2 as (_ & A2 & _). congruence.
    + intros z Hz Hz'. apply (Dbo z Hz'). unfold orows. apply in_concat. exists (x_ro x). split; [apply in_map; auto|auto].
  - eapply disjoint_old_fresh; [|eapply fresh_mono; [exact N01|exact HFg]]. rewrite Forall_forall. intros z Hz. eapply prows_old; eauto.
  - intros [] s3 (es' & xs' & SP & SO & HT & HL3 & HO3 & Ff & HF3 & HR3 & HK3).
    destruct (same_place_maps _ _ SP) as (M1 & M2 & M3). destruct (same_oplace_map _ _ SO) as (M4 & M5).
    exists es', xs'. split; [|split; [exact SP|split; [apply same_slots_fresh; [exact SO|eapply fresh_mono; [exact N02|exact Ff]]|split; [|split; [|split]]]]].
    + split; [|split; [|split; [|split; [|split; [|split; [|split; [|split; [|split]]]]]]]].
      * split; [congruence|]. split; [congruence|]. split; [exact L3|]. split; [exact L4|]. split; [eapply same_place_chain; eauto|exact HL3].
      * unfold unshared. rewrite M1, M2. auto.
      * lia.
      * congruence.
      * rewrite M4. exact NX.
      * exact HO3.
      * rewrite M2. eapply disjoint_old_fresh; [|eapply fresh_mono; [exact N02|exact Ff]]. rewrite Forall_forall. intros z Hz. eapply prows_old; eauto.
      * exact HLs.
      * exact HLt.
      * clear - SP HK. induction SP as [|e e' es es' (_ & _ & _ & (H1 & H2 & H3 & _)) _ IH]; constructor; inversion HK; subst; auto.
        rewrite H1, H2, H3. auto.
    + exact HT.
    + eapply own_frame; [exact HbX|exact HF3|]. intros z Hz Hz'. apply (Dbx z Hz). rewrite in_app_iff. auto.
    + eapply fresh_mono; [exact N02|exact Ff].
    + destruct E2 as (F2 & K2 & O2 & G2 & A2 & B2). destruct HR3 as (A1' & A2' & A3' & A4').
      split; [eapply frame_trans; [exact F2|exact HF3|]; unfold among; intros z _; rewrite in_app_iff; tauto|].
      split; [eapply layers_kept_trans; [exact K2|eapply (layers_kept_eq []); exact A1'| |]; auto using incl_refl; intros z []|].
      split; [eapply opts_kept_trans; [exact O2|exact HK3| |]; auto using incl_refl|].
      rewrite A2'. split; [exact G2|]. rewrite app_nil_r in *. split; congruence.
Qed.

Lemma strainable_sizes s m es xs i o k : strainable s m es xs i o k -> (1 <= i)%nat /\ (1 <= o)%nat.
Proof.
  intros ((_ & _ & _ & _ & Hc & Hok) & _ & Hlen & _).
  destruct (list_snoc _ Hlen) as (es0 & e & ->). rewrite Forall_forall in Hok.
  destruct (Hok e) as (l & _ & Hl); [apply in_or_app; simpl; auto|].
  assert (Hc' := Hc). rewrite net_app in Hc'. apply chain_snoc in Hc'. destruct Hc' as (_ & <-).
  split; [|apply Hl].
  destruct es0 as [|e0 es0]; simpl in Hc; destruct Hc as [<- _].
  - apply Hl.
  - destruct (Hok e0) as (l0 & _ & Hl0); [simpl; auto|]. apply Hl0.
Qed.

Lemma wp_sfit_batch s m es xs i o k x rsx y rsy n X Y b j :
  min_faithful K -> Z.of_nat (n + b) <= 2 ^ 53 ->
  strainable s m es xs i o k -> sdata_ok s es xs x rsx y rsy n i o X Y -> (1 <= b)%nat -> (j * b < n)%nat ->
  let bt := sbatch k o (trainer es xs) (sub (j * b) b X) (sub (j * b) b Y) (r_uni (h_rng s)) (r_upos (h_rng s)) in
  wp (fit_batch m x y (Z.of_nat b) (Z.of_nat j)) s (fun _ s' =>
    length (snd bt) = Nat.min b (n - j * b) /\
    strain_result s s' m es xs i o k x rsx y rsy n Y (fst bt)
      (net_draws true (net es) (length (sub (j * b) b X))) (splice (j * b) (Nat.min b (n - j * b)) (snd bt) X) []).
Proof.
  intros HM H53 HT (HX & HY & ND & D1 & D2 & D3 & D4) Hb Hj. destruct (strainable_sizes _ _ _ _ _ _ _ HT) as [Hi Ho].
  assert (LX : length X = n) by (apply (own_shape _ _ _ _ _ _ HX)).
  assert (LY : length Y = n) by (apply (own_shape _ _ _ _ _ _ HY)).
  rewrite !(sub_min (j * b) b), LX, LY. set (len := Nat.min b (n - j * b)).
  assert (Hlen : (1 <= len)%nat) by (unfold len; lia).
  assert (Hle : (j * b + len <= n)%nat) by (unfold len; lia).
  replace (length (sub (j * b) len X)) with len by (unfold sub; rewrite firstn_length, skipn_length; lia).
  intros bt.
  unfold fit_batch. rewrite (own_rows _ _ _ _ _ _ HY).
  rewrite HM by (unfold small_int; nia).
  replace (Z.min ((Z.of_nat j + 1) * Z.of_nat b) (Z.of_nat n)) with (Z.of_nat (j * b + len)) by (unfold len; nia).
  replace (Z.of_nat j * Z.of_nat b) with (Z.of_nat (j * b)) by nia.
  destruct (batch_own _ _ _ _ _ _ _ _ HX Hle Hlen Hi) as (sx & R1 & N1 & O1).
  destruct (batch_own _ _ _ _ _ _ _ _ HY Hle Hlen Ho) as (sy & R2 & N2 & O2).
  apply wp_bind. eapply wp_eq; [exact R1|]. apply wp_bind. eapply wp_eq; [exact N1|].
  apply wp_bind. eapply wp_eq; [exact R2|]. apply wp_bind. eapply wp_eq; [exact N2|].
  eapply wp_conseq; [eapply (wp_strain_batch s m es xs i o k _ _ _ _ len); eauto|].
  - apply NoDup_sub, ND.
  - intros z Hz. apply in_sub in Hz. rewrite in_app_iff. intros [H|H]; [apply in_sub in H; exact (D1 z Hz H)|exact (D2 z Hz H)].
  - intros z Hz. apply in_sub in Hz. exact (D3 z Hz).
  - intros [] s' (es' & xs' & HT' & P & Q & T & OX & Fo & (F & EK & EO & EG & EL & EG')). fold bt in T, OX.
    assert (Ls : length (snd bt) = len) by (apply (own_shape _ _ _ _ _ _ OX)).
    split; [exact Ls|].
    destruct (same_place_maps _ _ P) as (M1 & M2 & M3).
    exists es', xs'. split; [exact HT'|]. split; [exact P|]. split; [exact Q|]. split; [exact T|]. split.
    + split; [|split; [|split; [exact ND|split; [exact D1|split; [|split]]]]].
      * eapply own_splice; [exact HX|exact Hle|exact OX|exact F| |exact ND].
        intros z Hz N. unfold among. rewrite in_app_iff. intros [H|H]; [exact (N H)|exact (D2 z Hz H)].
      * eapply own_frame; [exact HY|exact F|]. intros z Hz. unfold among. rewrite in_app_iff. intros [H|H].
        -- apply in_sub in H. exact (D1 z H Hz).
        -- exact (D4 z Hz H).
      * rewrite M2. exact D2.
      * eapply disjoint_old_fresh; [|exact Fo]. eapply own_old; eauto.
      * rewrite M2. exact D4.
    + split; [|auto].
      eapply frame_weaken; [exact F|]. unfold among. intros z _. rewrite !in_app_iff. intros [H|H]; [left; eapply in_sub; eauto|auto].
Qed.

Lemma strain_effect_trans es xs rsx n1 n2 ls1 ls2 s1 s2 s3 : strain_effect es xs rsx n1 ls1 s1 s2 -> strain_effect es xs rsx n2 ls2 s2 s3 ->
  strain_effect es xs rsx (n1 + n2) (ls1 ++ ls2) s1 s3.
Proof.
  intros (F1 & L1 & O1 & G1 & A1 & B1) (F2 & L2 & O2 & G2 & A2 & B2).
  split; [eapply frame_trans; eauto; tauto|]. split; [eapply layers_kept_trans; eauto using incl_refl|].
  split; [eapply opts_kept_trans; eauto using incl_refl|]. rewrite G2, G1, adv_uni_add. split; [reflexivity|]. split; [congruence|]. rewrite B2, B1, app_assoc. reflexivity.
Qed.
Lemma strain_effect_places es es' xs xs' rsx n ls s s' : Forall2 same_place es es' -> Forall2 same_oplace xs xs' ->
  strain_effect es' xs' rsx n ls s s' -> strain_effect es xs rsx n ls s s'.
Proof.
  intros H1 H2 H. destruct (same_place_maps _ _ H1) as (E1 & E2 & _). destruct (same_oplace_map _ _ H2) as (E3 & _).
  unfold strain_effect in *. rewrite E1, E2, E3 in H. exact H.
Qed.
Lemma strain_result_refl s m es xs i o k x rsx y rsy n X Y : strainable s m es xs i o k ->
  sdata_ok s es xs x rsx y rsy n i o X Y -> strain_result s s m es xs i o k x rsx y rsy n Y (trainer es xs) 0 X [].
Proof.
  intros H HD. exists es, xs. split; [exact H|]. split; [apply same_place_refl|]. split; [apply same_slots_refl|]. split; [reflexivity|].
  split; [exact HD|]. split; [apply frame_refl|]. split; [apply layers_kept_refl|]. split; [apply opts_kept_refl|].
  rewrite adv_uni_0, app_nil_r. auto.
Qed.
Lemma strain_result_trans s s1 s2 m es xs es1 xs1 i o k x rsx y rsy n Y ts2 n1 n2 X2 ls1 ls2 :
  Forall2 same_place es es1 -> same_slots s xs xs1 -> strain_effect es xs rsx n1 ls1 s s1 ->
  strain_result s1 s2 m es1 xs1 i o k x rsx y rsy n Y ts2 n2 X2 ls2 ->
  strain_result s s2 m es xs i o k x rsx y rsy n Y ts2 (n1 + n2) X2 (ls1 ++ ls2).
Proof.
  intros P Q E (es2 & xs2 & H & P2 & Q2 & T & D & E2). exists es2, xs2. split; [exact H|].
  split; [eapply same_place_trans; eauto|]. split; [eapply same_slots_trans; [eapply frame_nrows; apply E|exact Q|exact Q2]|]. split; [exact T|].
  split; [exact D|].
  eapply strain_effect_trans; [exact E|]. eapply strain_effect_places; eauto using same_slots_places.
Qed.
Lemma strain_effect_rng es xs rsx nn ls s s' : strain_effect es xs rsx nn ls s s' ->
  r_uni (h_rng s') = r_uni (h_rng s) /\ r_upos (h_rng s') = (r_upos (h_rng s) + nn)%nat.
Proof. intros (_ & _ & _ & -> & _). split; reflexivity. Qed.

Lemma sub_skipn_eq {A} lo b (l l' : list A) : skipn lo l = skipn lo l' -> sub lo b l = sub lo b l'.
Proof. unfold sub. intros ->. reflexivity. Qed.

Lemma wp_sbatches m i o k x rsx y rsy n X Y b :
  min_faithful K -> Z.of_nat (n + b) <= 2 ^ 53 -> (1 <= b)%nat -> length X = n ->
  forall c j s es xs XX, strainable s m es xs i o k -> sdata_ok s es xs x rsx y rsy n i o XX Y ->
  skipn (j * b) XX = skipn (j * b) X ->
  (c = 0 \/ (j + c - 1) * b < n)%nat ->
  wp (loop c (Z.of_nat j) (fun st (_ : unit) => fit_batch m x y (Z.of_nat b) st) tt) s (fun _ s' =>
    let '(ts', q', Xs) := strain_on k o (trainer es xs) (r_uni (h_rng s)) (r_upos (h_rng s))
                 (map (fun a => (sub (a * b) b X, sub (a * b) b Y)) (seq j c)) in
    exists nn, q' = (r_upos (h_rng s) + nn)%nat /\
      strain_result s s' m es xs i o k x rsx y rsy n Y ts' nn (firstn (j * b) XX ++ concat Xs ++ skipn ((j + c) * b) X) []).
Proof.
  intros HM H53 Hb LX. induction c as [|c IH]; intros j s es xs XX HT HD HXX Hj.
  - apply wp_ret. simpl. exists 0%nat. split; [lia|]. rewrite Nat.add_0_r, <- HXX, firstn_skipn. apply strain_result_refl; assumption.
  - cbn [loop]. apply wp_bind. eapply wp_conseq; [eapply wp_sfit_batch; eauto; nia|].
    cbv zeta. rewrite (sub_skipn_eq (j * b) b XX X HXX).
    cbn [seq map strain_on].
    destruct (sbatch k o (trainer es xs) (sub (j * b) b X) (sub (j * b) b Y) _ _) as [ts1 X1] eqn:EBt. cbn [fst snd].
    intros [] s1 (L1 & es1 & xs1 & HT1 & P1 & Q1 & T1 & HD1 & E1).
    replace (Z.of_nat j + 1) with (Z.of_nat (S j)) by lia.
    destruct (strain_effect_rng _ _ _ _ _ _ _ E1) as [HR1 HR2].
    assert (LXX : length XX = n) by (apply (own_shape _ _ _ _ _ _ (proj1 HD))).
    set (len := Nat.min b (n - j * b)) in *.
    assert (Hjn : (j * b < n)%nat) by nia.
    assert (HXX1 : skipn (S j * b) (splice (j * b) len X1 XX) = skipn (S j * b) X).
    { replace (S j * b)%nat with (j * b + b)%nat by lia.
      destruct (Nat.min_spec b (n - j * b)) as [[Hlt Hm]|[Hlt Hm]]; fold len in Hm.
      - replace (j * b + b)%nat with (j * b + len)%nat by lia. rewrite skipn_splice by lia.
        rewrite <- (skipn_add len (j * b) XX), <- (skipn_add len (j * b) X), HXX. reflexivity.
      - rewrite (skipn_all2 X) by lia. apply skipn_all2. unfold splice. rewrite !app_length, firstn_length, skipn_length. lia. }
    eapply wp_conseq; [apply (IH (S j) s1 es1 xs1 _ HT1 HD1 HXX1); nia|].
    rewrite HR1, HR2, T1.
    rewrite trainer_net in * by (symmetry; eapply Forall2_length; apply HT).
    destruct (strain_on k o ts1 _ _ _) as [[ts2 q2] Xs] eqn:ES.
    intros [] s2 (nn & Hn & H).
    exists (net_draws true (net es) (length (sub (j * b) b X)) + nn)%nat.
    split; [rewrite Hn; lia|].
    change (@nil (logline K)) with (@nil (logline K) ++ []).
    eapply strain_result_trans; eauto.
    replace (firstn (j * b) XX ++ concat (X1 :: Xs) ++ skipn ((j + S c) * b) X)
      with (firstn (S j * b) (splice (j * b) len X1 XX) ++ concat Xs ++ skipn ((S j + c) * b) X); [exact H|].
    replace (S j + c)%nat with (j + S c)%nat by lia. cbn [concat].
    replace (S j * b)%nat with (j * b + b)%nat by lia.
    destruct (Nat.min_spec b (n - j * b)) as [[Hlt Hm]|[Hlt Hm]]; fold len in Hm.
    + replace (j * b + b)%nat with (j * b + len)%nat by lia. rewrite firstn_splice by lia. now rewrite <- !app_assoc.
    + rewrite firstn_all2 by (unfold splice; rewrite !app_length, firstn_length, skipn_length; lia).
      unfold splice. rewrite (skipn_all2 XX) by lia. rewrite app_nil_r, <- !app_assoc. reflexivity.
Qed.

Lemma strainable_kept W s s' m es xs i o k : strainable s m es xs i o k ->
  frame W s s' -> (forall z, (z <= nrows s)%nat -> ~ W z) -> layers_kept (map e_ref es) s s' -> h_opts s' = h_opts s ->
  strainable s' m es xs i o k.
Proof.
  intros ((L1 & L2 & L3 & L4 & L5 & L6) & U & Hlen & HX & NX & HOO & HDO & HLs & HLt & HK) HF HW HL HO.
  split; [|split; [exact U|split; [exact Hlen|split; [exact HX|split; [exact NX|split; [|auto]]]]]].
  - split; [exact L1|]. split; [exact L2|]. split; [exact L3|]. split; [exact L4|]. split; [exact L5|].
    rewrite Forall_forall. intros e He. assert (L6' := proj1 (Forall_forall _ _) L6 e He). eapply lok_kept; eauto.
    intros z Hz. apply HW. eapply prows_old; [exact L6|]. unfold prows. apply in_concat. exists (e_rw e ++ e_rb e).
    split; [apply in_map_iff; eauto|apply in_or_app; exact Hz].
  - eapply Forall2_in; [|exact HOO]. intros e x He Hx H. eapply (ook_frame W []); eauto using opts_kept_eq.
    intros z Hz. apply HW. destruct H as (oo & _ & Hoo). eapply oown_old; eauto.
Qed.

(** One set of log lines. *)
Lemma wp_sfit_log s m es xs i o k x rsx n X y rsy Y what line :
  int_faithful K -> Z.of_nat o <= 2 ^ 53 -> 0 <= m_acctype m <= 2 -> h_logger s = true ->
  strainable s m es xs i o k -> own s x rsx n i X -> own s y rsy n o Y -> (1 <= n)%nat ->
  wp (fit_log m x y what line) s (fun _ s' =>
    strainable s' m es xs i o k /\ frame nothing s s' /\ layers_kept (map e_ref es) s s' /\ h_opts s' = h_opts s /\
    h_rng s' = h_rng s /\ h_logger s' = h_logger s /\
    h_log s' = h_log s ++ [let '(l, a) := ploss_acc m k o (net es) X Y in line l a]).
Proof.
  intros HI H53 Hac HLg HT HX HY Hn.
  assert (HT' := HT). destruct HT' as (HC & HU & Hlen & HXs & NX & HOO & HDO & HLs & HLt & HK).
  unfold fit_log. apply wp_bind, wp_or_log. eapply wp_conseq; [eapply wp_CalculateLoss; eauto|].
  intros v s1 (-> & E1).
  assert (HT1 : strainable s1 m es xs i o k).
  { destruct E1 as (F & (R & _) & L & _). eapply strainable_kept; eauto. }
  assert (HX1 : own s1 x rsx n i X) by (eapply own_frame; [eauto|apply E1|]; intros ? ? []).
  assert (HY1 : own s1 y rsy n o Y) by (eapply own_frame; [eauto|apply E1|]; intros ? ? []).
  set (P := pnet (net es) n X) in *.
  assert (HA : exists a, paccuracy (m_acctype m) (m_prec m) n o P Y = Some a).
  { unfold paccuracy. destruct (Z.eqb_spec (m_acctype m) 0); [eauto|]. destruct (Z.eqb_spec (m_acctype m) 1); [eauto|].
    destruct (Z.eqb_spec (m_acctype m) 2); [eauto|lia]. }
  destruct HA as [a HA].
  apply wp_bind, wp_or_log. eapply wp_conseq; [eapply wp_CalculateAccuracy with (es := es) (r := n); eauto; apply HT1|].
  intros v s2 (-> & E2).
  assert (HT2 : strainable s2 m es xs i o k).
  { destruct E2 as (F & (R & _) & L & _). eapply strainable_kept; eauto. }
  destruct E1 as (F1 & (R1 & A1 & B1) & L1 & G1), E2 as (F2 & (R2 & A2 & B2) & L2 & G2).
  eapply wp_eq; [unfold log_print; rewrite A2, A1, HLg; reflexivity|].
  assert (LX : length X = n) by (apply (own_shape _ _ _ _ _ _ HX)).
  unfold ploss_acc. rewrite LX. fold P. rewrite HA. cbn [fst snd].
  split; [eapply strainable_kept; [exact HT2|exact (frame_refl nothing s2)|intros z _ []|exact (layers_kept_refl _ s2)|reflexivity]|].
  split; [eapply frame_trans; [exact F1|exact F2|]; tauto|].
  split; [eapply layers_kept_trans; [exact L1|exact L2| |]; auto using incl_refl|].
  cbn [with_log h_opts h_rng h_logger h_log]. split; [congruence|].
  split; [change (h_rng s2 = h_rng s); rewrite G2, G1, !adv_uni_0; reflexivity|]. split; [change (h_logger s2 = h_logger s); congruence|].
  change (h_log s2 ++ [line (ploss k n o P Y) a] = h_log s ++ [line (ploss k n o P Y) a]). congruence.
Qed.
Lemma log_effect s s' es xs rsx l : frame nothing s s' -> layers_kept (map e_ref es) s s' -> h_opts s' = h_opts s ->
  h_rng s' = h_rng s -> h_logger s' = h_logger s -> h_log s' = h_log s ++ l -> strain_effect es xs rsx 0 l s s'.
Proof.
  intros F L O G A B. split; [apply frame_nothing; exact F|]. split; [exact L|]. split; [apply opts_kept_eq; exact O|].
  rewrite adv_uni_0. auto.
Qed.
Lemma sdata_ok_kept s s' es xs x rsx y rsy n i o X Y : sdata_ok s es xs x rsx y rsy n i o X Y -> frame nothing s s' ->
  sdata_ok s' es xs x rsx y rsy n i o X Y.
Proof.
  intros (H1 & H2 & H) F. split; [eapply own_frame; eauto; intros z _ []|]. split; [eapply own_frame; eauto; intros z _ []|exact H].
Qed.
Lemma sval_ok_effect s s' es es' xs rsx xv yv i o val nn ls : sval_ok s es rsx xv yv i o val ->
  strain_effect es xs rsx nn ls s s' -> Forall2 same_place es es' -> sval_ok s' es' rsx xv yv i o val.
Proof.
  destruct val as [[Xv Yv]|]; [|auto]. intros (rvx & rvy & nv & Hn & H1 & H2 & D1 & D2) (F & _) P.
  destruct (same_place_maps _ _ P) as (_ & E & _).
  exists rvx, rvy, nv. rewrite E. split; [exact Hn|].
  split; [eapply own_frame; eauto|]. split; [eapply own_frame; eauto|]. auto.
Qed.
Lemma slog_ok_effect s s' m es es' xs rsx xv yv i o val every nn ls : slog_ok s m es rsx xv yv i o val every ->
  strain_effect es xs rsx nn ls s s' -> Forall2 same_place es es' -> slog_ok s' m es' rsx xv yv i o val every.
Proof.
  intros [H|(H1 & H2 & H3 & H4 & H5)] E P; [left; exact H|right].
  split; [destruct E as (_ & _ & _ & _ & -> & _); exact H1|]. split; [exact H2|]. split; [exact H3|]. split; [exact H4|].
  eapply sval_ok_effect; eauto.
Qed.

Lemma wp_sepoch s m es xs i o k x rsx y rsy n X Y b xv yv val every e :
  min_faithful K -> Z.of_nat (n + b) <= 2 ^ 53 -> (1 <= b)%nat -> (1 <= n)%nat ->
  strainable s m es xs i o k -> sdata_ok s es xs x rsx y rsy n i o X Y -> slog_ok s m es rsx xv yv i o val every ->
  wp (epoch_body m x y (Z.of_nat (nsteps n b)) (Z.of_nat b) xv yv every e) s (fun _ s' =>
    let '(ts', q', Xs) := strain_on k o (trainer es xs) (r_uni (h_rng s)) (r_upos (h_rng s)) (combine (chunks b X) (chunks b Y)) in
    exists nn, q' = (r_upos (h_rng s) + nn)%nat /\
      strain_result s s' m es xs i o k x rsx y rsy n Y ts' nn (concat Xs) (plog m k o (concat Xs) Y val every e (map fst ts'))).
Proof.
  intros HM H53 Hb Hn HT HD HLg.
  assert (LX : length X = n) by (apply (own_shape _ _ _ _ _ _ (proj1 HD))).
  assert (LY : length Y = n) by (apply (own_shape _ _ _ _ _ _ (proj1 (proj2 HD)))).
  rewrite !chunks_seq by exact Hb. rewrite LX, LY, combine_map.
  unfold epoch_body. apply wp_bind. unfold for_, for_acc. rewrite Nat2Z.id. change 0 with (Z.of_nat 0) at 1.
  destruct (nsteps_spec n b Hb) as [NS1 NS2].
  eapply wp_conseq; [apply (wp_sbatches m i o k x rsx y rsy n X Y b HM H53 Hb LX (nsteps n b) 0 s es xs X HT HD eq_refl)|].
  { simpl. lia. }
  destruct (strain_on _ _ _ _ _ _) as [[ts' q'] Xs].
  intros [] s1 (nn & Hq & HR).
  rewrite (skipn_all2 X) in HR by (simpl; lia). simpl firstn in HR. rewrite app_nil_r in HR. cbn [app] in HR.
  destruct HR as (es1 & xs1 & HT1 & P1 & Q1 & T1 & HD1 & E1).
  assert (HL1 := slog_ok_effect _ _ _ _ _ _ _ _ _ _ _ _ _ _ _ HLg E1 P1).
  assert (LN : map fst ts' = net es1).
  { rewrite <- T1. apply trainer_net. symmetry. eapply Forall2_length. apply HT1. }
  unfold plog. rewrite LN.
  destruct (negb (every =? 0) && (Z.rem e every =? 0)) eqn:Hlog.
  - assert (Hev : every <> 0) by (destruct (Z.eqb_spec every 0); [discriminate|assumption]).
    destruct HL1 as [HL1|(G1 & G2 & G3 & G4 & G5)]; [contradiction|].
    assert (HD1' := HD1). destruct HD1' as (DX & DY & DD).
    apply wp_bind. eapply wp_conseq; [eapply wp_sfit_log; eauto|].
    intros [] s2 (HT2 & F2 & L2 & O2 & R2 & A2 & B2).
    assert (HD2 := sdata_ok_kept _ s2 _ _ _ _ _ _ _ _ _ _ _ HD1 F2).
    assert (E2 := log_effect _ _ es1 xs1 rsx _ F2 L2 O2 R2 A2 B2).
    rewrite <- andb_assoc, Hlog, andb_true_r.
    destruct val as [[Xv Yv]|].
    + destruct (sval_ok_effect _ _ _ _ _ _ _ _ _ _ _ _ _ G5 E2 (same_place_refl es1)) as (rvx & rvy & nv & Hnv & VX & VY & _).
      assert (E : mrows yv =? 0 = false).
      { rewrite (own_rows _ _ _ _ _ _ VY). destruct nv; [lia|reflexivity]. }
      rewrite E. simpl negb. cbv iota.
      eapply wp_conseq; [eapply wp_sfit_log; eauto; congruence|].
      intros [] s3 (HT3 & F3 & L3 & O3 & R3 & A3 & B3).
      assert (E3 := log_effect _ _ es1 xs1 rsx _ F3 L3 O3 R3 A3 B3).
      exists nn. split; [exact Hq|].
      replace nn with (nn + (0 + 0))%nat by lia.
      eapply (strain_result_trans _ _ _ _ _ _ _ _ _ _ _ _ _ _ _ _ _ _ _ _ _ []); [exact P1|exact Q1|exact E1|].
      exists es1, xs1. split; [exact HT3|]. split; [apply same_place_refl|]. split; [apply same_slots_refl|]. split; [exact T1|].
      split; [eapply sdata_ok_kept; eauto|]. exact (strain_effect_trans _ _ _ _ _ _ _ _ _ _ E2 E3).
    + simpl in G5. rewrite G5. simpl negb. cbv iota. apply wp_ret.
      exists nn. split; [exact Hq|]. replace nn with (nn + 0)%nat by lia.
      eapply (strain_result_trans _ _ _ _ _ _ _ _ _ _ _ _ _ _ _ _ _ _ _ _ _ []); [exact P1|exact Q1|exact E1|].
      exists es1, xs1. split; [exact HT2|]. split; [apply same_place_refl|]. split; [apply same_slots_refl|]. split; [exact T1|].
      split; [exact HD2|exact E2].
  - rewrite <- andb_assoc, Hlog, andb_false_r. apply wp_bind, wp_ret, wp_ret.
    exists nn. split; [exact Hq|]. exists es1, xs1. split; [exact HT1|]. split; [exact P1|]. split; [exact Q1|]. split; [exact T1|]. split; [exact HD1|exact E1].
Qed.

Lemma wp_sepochs m i o k x rsx y rsy n Y b xv yv val every :
  min_faithful K -> Z.of_nat (n + b) <= 2 ^ 53 -> (1 <= b)%nat -> (1 <= n)%nat ->
  forall c e s es xs X, strainable s m es xs i o k -> sdata_ok s es xs x rsx y rsy n i o X Y ->
  slog_ok s m es rsx xv yv i o val every ->
  wp (loop c e (fun ep (_ : unit) => epoch_body m x y (Z.of_nat (nsteps n b)) (Z.of_nat b) xv yv every ep) tt) s (fun _ s' =>
    let '(ts', q', X', ls) := sfit m k o b val every c e (trainer es xs) (r_uni (h_rng s)) (r_upos (h_rng s)) X Y in
    exists nn, q' = (r_upos (h_rng s) + nn)%nat /\ strain_result s s' m es xs i o k x rsx y rsy n Y ts' nn X' ls).
Proof.
  intros HM H53 Hb Hn. induction c as [|c IH]; intros e s es xs X HT HD HL.
  - apply wp_ret. simpl. exists 0%nat. split; [lia|]. apply strain_result_refl; assumption.
  - cbn [loop]. apply wp_bind. eapply wp_conseq; [eapply wp_sepoch; eauto|]. cbn [sfit].
    destruct (strain_on _ _ _ _ _ _) as [[ts1 q1] Xs].
    intros [] s1 (nn & Hq & es1 & xs1 & HT1 & P1 & Q1 & T1 & HD1 & E1).
    destruct (strain_effect_rng _ _ _ _ _ _ _ E1) as [R1 R2].
    eapply wp_conseq; [apply (IH (e + 1) s1 es1 xs1 _ HT1 HD1)|].
    + eapply slog_ok_effect; eauto.
    + rewrite R1, R2, T1, <- Hq.
      destruct (sfit _ _ _ _ _ _ _ _ _ _ _ _ _) as [[[ts2 q2] X2] ls].
      intros [] s2 (nn2 & Hq2 & H). exists (nn + nn2)%nat. split; [rewrite Hq2, Hq; lia|].
      eapply strain_result_trans; eauto.
Qed.

Theorem wp_sFit s m es xs i o k x rsx y rsy n X Y epochs bs xv yv val every :
  min_faithful K -> 0 <= bs -> Z.of_nat n + bs <= 2 ^ 52 -> (1 <= n)%nat ->
  strainable s m es xs i o k -> sdata_ok s es xs x rsx y rsy n i o X Y -> slog_ok s m es rsx xv yv i o val every ->
  wp (Fit m x y epochs bs xv yv every) s (fun _ s' =>
    let '(ts', q', X', ls) := sfit m k o (batch_rows n bs) val every (Z.to_nat epochs) 0 (trainer es xs)
                                (r_uni (h_rng s)) (r_upos (h_rng s)) X Y in
    exists nn, q' = (r_upos (h_rng s) + nn)%nat /\ strain_result s s' m es xs i o k x rsx y rsy n Y ts' nn X' ls).
Proof.
  intros HM Hbs H53 Hn HT HD HL. unfold Fit. cbv zeta. rewrite (own_rows _ _ _ _ _ _ (proj1 (proj2 HD))).
  unfold batch_rows. destruct (Z.eqb_spec bs 0) as [->|Hnz]; simpl negb; cbv iota.
  - replace 1 with (Z.of_nat (nsteps n n)).
    + eapply (wp_sepochs m i o k x rsx y rsy n Y n xv yv val every); eauto; lia.
    + unfold nsteps. rewrite Nat.div_same by lia. rewrite Nat.mul_1_l, Nat.ltb_irrefl. reflexivity.
  - assert (E : bs = Z.of_nat (Z.to_nat bs)) by lia.
    set (b := Z.to_nat bs) in *. clearbody b. subst bs.
    assert (Hs := nsteps_Z n b ltac:(lia)). cbv zeta in Hs. rewrite Hs.
    eapply (wp_sepochs m i o k x rsx y rsy n Y b xv yv val every); eauto; lia.
Qed.
End WithNum.
