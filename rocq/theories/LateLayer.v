(** * LateLayer: training a model that got layers after Finalize. *)
From Coq Require Import String ZArith List Bool Arith Lia.
From Verif Require Import Num Heap Spec Matrix Loss Network Optimizers ModelGo PureSpec Repr HeapLemmas LoopLemmas MatrixProofs MatrixFacts LayerProofs LayerFacts LossProofs LossCode LossFacts MiscProofs MiscFacts OptSpec OptProofs OptFacts ModelSpec ModelProofs FitProofs FitLoop FitFacts.
Import ListNotations.
Open Scope Z_scope.
Open Scope go_scope.

Section WithNum.
Context {K : Num}.
Implicit Types (s : state K) (p : player K) (ps : list (player K)) (es : list (lent K)) (xs : list (oent K)).

(** Like [trainable], but with optimizers only for the first layers [es1]. *)
Definition late s (m : model K) es1 es2 xs (i o : nat) (k : losskind) : Prop :=
  consistent s m (es1 ++ es2) i o /\ unshared (es1 ++ es2) /\ es2 <> [] /\
  m_opts m = map x_ref xs /\ NoDup (map x_ref xs) /\ Forall2 (ook s) es1 xs /\
  disjoint (prows es1) (orows xs) /\
  m_loss m = Some (MkLoss k (Z.of_nat o)) /\ m_losstype m = losskind_code k /\
  Forall (fun e => p_kind (e_p e) <> SigmoidK) (es1 ++ es2).

Lemma grads_rep_firstn s ps1 ps2 : forall gs Gs rws, grads_rep s (ps1 ++ ps2) gs Gs rws ->
  grads_rep s ps1 (firstn (length ps1) gs) (firstn (length ps1) Gs) (firstn (length ps1) rws).
Proof.
  induction ps1 as [|p ps1 IH]; intros gs Gs rws H; [reflexivity || exact I || (simpl; auto)|].
  destruct gs as [|g gs], Gs as [|G Gs], rws as [|[rw rb] rws]; simpl in *; try contradiction.
  destruct H as (H1 & H2 & H). split; [exact H1|]. split; [exact H2|]. apply IH, H.
Qed.
Lemma orow_all_firstn n : forall rws x, In x (orow_all (firstn n rws)) -> In x (orow_all rws).
Proof.
  induction n as [|n IH]; intros [|[a b] rws] x H; simpl in *; try contradiction.
  rewrite orow_all_cons in *. rewrite in_app_iff in *. destruct H as [H|H]; auto.
Qed.
Lemma loop_ext {A} (b1 b2 : Z -> A -> M K A) : forall n k acc s, (forall j a s1, k <= j < k + Z.of_nat n -> b1 j a s1 = b2 j a s1) ->
  loop n k b1 acc s = loop n k b2 acc s.
Proof.
  induction n as [|n IH]; intros k acc s H; [reflexivity|]. cbn [loop]. unfold bind. rewrite H by lia.
  destruct (b2 k acc s) as [[a|e|p] s1]; auto. apply IH. intros. apply H. lia.
Qed.
Lemma go_nth_nth {A} (l1 l2 : list A) j1 j2 s : 0 <= j1 < Z.of_nat (length l1) -> 0 <= j2 < Z.of_nat (length l2) ->
  nth_error l1 (Z.to_nat j1) = nth_error l2 (Z.to_nat j2) -> go_nth (K := K) l1 j1 s = go_nth l2 j2 s.
Proof.
  intros H1 H2 E. unfold go_nth. rewrite E.
  replace ((0 <=? j1) && (j1 <? Z.of_nat (length l1))) with true by lia.
  replace ((0 <=? j2) && (j2 <? Z.of_nat (length l2))) with true by lia. reflexivity.
Qed.
Lemma nth_rev_firstn {A} (l : list A) (p j : nat) : (p <= length l)%nat -> (j < p)%nat ->
  nth_error (rev (firstn p l)) (p - j - 1) = nth_error (rev l) (length l - j - 1).
Proof.
  intros Hp Hj. rewrite <- (firstn_skipn p l) at 2. rewrite rev_app_distr, nth_error_app2; rewrite rev_length, skipn_length; [|lia].
  f_equal. lia.
Qed.

(** The update loop stops at the first layer without an optimizer. *)
Lemma late_upd m es1 es2 xs gs Gs grws s :
  m_layers m = map e_ref (es1 ++ es2) -> m_opts m = map x_ref xs -> es2 <> [] ->
  m_size m = Z.of_nat (length (es1 ++ es2)) -> Forall (lok s) (es1 ++ es2) -> NoDup (prows (es1 ++ es2)) ->
  Forall2 (ook s) es1 xs -> NoDup (map x_ref xs) -> disjoint (prows es1) (orows xs) ->
  grads_rep s (net (es1 ++ es2)) gs Gs grws -> disjoint (prows (es1 ++ es2)) (orow_all grws) ->
  exists s', for_ (m_size m) (upd_body m (rev gs)) s = (Panic PIndex, s').
Proof.
  intros HL HX HN HS HLo HND HOo HNx HDo HG HDg.
  assert (LX : length xs = length es1) by (symmetry; eapply Forall2_length; eauto).
  destruct (grads_rep_length _ _ _ _ _ HG) as [Lg _]. unfold net in Lg. rewrite map_length in Lg.
  unfold for_, for_acc. rewrite HS, Nat2Z.id, app_length, loop_app.
  set (p := length es1) in *.
  set (m' := MkModel (Z.of_nat p) (m_in m) (m_out m) (m_losstype m) (m_loss m) (m_acctype m) (m_prec m) (m_opttype m) (m_optvals m) (map e_ref es1) (m_opts m)).
  assert (HW : wp (loop p 0 (fun i (_ : unit) => upd_body m' (rev (firstn p gs)) i) tt) s (fun _ s1 => Forall (lok s1) es2)).
  { apply Forall_app in HLo as [HLo1 HLo2].
    unfold prows in HND, HDg. rewrite map_app, concat_app in HND, HDg. fold (prows es1) (prows es2) in HND, HDg.
    apply NoDup_app_inv in HND as (ND1 & ND2 & D12).
    eapply wp_conseq; [eapply (wp_upd_loop m' es1 [] [] xs [] (firstn p gs) (firstn p Gs) (firstn p grws) s); auto|].
    - unfold net in HG. rewrite map_app in HG. apply grads_rep_firstn in HG. rewrite map_length in HG. exact HG.
    - intros z Hz Hz'. apply (HDg z); [rewrite in_app_iff; auto|eapply orow_all_firstn; eauto].
    - intros _ s1 (es1' & xs' & _ & _ & _ & _ & _ & _ & HF & HR & _).
      rewrite Forall_forall in *. intros e He. eapply lok_kept; [apply HLo2; exact He|exact HF|apply (layers_kept_eq []); apply HR|].
      intros z Hz Hz'. apply (D12 z Hz'). unfold prows. apply in_concat. exists (e_rw e ++ e_rb e).
      split; [apply in_map_iff; eauto|rewrite in_app_iff; tauto]. }
  apply wp_ex in HW as ([] & s1 & HW & HLo2).
  destruct es2 as [|e es2]; [contradiction|]. inversion_clear HLo2 as [|? ? (l & Hl & _) _].
  exists s1. erewrite bind_eq.
  2:{ rewrite <- HW. apply loop_ext. intros j [] s2 Hj. unfold upd_body. cbn [m_layers m_size m_opts m'].
      rewrite app_length in Lg. cbn [length] in Lg.
      assert (E1 : go_nth (m_layers m) j s2 = go_nth (map e_ref es1) j s2).
      { rewrite HL. apply go_nth_nth; rewrite ?map_length, ?app_length; try lia. rewrite map_app, nth_error_app1; [reflexivity|rewrite map_length; lia]. }
      unfold bind. rewrite E1. destruct (go_nth (map e_ref es1) j s2) as [[lr|?|?] s3]; auto.
      destruct (get_layer lr s3) as [[l'|?|?] s4]; auto.
      destruct (go_nth (m_opts m) j s4) as [[oref|?|?] s5]; auto.
      replace (go_nth (rev gs) (m_size m - j - 1) s5) with (go_nth (rev (firstn p gs)) (Z.of_nat p - j - 1) s5); [reflexivity|].
      apply go_nth_nth; rewrite ?rev_length, ?firstn_length, ?HS, ?app_length; cbn [length]; try lia.
      replace (Z.to_nat (Z.of_nat p - j - 1)) with (p - Z.to_nat j - 1)%nat by lia.
      rewrite nth_rev_firstn by lia. f_equal. fold p. lia. }
  cbn [length loop]. rewrite Z.add_0_l. apply bind_panic. unfold upd_body.
  erewrite bind_eq.
  2:{ eapply go_nth_app' with (l1 := map e_ref es1) (x := e_ref e) (l2 := map e_ref es2); [rewrite HL, map_app; reflexivity|now rewrite map_length]. }
  rewrite (bind_eq _ _ _ _ _ (get_layer_run _ _ _ Hl)). apply bind_panic.
  unfold go_nth. rewrite HX, map_length, LX. fold p. replace (Z.of_nat p <? Z.of_nat p) with false by lia. now rewrite andb_false_r.
Qed.

Lemma late_sizes s m es1 es2 xs i o k : late s m es1 es2 xs i o k -> (1 <= i)%nat /\ (1 <= o)%nat /\ (1 <= length (es1 ++ es2))%nat.
Proof.
  intros ((_ & _ & _ & _ & Hc & Hok) & _ & Hn & _).
  assert (Hlen : (1 <= length (es1 ++ es2))%nat) by (rewrite app_length; destruct es2; [contradiction|simpl; lia]).
  set (es := es1 ++ es2) in *. split; [|split; [|exact Hlen]].
  - destruct es as [|e0 es0]; [simpl in Hlen; lia|]. destruct Hc as [<- _]. inversion_clear Hok as [|? ? (l & _ & Hl) _]. apply Hl.
  - destruct (list_snoc _ Hlen) as (es0 & e & E). rewrite E in *. rewrite Forall_forall in Hok.
    destruct (Hok e) as (l & _ & Hl); [apply in_or_app; simpl; auto|].
    rewrite net_app in Hc. apply chain_snoc in Hc. destruct Hc as (_ & <-). apply Hl.
Qed.

Lemma or_log_eq {A} what (m : M K A) s a s' : m s = (Ret a, s') -> or_log what m s = (Ret a, s').
Proof. intros H. unfold or_log, bind, catch. now rewrite H. Qed.
Lemma late_batch s m es1 es2 xs i o k x rsx y rsy n (X Y : pm K) b :
  min_faithful K -> Z.of_nat (n + b) <= 2 ^ 53 ->
  late s m es1 es2 xs i o k -> data_ok s (es1 ++ es2) x rsx y rsy n i o X Y -> (1 <= b)%nat -> (1 <= n)%nat ->
  exists s', fit_batch m x y (Z.of_nat b) 0 s = (Panic PIndex, s').
Proof.
  intros HM H53 HL (HX & HY & D1 & D2) Hb Hn. destruct (late_sizes _ _ _ _ _ _ _ _ HL) as (Hi & Ho & Hlen).
  set (r := Nat.min b n).
  assert (Hr : (1 <= r)%nat) by (unfold r; lia). assert (Hle : (0 + r <= n)%nat) by (unfold r; lia).
  destruct (batch_own _ _ _ _ _ _ _ _ HX Hle Hr Hi) as (sx & R1 & N1 & Hbx).
  destruct (batch_own _ _ _ _ _ _ _ _ HY Hle Hr Ho) as (sy & R2 & N2 & Hby).
  unfold fit_batch. rewrite (own_rows _ _ _ _ _ _ HY), HM by (unfold small_int; nia).
  replace (Z.min ((0 + 1) * Z.of_nat b) (Z.of_nat n)) with (Z.of_nat (0 + r)) by (unfold r; lia).
  change (0 * Z.of_nat b) with (Z.of_nat 0).
  rewrite (bind_eq _ _ _ _ _ R1), (bind_eq _ _ _ _ _ N1), (bind_eq _ _ _ _ _ R2), (bind_eq _ _ _ _ _ N2).
  set (es := es1 ++ es2) in *. set (bx := MkMatrix _ _ sx) in *. set (by_ := MkMatrix _ _ sy) in *.
  set (rbx := sub 0 r rsx) in *. set (rby := sub 0 r rsy) in *. set (Xb := sub 0 r X) in *. set (Yb := sub 0 r Y) in *.
  destruct HL as (HC & (NR & NP) & Hne & HXo & NX & HOO & HDO & HLs & HLt & HK).
  fold es in HC, NR, NP, HK.
  assert (HFw := wp_Forward true s m es i o bx rbx r Xb HC Hbx Hr (fun _ => NR)).
  apply wp_ex in HFw as (outs & s1 & EF & outs' & rss & -> & HR & HF & HND & HOld & HE).
  rewrite (bind_eq _ _ _ _ _ (or_log_eq _ _ _ _ _ EF)).
  assert (HE' := HE). destruct HE' as (HFr & (R1' & R2' & R3') & HKl & HG).
  assert (HC' := HC). destruct HC' as (L1 & L2 & L3 & L4 & L5 & L6).
  assert (HLo1 : Forall (lok s1) es).
  { eapply Forall_impl; [|exact L6]. intros e He. eapply lok_kept; eauto. }
  set (U := r_uni (h_rng s)) in *. set (q := r_upos (h_rng s)) in *.
  assert (HReady : ready s1 m es i o k bx rbx r Xb by_ rby Yb U q outs' rss).
  { split; [split; [exact L1|]; split; [exact L2|]; split; [exact L3|]; split; [exact L4|]; split; [exact L5|exact HLo1]|].
    split; [exact Hlen|]. split; [exact HLs|]. split; [exact HLt|]. split; [exact HK|]. split; [exact HR|].
    split; [eapply own_frame; eauto|]. split; [eapply own_frame; eauto|]. split; [exact Hr|]. split; [exact HOld|]. split; [exact HND|].
    eapply disjoint_old_fresh; [|exact HF]. rewrite Forall_forall. intros z Hz. rewrite !in_app_iff in Hz.
    destruct Hz as [Hz|[Hz|Hz]]; [exact (own_old_in _ _ _ _ _ _ _ Hbx Hz)|exact (own_old_in _ _ _ _ _ _ _ Hby Hz)|].
    eapply prows_old; eauto. }
  assert (HB := HReady). apply wp_Backward in HB.
  apply wp_ex in HB as (grads & s2 & EB & gs & grws & -> & HGr & HFg & HF2 & HR2).
  rewrite (bind_eq _ _ _ _ _ (or_log_eq _ _ _ _ _ EB)).
  assert (N01 : (nrows s <= nrows s1)%nat) by (eapply frame_nrows; eauto).
  assert (HF02 : frame nothing s s2) by (eapply frame_fresh'; eauto).
  destruct HR2 as (A1 & A2 & A3 & A4 & A5).
  eapply (late_upd m es1 es2 xs gs _ grws s2); eauto.
  - eapply Forall_impl; [|exact L6]. intros e He. eapply lok_kept; [exact He|exact HF02| |intros z Hz []].
    eapply layers_kept_trans; [exact HKl|eapply (layers_kept_eq []); exact A1| |]; auto using incl_refl; intros z [].
  - eapply Forall2_in; [|exact HOO]. intros e x' He Hx' H. eapply (ook_frame _ []); [exact H|exact HF02| |intros []|].
    + apply opts_kept_eq. congruence.
    + intros z _ [].
  - eapply disjoint_old_fresh; [|eapply fresh_mono; [exact N01|exact HFg]]. rewrite Forall_forall. intros z Hz. eapply prows_old; eauto.
Qed.

(** Fit panics in the first batch, whatever the data. *)
Lemma late_fit s m es1 es2 xs i o k x rsx y rsy n (X Y : pm K) epochs bs xv yv every :
  min_faithful K -> 0 <= bs -> Z.of_nat n + bs <= 2 ^ 52 -> (1 <= n)%nat -> 1 <= epochs ->
  late s m es1 es2 xs i o k -> data_ok s (es1 ++ es2) x rsx y rsy n i o X Y ->
  exists s', Fit m x y epochs bs xv yv every s = (Panic PIndex, s').
Proof.
  intros HM Hbs H52 Hn He HL HD.
  unfold Fit. cbv zeta. rewrite (own_rows _ _ _ _ _ _ (proj1 (proj2 HD))).
  unfold for_ at 1, for_acc. destruct (Z.to_nat epochs) as [|ep] eqn:Eep; [lia|]. cbn [loop].
  assert (HB : exists st b, (1 <= st)%nat /\ (1 <= b)%nat /\ Z.of_nat (n + b) <= 2 ^ 53 /\ (if negb (bs =? 0) then (if Z.quot (Z.of_nat n) bs * bs <? Z.of_nat n then Z.quot (Z.of_nat n) bs + 1 else Z.quot (Z.of_nat n) bs) else 1) = Z.of_nat st /\ (if negb (bs =? 0) then bs else Z.of_nat n) = Z.of_nat b).
  { destruct (Z.eqb_spec bs 0) as [->|N]; cbn [negb].
    - exists 1%nat, n. repeat split; try lia.
    - cbv zeta. rewrite Z.quot_div_nonneg by lia.
      assert (0 <= Z.of_nat n / bs) by (apply Z.div_pos; lia).
      destruct (Z.ltb_spec (Z.of_nat n / bs * bs) (Z.of_nat n)).
      + exists (Z.to_nat (Z.of_nat n / bs + 1)), (Z.to_nat bs). repeat split; lia.
      + assert (Z.of_nat n / bs <> 0) by (intros E; rewrite E in *; lia).
        exists (Z.to_nat (Z.of_nat n / bs)), (Z.to_nat bs). repeat split; lia. }
  destruct HB as (st & b & Hst & Hb & H53 & -> & ->).
  destruct (late_batch s m es1 es2 xs i o k x rsx y rsy n X Y b HM H53 HL HD Hb Hn) as (s' & E).
  exists s'. apply bind_panic. apply bind_panic.
  unfold for_, for_acc. rewrite Nat2Z.id. destruct st as [|st]; [lia|]. cbn [loop]. apply bind_panic. exact E.
Qed.

(** AddLayer on a finalized model succeeds, and the result cannot be trained. *)
Lemma late_add s m es xs i o k e : int_faithful K -> Z.of_nat o <= 2 ^ 53 -> trainable s m es xs i o k -> lok s e -> unshared (es ++ [e]) ->
  p_in (e_p e) = o -> p_out (e_p e) = o -> p_kind (e_p e) <> SigmoidK ->
  exists m', AddLayer m (e_ref e) s = (Ret (m', None), s) /\ late s m' es [e] xs i o k.
Proof.
  intros HI H53 ((L1 & L2 & L3 & L4 & L5 & L6) & U & Hlen & HX & NX & HOO & HDO & HLs & HLt & HK) He HU Hin Hout Hk.
  assert (He' := He). destruct He' as (l & Hl & Hlo).
  assert (Ei : l_in l = Z.of_nat o /\ l_out l = Z.of_nat o).
  { destruct Hlo as (_ & A & B & _). rewrite A, B, Hin, Hout. auto. }
  destruct Ei as [Ei Eo].
  unfold AddLayer. rewrite (bind_eq _ _ _ _ _ (get_layer_run _ _ _ Hl)). unfold layer_inputs, layer_outputs.
  rewrite Ei, Eo, HI by (unfold small_int; lia).
  rewrite L4, Z.eqb_refl, orb_true_r. eexists. split; [reflexivity|].
  replace (m_size m =? 0) with false by lia.
  split; [|split; [exact HU|split; [discriminate|split; [exact HX|split; [exact NX|split; [exact HOO|split; [exact HDO|split; [exact HLs|split; [exact HLt|]]]]]]]]].
  - split; [cbn; now rewrite L1, map_app|]. split; [cbn; rewrite L2, app_length; simpl; lia|]. split; [exact L3|]. split; [reflexivity|].
    split; [|apply Forall_app; auto].
    rewrite net_app. cbn [net map]. apply chain_snoc. rewrite Hin. split; [exact L5|exact Hout].
  - apply Forall_app; auto.
Qed.
Lemma late_panics s m es xs i o k e x rsx y rsy n (X Y : pm K) epochs bs xv yv every :
  int_faithful K -> min_faithful K -> Z.of_nat o <= 2 ^ 53 ->
  0 <= bs -> Z.of_nat n + bs <= 2 ^ 52 -> (1 <= n)%nat -> 1 <= epochs ->
  trainable s m es xs i o k -> lok s e -> unshared (es ++ [e]) -> p_in (e_p e) = o -> p_out (e_p e) = o -> p_kind (e_p e) <> SigmoidK ->
  data_ok s (es ++ [e]) x rsx y rsy n i o X Y ->
  exists m' s', AddLayer m (e_ref e) s = (Ret (m', None), s) /\ consistent s m' (es ++ [e]) i o /\
    Fit m' x y epochs bs xv yv every s = (Panic PIndex, s').
Proof.
  intros HI HM H53 Hbs H52 Hn He HT Hl HU Hin Hout Hk HD.
  destruct (late_add s m es xs i o k e HI H53 HT Hl HU Hin Hout Hk) as (m' & EA & HL).
  destruct (late_fit s m' es [e] xs i o k x rsx y rsy n X Y epochs bs xv yv every HM Hbs H52 Hn He HL HD) as (s' & EF).
  exists m', s'. split; [exact EA|]. split; [exact (proj1 HL)|exact EF].
Qed.
End WithNum.
