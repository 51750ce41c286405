(** * FitLoop: mini-batches, epochs and the whole of Fit. *)
From Coq Require Import String ZArith List Bool Arith Lia.
From Verif Require Import Num Heap Spec Matrix Activation Misc Accuracy Loss Network Optimizers ModelGo PureSpec Repr HeapLemmas LoopLemmas MatrixProofs MatrixFacts ActivationProofs MiscProofs LayerProofs LayerFacts LossProofs LossCode OptSpec OptProofs OptFacts ModelSpec ModelProofs EvalProofs FitProofs.
Import ListNotations.
Open Scope Z_scope.
Open Scope go_scope.

(** ** Chunks *)
Lemma skipn_add {A} a b : forall l : list A, skipn a (skipn b l) = skipn (b + a) l.
Proof. induction b as [|b IH]; intros l; [reflexivity|]. destruct l; [simpl; apply skipn_nil|]. simpl. apply IH. Qed.
Lemma chunks_fuel_seq {A} b (l : list A) : (1 <= b)%nat -> forall j k fuel,
  (length l - k * b <= fuel)%nat -> (length l <= (k + j) * b)%nat -> (j = 0 \/ (k + j - 1) * b < length l)%nat ->
  chunks_fuel fuel b (skipn (k * b) l) = map (fun i => sub (i * b) b l) (seq k j).
Proof.
  intros Hb. induction j as [|j IH]; intros k fuel Hf Hl Hj.
  - replace (skipn (k * b) l) with (@nil A); [destruct fuel; reflexivity|]. symmetry. apply skipn_all2. lia.
  - assert (Hk : (k * b < length l)%nat) by nia.
    destruct fuel as [|fuel]; [lia|].
    destruct (skipn (k * b) l) as [|a t] eqn:E.
    { assert (length (skipn (k * b) l) = 0%nat) by (rewrite E; reflexivity). rewrite skipn_length in *. lia. }
    rewrite <- E. cbn [chunks_fuel]. rewrite E at 1. cbn [seq map]. f_equal.
    replace (skipn b (skipn (k * b) l)) with (skipn (S k * b) l).
    + apply IH; try nia.
    + rewrite skipn_add. f_equal. lia.
Qed.

(** The number of mini-batches. *)
Definition nsteps (n b : nat) : nat := if (n / b * b <? n)%nat then S (n / b) else (n / b)%nat.
Lemma nsteps_spec n b : (1 <= b)%nat -> (n <= nsteps n b * b)%nat /\ (nsteps n b = 0 \/ (nsteps n b - 1) * b < n)%nat.
Proof.
  intros Hb. pose proof (Nat.div_mod n b ltac:(lia)). pose proof (Nat.mod_upper_bound n b ltac:(lia)).
  unfold nsteps. destruct (Nat.ltb_spec (n / b * b) n); [split; [nia|right; nia]|].
  split; [lia|]. destruct (n / b)%nat; [auto|right; nia].
Qed.
Lemma chunks_seq {A} b (l : list A) : (1 <= b)%nat ->
  chunks b l = map (fun i => sub (i * b) b l) (seq 0 (nsteps (length l) b)).
Proof.
  intros Hb. destruct (nsteps_spec (length l) b Hb). unfold chunks.
  rewrite <- (chunks_fuel_seq b l Hb (nsteps (length l) b) 0 (length l)); try (simpl; lia); reflexivity.
Qed.
Lemma combine_map {A B C} (f : A -> B) (g : A -> C) l : combine (map f l) (map g l) = map (fun i => (f i, g i)) l.
Proof. induction l; simpl; congruence. Qed.
Lemma sub_min {A} lo b (l : list A) : sub lo b l = sub lo (Nat.min b (length l - lo)) l.
Proof.
  unfold sub. destruct (Nat.min_spec b (length l - lo)) as [[_ ->]|[H ->]]; [reflexivity|].
  rewrite !firstn_all2; auto; rewrite skipn_length; lia.
Qed.

Section WithNum.
Context {K : Num}.
Implicit Types (s : state K) (es : list (lent K)) (xs : list (oent K)) (X Y : pm K).

Lemma ptrain_on_app k o U bs1 : forall ts q bs2,
  ptrain_on (K := K) k o ts U q (bs1 ++ bs2) =
  ptrain_on k o (fst (ptrain_on k o ts U q bs1)) U (snd (ptrain_on k o ts U q bs1)) bs2.
Proof. induction bs1 as [|[X Y] bs1 IH]; intros ts q bs2; [reflexivity|]. simpl. apply IH. Qed.

Lemma same_place_refl es : Forall2 same_place es es.
Proof. induction es; constructor; auto. unfold same_place, like. auto 10. Qed.
Lemma same_oplace_refl xs : Forall2 same_oplace xs xs.
Proof. induction xs; constructor; auto. reflexivity. Qed.
Lemma Forall2_trans_ {A} (R : A -> A -> Prop) : (forall a b c, R a b -> R b c -> R a c) ->
  forall l1 l2 l3, Forall2 R l1 l2 -> Forall2 R l2 l3 -> Forall2 R l1 l3.
Proof.
  intros HT l1 l2 l3 H. revert l3. induction H; intros l3 H3; inversion H3; subst; constructor; eauto.
Qed.
Lemma same_place_trans es1 es2 es3 : Forall2 same_place es1 es2 -> Forall2 same_place es2 es3 -> Forall2 same_place es1 es3.
Proof.
  apply Forall2_trans_. unfold same_place, like.
  intros a b c (?&?&?&?&?&?&?&?) (?&?&?&?&?&?&?&?). repeat split; congruence.
Qed.
Lemma same_oplace_trans xs1 xs2 xs3 : Forall2 same_oplace xs1 xs2 -> Forall2 same_oplace xs2 xs3 -> Forall2 same_oplace xs1 xs3.
Proof. apply Forall2_trans_. unfold same_oplace. congruence. Qed.

Lemma same_slots_refl s xs : same_slots s xs xs.
Proof. unfold same_slots. induction xs; constructor; auto. Qed.
Lemma same_slots_trans s s1 xs1 xs2 xs3 : (nrows s <= nrows s1)%nat -> same_slots s xs1 xs2 -> same_slots s1 xs2 xs3 -> same_slots s xs1 xs3.
Proof.
  intros HN. unfold same_slots. intros H. revert xs3. induction H as [|x x' xs xs' [H1 H2] _ IH]; intros xs3 H3; inversion H3 as [|? x3 ? ? [H4 H5]]; subst; constructor; auto.
  split; [congruence|]. destruct H5 as [->|H5]; [exact H2|]. right. eapply fresh_mono; eauto.
Qed.
Lemma train_effect_refl es xs s : train_effect es xs 0 [] s s.
Proof.
  split; [apply frame_refl|]. split; [apply layers_kept_refl|]. split; [apply opts_kept_refl|].
  rewrite adv_uni_0, app_nil_r. auto.
Qed.
Lemma train_result_refl s m es xs i o k : trainable s m es xs i o k -> train_result s s m es xs i o k (trainer es xs) 0 [].
Proof. intros H. exists es, xs. auto using same_place_refl, same_slots_refl, train_effect_refl. Qed.
Lemma train_result_trans s s1 s2 m es xs es1 xs1 i o k ts2 n1 n2 ls1 ls2 :
  Forall2 same_place es es1 -> same_slots s xs xs1 -> train_effect es xs n1 ls1 s s1 ->
  train_result s1 s2 m es1 xs1 i o k ts2 n2 ls2 ->
  train_result s s2 m es xs i o k ts2 (n1 + n2) (ls1 ++ ls2).
Proof.
  intros P Q E (es2 & xs2 & H & P2 & Q2 & T & E2). exists es2, xs2. split; [exact H|].
  split; [eapply same_place_trans; eauto|]. split; [eapply same_slots_trans; [eapply frame_nrows; apply E|exact Q|exact Q2]|]. split; [exact T|].
  eapply train_effect_trans; [exact E|]. eapply train_effect_places; eauto using same_slots_places.
Qed.

Lemma data_ok_effect s s' es es' xs x rsx y rsy n i o X Y nn ls :
  data_ok s es x rsx y rsy n i o X Y -> train_effect es xs nn ls s s' -> Forall2 same_place es es' ->
  data_ok s' es' x rsx y rsy n i o X Y.
Proof.
  intros (H1 & H2 & D1 & D2) (F & _) P. destruct (same_place_maps _ _ P) as (_ & E & _). unfold data_ok. rewrite E.
  split; [eapply own_frame; eauto|]. split; [eapply own_frame; eauto|]. auto.
Qed.
Lemma trainable_sizes s m es xs i o k : trainable s m es xs i o k -> (1 <= i)%nat /\ (1 <= o)%nat.
Proof.
  intros ((_ & _ & _ & _ & Hc & Hok) & _ & Hlen & _).
  destruct (list_snoc _ Hlen) as (es0 & e & ->). rewrite Forall_forall in Hok.
  destruct (Hok e) as (l & _ & Hl); [apply in_or_app; simpl; auto|].
  assert (Hc' := Hc). rewrite net_app in Hc'. apply chain_snoc in Hc'. destruct Hc' as (_ & <-).
  split; [|apply Hl].
  destruct es0 as [|e0 es0]; simpl in Hc; destruct Hc as [<- _].
  - apply Hl.
  - destruct (Hok e0) as (l0 & _ & Hl0); [simpl; auto|]. apply Hl0.
Qed.

Lemma wp_fit_batch s m es xs i o k x rsx y rsy n X Y b j :
  min_faithful K -> Z.of_nat (n + b) <= 2 ^ 53 ->
  trainable s m es xs i o k -> data_ok s es x rsx y rsy n i o X Y -> (1 <= b)%nat -> (j * b < n)%nat ->
  wp (fit_batch m x y (Z.of_nat b) (Z.of_nat j)) s (fun _ s' =>
    train_result s s' m es xs i o k
      (pbatch k o (trainer es xs) (sub (j * b) b X) (sub (j * b) b Y) (r_uni (h_rng s)) (r_upos (h_rng s)))
      (net_draws true (net es) (length (sub (j * b) b X))) []).
Proof.
  intros HM H53 HT (HX & HY & D1 & D2) Hb Hj. destruct (trainable_sizes _ _ _ _ _ _ _ HT) as [Hi Ho].
  assert (LX : length X = n) by (apply (own_shape _ _ _ _ _ _ HX)).
  assert (LY : length Y = n) by (apply (own_shape _ _ _ _ _ _ HY)).
  rewrite !(sub_min (j * b) b), LX, LY. set (len := Nat.min b (n - j * b)).
  assert (Hlen : (1 <= len)%nat) by (unfold len; lia).
  assert (Hle : (j * b + len <= n)%nat) by (unfold len; lia).
  replace (length (sub (j * b) len X)) with len by (unfold sub; rewrite firstn_length, skipn_length; lia).
  unfold fit_batch. rewrite (own_rows _ _ _ _ _ _ HY).
  rewrite HM by (unfold small_int; nia).
  replace (Z.min ((Z.of_nat j + 1) * Z.of_nat b) (Z.of_nat n)) with (Z.of_nat (j * b + len)) by (unfold len; nia).
  replace (Z.of_nat j * Z.of_nat b) with (Z.of_nat (j * b)) by nia.
  destruct (batch_own _ _ _ _ _ _ _ _ HX Hle Hlen Hi) as (sx & R1 & N1 & O1).
  destruct (batch_own _ _ _ _ _ _ _ _ HY Hle Hlen Ho) as (sy & R2 & N2 & O2).
  apply wp_bind. eapply wp_eq; [exact R1|]. apply wp_bind. eapply wp_eq; [exact N1|].
  apply wp_bind. eapply wp_eq; [exact R2|]. apply wp_bind. eapply wp_eq; [exact N2|].
  eapply (wp_train_batch s m es xs i o k _ _ _ _ len); eauto.
Qed.

Lemma wp_batches m i o k x rsx y rsy n X Y b :
  min_faithful K -> Z.of_nat (n + b) <= 2 ^ 53 -> (1 <= b)%nat ->
  forall c j s es xs, trainable s m es xs i o k -> data_ok s es x rsx y rsy n i o X Y ->
  (c = 0 \/ (j + c - 1) * b < n)%nat ->
  wp (loop c (Z.of_nat j) (fun st (_ : unit) => fit_batch m x y (Z.of_nat b) st) tt) s (fun _ s' =>
    exists nn, snd (ptrain_on k o (trainer es xs) (r_uni (h_rng s)) (r_upos (h_rng s))
                 (map (fun a => (sub (a * b) b X, sub (a * b) b Y)) (seq j c))) = (r_upos (h_rng s) + nn)%nat /\
      train_result s s' m es xs i o k
        (fst (ptrain_on k o (trainer es xs) (r_uni (h_rng s)) (r_upos (h_rng s))
                (map (fun a => (sub (a * b) b X, sub (a * b) b Y)) (seq j c)))) nn []).
Proof.
  intros HM H53 Hb. induction c as [|c IH]; intros j s es xs HT HD Hj.
  - apply wp_ret. exists 0%nat. split; [simpl; lia|]. apply train_result_refl; exact HT.
  - cbn [loop]. apply wp_bind. eapply wp_conseq; [eapply wp_fit_batch; eauto; nia|].
    intros [] s1 (es1 & xs1 & HT1 & P1 & Q1 & T1 & E1).
    replace (Z.of_nat j + 1) with (Z.of_nat (S j)) by lia.
    assert (HR : r_uni (h_rng s1) = r_uni (h_rng s) /\
      r_upos (h_rng s1) = (r_upos (h_rng s) + net_draws true (net es) (length (sub (j * b) b X)))%nat).
    { destruct E1 as (_ & _ & _ & -> & _). split; reflexivity. }
    destruct HR as [HR1 HR2].
    eapply wp_conseq; [apply (IH (S j) s1 es1 xs1)|].
    + exact HT1.
    + eapply data_ok_effect; eauto.
    + nia.
    + rewrite HR1, HR2, T1. intros [] s2 (nn & Hn & H).
      cbn [seq map ptrain_on].
      rewrite trainer_net in * by (symmetry; eapply Forall2_length; apply HT).
      exists (net_draws true (net es) (length (sub (j * b) b X)) + nn)%nat.
      split; [rewrite Hn; lia|].
      change (@nil (logline K)) with (@nil (logline K) ++ []).
      eapply train_result_trans; eauto.
Qed.

Lemma train_effect_log es xs s l : h_logger s = true -> train_effect es xs 0 [l] s (with_log s (h_log s ++ [l])).
Proof.
  intros _. split; [exact (frame_refl _ s)|]. split; [exact (layers_kept_refl _ s)|]. split; [exact (opts_kept_refl _ s)|].
  rewrite adv_uni_0. simpl. auto.
Qed.
Lemma trainable_kept W s s' m es xs i o k : trainable s m es xs i o k ->
  frame W s s' -> (forall z, (z <= nrows s)%nat -> ~ W z) -> layers_kept (map e_ref es) s s' -> h_opts s' = h_opts s ->
  trainable s' m es xs i o k.
Proof.
  intros ((L1 & L2 & L3 & L4 & L5 & L6) & U & Hlen & HX & NX & HOO & HDO & HLs & HLt & HK) HF HW HL HO.
  split; [|split; [exact U|split; [exact Hlen|split; [exact HX|split; [exact NX|split; [|auto]]]]]].
  - split; [exact L1|]. split; [exact L2|]. split; [exact L3|]. split; [exact L4|]. split; [exact L5|].
    rewrite Forall_forall. intros e He. assert (L6' := proj1 (Forall_forall _ _) L6 e He). eapply lok_kept; eauto.
    intros z Hz. apply HW. eapply prows_old; [exact L6|]. unfold prows. apply in_concat. exists (e_rw e ++ e_rb e).
    split; [apply in_map_iff; eauto|apply in_or_app; exact Hz].
  - eapply Forall2_in; [|exact HOO]. intros e x He Hx H. eapply (ook_frame W []); eauto using opts_kept_eq.
    intros z Hz. apply HW. destruct H as (oo & _ & Hoo). eapply oown_old; eauto.
Qed.

(** One set of log lines. *)
Lemma wp_fit_log s m es xs i o k x rsx y rsy n X Y what line :
  int_faithful K -> Z.of_nat o <= 2 ^ 53 -> 0 <= m_acctype m <= 2 -> h_logger s = true ->
  trainable s m es xs i o k -> own s x rsx n i X -> own s y rsy n o Y -> (1 <= n)%nat ->
  wp (fit_log m x y what line) s (fun _ s' =>
    train_result s s' m es xs i o k (trainer es xs) 0
      [let '(l, a) := ploss_acc m k o (net es) X Y in line l a]).
Proof.
  intros HI H53 Hac HLg HT HX HY Hn.
  assert (HT' := HT). destruct HT' as (HC & HU & Hlen & HXs & NX & HOO & HDO & HLs & HLt & HK).
  unfold fit_log. apply wp_bind, wp_or_log. eapply wp_conseq; [eapply wp_CalculateLoss; eauto|].
  intros v s1 (-> & E1).
  assert (HT1 : trainable s1 m es xs i o k).
  { destruct E1 as (F & (R & _) & L & _). eapply trainable_kept; eauto. }
  assert (HX1 : own s1 x rsx n i X) by (eapply own_frame; [eauto|apply E1|]; intros ? ? []).
  assert (HY1 : own s1 y rsy n o Y) by (eapply own_frame; [eauto|apply E1|]; intros ? ? []).
  set (P := pnet (net es) n X) in *.
  assert (HA : exists a, paccuracy (m_acctype m) (m_prec m) n o P Y = Some a).
  { unfold paccuracy. destruct (Z.eqb_spec (m_acctype m) 0); [eauto|]. destruct (Z.eqb_spec (m_acctype m) 1); [eauto|].
    destruct (Z.eqb_spec (m_acctype m) 2); [eauto|lia]. }
  destruct HA as [a HA].
  apply wp_bind, wp_or_log. eapply wp_conseq; [eapply wp_CalculateAccuracy with (es := es) (r := n); eauto; apply HT1|].
  intros v s2 (-> & E2).
  assert (HT2 : trainable s2 m es xs i o k).
  { destruct E2 as (F & (R & _) & L & _). eapply trainable_kept; eauto. }
  assert (HL2 : h_logger s2 = true).
  { destruct E1 as (_ & (_ & A & _) & _), E2 as (_ & (_ & B & _) & _). congruence. }
  assert (E3 := train_effect_log es xs s2 (line (ploss k n o P Y) a) HL2).
  eapply wp_eq; [unfold log_print; rewrite HL2; reflexivity|].
  assert (LX : length X = n) by (apply (own_shape _ _ _ _ _ _ HX)).
  unfold ploss_acc. rewrite LX. fold P. rewrite HA.
  exists es, xs. split; [eapply trainable_kept; [exact HT2|exact (frame_refl nothing s2)|intros z _ []|exact (layers_kept_refl _ s2)|reflexivity]|].
  split; [apply same_place_refl|]. split; [apply same_slots_refl|]. split; [reflexivity|].
  apply (forward_train_effect es xs) in E1, E2.
  exact (train_effect_trans _ _ _ _ _ _ _ _ _ E1 (train_effect_trans _ _ _ _ _ _ _ _ _ E2 E3)).
Qed.

Lemma val_ok_effect s s' es es' xs xv yv i o val nn ls : val_ok s es xv yv i o val ->
  train_effect es xs nn ls s s' -> Forall2 same_place es es' -> val_ok s' es' xv yv i o val.
Proof.
  destruct val as [[Xv Yv]|]; [|auto]. intros (rsx & rsy & nv & Hn & H) E P.
  exists rsx, rsy, nv. split; [exact Hn|]. eapply data_ok_effect; eauto.
Qed.
Lemma log_ok_effect s s' m es es' xs xv yv i o val every nn ls : log_ok s m es xv yv i o val every ->
  train_effect es xs nn ls s s' -> Forall2 same_place es es' -> log_ok s' m es' xv yv i o val every.
Proof.
  intros [H|(H1 & H2 & H3 & H4 & H5)] E P; [left; exact H|right].
  split; [destruct E as (_ & _ & _ & _ & -> & _); exact H1|]. split; [exact H2|]. split; [exact H3|]. split; [exact H4|].
  eapply val_ok_effect; eauto.
Qed.
Lemma train_effect_rng es xs nn ls s s' : train_effect es xs nn ls s s' ->
  r_uni (h_rng s') = r_uni (h_rng s) /\ r_upos (h_rng s') = (r_upos (h_rng s) + nn)%nat.
Proof. intros (_ & _ & _ & -> & _). split; reflexivity. Qed.

(** One epoch. *)
Definition epoch_body m x y (steps bsz : Z) xv yv every (epoch : Z) : M K unit :=
  for_ steps (fun batchStep => fit_batch m x y bsz batchStep) ;;
  (if negb (every =? 0) && (Z.rem epoch every =? 0) then fit_log m x y "" (LInfo epoch) else ret tt) ;;
  (if negb (mrows yv =? 0) && negb (every =? 0) && (Z.rem epoch every =? 0)
   then fit_log m xv yv "validation " (LValInfo epoch) else ret tt).

Lemma wp_epoch s m es xs i o k x rsx y rsy n X Y b xv yv val every e :
  min_faithful K -> Z.of_nat (n + b) <= 2 ^ 53 -> (1 <= b)%nat -> (1 <= n)%nat ->
  trainable s m es xs i o k -> data_ok s es x rsx y rsy n i o X Y -> log_ok s m es xv yv i o val every ->
  wp (epoch_body m x y (Z.of_nat (nsteps n b)) (Z.of_nat b) xv yv every e) s (fun _ s' =>
    let tq := ptrain_on k o (trainer es xs) (r_uni (h_rng s)) (r_upos (h_rng s)) (combine (chunks b X) (chunks b Y)) in
    exists nn, snd tq = (r_upos (h_rng s) + nn)%nat /\
      train_result s s' m es xs i o k (fst tq) nn (plog m k o X Y val every e (map fst (fst tq)))).
Proof.
  intros HM H53 Hb Hn HT HD HLg. cbv zeta.
  assert (LX : length X = n) by (apply (own_shape _ _ _ _ _ _ (proj1 HD))).
  assert (LY : length Y = n) by (apply (own_shape _ _ _ _ _ _ (proj1 (proj2 HD)))).
  rewrite !chunks_seq by exact Hb. rewrite LX, LY, combine_map.
  set (bs := map _ _). set (tq := ptrain_on _ _ _ _ _ _).
  unfold epoch_body. apply wp_bind. unfold for_, for_acc. rewrite Nat2Z.id. change 0 with (Z.of_nat 0).
  eapply wp_conseq; [apply (wp_batches m i o k x rsx y rsy n X Y b HM H53 Hb (nsteps n b) 0 s es xs HT HD)|].
  { destruct (nsteps_spec n b Hb). simpl. lia. }
  fold bs. fold tq. change (Z.of_nat 0) with 0. intros [] s1 (nn & Hq & HR). 
  destruct HR as (es1 & xs1 & HT1 & P1 & Q1 & T1 & E1).
  assert (HD1 := data_ok_effect _ _ _ _ _ _ _ _ _ _ _ _ _ _ _ _ HD E1 P1).
  assert (HL1 := log_ok_effect _ _ _ _ _ _ _ _ _ _ _ _ _ _ HLg E1 P1).
  assert (LN : map fst (fst tq) = net es1).
  { rewrite <- T1. apply trainer_net. symmetry. eapply Forall2_length. apply HT1. }
  unfold plog. rewrite LN.
  destruct (negb (every =? 0) && (Z.rem e every =? 0)) eqn:Hlog.
  - assert (Hev : every <> 0) by (destruct (Z.eqb_spec every 0); [discriminate|assumption]).
    destruct HL1 as [HL1|(G1 & G2 & G3 & G4 & G5)]; [contradiction|].
    destruct HD1 as (DX & DY & DD1 & DD2).
    apply wp_bind. eapply wp_conseq; [eapply wp_fit_log; eauto|].
    intros [] s2 (es2 & xs2 & HT2 & P2 & Q2 & T2 & E2).
    assert (LN2 : net es2 = net es1).
    { rewrite <- (trainer_net es2 xs2), <- (trainer_net es1 xs1), T2; auto; symmetry; eapply Forall2_length; [apply HT1|apply HT2]. }
    rewrite <- andb_assoc, Hlog, andb_true_r.
    destruct val as [[Xv Yv]|].
    + destruct G5 as (rvx & rvy & nv & Hnv & HV).
      assert (HV2 := data_ok_effect _ _ _ _ _ _ _ _ _ _ _ _ _ _ _ _ HV E2 P2).
      assert (E : mrows yv =? 0 = false).
      { rewrite (own_rows _ _ _ _ _ _ (proj1 (proj2 HV))). destruct nv; [lia|reflexivity]. }
      rewrite E. simpl negb. cbv iota.
      destruct HV2 as (VX & VY & _).
      eapply wp_conseq; [eapply wp_fit_log; eauto|].
      { destruct E2 as (_ & _ & _ & _ & -> & _). exact G1. }
      intros [] s3 H3. rewrite LN2, T2 in H3. exists nn. split; [exact Hq|].
      replace nn with (nn + (0 + 0))%nat by lia. rewrite <- T1.
      eapply (train_result_trans _ _ _ _ _ _ _ _ _ _ _ _ _ _ []); eauto.
      match goal with |- train_result _ _ _ _ _ _ _ _ _ _ (?a :: ?t) => change (a :: t) with ([a] ++ t) end.
      eapply train_result_trans; eauto.
    + simpl in G5. rewrite G5. simpl negb. cbv iota. apply wp_ret.
      exists nn. split; [exact Hq|]. replace nn with (nn + 0)%nat by lia. rewrite <- T1.
      eapply (train_result_trans _ _ _ _ _ _ _ _ _ _ _ _ _ _ []); eauto.
      exists es2, xs2. auto.
  - rewrite <- andb_assoc, Hlog, andb_false_r. apply wp_bind, wp_ret, wp_ret.
    exists nn. split; [exact Hq|]. exists es1, xs1. auto.
Qed.

Lemma wp_epochs m i o k x rsx y rsy n X Y b xv yv val every :
  min_faithful K -> Z.of_nat (n + b) <= 2 ^ 53 -> (1 <= b)%nat -> (1 <= n)%nat ->
  forall c e s es xs, trainable s m es xs i o k -> data_ok s es x rsx y rsy n i o X Y -> log_ok s m es xv yv i o val every ->
  wp (loop c e (fun ep (_ : unit) => epoch_body m x y (Z.of_nat (nsteps n b)) (Z.of_nat b) xv yv every ep) tt) s (fun _ s' =>
    let '(ts', q', ls) := pfit m k o b X Y val every c e (trainer es xs) (r_uni (h_rng s)) (r_upos (h_rng s)) in
    exists nn, q' = (r_upos (h_rng s) + nn)%nat /\ train_result s s' m es xs i o k ts' nn ls).
Proof.
  intros HM H53 Hb Hn. induction c as [|c IH]; intros e s es xs HT HD HL.
  - apply wp_ret. simpl. exists 0%nat. split; [lia|]. apply train_result_refl; exact HT.
  - cbn [loop]. apply wp_bind. eapply wp_conseq; [eapply wp_epoch; eauto|].
    cbv zeta. intros [] s1 (nn & Hq & es1 & xs1 & HT1 & P1 & Q1 & T1 & E1).
    destruct (train_effect_rng _ _ _ _ _ _ E1) as [R1 R2].
    eapply wp_conseq; [apply (IH (e + 1) s1 es1 xs1 HT1)|].
    + eapply data_ok_effect; eauto.
    + eapply log_ok_effect; eauto.
    + intros [] s2 H. rewrite R1, R2, T1, <- Hq in H. cbn [pfit].
      destruct (ptrain_on k o (trainer es xs) _ _ _) as [ts1 q1]. simpl fst in *. simpl snd in *.
      destruct (pfit _ _ _ _ _ _ _ _ _ _ _ _ _) as [[ts2 q2] ls].
      destruct H as (nn2 & Hq2 & H). exists (nn + nn2)%nat. split; [rewrite Hq2, Hq; lia|].
      eapply train_result_trans; eauto.
Qed.

(** Parameters and position do not depend on logging. *)
Lemma pfit_train m k o b X Y val every : forall n e ts U q,
  fst (pfit m k o b X Y val every n e ts U q) = ptrain_on k o ts U q (epochs_of n b X Y).
Proof.
  induction n as [|n IH]; intros e ts U q; [reflexivity|]. cbn [pfit].
  unfold epochs_of in *. cbn [repeat concat]. rewrite ptrain_on_app.
  destruct (ptrain_on k o ts U q _) as [ts1 q1]. simpl fst. simpl snd.
  specialize (IH (e + 1) ts1 U q1). destruct (pfit _ _ _ _ _ _ _ _ _ _ _ _ _) as [[ts2 q2] ls]. exact IH.
Qed.

Lemma nsteps_Z n b : (1 <= b)%nat ->
  (let q := Z.quot (Z.of_nat n) (Z.of_nat b) in if q * Z.of_nat b <? Z.of_nat n then q + 1 else q) = Z.of_nat (nsteps n b).
Proof.
  intros Hb. cbv zeta. rewrite Z.quot_div_nonneg by lia. rewrite <- Nat2Z.inj_div. unfold nsteps.
  destruct (Nat.ltb_spec (n / b * b) n), (Z.ltb_spec (Z.of_nat (n / b) * Z.of_nat b) (Z.of_nat n)); lia.
Qed.

Lemma wp_Fit s m es xs i o k x rsx y rsy n X Y epochs bs xv yv val every :
  min_faithful K -> 0 <= bs -> Z.of_nat n + bs <= 2 ^ 52 -> (1 <= n)%nat ->
  trainable s m es xs i o k -> data_ok s es x rsx y rsy n i o X Y -> log_ok s m es xv yv i o val every ->
  wp (Fit m x y epochs bs xv yv every) s (fun _ s' =>
    let '(ts', q', ls) := pfit m k o (batch_rows n bs) X Y val every (Z.to_nat epochs) 0 (trainer es xs)
                            (r_uni (h_rng s)) (r_upos (h_rng s)) in
    exists nn, q' = (r_upos (h_rng s) + nn)%nat /\ train_result s s' m es xs i o k ts' nn ls).
Proof.
  intros HM Hbs H53 Hn HT HD HL. unfold Fit. cbv zeta. rewrite (own_rows _ _ _ _ _ _ (proj1 (proj2 HD))).
  unfold batch_rows. destruct (Z.eqb_spec bs 0) as [->|Hnz]; simpl negb; cbv iota.
  - replace 1 with (Z.of_nat (nsteps n n)).
    + eapply (wp_epochs m i o k x rsx y rsy n X Y n xv yv val every); eauto; lia.
    + unfold nsteps. rewrite Nat.div_same by lia. rewrite Nat.mul_1_l, Nat.ltb_irrefl. reflexivity.
  - assert (E : bs = Z.of_nat (Z.to_nat bs)) by lia.
    set (b := Z.to_nat bs) in *. clearbody b. subst bs.
    assert (Hs := nsteps_Z n b ltac:(lia)). cbv zeta in Hs. rewrite Hs.
    eapply (wp_epochs m i o k x rsx y rsy n X Y b xv yv val every); eauto; lia.
Qed.

End WithNum.
