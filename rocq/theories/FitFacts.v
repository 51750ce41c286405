(** * FitFacts: consequences of the specification of Fit: batches, splitting, logging, failure. *)
From Coq Require Import String ZArith List Bool Arith Lia.
From Verif Require Import Num Heap Spec Matrix Activation Misc Accuracy Loss Network Optimizers ModelGo PureSpec Repr HeapLemmas LoopLemmas MatrixProofs MatrixFacts ActivationProofs MiscProofs LayerProofs LayerFacts LossProofs LossCode OptSpec OptProofs OptFacts ModelSpec ModelProofs EvalProofs FitProofs FitLoop ModelFacts.
Import ListNotations.
Open Scope Z_scope.
Open Scope go_scope.

(** ** Batches *)
Lemma chunks_fuel_concat {A} b : (1 <= b)%nat -> forall n (l : list A), (length l <= n)%nat -> concat (chunks_fuel n b l) = l.
Proof.
  intros Hb. induction n as [|n IH]; intros l Hl; [destruct l; [reflexivity|simpl in Hl; lia]|].
  destruct l as [|a l]; [reflexivity|]. cbn [chunks_fuel concat]. rewrite IH; [apply firstn_skipn|].
  rewrite skipn_length. cbn [length] in *. lia.
Qed.
Lemma chunks_fuel_sizes {A} b : (1 <= b)%nat -> forall n (l : list A), (length l <= n)%nat ->
  Forall (fun c => (1 <= length c <= b)%nat) (chunks_fuel n b l) /\
  Forall (fun c => length c = b) (removelast (chunks_fuel n b l)).
Proof.
  intros Hb. induction n as [|n IH]; intros l Hl; [destruct l; [split; constructor|simpl in Hl; lia]|].
  destruct l as [|a l]; [split; constructor|]. cbn [chunks_fuel].
  destruct (IH (skipn b (a :: l))) as [I1 I2]; [rewrite skipn_length; cbn [length] in *; lia|].
  split; [constructor; [rewrite firstn_length; cbn [length]; lia|exact I1]|].
  destruct (chunks_fuel n b (skipn b (a :: l))) as [|c cs] eqn:E; [constructor|].
  change (Forall (fun c0 => length c0 = b) (firstn b (a :: l) :: removelast (c :: cs))).
  constructor; [|exact I2]. rewrite firstn_length.
  assert (skipn b (a :: l) <> []). { intros E0. rewrite E0 in E. destruct n; discriminate. }
  destruct (Nat.le_gt_cases b (length (a :: l))); [lia|]. rewrite skipn_all2 in * by lia. congruence.
Qed.
Lemma chunks_partition {A} b (l : list A) : (1 <= b)%nat ->
  concat (chunks b l) = l /\ Forall (fun c => (1 <= length c <= b)%nat) (chunks b l) /\
  Forall (fun c => length c = b) (removelast (chunks b l)).
Proof.
  intros Hb. unfold chunks. split; [apply chunks_fuel_concat; auto|]. apply chunks_fuel_sizes; auto.
Qed.
Lemma chunks_whole {A} (l : list A) b : l <> [] -> (length l <= b)%nat -> chunks b l = [l].
Proof.
  destruct l as [|a l]; [congruence|]. intros _ Hb. unfold chunks. cbn [length chunks_fuel].
  rewrite firstn_all2, skipn_all2 by lia. destruct (length l); reflexivity.
Qed.
Lemma chunks_lengths {A B} b : forall n (l : list A) (l' : list B), length l = length l' ->
  map (@length A) (chunks_fuel n b l) = map (@length B) (chunks_fuel n b l').
Proof.
  induction n as [|n IH]; intros l l' H; destruct l, l'; try discriminate; try reflexivity.
  cbn [chunks_fuel map]. f_equal; [rewrite !firstn_length; lia|]. apply IH. rewrite !skipn_length. lia.
Qed.

Section WithNum.
Context {K : Num}.
Implicit Types (s : state K) (es : list (lent K)) (xs : list (oent K)) (X Y : pm K).

(** ** Forward followed by Backward *)
Lemma grads_rep_nth s ps : forall gs Gs rws j, grads_rep s ps gs Gs rws -> (j < length ps)%nat ->
  exists rw rb, own s (g_dw (nth j gs (MkGrad matrix0 matrix0))) rw (p_in (nth j ps (@no_layer K))) (p_out (nth j ps (@no_layer K))) (fst (nth j Gs ([], []))) /\
    own s (g_db (nth j gs (MkGrad matrix0 matrix0))) rb 1 (p_out (nth j ps (@no_layer K))) (snd (nth j Gs ([], []))).
Proof.
  induction ps as [|p ps IH]; intros gs Gs rws j H Hj; [simpl in Hj; lia|].
  destruct gs as [|g gs], Gs as [|G Gs], rws as [|[rw rb] rws]; try destruct H. destruct H0 as [H2 H3].
  destruct j as [|j]; [simpl; eauto|]. simpl in *. eapply IH; [exact H3|lia].
Qed.
Lemma grads_rep_length s ps : forall gs Gs rws, grads_rep (K := K) s ps gs Gs rws -> length gs = length ps /\ length Gs = length ps.
Proof.
  induction ps as [|p ps IH]; intros gs Gs rws H; destruct gs as [|g gs], Gs as [|G Gs], rws as [|[rw rb] rws]; try destruct H; auto.
  destruct H0 as [_ H3]. destruct (IH _ _ _ H3). simpl. lia.
Qed.

Lemma forward_backward s m es i o k x rsx y rsy r X Y :
  consistent s m es i o -> NoDup (map e_ref es) -> (1 <= length es)%nat ->
  m_loss m = Some (MkLoss k (Z.of_nat o)) -> m_losstype m = losskind_code k ->
  Forall (fun e => p_kind (e_p e) <> SigmoidK) es ->
  own s x rsx r i X -> own s y rsy r o Y -> (1 <= r)%nat ->
  returns (Forward m x true) s (fun outs s1 =>
    forall refs s2, frame nothing s1 s2 -> layers_kept refs s1 s2 -> disjoint (map e_ref es) refs ->
    returns (Backward m outs y) s2 (fun gs s3 =>
      length gs = length es /\
      (forall j, (j < length es)%nat -> exists rw rb,
         let g := nth (length es - 1 - j) gs (MkGrad matrix0 matrix0) in
         let G := nth j (snd (pbackprop k Y o (net es) r X (r_uni (h_rng s)) (r_upos (h_rng s)))) ([], []) in
         own s3 (g_dw g) rw (p_in (nth j (net es) no_layer)) (p_out (nth j (net es) no_layer)) (fst G) /\
         own s3 (g_db g) rb 1 (p_out (nth j (net es) no_layer)) (snd G)) /\
      frame nothing s s3 /\ rest s2 s3)).
Proof.
  intros HC NR Hlen HLs HLt HK HX HY Hr. apply returns_wp.
  eapply wp_conseq; [eapply (wp_Forward true s m es i o x rsx r X); eauto|].
  intros outs s1 (outs' & rss & -> & HR & HF & HND & HOld & HE) refs s2 F12 K12 Dj.
  destruct HE as (HFr & _ & HKl & _).
  assert (HC' := HC). destruct HC' as (L1 & L2 & L3 & L4 & L5 & L6).
  assert (F02 : frame nothing s s2) by (eapply frame_trans; [exact HFr|exact F12|]; intros z _ [[]|[]]).
  apply returns_wp. eapply wp_conseq; [eapply wp_Backward with (es := es) (rss := rss)|].
  - split; [split; [exact L1|]; split; [exact L2|]; split; [exact L3|]; split; [exact L4|]; split; [exact L5|]|].
    { eapply Forall_impl; [|exact L6]. intros e He. eapply lok_kept; [eapply lok_kept; [exact He|exact HFr|exact HKl|]; auto|exact F12|exact K12|]; auto. }
    split; [exact Hlen|]. split; [exact HLs|]. split; [exact HLt|]. split; [exact HK|].
    split; [eapply (fwd_rep_frame nothing); eauto|].
    split; [eapply own_frame; eauto|]. split; [eapply own_frame; eauto|]. split; [exact Hr|].
    split; [eapply Forall_impl; [|exact HOld]; intros z Hz; simpl in Hz; pose proof (frame_nrows _ _ _ F12); lia|].
    split; [exact HND|].
    eapply disjoint_old_fresh; [|exact HF]. rewrite Forall_forall. intros z Hz. rewrite !in_app_iff in Hz.
    destruct Hz as [Hz|[Hz|Hz]]; [exact (own_old_in _ _ _ _ _ _ _ HX Hz)|exact (own_old_in _ _ _ _ _ _ _ HY Hz)|].
    eapply prows_old; eauto.
  - intros gs s3 (gs' & grws & -> & HG & HFg & HF3 & HR3).
    destruct (grads_rep_length _ _ _ _ _ HG) as [G1 G2]. unfold net in G1, G2. rewrite map_length in G1, G2.
    split; [rewrite rev_length; exact G1|]. split; [|split; [|exact HR3]].
    + intros j Hj. destruct (grads_rep_nth _ _ _ _ _ j HG) as (rw & rb & A & B); [unfold net; rewrite map_length; exact Hj|].
      exists rw, rb. cbv zeta. rewrite rev_nth by lia. replace (length gs' - S (length es - 1 - j))%nat with j by lia. auto.
    + eapply frame_fresh'; eauto.
Qed.


(** ** Training *)
Lemma plog_off m k o X Y val e ps : plog (K := K) m k o X Y val 0 e ps = [].
Proof. reflexivity. Qed.
Lemma pfit_off m k o b X Y val : forall n e ts U q, snd (pfit (K := K) m k o b X Y val 0 n e ts U q) = [].
Proof.
  induction n as [|n IH]; intros e ts U q; [reflexivity|]. cbn [pfit].
  destruct (ptrain_on k o ts U q _) as [ts1 q1]. specialize (IH (e + 1) ts1 U q1).
  destruct (pfit m k o b X Y val 0 n _ ts1 U q1) as [[ts2 q2] ls]. rewrite plog_off. exact IH.
Qed.
Lemma fit_logs s m es xs i o k x rsx y rsy n X Y epochs bs xv yv val every :
  min_faithful K -> 0 <= bs -> Z.of_nat n + bs <= 2 ^ 52 -> (1 <= n)%nat ->
  trainable s m es xs i o k -> data_ok s es x rsx y rsy n i o X Y -> log_ok s m es xv yv i o val every ->
  returns (Fit m x y epochs bs xv yv every) s (fun _ s' =>
    let '(ts', q', ls) := pfit m k o (batch_rows n bs) X Y val every (Z.to_nat epochs) 0 (trainer es xs)
                            (r_uni (h_rng s)) (r_upos (h_rng s)) in
    exists nn, q' = (r_upos (h_rng s) + nn)%nat /\ train_result s s' m es xs i o k ts' nn ls).
Proof. intros. apply returns_wp. eapply wp_Fit; eauto. Qed.

Lemma fit_any_log s m es xs i o k x rsx y rsy n X Y epochs bs xv yv val every :
  min_faithful K -> 0 <= bs -> Z.of_nat n + bs <= 2 ^ 52 -> (1 <= n)%nat ->
  trainable s m es xs i o k -> data_ok s es x rsx y rsy n i o X Y -> log_ok s m es xv yv i o val every ->
  returns (Fit m x y epochs bs xv yv every) s (fun _ s' =>
    let tq := ptrain_on k o (trainer es xs) (r_uni (h_rng s)) (r_upos (h_rng s)) (epochs_of (Z.to_nat epochs) (batch_rows n bs) X Y) in
    exists nn ls, snd tq = (r_upos (h_rng s) + nn)%nat /\ train_result s s' m es xs i o k (fst tq) nn ls /\ (every = 0 -> ls = []) /\
      own s' x rsx n i X /\ own s' y rsy n o Y).
Proof.
  intros HM Hb H52 Hn HT HD HL. apply returns_wp. eapply wp_conseq; [eapply wp_Fit; eauto|]. cbv zeta. intros [] s'.
  rewrite <- (pfit_train m k o (batch_rows n bs) X Y val every (Z.to_nat epochs) 0).
  assert (HO : every = 0 -> snd (pfit m k o (batch_rows n bs) X Y val every (Z.to_nat epochs) 0 (trainer es xs) (r_uni (h_rng s)) (r_upos (h_rng s))) = [])
    by (intros ->; apply pfit_off).
  destruct (pfit _ _ _ _ _ _ _ _ _ _ _ _ _) as [[ts q] ls]. simpl in *.
  intros (nn & Hq & HR). exists nn, ls. split; [exact Hq|]. split; [exact HR|]. split; [exact HO|].
  destruct HR as (es' & xs' & _ & P & _ & _ & E). destruct (data_ok_effect _ _ _ _ _ _ _ _ _ _ _ _ _ _ _ _ HD E P) as (A & B & _). auto.
Qed.
Lemma log_off s m es xv yv i o val : log_ok s m es xv yv i o val 0.
Proof. left. reflexivity. Qed.
Lemma fit_trains s m es xs i o k x rsx y rsy n X Y epochs bs xv yv :
  min_faithful K -> 0 <= bs -> Z.of_nat n + bs <= 2 ^ 52 -> (1 <= n)%nat ->
  trainable s m es xs i o k -> data_ok s es x rsx y rsy n i o X Y ->
  returns (Fit m x y epochs bs xv yv 0) s (fun _ s' =>
    let tq := ptrain_on k o (trainer es xs) (r_uni (h_rng s)) (r_upos (h_rng s)) (epochs_of (Z.to_nat epochs) (batch_rows n bs) X Y) in
    exists nn, snd tq = (r_upos (h_rng s) + nn)%nat /\ train_result s s' m es xs i o k (fst tq) nn [] /\
      own s' x rsx n i X /\ own s' y rsy n o Y).
Proof.
  intros HM Hb H52 Hn HT HD.
  destruct (fit_any_log s m es xs i o k x rsx y rsy n X Y epochs bs xv yv None 0 HM Hb H52 Hn HT HD (log_off _ _ _ _ _ _ _ _)) as (a & s' & E & H).
  exists a, s'. split; [exact E|]. cbv zeta in *. destruct H as (nn & ls & H1 & H2 & H3 & H4). rewrite (H3 eq_refl) in H2. eauto.
Qed.
Lemma epochs_add a b c X Y : epochs_of (K := K) (a + b) c X Y = epochs_of a c X Y ++ epochs_of b c X Y.
Proof. unfold epochs_of. rewrite repeat_app, concat_app. reflexivity. Qed.

Lemma same_place_unique es : forall es1 es2, Forall2 same_place es es1 -> Forall2 same_place es es2 -> net es1 = net es2 -> es1 = es2.
Proof.
  induction es as [|e es IH]; intros es1 es2 H1 H2 HN; inversion H1 as [|? e1 ? t1 S1 T1]; subst; inversion H2 as [|? e2 ? t2 S2 T2]; subst; [reflexivity|].
  simpl in HN. injection HN as E1 E2. f_equal; [|auto].
  destruct S1 as (A1 & A2 & A3 & _), S2 as (B1 & B2 & B3 & _). destruct e1, e2; simpl in *; congruence.
Qed.
Lemma combine_inj {A B} : forall (a1 a2 : list A) (b1 b2 : list B), length a1 = length b1 -> length a2 = length b2 ->
  combine a1 b1 = combine a2 b2 -> a1 = a2 /\ b1 = b2.
Proof.
  induction a1 as [|x a1 IH]; intros [|y a2] [|u b1] [|v b2] H1 H2 H; try discriminate; auto.
  simpl in *. injection H as -> -> H. destruct (IH a2 b1 b2); auto. subst. auto.
Qed.
Lemma results_agree s s1 s2 m es xs i o k ts n1 n2 ls1 ls2 :
  train_result s s1 m es xs i o k ts n1 ls1 -> train_result s s2 m es xs i o k ts n2 ls2 -> n1 = n2 ->
  same_training s1 s2 m es xs i o k.
Proof.
  intros (es1 & xs1 & HT1 & P1 & Q1 & T1 & E1) (es2 & xs2 & HT2 & P2 & Q2 & T2 & E2) ->.
  assert (N1 : length (net es1) = length (map x_po xs1)).
  { unfold net. rewrite !map_length. eapply Forall2_length. apply HT1. }
  assert (N2 : length (net es2) = length (map x_po xs2)).
  { unfold net. rewrite !map_length. eapply Forall2_length. apply HT2. }
  destruct (combine_inj _ _ _ _ N1 N2) as [A B]; [unfold trainer in *; congruence|].
  assert (es2 = es1) by (eapply same_place_unique; eauto). subst es2.
  apply same_slots_places in Q1, Q2.
  exists es1, xs1, xs2. repeat (split; [assumption|]). destruct E1 as (_ & _ & _ & -> & _), E2 as (_ & _ & _ & -> & _). reflexivity.
Qed.
Lemma train_effect_nn s s' m es xs i o k ts nn ls : train_result s s' m es xs i o k ts nn ls ->
  h_rng s' = adv_uni (h_rng s) nn.
Proof. intros (es' & xs' & _ & _ & _ & _ & E). apply E. Qed.

Lemma fit_split s m es xs i o k x rsx y rsy n X Y e1 e2 bs xv yv :
  min_faithful K -> 0 <= bs -> Z.of_nat n + bs <= 2 ^ 52 -> (1 <= n)%nat -> 0 <= e1 -> 0 <= e2 ->
  trainable s m es xs i o k -> data_ok s es x rsx y rsy n i o X Y ->
  exists s1 s2, (Fit m x y e1 bs xv yv 0 ;; Fit m x y e2 bs xv yv 0) s = (Ret tt, s1) /\
    Fit m x y (e1 + e2) bs xv yv 0 s = (Ret tt, s2) /\ same_training s1 s2 m es xs i o k.
Proof.
  intros HM Hb H52 Hn He1 He2 HT HD.
  destruct (fit_trains s m es xs i o k x rsx y rsy n X Y (e1 + e2) bs xv yv HM Hb H52 Hn HT HD) as ([] & s2 & E2 & n2 & Q2 & R2 & _).
  destruct (fit_trains s m es xs i o k x rsx y rsy n X Y e1 bs xv yv HM Hb H52 Hn HT HD) as ([] & s3 & E3 & n3 & Q3 & R3 & _).
  assert (R3' := R3). destruct R3' as (es3 & xs3 & HT3 & P3 & O3 & T3 & F3).
  assert (HD3 := data_ok_effect _ _ _ _ _ _ _ _ _ _ _ _ _ _ _ _ HD F3 P3).
  destruct (fit_trains s3 m es3 xs3 i o k x rsx y rsy n X Y e2 bs xv yv HM Hb H52 Hn HT3 HD3) as ([] & s1 & E1 & n1 & Q1 & R1 & _).
  exists s1, s2. split; [erewrite bind_eq by exact E3; exact E1|]. split; [exact E2|].
  rewrite Z2Nat.inj_add, epochs_add, ptrain_on_app in R2, Q2 by lia.
  destruct (train_effect_rng _ _ _ _ _ _ F3) as [U3 V3]. rewrite U3, V3, T3, <- Q3 in R1, Q1. 
  eapply results_agree; [eapply train_result_trans; [exact P3|exact O3|exact F3|exact R1]|exact R2|].
  rewrite Q1 in Q2. lia.
Qed.

Lemma fit_logging s m es xs i o k x rsx y rsy n X Y epochs bs xv yv val every :
  min_faithful K -> 0 <= bs -> Z.of_nat n + bs <= 2 ^ 52 -> (1 <= n)%nat ->
  trainable s m es xs i o k -> data_ok s es x rsx y rsy n i o X Y -> log_ok s m es xv yv i o val every ->
  exists s1 s2, Fit m x y epochs bs xv yv every s = (Ret tt, s1) /\ Fit m x y epochs bs xv yv 0 s = (Ret tt, s2) /\
    same_training s1 s2 m es xs i o k.
Proof.
  intros HM Hb H52 Hn HT HD HL.
  destruct (fit_any_log s m es xs i o k x rsx y rsy n X Y epochs bs xv yv val every HM Hb H52 Hn HT HD HL) as ([] & s1 & E1 & n1 & l1 & Q1 & R1 & _).
  destruct (fit_any_log s m es xs i o k x rsx y rsy n X Y epochs bs xv yv None 0 HM Hb H52 Hn HT HD (log_off _ _ _ _ _ _ _ _)) as ([] & s2 & E2 & n2 & l2 & Q2 & R2 & _).
  exists s1, s2. split; [exact E1|]. split; [exact E2|]. eapply results_agree; eauto. lia.
Qed.

(** ** Negative batch sizes *)
Lemma neg_steps n b : (1 <= n)%nat -> 1 <= b ->
  let q := Z.quot (Z.of_nat n) (- b) in (if q * - b <? Z.of_nat n then q + 1 else q) = if b <=? Z.of_nat n then
    (if Z.of_nat n mod b =? 0 then - (Z.of_nat n / b) else 1 - Z.of_nat n / b) else 1.
Proof.
  intros Hn Hb. cbv zeta. rewrite Z.quot_opp_r by lia. rewrite Z.quot_div_nonneg by lia.
  pose proof (Z.div_mod (Z.of_nat n) b ltac:(lia)). pose proof (Z.mod_pos_bound (Z.of_nat n) b ltac:(lia)).
  replace (- (Z.of_nat n / b) * - b) with (b * (Z.of_nat n / b)) by ring.
  destruct (Z.leb_spec b (Z.of_nat n)).
  - destruct (Z.eqb_spec (Z.of_nat n mod b) 0), (Z.ltb_spec (b * (Z.of_nat n / b)) (Z.of_nat n)); lia.
  - rewrite Z.div_small by lia. destruct (Z.ltb_spec (b * 0) (Z.of_nat n)); lia.
Qed.
Lemma loop_nothing m x y b xv yv every st : st <= 0 -> (every = 0) -> forall c e s,
  loop c e (fun ep (_ : unit) => epoch_body (K := K) m x y st b xv yv every ep) tt s = (Ret tt, s).
Proof.
  intros Hst ->. induction c as [|c IH]; intros e s; [reflexivity|]. cbn [loop].
  erewrite bind_eq; [apply IH|]. unfold epoch_body, for_, for_acc. replace (Z.to_nat st) with 0%nat by lia.
  simpl. rewrite andb_false_r. reflexivity.
Qed.
Lemma fit_neg_nothing s m x y n epochs b xv yv : mrows y = Z.of_nat n -> (1 <= n)%nat -> 1 <= b <= Z.of_nat n ->
  Fit (K := K) m x y epochs (- b) xv yv 0 s = (Ret tt, s).
Proof.
  intros Hy Hn Hb. unfold Fit. cbv zeta. rewrite Hy. replace (- b =? 0) with false by lia. simpl negb. cbv iota.
  pose proof (neg_steps n b Hn ltac:(lia)) as H. cbv zeta in H. rewrite H. replace (b <=? Z.of_nat n) with true by lia.
  apply (loop_nothing m x y (- b) xv yv 0); [|reflexivity].
  pose proof (Z.div_le_lower_bound (Z.of_nat n) b 1 ltac:(lia) ltac:(lia)). destruct (Z.of_nat n mod b =? 0); lia.
Qed.
Lemma fit_neg_panics (HM : min_faithful K) s m x y rsx nx i X n epochs b xv yv every : own s x rsx nx i X -> mrows y = Z.of_nat n -> (1 <= n)%nat -> Z.of_nat n < b <= 2 ^ 53 ->
  1 <= epochs -> Fit (K := K) m x y epochs (- b) xv yv every s = (Panic PSlice, s).
Proof.
  intros Hx Hy Hn Hb He. unfold Fit. cbv zeta. rewrite Hy. replace (- b =? 0) with false by lia. simpl negb. cbv iota.
  pose proof (neg_steps n b Hn ltac:(lia)) as H. cbv zeta in H. rewrite H. replace (b <=? Z.of_nat n) with false by lia.
  unfold for_ at 1, for_acc. destruct (Z.to_nat epochs) as [|c] eqn:Ec; [lia|]. cbn [loop].
  apply bind_panic, bind_panic.
  unfold for_, for_acc. change (Z.to_nat 1) with 1%nat. cbn [loop]. apply bind_panic.
  unfold fit_batch. cbv zeta. rewrite Hy. replace ((0 + 1) * - b) with (- b) by lia.
  rewrite HM by (unfold small_int; lia). apply bind_panic.
  unfold reslice. replace (Z.min (- b) (Z.of_nat n)) with (- b) by lia.
  destruct Hx as (_ & _ & _ & _ & (arr & -> & _) & _). replace (0 * - b <=? - b) with false by lia.
  rewrite andb_false_r. reflexivity.
Qed.
End WithNum.
