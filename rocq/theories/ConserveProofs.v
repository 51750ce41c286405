(** * ConserveProofs: softmax layers keep the sums of their weights. *)
From Coq Require Import String ZArith List Bool Arith Lia Reals Lra.
From Verif Require Import Num NumR Heap Spec Matrix Network Loss LossProofs Optimizers ModelGo PureSpec Repr HeapLemmas RSum MiscFacts MiscProofs OptSpec OptFacts ModelSpec FitProofs FitLoop FitFacts Twins TwinsProofs Conserve.
Import ListNotations.
Open Scope R_scope.
Notation rpm := (pm RNum).

Lemma softmax_back_row r c (A G : rpm) i : (i < r)%nat ->
  rsum c (fun j => entry (psoftmax_back r c (psoftmax r c A) G) i j) = 0.
Proof.
  intros Hi. destruct c as [|c]; [reflexivity|]. set (C := S c) in *. assert (HC : (1 <= C)%nat) by (unfold C; lia).
  set (O := psoftmax r C A).
  rewrite (rsum_ext C _ (fun j => rsum C (fun n => ((if (j =? n)%nat then entry O i j else 0) - entry O i j * entry O i n) * entry G i n))).
  2:{ intros j Hj. unfold psoftmax_back. rewrite entry_mk by auto. apply rsum_ext. intros n Hn. unfold f0. cbn [fmul fsub fadd ofZ RNum]. destruct (j =? n)%nat; lra. }
  rewrite rsum_swap. rewrite (rsum_ext C _ (fun _ => 0)); [apply rsum_zero|].
  intros n Hn. rewrite rsum_scal_r. rewrite rsum_minus. rewrite rsum_scal_r. unfold O at 2. rewrite R_softmax_sum by auto.
  rewrite (rsum_ext C _ (fun j => if (n =? j)%nat then entry O i j else 0)) by (intros j Hj; rewrite Nat.eqb_sym; reflexivity).
  rewrite rsum_delta by exact Hn. lra.
Qed.
Lemma ce_back_row r c (A Y : rpm) i : (i < r)%nat -> one_label c (nth i Y []) ->
  rsum c (fun j => entry (pce_back r c Y (psoftmax r c A)) i j) = 0.
Proof.
  intros Hi (a & Ha & E1 & E2). assert (HC : (1 <= c)%nat) by lia.
  rewrite (rsum_ext c _ (fun j => (entry (psoftmax r c A) i j - (if (a =? j)%nat then 1 else 0)) / INR r)).
  - rewrite rsum_div, rsum_minus, R_softmax_sum by auto. rewrite rsum_delta by exact Ha. unfold Rdiv. lra.
  - intros j Hj. unfold pce_back. rewrite entry_mk by auto. unfold f1. cbn [feq fsub fdiv ofZ RNum]. rewrite <- INR_IZR_INZ. f_equal.
    unfold entry at 1. change (@f0 RNum) with 0. unfold r_eqb. destruct (Nat.eqb_spec a j) as [<-|Hne].
    + change (nth a (nth i Y []) (@f0 RNum)) with (nth a (nth i Y []) 0). destruct (Req_EM_T (nth a (nth i Y []) 0) 1) as [|h]; [reflexivity|contradiction].
    + change (nth j (nth i Y []) (@f0 RNum)) with (nth j (nth i Y []) 0). destruct (Req_EM_T (nth j (nth i Y []) 0) 1) as [h|]; [|lra].
      exfalso. apply (E2 j Hj); auto.
Qed.
Lemma weight_row r k c (X G : rpm) i : (i < k)%nat -> (forall n, (n < r)%nat -> rsum c (fun j => entry G n j) = 0) ->
  rsum c (fun j => entry (pdW r k c X G) i j) = 0.
Proof.
  intros Hi H. rewrite (rsum_ext c _ (fun j => rsum r (fun n => entry X n i * entry G n j))).
  - rewrite rsum_swap. rewrite (rsum_ext r _ (fun _ => 0)); [apply rsum_zero|]. intros n Hn. rewrite rsum_scal, H by exact Hn. lra.
  - intros j Hj. unfold pdW, pdot. rewrite entry_mk by auto. apply rsum_ext. intros n Hn. unfold ptrans. rewrite entry_mk by auto. reflexivity.
Qed.
Lemma bias_row r c (G : rpm) : (forall n, (n < r)%nat -> rsum c (fun j => entry G n j) = 0) -> rsum c (fun j => entry (psum0 r c G) 0 j) = 0.
Proof.
  intros H. rewrite (rsum_ext c _ (fun j => rsum r (fun n => entry G n j))).
  - rewrite rsum_swap. rewrite (rsum_ext r _ (fun _ => 0)); [apply rsum_zero|]. intros n Hn. apply H. exact Hn.
  - intros j Hj. unfold psum0. rewrite entry_mk by lia. reflexivity.
Qed.
Lemma pre_row k (Y : rpm) last p r (X : rpm) u Mask G i : (i < r)%nat -> p_kind p = SoftmaxK ->
  (last = true -> k <> BCE /\ (k = CE -> one_label (p_out p) (nth i Y []))) ->
  rsum (p_out p) (fun j => entry (pre_grad (K := RNum) k Y last p r (ptrain p r X u) Mask G) i j) = 0.
Proof.
  intros Hi HK HL. unfold pre_grad, ptrain, pforward, pact, pback, fused. rewrite HK. destruct last.
  - destruct (HL eq_refl) as (HB & HC). destruct k.
    + apply softmax_back_row; exact Hi.
    + apply softmax_back_row; exact Hi.
    + apply ce_back_row; [exact Hi|]. apply HC. reflexivity.
    + exfalso. apply HB. reflexivity.
  - apply softmax_back_row. exact Hi.
Qed.
Lemma grads_total k (Y : rpm) o : forall l ps r (X : rpm) U q p, nth_error ps l = Some p -> p_kind p = SoftmaxK ->
  (S l = length ps -> k <> BCE /\ (k = CE -> forall i, (i < r)%nat -> one_label (p_out p) (nth i Y []))) ->
  exists dW dB, nth_error (snd (pbackprop (K := RNum) k Y o ps r X U q)) l = Some (dW, dB) /\
    (forall i, (i < p_in p)%nat -> rsum (p_out p) (fun j => entry dW i j) = 0) /\ rsum (p_out p) (fun j => entry dB 0 j) = 0.
Proof.
  induction l as [|l IH]; intros ps r X U q p HP HK HL; (destruct ps as [|p0 ps]; [discriminate|]).
  - simpl in HP. injection HP as ->. cbn [pbackprop].
    destruct (pbackprop (K := RNum) k Y o ps r (ptrain p r X (from U q)) U (q + pdraws p r)) as [G gs]. cbn [snd nth_error].
    eexists _, _. split; [reflexivity|].
    assert (HR : forall n, (n < r)%nat -> rsum (p_out p) (fun j => entry (pre_grad (K := RNum) k Y (match ps with [] => true | _ => false end) p r (ptrain p r X (from U q)) (ptrain_mask p r (from U q)) G) n j) = 0).
    { intros n Hn. apply pre_row; auto. destruct ps; [|discriminate]. intros _. destruct (HL eq_refl) as (H1 & H2). split; [exact H1|]. intros E. apply H2; auto. }
    split; [intros i Hi; apply weight_row; assumption|apply bias_row; exact HR].
  - cbn [pbackprop]. simpl in HP. destruct (IH ps r (ptrain p0 r X (from U q)) U (q + pdraws p0 r)%nat p HP HK) as (dW & dB & E & A & B).
    { intros HS. apply HL. simpl. lia. }
    destruct (pbackprop (K := RNum) k Y o ps r (ptrain p0 r X (from U q)) U (q + pdraws p0 r)) as [G gs]. cbn [snd nth_error] in *. eauto.
Qed.
Lemma upd1_total (po : popt RNum) r c (P dP m ch : rpm) : po_kind po = SGD ->
  forall i, (i < r)%nat -> rsum c (fun j => entry dP i j) = 0 -> (po_usemom po = true -> rsum c (fun j => entry m i j) = 0) ->
  let '(P', m', _) := pupd1 po r c P dP m ch in
  rsum c (fun j => entry P' i j) = rsum c (fun j => entry P i j) /\ (po_usemom po = true -> rsum c (fun j => entry m' i j) = 0).
Proof.
  intros HK i Hi HD HM. unfold pupd1. rewrite HK. destruct (po_usemom po).
  - specialize (HM eq_refl).
    assert (E : rsum c (fun j => entry (pmap2 (K := RNum) r c (vel1 (po_mom po) (next_rate po)) m dP) i j) = 0).
    { rewrite (rsum_ext c _ (fun j => entry m i j * po_mom po - entry dP i j * next_rate po)).
      - rewrite rsum_minus, (rsum_scal_r c _ (fun j => entry m i j)), (rsum_scal_r c _ (fun j => entry dP i j)), HM, HD. lra.
      - intros j Hj. unfold pmap2. rewrite entry_mk by auto. reflexivity. }
    split; [|intros _; exact E].
    rewrite (rsum_ext c _ (fun j => entry P i j + entry (pmap2 (K := RNum) r c (vel1 (po_mom po) (next_rate po)) m dP) i j)).
    + rewrite (rsum_plus c (fun j => entry P i j) (fun j => entry (pmap2 (K := RNum) r c (vel1 (po_mom po) (next_rate po)) m dP) i j)), E. apply Rplus_0_r.
    + intros j Hj. unfold pmap2 at 1. rewrite entry_mk by auto. reflexivity.
  - split; [|discriminate]. rewrite (rsum_ext c _ (fun j => entry P i j - entry dP i j * next_rate po)).
    + rewrite rsum_minus, (rsum_scal_r c _ (fun j => entry dP i j)), HD, Rmult_0_l. apply Rminus_0_r.
    + intros j Hj. unfold pmap2. rewrite entry_mk by auto. reflexivity.
Qed.
Lemma step_total (t : player RNum * popt RNum) dW dB : balanced t ->
  (forall i, (i < p_in (fst t))%nat -> rsum (p_out (fst t)) (fun j => entry dW i j) = 0) -> rsum (p_out (fst t)) (fun j => entry dB 0 j) = 0 ->
  totals_kept (fst t) (fst (tstep (K := RNum) t (dW, dB))) /\ balanced (tstep (K := RNum) t (dW, dB)).
Proof.
  intros (HK & HM) HW HB. destruct t as [p po]. unfold tstep, pupdate. simpl fst in *. simpl snd in *.
  assert (A : forall i, (i < p_in p)%nat -> _) by (intros i Hi; exact (upd1_total po (p_in p) (p_out p) (p_w p) dW (po_wm po) (po_wc po) HK i Hi (HW i Hi) (fun E => proj1 (HM E) i Hi))).
  pose proof (upd1_total po 1 (p_out p) (p_b p) dB (po_bm po) (po_bc po) HK 0%nat Nat.lt_0_1 HB (fun E => proj2 (HM E))) as B.
  destruct (pupd1 po (p_in p) (p_out p) (p_w p) dW (po_wm po) (po_wc po)) as [[W' wm] wc].
  destruct (pupd1 po 1 (p_out p) (p_b p) dB (po_bm po) (po_bc po)) as [[B' bm] bc].
  unfold totals_kept, weight_total, bias_total, balanced. simpl. split.
  - split; [reflexivity|]. split; [reflexivity|]. split; [intros i Hi; apply A; exact Hi|apply B].
  - split; [exact HK|]. intros E. split; [intros i Hi; apply A; auto|apply B; exact E].
Qed.
Lemma backprop_len k (Y : rpm) o : forall ps r X U q, length (snd (pbackprop (K := RNum) k Y o ps r X U q)) = length ps.
Proof.
  induction ps as [|p ps IH]; intros r X U q; [reflexivity|]. cbn [pbackprop]. specialize (IH r (ptrain p r X (from U q)) U (q + pdraws p r)%nat).
  destruct (pbackprop (K := RNum) k Y o ps r (ptrain p r X (from U q)) U (q + pdraws p r)). simpl in *. lia.
Qed.
Lemma batch_len k o ts (X Y : rpm) U q : length (pbatch (K := RNum) k o ts X Y U q) = length ts.
Proof. unfold pbatch. rewrite map_length, combine_length, backprop_len, map_length. lia. Qed.
Lemma totals_trans p p' p'' : totals_kept p p' -> totals_kept p' p'' -> totals_kept p p''.
Proof.
  intros (A1 & A2 & A3 & A4) (B1 & B2 & B3 & B4). unfold totals_kept. rewrite A1 in B3. repeat split; try congruence.
  intros i Hi. rewrite B3, A3; auto.
Qed.
Lemma train_total k o U l : forall bs ts q t, nth_error ts l = Some t -> p_kind (fst t) = SoftmaxK -> balanced t ->
  (S l = length ts -> k <> BCE /\ (k = CE -> List.Forall (fun XY : rpm * rpm => length (snd XY) = length (fst XY) /\ List.Forall (one_label (p_out (fst t))) (snd XY)) bs)) ->
  exists t', nth_error (fst (ptrain_on (K := RNum) k o ts U q bs)) l = Some t' /\ p_kind (fst t') = SoftmaxK /\ balanced t' /\ totals_kept (fst t) (fst t').
Proof.
  induction bs as [|[X Y] bs IH]; intros ts q t HE HK HB HL.
  - exists t. split; [exact HE|]. split; [exact HK|]. split; [exact HB|]. repeat split.
  - cbn [ptrain_on].
    destruct (grads_total k Y o l (map fst ts) (length X) X U q (fst t)) as (dW & dB & EG & A & B).
    { now apply map_nth_error. } { exact HK. }
    { rewrite map_length. intros HS. destruct (HL HS) as (H1 & H2). split; [exact H1|]. intros E i Hi. specialize (H2 E). inversion H2 as [|? ? (H3 & H4) _]; subst. simpl in H3, H4.
      rewrite List.Forall_forall in H4. apply H4. apply nth_In. exact (eq_ind_r (fun n => (i < n)%nat) Hi H3). }
    destruct (step_total t dW dB HB A B) as (K1 & K2). destruct (step_like (K := RNum) t (dW, dB)) as (S1 & S2 & S3).
    destruct (IH (pbatch (K := RNum) k o ts X Y U q) (q + net_draws true (map fst ts) (length X))%nat (tstep (K := RNum) t (dW, dB))) as (t' & C1 & C2 & C3 & C4).
    + apply nth_step; assumption.
    + rewrite S1. exact HK.
    + exact K2.
    + rewrite batch_len, S3. intros HS. destruct (HL HS) as (H1 & H2). split; [exact H1|]. intros E. specialize (H2 E). inversion H2; subst. assumption.
    + exists t'. split; [exact C1|]. split; [exact C2|]. split; [exact C3|]. eapply totals_trans; eauto.
Qed.
Lemma chunk_pairs {A B} b : forall n (X : list A) (Y : list B), length X = length Y -> forall x y, In (x, y) (combine (chunks_fuel n b X) (chunks_fuel n b Y)) -> length x = length y.
Proof.
  induction n as [|n IH]; intros X Y HL x y Hin; [destruct X, Y; simpl in Hin; try contradiction|].
  destruct X as [|a X], Y as [|c Y]; try discriminate; [contradiction|]. cbn [chunks_fuel combine] in Hin. destruct Hin as [E|Hin].
  - injection E as <- <-. rewrite !firstn_length. simpl in *. lia.
  - eapply IH; [|exact Hin]. rewrite !skipn_length. lia.
Qed.
Lemma fit_total s (m : model RNum) es xs i o k x rsx y rsy n X Y epochs bs xv yv l t :
  (0 <= bs)%Z -> (Z.of_nat n + bs <= 2 ^ 52)%Z -> (1 <= n)%nat ->
  trainable s m es xs i o k -> data_ok s es x rsx y rsy n i o X Y -> softmax_at k Y (trainer es xs) l t -> balanced t ->
  returns (Fit m x y epochs bs xv yv 0) s (fun _ s' => exists es' xs' t', trainable s' m es' xs' i o k /\ Forall2 same_place es es' /\
    softmax_at k Y (trainer es' xs') l t' /\ balanced t' /\ totals_kept (fst t) (fst t')).
Proof.
  intros Hb Hn H1 HT HD (HE & HK & HL) HB.
  destruct (fit_trains s m es xs i o k x rsx y rsy n X Y epochs bs xv yv RNum_min_faithful Hb Hn H1 HT HD) as ([] & s' & E & nn & _ & (es' & xs' & A1 & A2 & _ & A3 & _) & _).
  assert (LXY : length X = length Y).
  { destruct HD as (HX & HY & _). destruct (own_lengths _ _ _ _ _ _ HX). destruct (own_lengths _ _ _ _ _ _ HY). lia. }
  destruct (train_total k o (r_uni (h_rng s)) l (epochs_of (Z.to_nat epochs) (batch_rows n bs) X Y) (trainer es xs) (r_upos (h_rng s)) t HE HK HB) as (t' & B1 & B2 & B3 & B4).
  { intros HS. destruct (HL HS) as (C1 & C2). split; [exact C1|]. intros EC. specialize (C2 EC). rewrite List.Forall_forall in C2.
    unfold epochs_of. apply Forall_concat. apply List.Forall_forall. intros li Hl. apply repeat_spec in Hl. subst li.
    apply List.Forall_forall. intros [X0 Y0] Hin. simpl. split.
    - symmetry. unfold chunks in Hin. rewrite <- LXY in Hin. eapply chunk_pairs; [exact LXY|exact Hin].
    - apply in_combine_r in Hin. apply List.Forall_forall. intros row Hr. apply C2. eapply chunks_incl; eauto. }
  exists tt, s'. split; [exact E|]. exists es', xs', t'. split; [exact A1|]. split; [exact A2|]. rewrite A3. split; [|auto].
  split; [exact B1|]. split; [exact B2|]. destruct B4 as (_ & -> & _).
  intros HS. apply HL. assert (LT : length (fst (ptrain_on (K := RNum) k o (trainer es xs) (r_uni (h_rng s)) (r_upos (h_rng s)) (epochs_of (Z.to_nat epochs) (batch_rows n bs) X Y))) = length (trainer es xs)).
  { clear. generalize (epochs_of (Z.to_nat epochs) (batch_rows n bs) X Y) as b. generalize (r_upos (h_rng s)) as q. generalize (trainer es xs) as ts. intros ts q b. revert ts q.
    induction b as [|[X0 Y0] b IH]; intros ts q; [reflexivity|]. cbn [ptrain_on]. rewrite IH. apply batch_len. }
  rewrite LT in HS. exact HS.
Qed.
