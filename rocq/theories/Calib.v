(** * Calib: the bias of the last layer adds up the residuals. *)
From Coq Require Import ZArith List Bool Arith Lia Reals Lra.
From Verif Require Import Num NumR Heap Spec Matrix Loss Network Optimizers ModelGo PureSpec Repr HeapLemmas MatrixFacts MiscFacts MiscProofs RSum LayerReal LossProofs OptSpec OptFacts ModelSpec ModelProofs ModelFacts EvalProofs FitProofs FitLoop FitFacts Params ModelRefute BalanceProofs NetGrad HandFit Copies CapacityFit CalibSpec.
Import ListNotations.
Open Scope R_scope.

Lemma train_is_forward (p : player RNum) r X u : p_kind p <> Dropout -> ptrain p r X u = pforward p r X.
Proof. unfold ptrain. destruct (p_kind p); congruence. Qed.
Section Grad.
Variables (k : losskind) (n o : nat) (Y : rpm) (p : player RNum).
Hypothesis (Hn : (1 <= n)%nat) (HO : p_out p = o)
  (HK : (k = MSE /\ p_kind p = Linear) \/ (k = CE /\ p_kind p = SoftmaxK /\ forall a j, (a < n)%nat -> (j < o)%nat -> entry Y a j = 0 \/ entry Y a j = 1)).
Lemma last_grad U : forall ps0 X q, List.Forall (fun l => p_kind l <> Dropout) ps0 -> exists gs dW dB, length gs = length ps0 /\
  snd (pbackprop (K := RNum) k Y o (ps0 ++ [p]) n X U q) = gs ++ [(dW, dB)] /\
  forall j, (j < o)%nat -> entry dB 0 j = weight_of k n o * excess n (pnet (ps0 ++ [p]) n X) Y j.
Proof.
  induction ps0 as [|l ps0 IH]; intros X q HD.
  - exists [], (pdW n (p_in p) (p_out p) X (pre_grad k Y true p n (ptrain p n X (from U q)) (ptrain_mask p n (from U q)) (ploss_back k n o (ptrain p n X (from U q)) Y))),
      (psum0 n (p_out p) (pre_grad k Y true p n (ptrain p n X (from U q)) (ptrain_mask p n (from U q)) (ploss_back k n o (ptrain p n X (from U q)) Y))).
    split; [reflexivity|]. split; [reflexivity|]. intros j Hj. unfold psum0. rewrite entry_mk by lia. change (fsum (K := RNum) ?nn ?g) with (rsum nn g).
    unfold excess. rewrite <- rsum_scal. apply rsum_ext. intros a Ha. cbn [app pnet fold_left].
    rewrite train_is_forward by (destruct HK as [(_ & E)|(_ & E & _)]; congruence). unfold pre_grad, fused.
    destruct HK as [(-> & EK)|(-> & EK & HY)].
    + cbv iota beta. unfold pback. rewrite EK. unfold ploss_back, pmse_back. rewrite entry_mk by lia. unfold weight_of. cbn [fmul fsub fdiv ofZ RNum]. rewrite <- INR_IZR_INZ. rewrite Rmult_comm. reflexivity.
    + rewrite EK. unfold pce_back. rewrite entry_mk by lia. unfold weight_of. cbn [fdiv fsub feq ofZ RNum]. rewrite <- INR_IZR_INZ.
      assert (E1 : (f1 : F RNum) = 1) by reflexivity. rewrite E1.
      assert (EE : (if r_eqb (entry Y a j) 1 then entry (pforward p n X) a j - 1 else entry (pforward p n X) a j) = entry (pforward p n X) a j - entry Y a j).
      { destruct (HY a j Ha Hj) as [E|E]; rewrite E.
        - replace (r_eqb 0 1) with false; [symmetry; apply Rminus_0_r|]. symmetry. apply r_eqb_false. lra.
        - replace (r_eqb 1 1) with true; [reflexivity|]. symmetry. now apply r_eqb_true. }
      etransitivity; [exact (f_equal (fun v => v * / INR n) EE)|apply Rmult_comm].
  - inversion HD as [|? ? HD1 HD2]; subst. destruct (IH (pforward l n X) (q + pdraws l n)%nat HD2) as (gs & dW & dB & E1 & E2 & E3).
    cbn [app pbackprop pnet fold_left]. rewrite train_is_forward by exact HD1.
    destruct (pbackprop k Y (p_out p) (ps0 ++ [p]) n (pforward l n X) U (q + pdraws l n)) as [G gs'] eqn:EG. cbn [snd] in E2 |- *. subst gs'.
    eexists (_ :: gs), dW, dB. split; [cbn [length]; now rewrite E1|]. split; [reflexivity|exact E3].
Qed.
End Grad.
Lemma last_bias_app ps0 p j : last_bias (ps0 ++ [p]) j = entry (p_b p) 0 j.
Proof. unfold last_bias. rewrite rev_app_distr. reflexivity. Qed.
Lemma combine_snoc {A B} (l : list A) (l' : list B) a b : length l = length l' -> combine (l ++ [a]) (l' ++ [b]) = combine l l' ++ [(a, b)].
Proof. revert l'. induction l as [|x l IH]; intros [|y l'] H; try discriminate; [reflexivity|]. simpl. f_equal. apply IH. simpl in H. lia. Qed.
(** One step on the whole batch. *)
Lemma bias_step k n o lr i (ts : list (player RNum * popt RNum)) X Y U q : (1 <= n)%nat -> length X = n -> chain i (map fst ts) o -> List.Forall (fun l => p_kind l <> Dropout) (map fst ts) ->
  last_plain lr ts -> matching k (map fst ts) n o Y ->
  last_plain lr (pbatch k o ts X Y U q) /\
  forall j, (j < o)%nat -> last_bias (map fst (pbatch k o ts X Y U q)) j = last_bias (map fst ts) j - lr * weight_of k n o * excess n (pnet (map fst ts) n X) Y j.
Proof.
  intros Hn EX HC HD (ts0 & p & po & -> & K1 & K2 & K3 & K4) (ps0 & p' & E & HM).
  rewrite map_app in *. cbn [map fst] in *. apply app_inj_tail in E. destruct E as (<- & <-). apply List.Forall_app in HD. destruct HD as (HD & _).
  assert (HO : p_out p = o).
  { clear - HC. revert i HC. induction ts0 as [|t ts0 IH]; intros i HC; cbn [map app chain] in HC; [apply HC|]. destruct HC as (_ & HC). exact (IH _ HC). }
  destruct (last_grad k n o Y p Hn HO HM U (map fst ts0) X q HD) as (gs & dW & dB & L1 & L2 & L3).
  unfold pbatch. rewrite map_app. cbn [map fst]. rewrite EX, L2. rewrite map_length in L1. rewrite combine_snoc by congruence. rewrite map_app. cbn [map fst snd].
  destruct (step_sgd (p, po) dW dB K1 K2) as (_ & _ & _ & _ & _ & _ & HB & S1 & S2 & _ & _ & S3 & _ & S4). cbn [fst snd] in *.
  split.
  - eexists _, (fst (tstep (K := RNum) (p, po) (dW, dB))), (snd (tstep (K := RNum) (p, po) (dW, dB))). split; [now rewrite <- surjective_pairing|].
    rewrite S1, S2, S4, K3. repeat split. rewrite S3. unfold next_rate. rewrite K3. exact K4.
  - intros j Hj. rewrite map_app. cbn [map]. rewrite !last_bias_app. rewrite HB by lia. rewrite L3 by exact Hj. unfold next_rate. rewrite K3, K4. change (F RNum) with R in *. ring.
Qed.
Lemma batch_kinds k o (ts : list (player RNum * popt RNum)) X Y U q : map (fun l => (p_kind l, p_in l, p_out l)) (map fst (pbatch k o ts X Y U q)) = map (fun l => (p_kind l, p_in l, p_out l)) (map fst ts).
Proof.
  unfold pbatch. pose proof (HandFit.pbackprop_len k Y o (map fst ts) (length X) X U q) as HL. rewrite map_length in HL. revert HL. generalize (snd (pbackprop k Y o (map fst ts) (length X) X U q)). intros gs.
  revert gs. induction ts as [|t ts IH]; intros [|g gs] H; try discriminate; [reflexivity|]. cbn [combine map fst snd]. f_equal; [|apply IH; simpl in H; lia].
  destruct t as [p po]. unfold tstep. destruct (pupdate _ _ _ _ _ _ _) as ((po' & W') & B'). reflexivity.
Qed.
Lemma kinds_chain (ps ps' : list (player RNum)) : map (fun l => (p_kind l, p_in l, p_out l)) ps' = map (fun l => (p_kind l, p_in l, p_out l)) ps -> forall i o, chain i ps o -> chain i ps' o.
Proof.
  revert ps'. induction ps as [|p ps IH]; intros [|p' ps'] E i o H; try discriminate; [exact H|]. cbn [map] in E. injection E as E1 E2 E3 E4. cbn [chain] in *. rewrite E2, E3. split; [apply H|]. apply (IH ps' E4). apply H.
Qed.
Lemma kinds_nodrop (ps ps' : list (player RNum)) : map (fun l => (p_kind l, p_in l, p_out l)) ps' = map (fun l => (p_kind l, p_in l, p_out l)) ps -> List.Forall (fun l => p_kind l <> Dropout) ps -> List.Forall (fun l => p_kind l <> Dropout) ps'.
Proof.
  revert ps'. induction ps as [|p ps IH]; intros [|p' ps'] E H; try discriminate; [constructor|]. cbn [map] in E. injection E as E1 E2 E3 E4. inversion H; subst. constructor; [congruence|]. now apply IH.
Qed.
Lemma kinds_matching k n o Y (ps ps' : list (player RNum)) : map (fun l => (p_kind l, p_in l, p_out l)) ps' = map (fun l => (p_kind l, p_in l, p_out l)) ps -> matching k ps n o Y -> matching k ps' n o Y.
Proof.
  intros E (ps0 & p & -> & H). destruct ps' as [|q0 ps'] using rev_ind; [destruct ps0; discriminate|]. clear IHps'. rewrite !map_app in E. cbn [map] in E. apply app_inj_tail in E. destruct E as (_ & E). injection E as E _ _.
  exists ps', q0. split; [reflexivity|]. rewrite E. exact H.
Qed.
Section Run.
Variables (k : losskind) (n o i : nat) (lr : R) (X Y : rpm) (U : nat -> F RNum).
Hypothesis (Hn : (1 <= n)%nat) (EX : length X = n).
Definition at_epoch (ts : list (player RNum * popt RNum)) q (t : nat) := ptrain_on (K := RNum) k o ts U q (repeat (X, Y) t).
Lemma at_epoch_S ts q t : exists q', fst (at_epoch ts q (S t)) = pbatch k o (fst (at_epoch ts q t)) X Y U q'.
Proof.
  unfold at_epoch. replace (repeat (X, Y) (S t)) with (repeat (X, Y) t ++ [(X, Y)]).
  - rewrite ptrain_on_app. cbn [ptrain_on fst]. eauto.
  - change [(X, Y)] with (repeat (X, Y) 1). rewrite <- repeat_app. f_equal. apply Nat.add_1_r.
Qed.
Lemma bias_run ts q : chain i (map fst ts) o -> List.Forall (fun l => p_kind l <> Dropout) (map fst ts) -> last_plain lr ts -> matching k (map fst ts) n o Y ->
  forall t, (map (fun l => (p_kind l, p_in l, p_out l)) (map fst (fst (at_epoch ts q t))) = map (fun l => (p_kind l, p_in l, p_out l)) (map fst ts) /\ last_plain lr (fst (at_epoch ts q t))) /\
  forall j, (j < o)%nat -> last_bias (map fst (fst (at_epoch ts q t))) j =
    last_bias (map fst ts) j - lr * weight_of k n o * rsum t (fun u => excess n (pnet (map fst (fst (at_epoch ts q u))) n X) Y j).
Proof.
  intros HC HD HP HM. induction t as [|t ((IH1 & IH2) & IH3)].
  - split; [split; [reflexivity|exact HP]|]. intros j Hj. rewrite rsum_0. unfold at_epoch. cbn [repeat ptrain_on fst]. ring.
  - destruct (at_epoch_S ts q t) as (q' & E). rewrite E.
    destruct (bias_step k n o lr i (fst (at_epoch ts q t)) X Y U q' Hn EX (kinds_chain _ _ IH1 _ _ HC) (kinds_nodrop _ _ IH1 HD) IH2 (kinds_matching _ _ _ _ _ _ IH1 HM)) as (S1 & S2).
    split; [split; [now rewrite batch_kinds|exact S1]|]. intros j Hj. rewrite S2, IH3, rsum_S by exact Hj. ring.
Qed.
End Run.

(** ** Fit *)
Section Model.
Variables (s : state RNum) (m : model RNum) (es : list (lent RNum)) (xs : list (oent RNum)) (i o : nat) (k : losskind) (x : matrix) (rsx : list nat) (y : matrix) (rsy : list nat) (n : nat) (X Y : rpm) (bs : Z) (xv yv : matrix) (lr : R).
Hypothesis (Hb : (bs = 0 \/ Z.of_nat n <= bs)%Z) (H52 : (Z.of_nat n + bs <= 2 ^ 52)%Z) (Hn : (1 <= n)%nat) (HT : trainable s m es xs i o k) (HD : data_ok s es x rsx y rsy n i o X Y)
  (HND : List.Forall (fun e => p_kind (e_p e) <> Dropout) es) (HL : last_plain lr (trainer es xs)) (HM : matching k (net es) n o Y) (HA : m_acctype m = 0%Z).
Lemma fit_bias : exists P : nat -> rpm, P O = pnet (net es) n X /\ forall t : nat, exists s' es' xs' out s'' rs,
  Fit m x y (Z.of_nat t) bs xv yv 0 s = (Ret tt, s') /\ trainable s' m es' xs' i o k /\ Forall2 same_place es es' /\
  Predict m x s' = (Ret out, s'') /\ own s'' out rs n o (P t) /\
  forall j, (j < o)%nat -> last_bias (net es') j = last_bias (net es) j - lr * weight_of k n o * rsum t (fun u => excess n (P u) Y j).
Proof.
  set (U := r_uni (h_rng s)). set (q := r_upos (h_rng s)).
  exists (fun t => pnet (map fst (fst (at_epoch k o X Y U (trainer es xs) q t))) n X).
  assert (LT : forall s es xs, trainable (K := RNum) s m es xs i o k -> map fst (trainer es xs) = net es).
  { intros s0 es0 xs0 HT0. apply FitProofs.trainer_net. symmetry. exact (f2len _ _ _ (proj1 (proj2 (proj2 (proj2 (proj2 (proj2 HT0))))))). }
  split; [unfold at_epoch; cbn [repeat ptrain_on fst]; now rewrite (LT _ _ _ HT)|]. intros t.
  pose proof HD as (OX & OY & _). destruct OX as (_ & _ & _ & (EX & _) & _). destruct OY as (_ & _ & _ & (EY & _) & _).
  destruct (fit_trains s m es xs i o k x rsx y rsy n X Y (Z.of_nat t) bs xv yv RNum_min_faithful ltac:(lia) H52 Hn HT HD) as ([] & s' & E & nn & _ & (es' & xs' & HT' & HPl & _ & ET & _) & HX' & _).
  rewrite Nat2Z.id in ET. rewrite (whole_epochs t n bs X Y Hn EX EY Hb) in ET. fold U q in ET. fold (at_epoch k o X Y U (trainer es xs) q t) in ET.
  assert (EN : net es' = map fst (fst (at_epoch k o X Y U (trainer es xs) q t))) by (rewrite <- ET; symmetry; exact (LT _ _ _ HT')).
  pose proof (LT _ _ _ HT) as E0.
  destruct (predict_spec s' m es' i o x rsx n X o (pnet (net es') n X) (proj1 HT') (shapes _ _ _ _ _ _ _ HT') ltac:(unfold ppredict; now rewrite HA) HX' Hn) as (out & s'' & E2 & rs & Q & _).
  exists s', es', xs', out, s'', rs. split; [exact E|]. split; [exact HT'|]. split; [exact HPl|]. split; [exact E2|]. rewrite EN in Q |- *. split; [exact Q|].
  pose proof HT as ((_ & _ & _ & _ & HC & _) & _).
  assert (HND' : List.Forall (fun l => p_kind l <> Dropout) (net es)) by (unfold net; apply List.Forall_map; exact HND).
  destruct (bias_run k n o i lr X Y U Hn EX (trainer es xs) q ltac:(rewrite E0; exact HC) ltac:(rewrite E0; exact HND') HL ltac:(rewrite E0; exact HM) t) as (_ & R). rewrite E0 in R. exact R.
Qed.
(** A model that one epoch leaves as it is. *)
Lemma fit_rest : lr <> 0 -> exists s' es' xs' out s'' rs P,
  Fit m x y 1 bs xv yv 0 s = (Ret tt, s') /\ trainable s' m es' xs' i o k /\ Forall2 same_place es es' /\ Predict m x s = (Ret out, s'') /\ own s'' out rs n o P /\
  (net es' = net es -> forall j, (j < o)%nat -> rsum n (fun a => entry P a j) = rsum n (fun a => entry Y a j)).
Proof.
  intros Hlr. pose proof HD as (OX & OY & _). pose proof OX as (_ & _ & _ & (EX & _) & _). destruct OY as (_ & _ & _ & (EY & _) & _).
  destruct (fit_trains s m es xs i o k x rsx y rsy n X Y 1 bs xv yv RNum_min_faithful ltac:(lia) H52 Hn HT HD) as ([] & s' & E & nn & _ & (es' & xs' & HT' & HPl & _ & ET & _) & HX' & _).
  change (Z.to_nat 1) with 1%nat in ET. rewrite (whole_epochs 1 n bs X Y Hn EX EY Hb) in ET.
  assert (LT : forall s es xs, trainable (K := RNum) s m es xs i o k -> map fst (trainer es xs) = net es).
  { intros s0 es0 xs0 HT0. apply FitProofs.trainer_net. symmetry. exact (f2len _ _ _ (proj1 (proj2 (proj2 (proj2 (proj2 (proj2 HT0))))))). }
  pose proof (LT _ _ _ HT) as E0. pose proof (LT _ _ _ HT') as E1. pose proof HT as ((_ & _ & _ & _ & HC & _) & _).
  assert (HND' : List.Forall (fun l => p_kind l <> Dropout) (net es)) by (unfold net; apply List.Forall_map; exact HND).
  destruct (predict_spec s m es i o x rsx n X o (pnet (net es) n X) (proj1 HT) (shapes _ _ _ _ _ _ _ HT) ltac:(unfold ppredict; now rewrite HA) OX Hn) as (out & s'' & E2 & rs & Q & _).
  exists s', es', xs', out, s'', rs, (pnet (net es) n X). do 5 (split; [assumption|]). intros EN j Hj.
  destruct (bias_run k n o i lr X Y (r_uni (h_rng s)) Hn EX (trainer es xs) (r_upos (h_rng s)) ltac:(rewrite E0; exact HC) ltac:(rewrite E0; exact HND') HL ltac:(rewrite E0; exact HM) 1) as (_ & R).
  specialize (R j Hj). unfold at_epoch in R at 1. rewrite <- ET in R. rewrite E1, E0, EN, rsum_1 in R. unfold at_epoch in R. cbn [repeat ptrain_on fst] in R. rewrite E0 in R.
  assert (HW : weight_of k n o <> 0).
  { unfold weight_of. destruct k; try (apply Rinv_neq_0_compat, not_0_INR; lia). apply Rmult_integral_contrapositive. split; [lra|]. apply Rinv_neq_0_compat, not_0_INR. lia. }
  assert (EZ : lr * weight_of k n o * excess n (pnet (net es) n X) Y j = 0) by lra.
  apply Rmult_integral in EZ. destruct EZ as [EZ|EZ]; [apply Rmult_integral in EZ; tauto|]. unfold excess in EZ. rewrite rsum_minus in EZ. lra.
Qed.
(** The residuals of all epochs average out if the bias stays bounded. *)
Lemma fit_average (B : R) : 0 < lr -> exists P : nat -> rpm, P O = pnet (net es) n X /\ forall t : nat, (1 <= t)%nat -> exists s' es' xs' out s'' rs,
  Fit m x y (Z.of_nat t) bs xv yv 0 s = (Ret tt, s') /\ trainable s' m es' xs' i o k /\ Forall2 same_place es es' /\
  Predict m x s' = (Ret out, s'') /\ own s'' out rs n o (P t) /\
  forall j, (j < o)%nat -> Rabs (last_bias (net es) j) <= B -> Rabs (last_bias (net es') j) <= B ->
    Rabs (rsum t (fun u => excess n (P u) Y j) / INR t) <= 2 * B / (lr * weight_of k n o * INR t).
Proof.
  intros Hlr. destruct fit_bias as (P & H0 & HP). exists P. split; [exact H0|]. intros t Ht. destruct (HP t) as (s' & es' & xs' & out & s'' & rs & E & HT' & HPl & E2 & Q & HB).
  exists s', es', xs', out, s'', rs. do 5 (split; [assumption|]). intros j Hj B1 B2. specialize (HB j Hj).
  assert (HW : 0 < weight_of k n o).
  { unfold weight_of. destruct k; try (apply Rinv_0_lt_compat, lt_0_INR; lia). apply Rmult_lt_0_compat; [lra|]. apply Rinv_0_lt_compat, lt_0_INR. lia. }
  assert (HP0 : 0 < lr * weight_of k n o) by now apply Rmult_lt_0_compat. assert (HT0 : 0 < INR t) by (apply lt_0_INR; lia).
  set (S := rsum t _) in *. set (c := lr * weight_of k n o) in *.
  assert (ES : S = (last_bias (net es) j - last_bias (net es') j) / c) by (rewrite HB; field; lra).
  assert (HD2 : Rabs (last_bias (net es) j - last_bias (net es') j) <= 2 * B) by (revert B1 B2; unfold Rabs; repeat destruct Rcase_abs; lra).
  rewrite ES. unfold Rdiv. rewrite !Rabs_mult, (Rabs_right (/ c)), (Rabs_right (/ INR t)) by (apply Rle_ge; left; now apply Rinv_0_lt_compat).
  rewrite Rinv_mult_distr by lra. rewrite <- Rmult_assoc. apply Rmult_le_compat_r; [left; now apply Rinv_0_lt_compat|]. apply Rmult_le_compat_r; [left; now apply Rinv_0_lt_compat|exact HD2].
Qed.
End Model.
