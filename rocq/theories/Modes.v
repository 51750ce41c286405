(** * Modes: the exact course of training a linear layer on the squared error. *)
From Coq Require Import ZArith List Bool Arith Lia Reals Lra.
From Verif Require Import Num NumR Heap Spec Matrix Loss Network Optimizers ModelGo PureSpec Repr HeapLemmas MatrixFacts MiscFacts MiscProofs RSum LayerReal LossProofs OptSpec OptFacts ModelSpec ModelProofs ModelFacts EvalProofs FitProofs FitLoop FitFacts Params ModelRefute BalanceProofs NetGradSpec NetGrad HandFit Converge Copies CapacityFit Span CalibSpec Calib ModesSpec.
Import ListNotations.
Open Scope R_scope.

Lemma lin_out (p : player RNum) n X a j : p_kind p = Linear -> (a < n)%nat -> (j < p_out p)%nat ->
  entry (pnet [p] n X) a j = rsum (p_in p) (fun l => entry X a l * entry (p_w p) l j) + entry (p_b p) 0 j.
Proof.
  intros HK Ha Hj. cbn [pnet fold_left]. unfold pforward, pact. rewrite HK. unfold paffine, paff. rewrite entry_mk by assumption. reflexivity.
Qed.
Section Step.
Variables (n i o : nat) (X Y : rpm) (lr : R) (U : nat -> F RNum).
Hypothesis (Hn : (1 <= n)%nat) (EX : length X = n).
Definition lin1 (ts : list (player RNum * popt RNum)) : Prop := exists p po, ts = [(p, po)] /\ p_kind p = Linear /\ p_in p = i /\ p_out p = o /\
  po_kind po = SGD /\ po_usemom po = false /\ po_usedecay po = false /\ po_rate po = lr.
Lemma lin_step ts q : lin1 ts -> lin1 (pbatch MSE o ts X Y U q) /\
  forall a j, (a < n)%nat -> (j < o)%nat -> entry (pnet (map fst (pbatch MSE o ts X Y U q)) n X) a j =
    entry (pnet (map fst ts) n X) a j - lr * (2 / INR o) * rsum n (fun b => gram i X a b * (entry (pnet (map fst ts) n X) b j - entry Y b j)).
Proof.
  intros (p & po & -> & EK & EI & EO & K1 & K2 & K3 & K4). unfold pbatch. cbn [map fst pbackprop snd combine]. rewrite EX.
  set (G := pre_grad _ _ _ _ _ _ _ _). set (dW := pdW _ _ _ _ _). set (dB := psum0 _ _ _).
  assert (HG : forall b j, (b < n)%nat -> (j < o)%nat -> entry G b j = 2 / INR o * (entry (pnet [p] n X) b j - entry Y b j)).
  { intros b j Hb Hj. unfold G, pre_grad, fused. unfold pback. rewrite EK. rewrite train_is_forward by congruence. unfold ploss_back, pmse_back. rewrite entry_mk by lia.
    cbn [fmul fsub fdiv ofZ RNum pnet fold_left]. rewrite <- INR_IZR_INZ. apply Rmult_comm. }
  destruct (step_sgd (p, po) dW dB K1 K2) as (Q1 & Q2 & Q3 & _ & _ & QW & QB & S1 & S2 & _ & _ & S3 & _ & S4). cbn [fst snd] in *.
  set (t' := tstep (K := RNum) (p, po) (dW, dB)) in *. assert (NR : next_rate po = lr) by (unfold next_rate; now rewrite K3). rewrite NR in *.
  split.
  - exists (fst t'), (snd t'). split; [now rewrite <- surjective_pairing|]. rewrite Q1, Q2, Q3, S1, S2, S3, S4. auto 10.
  - intros a j Ha Hj. rewrite lin_out by (congruence || lia). rewrite Q2, EI. rewrite QB by lia.
    rewrite (rsum_ext i _ (fun l => entry X a l * entry (p_w p) l j - lr * (2 / INR o) * rsum n (fun b => entry X a l * entry X b l * (entry (pnet [p] n X) b j - entry Y b j)))).
    + rewrite rsum_minus, rsum_scal, rsum_swap. unfold dB, psum0. rewrite entry_mk by lia. change (fsum (K := RNum) ?nn ?g) with (rsum nn g).
      rewrite (rsum_ext n (fun b => entry G b j) (fun b => 2 / INR o * (entry (pnet [p] n X) b j - entry Y b j))) by (intros b Hb; now apply HG). rewrite rsum_scal.
      rewrite (lin_out p n X a j EK Ha ltac:(lia)). rewrite EI.
      rewrite (rsum_ext n (fun b => gram i X a b * _) (fun b => rsum i (fun l => entry X a l * entry X b l * (entry (pnet [p] n X) b j - entry Y b j)) + (entry (pnet [p] n X) b j - entry Y b j))).
      * rewrite rsum_plus. change (F RNum) with R in *. ring.
      * intros b Hb. unfold gram. rewrite rsum_scal_r. ring.
    + intros l Hl. rewrite QW by lia. unfold dW. rewrite EI, EO, dW_entry by assumption.
      rewrite (rsum_ext n _ (fun b => 2 / INR o * (entry X b l * (entry (pnet [p] n X) b j - entry Y b j)))) by (intros b Hb; rewrite HG by assumption; change (F RNum) with R in *; ring).
      rewrite rsum_scal. rewrite (rsum_ext n (fun b => entry X a l * entry X b l * _) (fun b => entry X a l * (entry X b l * (entry (pnet [p] n X) b j - entry Y b j)))) by (intros; ring).
      rewrite rsum_scal. change (F RNum) with R in *. ring.
Qed.
Lemma gram_sym a b : gram i X a b = gram i X b a.
Proof. unfold gram. f_equal. apply rsum_ext. intros; ring. Qed.
Lemma mode_step (u : nat -> R) lam P P' j : eigen n i X u lam ->
  (forall a, (a < n)%nat -> entry (K := RNum) P' a j = entry (K := RNum) P a j - lr * (2 / INR o) * rsum n (fun b => gram i X a b * (entry (K := RNum) P b j - entry Y b j))) ->
  mode n u P' Y j = (1 - lr * (2 / INR o) * lam) * mode n u P Y j.
Proof.
  intros HE HP. unfold mode.
  rewrite (rsum_ext n (fun a => u a * (entry P' a j - _)) (fun a => u a * (entry P a j - entry Y a j) - lr * (2 / INR o) * rsum n (fun b => u a * (gram i X a b * (entry P b j - entry Y b j))))).
  - rewrite rsum_minus, rsum_scal, rsum_swap.
    rewrite (rsum_ext n (fun b => rsum n (fun a => u a * (gram i X a b * _))) (fun b => lam * (u b * (entry P b j - entry Y b j)))).
    + rewrite rsum_scal. ring.
    + intros b Hb. rewrite (rsum_ext n _ (fun a => gram i X b a * u a * (entry P b j - entry Y b j))) by (intros a Ha; rewrite (gram_sym a b); ring).
      rewrite rsum_scal_r, HE by exact Hb. ring.
  - intros a Ha. rewrite HP by exact Ha. rewrite rsum_scal. ring.
Qed.
Lemma modes_run ts q : lin1 ts -> forall t, lin1 (fst (at_epoch MSE o X Y U ts q t)) /\
  forall j u lam, (j < o)%nat -> eigen n i X u lam -> mode n u (pnet (map fst (fst (at_epoch MSE o X Y U ts q t))) n X) Y j = (1 - lr * (2 / INR o) * lam) ^ t * mode n u (pnet (map fst ts) n X) Y j.
Proof.
  intros H1. induction t as [|t (IH1 & IH2)].
  - split; [exact H1|]. intros j u lam Hj HE. unfold at_epoch. cbn [repeat ptrain_on fst pow]. symmetry. apply Rmult_1_l.
  - destruct (at_epoch_S MSE o X Y U ts q t) as (q' & ->). destruct (lin_step _ q' IH1) as (S1 & S2). split; [exact S1|]. intros j u lam Hj HE.
    rewrite (mode_step u lam (pnet (map fst (fst (at_epoch MSE o X Y U ts q t))) n X) _ j HE) by (intros a Ha; now apply S2). rewrite (IH2 j u lam Hj HE). cbn [pow]. ring.
Qed.
End Step.

(** ** Fit *)
Section Model.
Variables (s : state RNum) (m : model RNum) (e : lent RNum) (xo : oent RNum) (i o : nat) (x : matrix) (rsx : list nat) (y : matrix) (rsy : list nat) (n : nat) (X Y : rpm) (bs : Z) (xv yv : matrix) (lr : R).
Hypothesis (Hb : (bs = 0 \/ Z.of_nat n <= bs)%Z) (H52 : (Z.of_nat n + bs <= 2 ^ 52)%Z) (Hn : (1 <= n)%nat) (HT : trainable s m [e] [xo] i o MSE) (HD : data_ok s [e] x rsx y rsy n i o X Y)
  (HK : p_kind (e_p e) = Linear) (HP : plain_sgd lr (x_po xo)) (HA : m_acctype m = 0%Z).
Notation predicts := (ModesSpec.predicts s m [e] i o x y n bs xv yv).
Lemma fit_modes : exists P : nat -> rpm, predicts P /\ P O = pnet [e_p e] n X /\
  forall t j u lam, (j < o)%nat -> eigen n i X u lam -> mode n u (P t) Y j = (1 - lr * (2 / INR o) * lam) ^ t * mode n u (P O) Y j.
Proof.
  set (U := r_uni (h_rng s)). set (q := r_upos (h_rng s)). set (P := fun t => pnet (map fst (fst (at_epoch MSE o X Y U (trainer [e] [xo]) q t))) n X). exists P.
  pose proof HD as (OX & OY & _). pose proof OX as (_ & _ & _ & (EX & _) & _). destruct OY as (_ & _ & _ & (EY & _) & _).
  pose proof HT as ((_ & _ & _ & _ & HC & _) & _). cbn [net map chain] in HC.
  assert (H1 : lin1 i o lr (trainer [e] [xo])).
  { exists (e_p e), (x_po xo). split; [reflexivity|]. split; [exact HK|]. split; [apply HC|]. split; [apply HC|]. destruct HP as (? & ? & ? & ?). auto. }
  split.
  - intros t.
    destruct (fit_trains s m [e] [xo] i o MSE x rsx y rsy n X Y (Z.of_nat t) bs xv yv RNum_min_faithful ltac:(lia) H52 Hn HT HD) as ([] & s' & E & nn & _ & (es' & xs' & HT' & HPl & _ & ET & _) & HX' & _).
    rewrite Nat2Z.id in ET. rewrite (whole_epochs t n bs X Y Hn EX EY Hb) in ET. fold U q in ET. fold (at_epoch MSE o X Y U (trainer [e] [xo]) q t) in ET.
    assert (EN : map fst (trainer es' xs') = net es') by (apply FitProofs.trainer_net; symmetry; exact (f2len _ _ _ (proj1 (proj2 (proj2 (proj2 (proj2 (proj2 HT')))))))).
    rewrite ET in EN.
    destruct (predict_spec s' m es' i o x rsx n X o (pnet (net es') n X) (proj1 HT') (shapes _ _ _ _ _ _ _ HT') ltac:(unfold ppredict; now rewrite HA) HX' Hn) as (out & s'' & E2 & rs & Q & _).
    exists s', es', xs', out, s'', rs. split; [exact E|]. split; [exact HT'|]. split; [exact HPl|]. split; [exact E2|]. unfold P. rewrite EN. exact Q.
  - split; [reflexivity|]. intros t j u lam Hj HE. exact (proj2 (modes_run n i o X Y lr U Hn EX (trainer [e] [xo]) q H1 t) j u lam Hj HE).
Qed.
(** Too large a rate. *)
Lemma fit_diverges j u lam : (j < o)%nat -> eigen n i X u lam -> 2 < lr * (2 / INR o) * lam -> mode n u (pnet [e_p e] n X) Y j <> 0 -> exists P : nat -> rpm, predicts P /\
  (forall B, exists T, forall t, (T <= t)%nat -> exists a, (a < n)%nat /\ B < Rabs (entry (P t) a j - entry Y a j)).
Proof.
  intros Hj HE HR HN. destruct fit_modes as (P & H1 & H0 & H2). exists P. split; [exact H1|]. intros B. rewrite <- H0 in HN.
  set (r := lr * (2 / INR o) * lam - 1). assert (Hr : 1 < r) by (unfold r; lra).
  set (S := rsum n (fun a => Rabs (u a))). assert (HS : 0 <= S) by (apply rsum_nonneg; intros; apply Rabs_pos).
  assert (HM : 0 < Rabs (mode n u (P O) Y j)) by now apply Rabs_pos_lt.
  destruct (Pow_x_infinity r ltac:(rewrite Rabs_right; lra) ((Rabs B * S + 1) / Rabs (mode n u (P O) Y j))) as (T & HT').
  exists T. intros t Ht. specialize (HT' t ltac:(lia)). rewrite Rabs_right in HT' by (apply Rle_ge, pow_le; lra).
  assert (EM : Rabs (mode n u (P t) Y j) = r ^ t * Rabs (mode n u (P O) Y j)).
  { rewrite (H2 t j u lam Hj HE). rewrite Rabs_mult. f_equal. replace (1 - lr * (2 / INR o) * lam) with (- r) by (unfold r; ring). rewrite <- RPow_abs, Rabs_Ropp, Rabs_right by lra. reflexivity. }
  assert (BIG : Rabs B * S < Rabs (mode n u (P t) Y j)).
  { rewrite EM. apply Rge_le in HT'. apply (Rmult_le_compat_r (Rabs (mode n u (P O) Y j))) in HT'; [|lra]. unfold Rdiv in HT'. rewrite Rmult_assoc, Rinv_l in HT' by lra. lra. }
  clear - BIG HS. assert (NOT : ~ forall a, (a < n)%nat -> Rabs (entry (P t) a j - entry Y a j) <= Rabs B).
  { intros HA. apply (Rlt_not_le _ _ BIG). unfold mode. apply Rle_trans with (rsum n (fun a => Rabs (u a * (entry (P t) a j - entry Y a j)))).
    - clear. induction n as [|k IH]; [rewrite !rsum_0, Rabs_R0; lra|]. rewrite !rsum_S. eapply Rle_trans; [apply Rabs_triang|]. lra.
    - unfold S. rewrite Rmult_comm, <- rsum_scal_r. apply rsum_le. intros a Ha. rewrite Rabs_mult. apply Rmult_le_compat_l; [apply Rabs_pos|now apply HA]. }
  assert (DEC : forall k, (k <= n)%nat -> (exists a, (a < k)%nat /\ Rabs B < Rabs (entry (P t) a j - entry Y a j)) \/ (forall a, (a < k)%nat -> Rabs (entry (P t) a j - entry Y a j) <= Rabs B)).
  { induction k as [|k IH]; intros Hk; [right; intros; lia|]. destruct (IH ltac:(lia)) as [(a & Ha & H)|H]; [left; exists a; split; [lia|exact H]|].
    destruct (Rle_dec (Rabs (entry (P t) k j - entry Y k j)) (Rabs B)) as [C|C]; [|left; exists k; split; [lia|lra]]. right. intros a Ha. destruct (Nat.eq_dec a k) as [->|N]; [exact C|apply H; lia]. }
  destruct (DEC n (le_n _)) as [(a & Ha & H)|H]; [|contradiction]. exists a. split; [exact Ha|]. eapply Rle_lt_trans; [apply Rle_abs|exact H].
Qed.
End Model.
Lemma eigen_one i (X : rpm) : eigen 1 i X (fun _ => 1) (gram i X 0 0).
Proof. intros a Ha. replace a with O by lia. rewrite rsum_1. ring. Qed.
(** One sample: the right rate fits it in one epoch. *)
Lemma fit_one s m e xo i o x rsx y rsy X Y bs xv yv lr : (bs = 0 \/ 1 <= bs)%Z -> (1 + bs <= 2 ^ 52)%Z -> trainable s m [e] [xo] i o MSE -> data_ok s [e] x rsx y rsy 1 i o X Y ->
  p_kind (e_p e) = Linear -> plain_sgd lr (x_po xo) -> m_acctype m = 0%Z -> exists P : nat -> rpm, ModesSpec.predicts s m [e] i o x y 1 bs xv yv P /\ P O = pnet [e_p e] 1 X /\
  (forall t j, (j < o)%nat -> entry (P t) 0 j - entry Y 0 j = (1 - lr * (2 / INR o) * gram i X 0 0) ^ t * (entry (P O) 0 j - entry Y 0 j)) /\
  (lr * (2 / INR o) * gram i X 0 0 = 1 -> forall t j, (1 <= t)%nat -> (j < o)%nat -> entry (P t) 0 j = entry Y 0 j).
Proof.
  intros Hb H52 HT HD HK HP HA. destruct (fit_modes s m e xo i o x rsx y rsy 1 X Y bs xv yv lr Hb H52 (le_n _) HT HD HK HP HA) as (P & H1 & H0 & H2).
  assert (E : forall t j, (j < o)%nat -> entry (P t) 0 j - entry Y 0 j = (1 - lr * (2 / INR o) * gram i X 0 0) ^ t * (entry (P O) 0 j - entry Y 0 j)).
  { intros t j Hj. pose proof (H2 t j _ _ Hj (eigen_one i X)) as E. unfold mode in E. rewrite !rsum_1, !Rmult_1_l in E. exact E. }
  exists P. split; [exact H1|]. split; [exact H0|]. split; [exact E|]. intros ER t j Ht Hj. specialize (E t j Hj). rewrite ER in E. destruct t as [|t]; [lia|].
  replace (1 - 1) with 0 in E by ring. rewrite pow_i, Rmult_0_l in E by lia. change (F RNum) with R in *. lra.
Qed.
