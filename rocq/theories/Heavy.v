(** * Heavy: the exact course of training a linear layer with momentum. *)
From Coq Require Import ZArith List Bool Arith Lia Reals Lra.
From Verif Require Import Num NumR Heap Spec Matrix Loss Network Optimizers ModelGo PureSpec Repr HeapLemmas MatrixFacts MiscFacts MiscProofs RSum LayerReal LossProofs OptSpec OptFacts ModelSpec ModelProofs ModelFacts EvalProofs FitProofs FitLoop FitFacts Params ModelRefute BalanceProofs NetGradSpec NetGrad HandFit Converge Copies CapacityFit Span CalibSpec Calib ModesSpec Modes RateSpec HeavyRec.
Import ListNotations.
Open Scope R_scope.

Lemma step_mom (t : player RNum * popt RNum) dW dB : po_kind (snd t) = SGD -> po_usemom (snd t) = true -> po_usedecay (snd t) = false ->
  let p := fst t in let po := snd t in let p' := fst (tstep (K := RNum) t (dW, dB)) in let po' := snd (tstep (K := RNum) t (dW, dB)) in
  p_kind p' = p_kind p /\ p_in p' = p_in p /\ p_out p' = p_out p /\
  po_kind po' = SGD /\ po_usemom po' = true /\ po_usedecay po' = false /\ po_rate po' = po_rate po /\ po_mom po' = po_mom po /\
  (forall i j, (i < p_in p)%nat -> (j < p_out p)%nat -> entry (po_wm po') i j = entry (po_wm po) i j * po_mom po - entry dW i j * po_rate po /\
    entry (p_w p') i j = entry (p_w p) i j + entry (po_wm po') i j) /\
  (forall j, (j < p_out p)%nat -> entry (po_bm po') 0 j = entry (po_bm po) 0 j * po_mom po - entry dB 0 j * po_rate po /\
    entry (p_b p') 0 j = entry (p_b p) 0 j + entry (po_bm po') 0 j).
Proof.
  intros HK HM HU. destruct t as [p po]. cbn [fst snd] in *. unfold tstep, pupdate, pupd1, next_rate. cbn [fst snd]. rewrite HK, HM, HU.
  cbn [fst snd reparam p_kind p_in p_out p_slope p_drop p_w p_b po_after po_kind po_usemom po_lr po_decay po_rate po_iter po_usedecay po_mom po_wm po_bm]. unfold next_rate. rewrite HU.
  repeat (split; [reflexivity || assumption|]). split.
  - intros i j Hi Hj. unfold pmap2. rewrite !entry_mk by assumption. split; reflexivity.
  - intros j Hj. unfold pmap2. rewrite !entry_mk by (lia || assumption). split; reflexivity.
Qed.

Section Step.
Variables (n i o : nat) (X Y : rpm) (lr mu : R) (U : nat -> F RNum).
Hypothesis (Hn : (1 <= n)%nat) (EX : length X = n).
(** What the velocities add to the predictions. *)
Definition drift (po : popt RNum) (a j : nat) : R := rsum i (fun l => entry X a l * entry (po_wm po) l j) + entry (po_bm po) 0 j.
Definition mom1 (ts : list (player RNum * popt RNum)) (D : nat -> nat -> R) : Prop := exists p po, ts = [(p, po)] /\ p_kind p = Linear /\ p_in p = i /\ p_out p = o /\
  po_kind po = SGD /\ po_usemom po = true /\ po_usedecay po = false /\ po_rate po = lr /\ po_mom po = mu /\ D = drift po.
Lemma mom_step ts D q : mom1 ts D -> exists D', mom1 (pbatch MSE o ts X Y U q) D' /\
  forall a j, (a < n)%nat -> (j < o)%nat ->
    D' a j = mu * D a j - lr * (2 / INR o) * rsum n (fun b => gram i X a b * (entry (pnet (map fst ts) n X) b j - entry Y b j)) /\
    entry (pnet (map fst (pbatch MSE o ts X Y U q)) n X) a j = entry (pnet (map fst ts) n X) a j + D' a j.
Proof.
  intros (p & po & -> & EK & EI & EO & K1 & K2 & K3 & K4 & K5 & ->). unfold pbatch. cbn [map fst pbackprop snd combine]. rewrite EX.
  set (G := pre_grad _ _ _ _ _ _ _ _). set (dW := pdW _ _ _ _ _). set (dB := psum0 _ _ _).
  assert (HG : forall b j, (b < n)%nat -> (j < o)%nat -> entry G b j = 2 / INR o * (entry (pnet [p] n X) b j - entry Y b j)).
  { intros b j Hb Hj. unfold G, pre_grad, fused. unfold pback. rewrite EK. rewrite train_is_forward by congruence. unfold ploss_back, pmse_back. rewrite entry_mk by lia.
    cbn [fmul fsub fdiv ofZ RNum pnet fold_left]. rewrite <- INR_IZR_INZ. apply Rmult_comm. }
  destruct (step_mom (p, po) dW dB K1 K2 K3) as (Q1 & Q2 & Q3 & S1 & S2 & S3 & S4 & S5 & QW & QB). cbn [fst snd] in *.
  set (t' := tstep (K := RNum) (p, po) (dW, dB)) in *. exists (drift (snd t')). split.
  - exists (fst t'), (snd t'). split; [now rewrite <- surjective_pairing|]. rewrite Q1, Q2, Q3, S1, S2, S3, S4, S5. auto 12.
  - intros a j Ha Hj. split.
    + unfold drift. destruct (QB j ltac:(lia)) as (QB1 & _). rewrite QB1.
      rewrite (rsum_ext i _ (fun l => mu * (entry X a l * entry (po_wm po) l j) - lr * (2 / INR o) * rsum n (fun b => entry X a l * entry X b l * (entry (pnet [p] n X) b j - entry Y b j)))).
      * rewrite rsum_minus, !rsum_scal, rsum_swap. unfold dB, psum0. rewrite entry_mk by lia. change (fsum (K := RNum) ?nn ?g) with (rsum nn g).
        rewrite (rsum_ext n (fun b => entry G b j) (fun b => 2 / INR o * (entry (pnet [p] n X) b j - entry Y b j))) by (intros b Hb; now apply HG). rewrite rsum_scal.
        rewrite (rsum_ext n (fun b => gram i X a b * _) (fun b => rsum i (fun l => entry X a l * entry X b l * (entry (pnet [p] n X) b j - entry Y b j)) + (entry (pnet [p] n X) b j - entry Y b j))).
        -- rewrite rsum_plus, K4, K5. change (F RNum) with R in *. ring.
        -- intros b Hb. unfold gram. rewrite rsum_scal_r. ring.
      * intros l Hl. destruct (QW l j ltac:(lia) ltac:(lia)) as (QW1 & _). rewrite QW1, K4, K5. unfold dW. rewrite EI, EO, dW_entry by assumption.
        rewrite (rsum_ext n _ (fun b => 2 / INR o * (entry X b l * (entry (pnet [p] n X) b j - entry Y b j)))) by (intros b Hb; rewrite HG by assumption; change (F RNum) with R in *; ring).
        rewrite rsum_scal. rewrite (rsum_ext n (fun b => entry X a l * entry X b l * _) (fun b => entry X a l * (entry X b l * (entry (pnet [p] n X) b j - entry Y b j)))) by (intros; ring).
        rewrite rsum_scal. change (F RNum) with R in *. ring.
    + rewrite !lin_out by (congruence || lia). rewrite Q2, EI. destruct (QB j ltac:(lia)) as (_ & QB2). rewrite QB2. unfold drift.
      rewrite (rsum_ext i (fun l => entry X a l * entry (p_w (fst t')) l j) (fun l => entry X a l * entry (p_w p) l j + entry X a l * entry (po_wm (snd t')) l j)).
      * rewrite rsum_plus. change (F RNum) with R in *. ring.
      * intros l Hl. destruct (QW l j ltac:(lia) ltac:(lia)) as (_ & QW2). rewrite QW2. change (F RNum) with R in *. ring.
Qed.
Definition dmode (u : nat -> R) (D : nat -> nat -> R) (j : nat) : R := rsum n (fun a => u a * D a j).
Lemma dmode_step (u : nat -> R) lam (P P' : rpm) (D D' : nat -> nat -> R) j : eigen n i X u lam ->
  (forall a, (a < n)%nat -> D' a j = mu * D a j - lr * (2 / INR o) * rsum n (fun b => gram i X a b * (entry (K := RNum) P b j - entry Y b j)) /\
    entry (K := RNum) P' a j = entry (K := RNum) P a j + D' a j) ->
  dmode u D' j = mu * dmode u D j - lr * (2 / INR o) * lam * mode n u P Y j /\ mode n u P' Y j = mode n u P Y j + dmode u D' j.
Proof.
  intros HE HP. split.
  - unfold dmode, mode.
    rewrite (rsum_ext n (fun a => u a * D' a j) (fun a => mu * (u a * D a j) - lr * (2 / INR o) * rsum n (fun b => u a * (gram i X a b * (entry P b j - entry Y b j))))).
    + rewrite rsum_minus, !rsum_scal, rsum_swap.
      rewrite (rsum_ext n (fun b => rsum n (fun a => u a * (gram i X a b * _))) (fun b => lam * (u b * (entry P b j - entry Y b j)))).
      * rewrite rsum_scal. ring.
      * intros b Hb. rewrite (rsum_ext n _ (fun a => gram i X b a * u a * (entry P b j - entry Y b j))) by (intros a Ha; rewrite (gram_sym i X a b); ring).
        rewrite rsum_scal_r, HE by exact Hb. ring.
    + intros a Ha. destruct (HP a Ha) as (-> & _). rewrite rsum_scal. ring.
  - unfold dmode, mode. rewrite <- rsum_plus. apply rsum_ext. intros a Ha. destruct (HP a Ha) as (_ & ->). change (F RNum) with R in *. ring.
Qed.
Lemma heavy_run ts q D : mom1 ts D -> (forall a j, (a < n)%nat -> (j < o)%nat -> D a j = 0) ->
  forall j u lam, (j < o)%nat -> eigen n i X u lam ->
  heavy mu (lr * (2 / INR o) * lam) (fun t => mode n u (pnet (map fst (fst (at_epoch MSE o X Y U ts q t))) n X) Y j).
Proof.
  intros H1 H0 j u lam Hj HE. set (P := fun t => pnet (map fst (fst (at_epoch MSE o X Y U ts q t))) n X).
  assert (R : forall t, exists D D', mom1 (fst (at_epoch MSE o X Y U ts q t)) D /\ mom1 (fst (at_epoch MSE o X Y U ts q (S t))) D' /\
    dmode u D' j = mu * dmode u D j - lr * (2 / INR o) * lam * mode n u (P t) Y j /\ mode n u (P (S t)) Y j = mode n u (P t) Y j + dmode u D' j /\ (t = O -> dmode u D j = 0)).
  { induction t as [|t (D1 & D2 & _ & I2 & _)].
    - destruct (at_epoch_S MSE o X Y U ts q 0) as (q' & E). destruct (mom_step ts D q' H1) as (D' & S1 & S2). exists D, D'. split; [exact H1|]. rewrite E.
      change (fst (at_epoch MSE o X Y U ts q 0)) with ts. split; [exact S1|].
      unfold P. rewrite E. change (fst (at_epoch MSE o X Y U ts q 0)) with ts.
      destruct (dmode_step u lam (pnet (map fst ts) n X) (pnet (map fst (pbatch MSE o ts X Y U q')) n X) D D' j HE) as (A & B); [intros a Ha; now apply S2|].
      split; [exact A|]. split; [exact B|]. intros _. unfold dmode. rewrite (rsum_ext n _ (fun _ => 0 * 0)) by (intros a Ha; rewrite H0 by assumption; ring). rewrite rsum_scal. ring.
    - destruct (at_epoch_S MSE o X Y U ts q (S t)) as (q' & E). destruct (mom_step _ D2 q' I2) as (D' & S1 & S2). exists D2, D'. split; [exact I2|]. rewrite E. split; [exact S1|].
      unfold P. rewrite E.
      destruct (dmode_step u lam (pnet (map fst (fst (at_epoch MSE o X Y U ts q (S t)))) n X) (pnet (map fst (pbatch MSE o (fst (at_epoch MSE o X Y U ts q (S t))) X Y U q')) n X) D2 D' j HE) as (A & B); [intros a Ha; now apply S2|].
      split; [exact A|]. split; [exact B|]. discriminate. }
  assert (FN : forall ts' D1 D2, mom1 ts' D1 -> mom1 ts' D2 -> D1 = D2).
  { intros ts' D1 D2 (p & po & -> & _ & _ & _ & _ & _ & _ & _ & _ & ->) (p' & po' & E & _ & _ & _ & _ & _ & _ & _ & _ & ->). injection E as -> ->. reflexivity. }
  split.
  - destruct (R O) as (D1 & D' & _ & _ & A & B & C). rewrite (C eq_refl) in A. fold (P 1%nat) (P O). rewrite B, A. ring.
  - intros t. destruct (R t) as (D1 & D2 & _ & I2 & A & B & _). destruct (R (S t)) as (D3 & D4 & I3 & _ & A' & B' & _).
    rewrite (FN _ _ _ I3 I2) in A'. fold (P (S (S t))) (P (S t)) (P t). rewrite B', A'. replace (dmode u D2 j) with (mode n u (P (S t)) Y j - mode n u (P t) Y j) by lra. ring.
Qed.
End Step.

(** ** Fit *)
Section Model.
Variables (s : state RNum) (m : model RNum) (e : lent RNum) (xo : oent RNum) (i o : nat) (x : matrix) (rsx : list nat) (y : matrix) (rsy : list nat) (n : nat) (X Y : rpm) (bs : Z) (xv yv : matrix) (lr mu : R).
Hypothesis (Hb : (bs = 0 \/ Z.of_nat n <= bs)%Z) (H52 : (Z.of_nat n + bs <= 2 ^ 52)%Z) (Hn : (1 <= n)%nat) (HT : trainable s m [e] [xo] i o MSE) (HD : data_ok s [e] x rsx y rsy n i o X Y)
  (HK : p_kind (e_p e) = Linear) (HP : fresh_momentum lr mu i o (x_po xo)) (HA : m_acctype m = 0%Z).
Notation predicts := (ModesSpec.predicts s m [e] i o x y n bs xv yv).
Lemma fit_heavy : exists P : nat -> rpm, predicts P /\ P O = pnet [e_p e] n X /\
  forall j u lam, (j < o)%nat -> eigen n i X u lam -> heavy mu (lr * (2 / INR o) * lam) (fun t => mode n u (P t) Y j).
Proof.
  set (U := r_uni (h_rng s)). set (q := r_upos (h_rng s)). set (P := fun t => pnet (map fst (fst (at_epoch MSE o X Y U (trainer [e] [xo]) q t))) n X). exists P.
  pose proof HD as (OX & OY & _). pose proof OX as (_ & _ & _ & (EX & _) & _). destruct OY as (_ & _ & _ & (EY & _) & _).
  pose proof HT as ((_ & _ & _ & _ & HC & _) & _). cbn [net map chain] in HC. destruct HP as (K1 & K2 & K3 & K4 & K5 & K6 & K7).
  assert (H1 : mom1 i o X lr mu (trainer [e] [xo]) (drift i X (x_po xo))).
  { exists (e_p e), (x_po xo). split; [reflexivity|]. split; [exact HK|]. split; [apply HC|]. split; [apply HC|]. auto 12. }
  split.
  - intros t.
    destruct (fit_trains s m [e] [xo] i o MSE x rsx y rsy n X Y (Z.of_nat t) bs xv yv RNum_min_faithful ltac:(lia) H52 Hn HT HD) as ([] & s' & E & nn & _ & (es' & xs' & HT' & HPl & _ & ET & _) & HX' & _).
    rewrite Nat2Z.id in ET. rewrite (whole_epochs t n bs X Y Hn EX EY Hb) in ET. fold U q in ET. fold (at_epoch MSE o X Y U (trainer [e] [xo]) q t) in ET.
    assert (EN : map fst (trainer es' xs') = net es') by (apply FitProofs.trainer_net; symmetry; exact (f2len _ _ _ (proj1 (proj2 (proj2 (proj2 (proj2 (proj2 HT')))))))).
    rewrite ET in EN.
    destruct (predict_spec s' m es' i o x rsx n X o (pnet (net es') n X) (proj1 HT') (shapes _ _ _ _ _ _ _ HT') ltac:(unfold ppredict; now rewrite HA) HX' Hn) as (out & s'' & E2 & rs & Q & _).
    exists s', es', xs', out, s'', rs. split; [exact E|]. split; [exact HT'|]. split; [exact HPl|]. split; [exact E2|]. unfold P. rewrite EN. exact Q.
  - split; [reflexivity|]. intros j u lam Hj HE. refine (heavy_run n i o X Y lr mu U Hn EX (trainer [e] [xo]) q _ H1 _ j u lam Hj HE).
    intros a j' Ha Hj'. unfold drift. rewrite K6, K7. unfold zmat. rewrite entry_mk by lia.
    rewrite (rsum_ext i _ (fun l => 0 * 0)) by (intros l Hl; rewrite entry_mk by lia; unfold f0; cbn [ofZ RNum]; change (IZR 0) with 0; ring). rewrite rsum_scal. unfold f0. cbn [ofZ RNum]. ring.
Qed.
Lemma fit_heavy_exactly j u lam : 0 <= mu < 1 -> (j < o)%nat -> eigen n i X u lam -> 0 < lr * (2 / INR o) * lam -> mode n u (pnet [e_p e] n X) Y j <> 0 ->
  exists P, predicts P /\ P O = pnet [e_p e] n X /\
    ((forall eps, 0 < eps -> exists T : nat, forall t, (T <= t)%nat -> Rabs (mode n u (P t) Y j) < eps) <-> lr * (2 / INR o) * lam < 2 * (1 + mu)).
Proof.
  intros Hmu Hj HE Ha HN. destruct fit_heavy as (P & H1 & H0 & H2). exists P. split; [exact H1|]. split; [exact H0|]. specialize (H2 j u lam Hj HE). rewrite <- H0 in HN. split.
  - intros HC. destruct (Rlt_dec (lr * (2 / INR o) * lam) (2 * (1 + mu))) as [C|C]; [exact C|]. exfalso. apply Rnot_lt_le in C.
    destruct (heavy_stays mu _ _ Hmu C H2 HN) as (d & Hd & HS). destruct (HC d Hd) as (T & HT'). specialize (HS T).
    pose proof (HT' T ltac:(lia)) as A1. pose proof (HT' (S T) ltac:(lia)) as A2. cbv beta in HS. lra.
  - intros C. destruct (heavy_converges mu _ Hmu (conj Ha C)) as (rho & Cc & Hr & HC & HB). specialize (HB _ H2). cbv beta in HB. intros eps He.
    set (B := Cc * Rabs (mode n u (P O) Y j) + 1). assert (HB0 : 0 < B) by (unfold B; pose proof (Rmult_le_pos _ _ HC (Rabs_pos (mode n u (P O) Y j))); lra).
    destruct (pow_lt_1_zero rho ltac:(rewrite Rabs_right; lra) (eps / B) ltac:(apply Rdiv_lt_0_compat; lra)) as (T & HT').
    exists T. intros t Ht. specialize (HT' t ltac:(lia)). rewrite Rabs_right in HT' by (apply Rle_ge, pow_le; lra).
    eapply Rle_lt_trans; [apply HB|]. assert (P0 : 0 <= rho ^ t) by (apply pow_le; lra).
    apply Rle_lt_trans with (B * rho ^ t); [unfold B; nra|]. apply (Rmult_lt_compat_l B) in HT'; [|exact HB0]. replace (B * (eps / B)) with eps in HT' by (field; lra). exact HT'.
Qed.
End Model.
(** With momentum rho^2 and a suitable rate, all modes between l and L shrink like rho^t. *)
Lemma fit_fast l L rho o : 0 < l <= L -> (sqrt L - sqrt l) / (sqrt L + sqrt l) < rho < 1 -> (1 <= o)%nat -> exists lr C, 0 < lr /\ 0 <= C /\
  forall s m e xo i x rsx y rsy n X Y bs xv yv, (bs = 0 \/ Z.of_nat n <= bs)%Z -> (Z.of_nat n + bs <= 2 ^ 52)%Z -> (1 <= n)%nat ->
  trainable s m [e] [xo] i o MSE -> data_ok s [e] x rsx y rsy n i o X Y -> p_kind (e_p e) = Linear -> fresh_momentum lr (rho ^ 2) i o (x_po xo) -> m_acctype m = 0%Z ->
  exists P, ModesSpec.predicts s m [e] i o x y n bs xv yv P /\ P O = pnet [e_p e] n X /\
    forall (t j : nat) (u : nat -> R) lam, (j < o)%nat -> eigen n i X u lam -> l <= lam <= L -> Rabs (mode n u (P t) Y j) <= C * rho ^ t * Rabs (mode n u (P O) Y j).
Proof.
  intros Hl Hr Ho. destruct (heavy_fast l L rho Hl Hr) as (eta & He & C & HC & HF). assert (HO : 0 < INR o) by (apply lt_0_INR; lia).
  exists (eta * INR o / 2), C. split; [apply Rdiv_lt_0_compat; [now apply Rmult_lt_0_compat|lra]|]. split; [exact HC|]. intros s m e xo i x rsx y rsy n X Y bs xv yv Hb H52 Hn HT HD HK HP HA.
  destruct (fit_heavy s m e xo i o x rsx y rsy n X Y bs xv yv _ _ Hb H52 Hn HT HD HK HP HA) as (P & H1 & H0 & H2). exists P. split; [exact H1|]. split; [exact H0|].
  intros t j u lam Hj HE Hlam. specialize (H2 j u lam Hj HE). replace (eta * INR o / 2 * (2 / INR o) * lam) with (eta * lam) in H2 by (field; lra).
  exact (HF lam Hlam _ H2 t).
Qed.
(** Without momentum, whatever the rate, one of the two extreme modes shrinks no faster than ((L - l) / (L + l))^t. *)
Lemma fit_slow s m e xo i o x rsx y rsy n X Y bs xv yv lr u1 u2 l L j :
  (bs = 0 \/ Z.of_nat n <= bs)%Z -> (Z.of_nat n + bs <= 2 ^ 52)%Z -> (1 <= n)%nat ->
  trainable s m [e] [xo] i o MSE -> data_ok s [e] x rsx y rsy n i o X Y -> p_kind (e_p e) = Linear -> plain_sgd lr (x_po xo) -> m_acctype m = 0%Z ->
  (j < o)%nat -> eigen n i X u1 l -> eigen n i X u2 L -> 0 < l <= L ->
  exists P, ModesSpec.predicts s m [e] i o x y n bs xv yv P /\ P O = pnet [e_p e] n X /\
    ((forall t, ((L - l) / (L + l)) ^ t * Rabs (mode n u1 (P O) Y j) <= Rabs (mode n u1 (P t) Y j)) \/
     (forall t, ((L - l) / (L + l)) ^ t * Rabs (mode n u2 (P O) Y j) <= Rabs (mode n u2 (P t) Y j))).
Proof.
  intros Hb H52 Hn HT HD HK HP HA Hj E1 E2 Hl. destruct (fit_modes s m e xo i o x rsx y rsy n X Y bs xv yv lr Hb H52 Hn HT HD HK HP HA) as (P & H1 & H0 & H2).
  exists P. split; [exact H1|]. split; [exact H0|].
  assert (K0 : 0 <= (L - l) / (L + l)) by (apply Rmult_le_pos; [lra|left; apply Rinv_0_lt_compat; lra]).
  destruct (plain_slow l L (lr * (2 / INR o)) Hl) as [C|C]; [left|right]; intros t.
  - rewrite (H2 t j u1 l Hj E1), Rabs_mult, <- RPow_abs. apply Rmult_le_compat_r; [apply Rabs_pos|]. apply pow_incr. split; assumption.
  - rewrite (H2 t j u2 L Hj E2), Rabs_mult, <- RPow_abs. apply Rmult_le_compat_r; [apply Rabs_pos|]. apply pow_incr. split; assumption.
Qed.
(** The square roots are closer together. *)
Lemma roots_closer l L : 0 < l < L -> (sqrt L - sqrt l) / (sqrt L + sqrt l) < (L - l) / (L + l) < 1.
Proof.
  intros H. set (a := sqrt l). set (b := sqrt L). assert (Ha : 0 < a) by (apply sqrt_lt_R0; lra). assert (Hab : a < b) by (apply sqrt_lt_1; lra).
  assert (Ea : a * a = l) by (apply sqrt_sqrt; lra). assert (Eb : b * b = L) by (apply sqrt_sqrt; lra). split.
  - apply (Rmult_lt_reg_r ((b + a) * (L + l))); [apply Rmult_lt_0_compat; lra|].
    replace ((b - a) / (b + a) * ((b + a) * (L + l))) with ((b - a) * (L + l)) by (field; lra).
    replace ((L - l) / (L + l) * ((b + a) * (L + l))) with ((L - l) * (b + a)) by (field; lra).
    rewrite <- Ea, <- Eb. assert (0 < a * b * (b - a)) by (apply Rmult_lt_0_compat; [nra|lra]). nra.
  - apply (Rmult_lt_reg_r (L + l)); [lra|]. replace ((L - l) / (L + l) * (L + l)) with (L - l) by (field; lra). lra.
Qed.
Lemma fit_beats l L o : 0 < l < L -> (1 <= o)%nat -> exists mu lr rho C, 0 < mu < 1 /\ 0 < lr /\ 0 < rho < (L - l) / (L + l) /\ 0 <= C /\
  forall s m e xo i x rsx y rsy n X Y bs xv yv, (bs = 0 \/ Z.of_nat n <= bs)%Z -> (Z.of_nat n + bs <= 2 ^ 52)%Z -> (1 <= n)%nat ->
  trainable s m [e] [xo] i o MSE -> data_ok s [e] x rsx y rsy n i o X Y -> p_kind (e_p e) = Linear -> fresh_momentum lr mu i o (x_po xo) -> m_acctype m = 0%Z ->
  exists P, ModesSpec.predicts s m [e] i o x y n bs xv yv P /\ P O = pnet [e_p e] n X /\
    forall (t j : nat) (u : nat -> R) lam, (j < o)%nat -> eigen n i X u lam -> l <= lam <= L -> Rabs (mode n u (P t) Y j) <= C * rho ^ t * Rabs (mode n u (P O) Y j).
Proof.
  intros Hl Ho. destruct (roots_closer l L Hl) as (G1 & G2). set (k := (sqrt L - sqrt l) / (sqrt L + sqrt l)) in *.
  assert (K0 : 0 <= k). { assert (sqrt l < sqrt L) by (apply sqrt_lt_1; lra). assert (0 < sqrt l) by (apply sqrt_lt_R0; lra). apply Rmult_le_pos; [lra|left; apply Rinv_0_lt_compat; lra]. }
  set (rho := (k + (L - l) / (L + l)) / 2). assert (Hr : k < rho < (L - l) / (L + l)) by (unfold rho; lra).
  destruct (fit_fast l L rho o ltac:(lra) ltac:(fold k; lra) Ho) as (lr & C & Hlr & HC & HF).
  exists (rho ^ 2), lr, rho, C. split; [cbn [pow]; nra|]. split; [exact Hlr|]. split; [lra|]. split; [exact HC|]. exact HF.
Qed.
