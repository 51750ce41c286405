(** * ConvergeFit: Fit on a single linear or softmax layer is gradient descent on a convex objective. *)
From Coq Require Import String ZArith List Bool Arith Lia Reals Lra Psatz.
From Coquelicot Require Import Coquelicot.
From Verif Require Import Num NumR Heap Spec Matrix Loss Network Optimizers ModelGo PureSpec Repr HeapLemmas LoopLemmas MatrixFacts MiscFacts RSum LayerFacts LayerReal GradSpec Grad LossProofs LossReal LossCode OptSpec ModelSpec ModelProofs FitProofs FitFacts NetGradSpec NetGrad NetGradCode Converge.
Import ListNotations.
Open Scope R_scope.

(** ** Softmax and cross-entropy *)
Section Entropy.
Variables (r c : nat) (Y : rpm).
Hypothesis Hr : (1 <= r)%nat.
Hypothesis Hc : (1 <= c)%nat.
Hypothesis Hone : one_hot r c Y.
Definition cePhi (Z : rpm) : R := uce r c Y (psoftmax r c Z).
Definition ceGr (Z : rpm) : rpm := pce_back (K := RNum) r c Y (psoftmax r c Z).
Definition lse (g : nat -> R) : R := ln (rsum c (fun j => exp (g j))).
Lemma cePhi_eq lab Z : (forall i, (i < r)%nat -> (lab i < c)%nat /\ forall j, (j < c)%nat -> entry Y i j = if (lab i =? j)%nat then 1 else 0) ->
  cePhi Z = rsum r (fun i => (lse (fun j => entry Z i j) - entry Z i (lab i)) / INR r).
Proof.
  intros Hlab. unfold cePhi, uce. apply rsum_ext. intros i Hi. destruct (Hlab i Hi) as (Hl & HY).
  rewrite (onehot_dot c (fun j => entry Y i j) (lab i) (fun j => entry (psoftmax r c Z) i j) Hl HY).
  rewrite R_softmax_entry by auto. unfold lse. f_equal.
  pose proof (R_expsum_pos c (fun k => entry Z i k) Hc). unfold Rdiv. rewrite ln_mult; [|apply exp_pos|now apply Rinv_0_lt_compat].
  rewrite ln_exp, ln_Rinv by auto. ring.
Qed.
Lemma ceGr_entry lab Z i j : (forall i, (i < r)%nat -> (lab i < c)%nat /\ forall j, (j < c)%nat -> entry Y i j = if (lab i =? j)%nat then 1 else 0) ->
  (i < r)%nat -> (j < c)%nat ->
  entry (ceGr Z) i j = (exp (entry Z i j) / rsum c (fun k => exp (entry Z i k)) - if (lab i =? j)%nat then 1 else 0) / INR r.
Proof.
  intros Hlab Hi Hj. destruct (Hlab i Hi) as (Hl & HY). unfold ceGr, pce_back. rewrite entry_mk by auto. rewrite R_softmax_entry by auto. rewrite HY by auto.
  unfold f1. cbn [feq fsub fdiv ofZ RNum]. rewrite R_Zofnat. unfold r_eqb.
  destruct (lab i =? j)%nat; [destruct (Req_EM_T 1 1); [reflexivity|lra]|destruct (Req_EM_T 0 1); [lra|]]. toR. unfold Rdiv. ring.
Qed.
Lemma ce_inner_row lab Z Z' i : (forall i, (i < r)%nat -> (lab i < c)%nat /\ forall j, (j < c)%nat -> entry Y i j = if (lab i =? j)%nat then 1 else 0) ->
  (i < r)%nat ->
  rsum c (fun j => entry (ceGr Z) i j * entry (delta r c Z Z') i j) =
  (S1 c (fun j => entry Z i j) (fun j => entry Z' i j - entry Z i j) 0 / S0 c (fun j => entry Z i j) (fun j => entry Z' i j - entry Z i j) 0
   - (entry Z' i (lab i) - entry Z i (lab i))) / INR r.
Proof.
  intros Hlab Hi. destruct (Hlab i Hi) as (Hl & _). pose proof (R_expsum_pos c (fun k => entry Z i k) Hc) as HS. assert (0 < INR r) by (apply lt_0_INR; lia).
  rewrite (rsum_ext c _ (fun j => (exp (entry Z i j) * (entry Z' i j - entry Z i j)) / rsum c (fun k => exp (entry Z i k)) / INR r - (if (lab i =? j)%nat then (entry Z' i j - entry Z i j) else 0) / INR r)).
  2:{ intros j Hj. rewrite (ceGr_entry lab) by auto. unfold delta. rewrite entry_mk by auto. destruct (lab i =? j)%nat; toR; field; lra. }
  rewrite rsum_minus, !rsum_div. rewrite (rsum_delta c (lab i) (fun j => entry Z' i j - entry Z i j)) by exact Hl.
  unfold S1, S0.
  rewrite (rsum_ext c (fun j => exp (entry Z i j + 0 * (entry Z' i j - entry Z i j)) * (entry Z' i j - entry Z i j)) (fun j => exp (entry Z i j) * (entry Z' i j - entry Z i j))).
  2:{ intros j Hj. f_equal. f_equal. toR. ring. }
  rewrite (rsum_ext c (fun j => exp (entry Z i j + 0 * (entry Z' i j - entry Z i j))) (fun j => exp (entry Z i j))).
  2:{ intros j Hj. f_equal. toR. ring. }
  unfold Rdiv. ring.
Qed.
Lemma lse_ext f g : (forall j, (j < c)%nat -> f j = g j) -> lse f = lse g.
Proof. intros H. unfold lse. f_equal. apply rsum_ext. intros j Hj. now rewrite H. Qed.
Lemma lse_S0 (z z' : nat -> R) : ln (S0 c z (fun j => z' j - z j) 0) = lse z.
Proof. unfold S0. fold (lse (fun j => z j + 0 * (z' j - z j))). apply lse_ext. intros. ring. Qed.
Lemma lse_S1 (z z' : nat -> R) : ln (S0 c z (fun j => z' j - z j) 1) = lse z'.
Proof. unfold S0. fold (lse (fun j => z j + 1 * (z' j - z j))). apply lse_ext. intros. ring. Qed.
Lemma ce_convex Z Z' : cePhi Z + inner r c (ceGr Z) (delta r c Z Z') <= cePhi Z'.
Proof.
  destruct Hone as (lab & Hlab). rewrite !(cePhi_eq lab) by auto. unfold inner. rewrite <- rsum_plus. apply rsum_le. intros i Hi.
  rewrite (ce_inner_row lab) by auto. assert (Hp : 0 < INR r) by (apply lt_0_INR; lia).
  pose proof (lse_lower c (fun j => entry Z i j) (fun j => entry Z' i j - entry Z i j) Hc) as H.
  rewrite (lse_S0 (fun j => entry Z i j) (fun j => entry Z' i j)), (lse_S1 (fun j => entry Z i j) (fun j => entry Z' i j)) in H.
  set (q := S1 c _ _ 0 / S0 c _ _ 0) in *.
  replace ((lse (fun j => entry Z i j) - entry Z i (lab i)) / INR r + (q - (entry Z' i (lab i) - entry Z i (lab i))) / INR r)
    with ((lse (fun j => entry Z i j) + q - entry Z' i (lab i)) / INR r) by (field; lra).
  apply Rmult_le_compat_r; [left; now apply Rinv_0_lt_compat|]. lra.
Qed.
Lemma ce_smooth Z Z' : cePhi Z' <= cePhi Z + inner r c (ceGr Z) (delta r c Z Z') + (1 / INR r) / 2 * sqnorm r c (delta r c Z Z').
Proof.
  destruct Hone as (lab & Hlab). rewrite !(cePhi_eq lab) by auto. unfold inner, sqnorm. rewrite <- rsum_scal, <- !rsum_plus. apply rsum_le. intros i Hi.
  rewrite (ce_inner_row lab) by auto. assert (Hp : 0 < INR r) by (apply lt_0_INR; lia).
  pose proof (lse_upper c (fun j => entry Z i j) (fun j => entry Z' i j - entry Z i j) Hc) as H.
  rewrite (lse_S0 (fun j => entry Z i j) (fun j => entry Z' i j)), (lse_S1 (fun j => entry Z i j) (fun j => entry Z' i j)) in H.
  set (q := S1 c _ _ 0 / S0 c _ _ 0) in *. unfold dd in H.
  rewrite (rsum_ext c (fun j => entry (delta r c Z Z') i j ^ 2) (fun j => (entry Z' i j - entry Z i j) ^ 2)).
  2:{ intros j Hj. unfold delta. now rewrite entry_mk by auto. }
  set (D := rsum c _) in *.
  replace ((lse (fun j => entry Z i j) - entry Z i (lab i)) / INR r + (q - (entry Z' i (lab i) - entry Z i (lab i))) / INR r + 1 / INR r / 2 * D)
    with ((lse (fun j => entry Z i j) + q + D / 2 - entry Z' i (lab i)) / INR r) by (field; lra).
  apply Rmult_le_compat_r; [left; now apply Rinv_0_lt_compat|]. lra.
Qed.
End Entropy.

(** ** Full-batch training of one layer *)
(** The gradient at the pre-activations of a network of one layer. *)
Definition one_gr (k : losskind) (r o : nat) (Y : rpm) (p : player RNum) : rpm -> rpm :=
  match k with MSE => mseGr r o Y | _ => ceGr r o Y end.
Definition convex_pair (k : losskind) (p : player RNum) : Prop := (k = MSE /\ p_kind p = Linear) \/ (k = CE /\ p_kind p = SoftmaxK).
Lemma pmse_Gr r c (Y Z : rpm) : pmse_back (K := RNum) r c Z Y = mseGr r c Y Z.
Proof. unfold pmse_back, mseGr. apply mk_ext. intros i j Hi Hj. cbn [fmul fsub fdiv ofZ RNum]. rewrite R_Zofnat. reflexivity. Qed.
Lemma one_backprop k (Y : rpm) o p r (X : rpm) U q : convex_pair k p -> p_out p = o ->
  snd (pbackprop (K := RNum) k Y o [p] r X U q) =
  [(pdW r (p_in p) o X (one_gr k r o Y p (paffine p r X)), psum0 r o (one_gr k r o Y p (paffine p r X)))].
Proof.
  intros HK <-. cbn [pbackprop snd]. unfold pre_grad, ploss_back.
  destruct HK as [(-> & HK)|(-> & HK)]; unfold fused; cbn [one_gr]; [|rewrite HK].
  - unfold pback. rewrite HK. unfold ptrain, pforward, pact. rewrite HK. now rewrite pmse_Gr.
  - unfold ptrain, pforward, pact. rewrite HK. reflexivity.
Qed.
Definition wb (p : player RNum) : rpm * rpm := (p_w p, p_b p).
Definition gd_layer (k : losskind) (r o : nat) (X Y : rpm) (lr : R) (p : player RNum) : player RNum :=
  let w := gd r (p_in p) o X (one_gr k r o Y p) lr (wb p) in with_params p (fst w) (snd w).
Lemma plain_after lr po wm bm wc bc : plain_sgd lr po -> plain_sgd lr (po_after po wm bm wc bc).
Proof. intros (H1 & H2 & H3 & H4). repeat split; auto. unfold po_after, next_rate. simpl. now rewrite H3. Qed.
Lemma one_batch k o p po (X Y : rpm) U q lr r : convex_pair k p -> p_out p = o -> length X = r -> plain_sgd lr po ->
  exists po', pbatch (K := RNum) k o [(p, po)] X Y U q = [(gd_layer k r o X Y lr p, po')] /\ plain_sgd lr po'.
Proof.
  intros HK Ho HX HP. unfold pbatch. cbn [map fst]. rewrite HX, one_backprop by auto. cbn [combine map fst snd].
  exists (snd (tstep (p, po) (pdW r (p_in p) o X (one_gr k r o Y p (paffine p r X)), psum0 r o (one_gr k r o Y p (paffine p r X))))).
  split.
  - rewrite (surjective_pairing (tstep _ _)). f_equal. f_equal. rewrite (plain_tstep lr) by exact HP. cbn [fst snd].
    unfold gd_layer, gd, wb, dw, db, paffine. cbn [fst snd]. subst o. reflexivity.
  - unfold tstep. cbn [fst snd]. unfold pupdate. destruct (pupd1 po _ _ _ _ _ _) as ((? & ?) & ?). destruct (pupd1 po 1 _ _ _ _ _) as ((? & ?) & ?). cbn [snd].
    now apply plain_after.
Qed.
Lemma gd_layer_like k r o X Y lr p : convex_pair k p -> p_out p = o -> convex_pair k (gd_layer k r o X Y lr p) /\ p_out (gd_layer k r o X Y lr p) = o /\ p_in (gd_layer k r o X Y lr p) = p_in p.
Proof. intros H1 H2. unfold gd_layer, with_params, convex_pair in *. simpl. auto. Qed.
Lemma iter_shift {A} (f : A -> A) n x : Nat.iter (S n) f x = Nat.iter n f (f x).
Proof. induction n as [|n IH]; [reflexivity|]. simpl in *. now rewrite IH. Qed.
Lemma one_epochs k o (X Y : rpm) U r lr : length X = r -> forall n p po q, convex_pair k p -> p_out p = o -> plain_sgd lr po ->
  exists po', fst (ptrain_on (K := RNum) k o [(p, po)] U q (repeat (X, Y) n)) = [(Nat.iter n (gd_layer k r o X Y lr) p, po')].
Proof.
  intros HX. induction n as [|n IH]; intros p po q HK Ho HP; [simpl; eauto|]. cbn [repeat ptrain_on].
  destruct (one_batch k o p po X Y U q lr r HK Ho HX HP) as (po1 & E & HP1). rewrite E.
  destruct (gd_layer_like k r o X Y lr p HK Ho) as (HK1 & Ho1 & _).
  destruct (IH (gd_layer k r o X Y lr p) po1 (q + net_draws true (map fst [(p, po)]) (length X))%nat HK1 Ho1 HP1) as (po' & E2).
  exists po'. rewrite E2. f_equal. f_equal. clear. now rewrite <- iter_shift.
Qed.
Lemma wb_iter k r o X Y lr n p : wb (Nat.iter n (gd_layer k r o X Y lr) p) = Nat.iter n (gd r (p_in p) o X (one_gr k r o Y p) lr) (wb p) /\
  p_in (Nat.iter n (gd_layer k r o X Y lr) p) = p_in p /\ p_kind (Nat.iter n (gd_layer k r o X Y lr) p) = p_kind p /\ p_out (Nat.iter n (gd_layer k r o X Y lr) p) = p_out p.
Proof.
  induction n as [|n (IH & Hi & Hk & Ho)]; [simpl; auto|]. simpl Nat.iter. set (pn := Nat.iter n (gd_layer k r o X Y lr) p) in *.
  unfold gd_layer at 1 2 3 4. cbn [with_params p_in p_kind p_out]. rewrite Hi. split; [|auto]. unfold wb at 1. cbn [with_params p_w p_b]. rewrite IH.
  replace (one_gr k r o Y pn) with (one_gr k r o Y p) by (destruct k; reflexivity). symmetry. apply surjective_pairing.
Qed.
(** The objective of the prediction of one layer. *)
Lemma one_objective k r o (X Y : rpm) p : convex_pair k p -> p_out p = o ->
  objective k r o Y (pnet (K := RNum) [p] r X) = obj r (p_in p) o X (match k with MSE => msePhi r o Y | _ => cePhi r o Y end) (wb p).
Proof.
  intros [(-> & HK)|(-> & HK)] <-; cbn [pnet fold_left]; unfold pforward, pact; rewrite HK; unfold obj, wb, paffine; cbn [fst snd].
  - reflexivity.
  - unfold objective. rewrite pce_softmax. reflexivity.
Qed.
Definition smoothness (k : losskind) (n o : nat) : R := match k with MSE => 2 / INR o | _ => 1 / INR n end.
Lemma concat_repeat1 {A} (x : A) n : concat (repeat [x] n) = repeat x n.
Proof. induction n; simpl; congruence. Qed.

Lemma fit_converges s m e x i o k mx rsx y rsy n (X Y : rpm) epochs bs xv yv lr :
  (0 <= bs)%Z -> (bs = 0 \/ Z.of_nat n <= bs)%Z -> (Z.of_nat n + bs <= 2 ^ 52)%Z -> (1 <= n)%nat -> (1 <= epochs)%Z ->
  trainable s m [e] [x] i o k -> data_ok s [e] mx rsx y rsy n i o X Y -> convex_pair k (e_p e) -> (k = CE -> one_hot n o Y) ->
  plain_sgd lr (x_po x) -> 0 < lr -> lr * smoothness k n o * (sqnorm n i X + INR n) <= 1 ->
  returns (Fit m mx y epochs bs xv yv 0) s (fun _ s' => exists e' x',
    trainable s' m [e'] [x'] i o k /\ same_place e e' /\
    objective k n o Y (pnet [e_p e'] n X) <= objective k n o Y (pnet [e_p e] n X) /\
    forall W B, objective k n o Y (pnet [e_p e'] n X) <= objective k n o Y (pnet [with_params (e_p e) W B] n X) +
      (sqdist i o (p_w (e_p e)) W + sqdist 1 o (p_b (e_p e)) B) / (2 * lr * IZR epochs)).
Proof.
  intros Hb Hb2 H52 Hn He HT HD HK Hone HP Hlr Hrate.
  destruct (fit_trains s m [e] [x] i o k mx rsx y rsy n X Y epochs bs xv yv RNum_min_faithful Hb H52 Hn HT HD) as ([] & s' & E & nn & _ & (es' & xs' & HT' & HPl & HP2 & Htr & _) & _).
  exists tt, s'. split; [exact E|].
  inversion HPl as [|e0 e' ? l1 He' Hn1]; subst. inversion Hn1; subst. inversion HP2 as [|x0 x' ? l2 Hx' Hn2]; subst. inversion Hn2; subst.
  exists e', x'. split; [exact HT'|]. split; [exact He'|].
  destruct HT as ((_ & _ & _ & _ & Hch & Hok) & _). cbn [net map chain] in Hch. destruct Hch as (Hpi & Hpo).
  assert (Ho1 : (1 <= o)%nat). { inversion Hok as [|? ? Hlok _]; subst. destruct Hlok as (l & _ & HL). destruct HL as (_ & _ & _ & _ & _ & _ & Ho & _). exact Ho. }
  destruct HD as (HX & HY & _ & _). pose proof (own_shape _ _ _ _ _ _ HX) as (HXl & _). pose proof (own_shape _ _ _ _ _ _ HY) as (HYl & _).
  unfold epochs_of in Htr.
  rewrite !chunks_whole in Htr; cycle 1.
  1,3: destruct X, Y; simpl in *; try discriminate; lia.
  1,2: unfold batch_rows; destruct (Z.eqb_spec bs 0); lia.
  cbn [combine] in Htr. rewrite concat_repeat1 in Htr.
  destruct (one_epochs k o X Y (r_uni (h_rng s)) n lr HXl (Z.to_nat epochs) (e_p e) (x_po x) (r_upos (h_rng s)) HK Hpo HP) as (po' & E2).
  pose proof (eq_trans Htr E2) as Hep'. injection Hep' as Hep _.
  destruct (wb_iter k n o X Y lr (Z.to_nat epochs) (e_p e)) as (Hwb & Hin & Hkind & Hout). rewrite <- Hep in Hwb, Hin, Hkind, Hout.
  assert (HK' : convex_pair k (e_p e')) by (unfold convex_pair; rewrite Hkind; exact HK).
  rewrite (one_objective k n o X Y (e_p e')), (one_objective k n o X Y (e_p e)), Hwb, Hin by (auto; congruence).
  set (Phi := match k with MSE => msePhi n o Y | _ => cePhi n o Y end).
  assert (HC : forall Z Z', Phi Z + inner n o (one_gr k n o Y (e_p e) Z) (delta n o Z Z') <= Phi Z').
  { destruct HK as [(-> & _)|(-> & _)]; intros Z Z'; [apply mse_convex; auto|apply ce_convex; auto]. }
  assert (HS : forall Z Z', Phi Z' <= Phi Z + inner n o (one_gr k n o Y (e_p e) Z) (delta n o Z Z') + smoothness k n o / 2 * sqnorm n o (delta n o Z Z')).
  { destruct HK as [(-> & _)|(-> & _)]; intros Z Z'; [apply mse_smooth; auto|apply ce_smooth; auto]. }
  assert (HB : 0 <= smoothness k n o).
  { assert (0 < INR n) by (apply lt_0_INR; lia). assert (0 < INR o) by (apply lt_0_INR; lia).
    destruct k; simpl; (apply Rmult_le_pos; [lra|left; now apply Rinv_0_lt_compat]). }
  rewrite Hpi. split.
  - apply (steps_fall n i o X Phi _ (smoothness k n o) lr HS Hlr Hrate HB).
  - intros W B. rewrite (one_objective k n o X Y (with_params (e_p e) W B)) by auto. simpl p_in. rewrite Hpi.
    replace (IZR epochs) with (INR (Z.to_nat epochs)) by (rewrite INR_IZR_INZ; f_equal; lia).
    apply (descent_rate n i o X Phi _ (smoothness k n o) lr HC HS Hlr Hrate HB (wb (e_p e)) (W, B)). lia.
Qed.
