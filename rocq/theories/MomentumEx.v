(** * MomentumEx: concrete models for momentum and decay; the decayed rates sum to infinity. *)
From Coq Require Import String ZArith List Bool Arith Lia Reals Lra Psatz.
From Coquelicot Require Import Coquelicot.
From Verif Require Import Num NumR Heap Spec Matrix Loss Network Optimizers ModelGo PureSpec Repr HeapLemmas LoopLemmas MatrixFacts MiscFacts RSum LayerFacts LayerReal GradSpec Grad LossProofs LossReal LossCode OptSpec ModelSpec ModelProofs FitProofs FitFacts NetGradSpec NetGrad NetGradCode LossRefute Converge ConvergeFit Momentum RateSpec MomentumFit.
Import ListNotations.
Open Scope R_scope.

(** ** The sum of the rates *)
Lemma ln_step u : ln (INR (S (S u))) - ln (INR (S u)) <= 1 / INR (S u).
Proof.
  assert (H : 0 < INR (S u)) by (apply lt_0_INR; lia). assert (H' : 0 < INR (S (S u))) by (apply lt_0_INR; lia).
  rewrite <- ln_div by auto. rewrite <- (ln_exp (1 / INR (S u))).
  assert (E : INR (S (S u)) / INR (S u) = 1 + 1 / INR (S u)) by (rewrite (S_INR (S u)); field; lra). rewrite E.
  pose proof (exp_ineq1_le (1 / INR (S u))) as HE. assert (0 < 1 / INR (S u)) by (apply Rdiv_lt_0_compat; lra).
  destruct HE as [HE|HE]; [left; apply ln_increasing; lra|right; now rewrite HE].
Qed.
Lemma harmonic n : ln (INR (S n)) <= rsum n (fun u => 1 / INR (S u)).
Proof.
  induction n as [|n IH]; [rewrite rsum_0; simpl; rewrite ln_1; lra|]. rewrite rsum_S. pose proof (ln_step n). lra.
Qed.
Lemma rate_grows lr dc t n : 0 < lr -> 0 <= dc -> lr / (1 + dc * (INR t + 1)) * ln (INR (S n)) <= total_rate lr dc t n.
Proof.
  intros Hlr Hdc. pose proof (pos_INR t) as Ht. assert (Hc : 0 < 1 + dc * (INR t + 1)) by nra.
  apply Rle_trans with (lr / (1 + dc * (INR t + 1)) * rsum n (fun u => 1 / INR (S u))).
  - apply Rmult_le_compat_l; [left; now apply Rdiv_lt_0_compat|apply harmonic].
  - rewrite <- rsum_scal. apply rsum_le. intros u Hu. rewrite plus_INR, S_INR. pose proof (pos_INR u) as Hu0.
    assert (0 < 1 + dc * (INR t + INR u)) by nra.
    replace (lr / (1 + dc * (INR t + 1)) * (1 / (INR u + 1))) with (lr * / ((1 + dc * (INR t + 1)) * (INR u + 1))) by (field; split; nra).
    apply Rmult_le_compat_l; [lra|]. apply Rinv_le_contravar; [assumption|].
    assert (0 <= dc * (INR t * INR u + 1)) by (apply Rmult_le_pos; [exact Hdc|]; nra). lra.
Qed.
Lemma fit_decay_limit s m e x i o k mx rsx y rsy n (X Y : rpm) bs xv yv lr dc t L W B eps :
  (0 <= bs)%Z -> (bs = 0 \/ Z.of_nat n <= bs)%Z -> (Z.of_nat n + bs <= 2 ^ 52)%Z -> (1 <= n)%nat ->
  trainable s m [e] [x] i o k -> data_ok s [e] mx rsx y rsy n i o X Y -> convex_problem k (p_kind (e_p e)) n o Y L ->
  decaying_sgd lr dc t (x_po x) -> 0 < lr -> 0 <= dc -> lr * L * (sqnorm n i X + INR n) <= 1 -> 0 < eps ->
  exists N : Z, forall epochs, (N <= epochs)%Z ->
  returns (Fit m mx y epochs bs xv yv 0) s (fun _ s' => exists e' x',
    trainable s' m [e'] [x'] i o k /\ same_place e e' /\
    objective k n o Y (pnet [e_p e'] n X) <= objective k n o Y (pnet [with_params (e_p e) W B] n X) + eps).
Proof.
  intros Hb Hb2 H52 Hn HT HD HC HP Hlr Hdc Hrate Heps.
  set (D := sqdist i o (p_w (e_p e)) W + sqdist 1 o (p_b (e_p e)) B).
  assert (HD0 : 0 <= D) by (unfold D; pose proof (sqdist_nonneg i o (p_w (e_p e)) W); pose proof (sqdist_nonneg 1 o (p_b (e_p e)) B); lra).
  pose proof (pos_INR t) as Ht. assert (Hc : 0 < lr / (1 + dc * (INR t + 1))) by (apply Rdiv_lt_0_compat; nra).
  set (c := lr / (1 + dc * (INR t + 1))) in *. set (A := (D + 1) / (2 * eps * c)).
  assert (HA : 0 < A) by (apply Rdiv_lt_0_compat; nra).
  destruct (archimed (exp A)) as (HU & _). exists (Z.max 1 (up (exp A))). intros epochs He.
  destruct (fit_decay s m e x i o k mx rsx y rsy n X Y epochs bs xv yv lr dc t L Hb Hb2 H52 Hn ltac:(lia) HT HD HC HP Hlr Hdc Hrate) as ([] & s' & E & e' & x' & HT' & HPl & _ & _ & HF).
  exists tt, s'. split; [exact E|]. exists e', x'. split; [exact HT'|]. split; [exact HPl|].
  eapply Rle_trans; [apply (HF W B)|]. apply Rplus_le_compat_l. fold D.
  pose proof (rate_grows lr dc t (Z.to_nat epochs) Hlr Hdc) as HG. fold c in HG.
  assert (HL : A <= ln (INR (S (Z.to_nat epochs)))).
  { rewrite <- (ln_exp A). left. apply ln_increasing; [apply exp_pos|]. rewrite S_INR, INR_IZR_INZ, Z2Nat.id by lia.
    assert (IZR (up (exp A)) <= IZR epochs) by (apply IZR_le; lia). lra. }
  assert (HG2 : c * A <= total_rate lr dc t (Z.to_nat epochs)). { eapply Rle_trans; [|exact HG]. apply Rmult_le_compat_l; lra. }
  assert (HcA : c * A = (D + 1) / (2 * eps)) by (unfold A; field; lra).
  assert (0 < (D + 1) / (2 * eps)) by (apply Rdiv_lt_0_compat; lra).
  set (T := total_rate _ _ _ _) in *. apply (Rmult_le_reg_r (2 * T)); [lra|]. unfold Rdiv. rewrite Rmult_assoc, Rinv_l by lra.
  assert (eps * (2 * ((D + 1) / (2 * eps))) <= eps * (2 * T)) by (apply Rmult_le_compat_l; lra).
  replace (eps * (2 * ((D + 1) / (2 * eps)))) with (D + 1) in H0 by (field; lra). lra.
Qed.

(** ** One sample: x = 1, y = 0, weight 1, bias 0 *)
Definition mt_state (o : optimizer RNum) : state RNum :=
  MkState (K := RNum) [[1]; [0]; [1]; [0]] [[1]; [2]; [3]; [4]]%nat
    [MkLayer (K := RNum) Linear 1 1 (MkMatrix 1 1 (MkSlice 1 0 1)) (MkMatrix 1 1 (MkSlice 2 0 1)) 0 0 matrix0 matrix0]
    [o] nr_rng true [].
Definition mt_o : optimizer RNum := MkOpt (K := RNum) SGD (1/8) 0 (1/2) 0 0 0 (1/8) 0 matrix0 matrix0 matrix0 matrix0 false true.
Definition mt_po : popt RNum := PO (K := RNum) SGD (1/8) 0 (1/2) 0 0 0 (1/8) 0 false true [[0]] [[0]] [] [].
Definition dc_o : optimizer RNum := MkOpt (K := RNum) SGD (1/4) (1/10) 0 0 0 0 (1/4) 0 matrix0 matrix0 matrix0 matrix0 true false.
Definition dc_po : popt RNum := PO (K := RNum) SGD (1/4) (1/10) 0 0 0 0 (1/4) 0 true false [] [] [] [].
Definition mtX : rpm := [[1]].
Definition mtY : rpm := [[0]].
Definition mt_x : matrix := MkMatrix 1 1 (MkSlice 3 0 1).
Definition mt_y : matrix := MkMatrix 1 1 (MkSlice 4 0 1).
Definition mt_e : lent RNum := LE (K := RNum) 0 [1]%nat [2]%nat (PL (K := RNum) Linear 1 1 [[1]] [[0]] 0 0).
Definition mt_xo : oent RNum := OE (K := RNum) 0 [] mt_po.
Definition dc_xo : oent RNum := OE (K := RNum) 0 [] dc_po.
Definition mt_m : model RNum := MkModel (K := RNum) 1 1 1 0 (Some (MkLoss MSE 1)) 0 0 0 [] [0]%nat [0]%nat.
Lemma mt_trainable : trainable (mt_state mt_o) mt_m [mt_e] [mt_xo] 1 1 MSE.
Proof.
  unfold trainable. split; [|split; [|split; [|split; [|split; [|split; [|split; [|split; [|split]]]]]]]].
  - unfold consistent. do 4 (split; [reflexivity|]). split; [simpl; auto|].
    repeat constructor; eexists; (split; [reflexivity|]); unfold lown; simpl; repeat (split; [first [reflexivity|lia]|]); split; own_tac'.
  - split; nd.
  - simpl; lia.
  - reflexivity.
  - nd.
  - repeat constructor; eexists; (split; [reflexivity|]); unfold oown, oscal; simpl; repeat split; left; auto.
  - dj.
  - reflexivity.
  - reflexivity.
  - repeat constructor; discriminate.
Qed.
Lemma dc_trainable : trainable (mt_state dc_o) mt_m [mt_e] [dc_xo] 1 1 MSE.
Proof.
  unfold trainable. split; [|split; [|split; [|split; [|split; [|split; [|split; [|split; [|split]]]]]]]].
  - unfold consistent. do 4 (split; [reflexivity|]). split; [simpl; auto|].
    repeat constructor; eexists; (split; [reflexivity|]); unfold lown; simpl; repeat (split; [first [reflexivity|lia]|]); split; own_tac'.
  - split; nd.
  - simpl; lia.
  - reflexivity.
  - nd.
  - repeat constructor; eexists; (split; [reflexivity|]); unfold oown, oscal; simpl; auto 20.
  - dj.
  - reflexivity.
  - reflexivity.
  - repeat constructor; discriminate.
Qed.
Lemma mt_data o : data_ok (mt_state o) [mt_e] mt_x [3]%nat mt_y [4]%nat 1 1 1 mtX mtY.
Proof. split; [own_tac'|]. split; [own_tac'|]. split; dj. Qed.
Lemma mt_rate lr q : lr * 4 <= q -> lr * (2 / INR 1) * (sqnorm 1 1 mtX + INR 1) <= q.
Proof. intros H. unfold sqnorm. rewrite !rsum_1. unfold entry, mtX. simpl. lra. Qed.
(** With momentum the objective may rise: 0 after two epochs, 1/16 after three. *)
Lemma mt_rises : exists s m e x i o mx rsx y rsy n (X Y : rpm) lr mu s2 e2 x2 s3 e3 x3,
  trainable s m [e] [x] i o MSE /\ data_ok s [e] mx rsx y rsy n i o X Y /\ convex_problem MSE (p_kind (e_p e)) n o Y (2 / INR o) /\ fresh_momentum lr mu i o (x_po x) /\
  0 < lr /\ 0 <= mu < 1 /\ lr * (2 / INR o) * (sqnorm n i X + INR n) <= 1 - mu /\
  Fit m mx y 2 0 matrix0 matrix0 0 s = (Ret tt, s2) /\ trainable s2 m [e2] [x2] i o MSE /\ same_place e e2 /\
  Fit m mx y 3 0 matrix0 matrix0 0 s = (Ret tt, s3) /\ trainable s3 m [e3] [x3] i o MSE /\ same_place e e3 /\
  objective MSE n o Y (pnet [e_p e2] n X) < objective MSE n o Y (pnet [e_p e3] n X).
Proof.
  destruct (fit_iterates (mt_state mt_o) mt_m mt_e mt_xo 1 1 MSE mt_x _ mt_y _ 1 mtX mtY 2 0 matrix0 matrix0 ltac:(lia) ltac:(lia) ltac:(lia) ltac:(lia) ltac:(lia) mt_trainable (mt_data mt_o) (or_introl (conj eq_refl eq_refl)))
    as ([] & s2 & E2 & e2 & x2 & HT2 & HP2 & _ & _ & _ & H2).
  destruct (fit_iterates (mt_state mt_o) mt_m mt_e mt_xo 1 1 MSE mt_x _ mt_y _ 1 mtX mtY 3 0 matrix0 matrix0 ltac:(lia) ltac:(lia) ltac:(lia) ltac:(lia) ltac:(lia) mt_trainable (mt_data mt_o) (or_introl (conj eq_refl eq_refl)))
    as ([] & s3 & E3 & e3 & x3 & HT3 & HP3 & _ & _ & _ & H3).
  exists (mt_state mt_o), mt_m, mt_e, mt_xo, 1%nat, 1%nat, mt_x, [3]%nat, mt_y, [4]%nat, 1%nat, mtX, mtY, (1/8), (1/2), s2, e2, x2, s3, e3, x3.
  split; [exact mt_trainable|]. split; [apply mt_data|]. split; [left; auto|]. split; [repeat split|]. split; [lra|]. split; [lra|]. split; [apply mt_rate; lra|].
  split; [exact E2|]. split; [exact HT2|]. split; [exact HP2|]. split; [exact E3|]. split; [exact HT3|]. split; [exact HP3|].
  apply (f_equal fst) in H2. apply (f_equal fst) in H3. cbn [fst] in H2, H3. rewrite H2, H3.
  unfold objective. rewrite !rsum_1.
  cbv -[Rplus Rmult Rminus Rdiv Ropp Rinv IZR Rlt Rle R0 R1]. lra.
Qed.
