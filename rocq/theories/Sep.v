(** * Sep: gradient descent separates what can be separated. *)
From Coq Require Import ZArith List Bool Arith Lia Reals Lra.
From Verif Require Import Num NumR Heap Spec Matrix Loss Network Optimizers ModelGo PureSpec Repr HeapLemmas MatrixFacts MiscFacts MiscProofs RSum LayerReal GradSpec LossProofs LossReal OptSpec ModelSpec ModelProofs ModelFacts EvalProofs FitProofs FitFacts ModelRefute NetGradSpec Converge ConvergeFit ConvergeEx MiniBatch EvalSpec EvalParts LossAccSpec LossAcc SepSpec.
Import ListNotations.
Open Scope R_scope.

(** ** The loss of a separating layer *)
Lemma soft_out (p : player RNum) n X a j : p_kind p = SoftmaxK -> (a < n)%nat -> (j < p_out p)%nat ->
  pnet [p] n X = psoftmax (K := RNum) n (p_out p) (paffine p n X) /\ entry (paffine p n X) a j = score (p_in p) X (p_w p) (p_b p) a j.
Proof.
  intros HK Ha Hj. split; [cbn [pnet fold_left]; unfold pforward, pact; now rewrite HK|]. unfold paffine, paff. rewrite entry_mk by assumption. reflexivity.
Qed.
Lemma score_scaled i o g X W B a j : (j < o)%nat -> score i X (scaled i o g W) (scaled 1 o g B) a j = g * score i X W B a j.
Proof.
  intros Hj. unfold score, scaled. rewrite entry_mk by lia. rewrite Rmult_plus_distr_l. f_equal. rewrite <- rsum_scal. apply rsum_ext. intros l Hl. rewrite entry_mk by lia. change (F RNum) with R. ring.
Qed.
Lemma ln_plus x : 0 <= x -> ln (1 + x) <= x.
Proof. intros H. destruct (Req_dec x 0) as [-> | N]; [rewrite Rplus_0_r, ln_1; lra|]. left. rewrite <- (ln_exp x) at 2. apply ln_increasing; [lra|]. apply exp_ineq1. lra. Qed.
Lemma one_loss o (z : nat -> R) t g : (t < o)%nat -> 0 <= g -> (forall j, (j < o)%nat -> j <> t -> z j + g <= z t) ->
  - ln (exp (z t) / rsum o (fun k => exp (z k))) <= INR o * exp (- g).
Proof.
  intros Ht Hg HZ. pose proof (R_expsum_pos o z ltac:(lia)) as HS. pose proof (exp_pos (z t)) as HE.
  rewrite <- ln_Rinv by (now apply Rdiv_lt_0_compat).
  assert (E : / (exp (z t) / rsum o (fun k => exp (z k))) = rsum o (fun k => exp (z k)) / exp (z t)) by (field; lra). rewrite E.
  assert (HB : rsum o (fun k => exp (z k)) / exp (z t) <= 1 + INR o * exp (- g)).
  { rewrite <- rsum_div. apply Rle_trans with (rsum o (fun k => (if (t =? k)%nat then 1 else 0) + exp (- g))).
    - apply rsum_le. intros j Hj. unfold Rdiv. rewrite <- exp_Ropp, <- exp_plus. destruct (t =? j)%nat eqn:Et.
      + apply Nat.eqb_eq in Et. subst j. replace (z t + - z t) with 0 by ring. rewrite exp_0. pose proof (exp_pos (- g)). lra.
      + apply Nat.eqb_neq in Et. rewrite Rplus_0_l. specialize (HZ j Hj ltac:(congruence)).
        destruct (Req_dec (z j + - z t) (- g)) as [-> | N]; [lra|]. left. apply exp_increasing. lra.
    - rewrite rsum_plus, (rsum_delta o t (fun _ => 1) Ht), rsum_const. lra. }
  apply Rle_trans with (ln (1 + INR o * exp (- g))).
  - destruct (Req_dec (rsum o (fun k => exp (z k)) / exp (z t)) (1 + INR o * exp (- g))) as [-> | N]; [lra|]. left. apply ln_increasing; [|lra]. now apply Rdiv_lt_0_compat.
  - apply ln_plus. apply Rmult_le_pos; [apply pos_INR|]. left. apply exp_pos.
Qed.
Lemma pce_rows n o (A Y : rpm) : classes n o Y -> exists lab : nat -> nat, (forall a, (a < n)%nat -> (lab a < o)%nat /\ entry Y a (lab a) = 1 /\ forall j, (j < o)%nat -> entry Y a j = if (lab a =? j)%nat then 1 else 0) /\
  pce (K := RNum) n o (psoftmax (K := RNum) n o A) Y = rsum n (fun a => - ln (entry (psoftmax (K := RNum) n o A) a (lab a))) / INR n.
Proof.
  intros HC. assert (HL : exists lab : nat -> nat, forall a, (a < n)%nat -> (lab a < o)%nat /\ forall j, (j < o)%nat -> entry Y a j = if (lab a =? j)%nat then 1 else 0).
  { clear A. unfold classes in HC. revert HC. generalize (entry (K := RNum) Y). induction n as [|n' IH]; intros f HC; [exists (fun _ => O); intros a Ha; lia|].
    destruct (IH f) as (lab & H1); [intros a Ha; apply HC; lia|]. destruct (HC n' ltac:(lia)) as (t & Ht & HE). exists (fun a => if (a =? n')%nat then t else lab a).
    intros a Ha. destruct (a =? n')%nat eqn:E; [apply Nat.eqb_eq in E; subst a; now split|]. apply Nat.eqb_neq in E. apply H1. lia. }
  destruct HL as (lab & HL). exists lab. split.
  - intros a Ha. destruct (HL a Ha) as (L1 & L2). split; [exact L1|]. split; [rewrite L2 by exact L1; now rewrite Nat.eqb_refl|exact L2].
  - rewrite R_pce, <- rsum_div. apply rsum_ext. intros a Ha. destruct (HL a Ha) as (L1 & L2). rewrite (onehot_dot o (fun j => entry Y a j) (lab a) (fun j => clipR (entry (psoftmax (K := RNum) n o A) a j)) L1 L2).
    rewrite clipR_id; [reflexivity|]. split; [left; now apply R_softmax_pos|]. rewrite <- (R_softmax_sum n o A a Ha) by lia. apply (rsum_term_le o (fun j => entry (psoftmax (K := RNum) n o A) a j) (lab a)); [|exact L1]. intros j Hj. left. now apply R_softmax_pos.
Qed.
Lemma sep_loss (p : player RNum) n i o X Y W B g : p_kind p = SoftmaxK -> p_in p = i -> p_out p = o -> (1 <= n)%nat -> classes n o Y -> separates n i o X Y W B -> 0 <= g ->
  objective CE n o Y (pnet [with_params p (scaled i o g W) (scaled 1 o g B)] n X) <= INR o * exp (- g).
Proof.
  intros HK Hi Ho Hn HC HS Hg. set (q := with_params p (scaled i o g W) (scaled 1 o g B)).
  assert (EP : pnet [q] n X = psoftmax (K := RNum) n o (paffine q n X)). { cbn [pnet fold_left]. unfold pforward, pact. replace (p_kind q) with SoftmaxK by (symmetry; exact HK). replace (p_out q) with o by (symmetry; exact Ho). reflexivity. }
  unfold objective. rewrite EP. destruct (pce_rows n o (paffine q n X) Y HC) as (lab & HL & ->). pose proof (EvalParts.INR_pos n Hn) as P.
  apply (Rmult_le_reg_r (INR n)); [exact P|]. unfold Rdiv. rewrite Rmult_assoc, Rinv_l, Rmult_1_r by lra. rewrite (Rmult_comm _ (INR n)), <- rsum_const. apply rsum_le. intros a Ha.
  destruct (HL a Ha) as (L1 & L2 & _). rewrite R_softmax_entry by assumption. apply (one_loss o (fun k => entry (paffine q n X) a k)); [exact L1|exact Hg|]. intros j Hj Nj.
  assert (ES : forall c, (c < o)%nat -> entry (paffine q n X) a c = g * score i X W B a c).
  { intros c Hc. destruct (soft_out q n X a c HK Ha) as (_ & ->); [cbn [p_out q with_params]; lia|]. cbn [p_in p_w p_b q with_params]. rewrite Hi. now apply score_scaled. }
  rewrite !ES by assumption. specialize (HS a (lab a) j Ha L1 Hj L2 Nj). nra.
Qed.

(** ** Training *)
Section Run.
Variables (s : state RNum) (m : model RNum) (e : lent RNum) (x : oent RNum) (i o : nat) (mx : matrix) (rsx : list nat) (y : matrix) (rsy : list nat) (n : nat) (X Y : rpm) (bs : Z) (xv yv : matrix) (lr : R).
Hypothesis Hb : (bs = 0 \/ Z.of_nat n <= bs)%Z.
Hypothesis H52 : (Z.of_nat n + bs <= 2 ^ 52)%Z.
Hypothesis Hn : (1 <= n)%nat.
Hypothesis Ho53 : (Z.of_nat o <= 2 ^ 53)%Z.
Hypothesis HT : trainable s m [e] [x] i o CE.
Hypothesis HD : data_ok s [e] mx rsx y rsy n i o X Y.
Hypothesis HK : p_kind (e_p e) = SoftmaxK.
Hypothesis HY : classes n o Y.
Hypothesis HP : plain_sgd lr (x_po x).
Hypothesis Hlr : 0 < lr.
Hypothesis Hsmall : lr * (1 / INR n) * (sqnorm n i X + INR n) <= 1.
Hypothesis HA : m_acctype m = 1%Z.
Lemma hot : one_hot n o Y.
Proof. destruct (pce_rows n o [] Y HY) as (lab & HL & _). exists lab. intros a Ha. destruct (HL a Ha) as (A & _ & B). now split. Qed.
Lemma bs_nonneg : (0 <= bs)%Z. Proof. destruct Hb as [-> | H]; [apply Z.le_refl|]. apply (Z.le_trans _ (Z.of_nat n)); [apply Zle_0_nat|exact H]. Qed.
Lemma dims : p_in (e_p e) = i /\ p_out (e_p e) = o.
Proof. pose proof (proj1 (proj2 (proj2 (proj2 (proj2 (proj1 HT)))))) as H. cbn in H. destruct H as (H1 & H2). now split. Qed.
(** The loss and the accuracy after training. *)
Lemma after epochs W B g : (1 <= epochs)%Z -> separates n i o X Y W B -> 0 <= g -> exists s' a l s1 s2, Fit m mx y epochs bs xv yv 0 s = (Ret tt, s') /\
  CalculateAccuracy m mx y s' = (Ret a, s1) /\ CalculateLoss m mx y s' = (Ret l, s2) /\ 0 <= l /\ (INR n * l < ln 2 -> a = 1) /\
  l <= INR o * exp (- g) + (sqdist i o (p_w (e_p e)) (scaled i o g W) + sqdist 1 o (p_b (e_p e)) (scaled 1 o g B)) / (2 * lr * IZR epochs).
Proof.
  intros He HS Hg.
  destruct (softmax_converges s m e x i o mx rsx y rsy n X Y epochs bs xv yv lr bs_nonneg Hb H52 Hn He HT HD HK hot HP Hlr Hsmall) as ([] & s' & EF & e' & x' & HT' & HSP & _ & HW).
  destruct (fit_trains s m [e] [x] i o CE mx rsx y rsy n X Y epochs bs xv yv RNum_min_faithful bs_nonneg H52 Hn HT HD) as ([] & s'0 & EF0 & nn & _ & _ & OX & OY).
  rewrite EF in EF0. injection EF0 as <-. specialize (HW (scaled i o g W) (scaled 1 o g B)).
  assert (HK' : p_kind (e_p e') = SoftmaxK). { rewrite <- HK. destruct HSP as (_ & _ & _ & HLk & _). exact HLk. }
  assert (HL1 : (1 <= length [e'])%nat) by (cbn; auto).
  assert (HM : m_loss m = Some (MkLoss CE (Z.of_nat o))) by apply HT'.
  assert (HE : ends_with SoftmaxK [e']) by (exists [], e'; now split).
  destruct (ce_code s' m [e'] i o mx rsx y rsy n X Y (proj1 HT') HL1 Ho53 OX OY Hn HM HA HE HY) as (a & l & s1 & s2 & E1 & E2 & B1 & B2).
  assert (PA : paccuracy (K := RNum) (m_acctype m) (m_prec m) n o (pnet (net [e']) n X) Y = Some (categorical_accuracy (K := RNum) n o (pnet (net [e']) n X) Y)) by (rewrite HA; reflexivity).
  destruct (both s' m [e'] i o mx rsx y rsy n X Y (proj1 HT') HL1 Ho53 OX OY Hn CE _ HM PA) as (s1' & s2' & _ & E2').
  assert (EL : l = objective CE n o Y (pnet [e_p e'] n X)). { rewrite E2 in E2'. injection E2' as El _. exact El. }
  exists s', a, l, s1, s2. split; [exact EF|]. split; [exact E1|]. split; [exact E2|]. split; [|split; [exact B2|]].
  - rewrite EL. assert (Eo : p_out (e_p e') = o). { pose proof (proj1 (proj2 (proj2 (proj2 (proj2 (proj1 HT')))))) as H. cbn in H. now destruct H. }
    unfold objective. replace (pnet [e_p e'] n X) with (psoftmax (K := RNum) n o (paffine (e_p e') n X)).
    2: { cbn [pnet fold_left]. unfold pforward, pact. now rewrite HK', Eo. }
    destruct (pce_rows n o (paffine (e_p e') n X) Y HY) as (lab & HLb & ->). apply Rmult_le_pos; [|left; apply Rinv_0_lt_compat; now apply EvalParts.INR_pos].
    apply rsum_nonneg. intros b Hb'. destruct (HLb b Hb') as (L1 & _). apply pos_ln. split; [now apply R_softmax_pos|].
    rewrite <- (R_softmax_sum n o (paffine (e_p e') n X) b Hb') by lia. apply (rsum_term_le o (fun j => entry (psoftmax (K := RNum) n o (paffine (e_p e') n X)) b j) (lab b)); [|exact L1]. intros j Hj. left. now apply R_softmax_pos.
  - rewrite EL. eapply Rle_trans; [exact HW|]. apply Rplus_le_compat_r. destruct dims. apply sep_loss; assumption.
Qed.
Lemma small_enough W B d : 0 < d -> exists g T, 0 <= g /\ (1 <= T)%Z /\ forall epochs, (T <= epochs)%Z ->
  INR o * exp (- g) + (sqdist i o (p_w (e_p e)) (scaled i o g W) + sqdist 1 o (p_b (e_p e)) (scaled 1 o g B)) / (2 * lr * IZR epochs) < d.
Proof.
  intros Hd. set (g := ln (1 + 2 * INR o / d)). assert (H1 : 0 <= 2 * INR o / d). { apply Rmult_le_pos; [pose proof (pos_INR o); lra|left; now apply Rinv_0_lt_compat]. }
  assert (Hg : 0 <= g). { unfold g. rewrite <- ln_1. destruct (Req_dec (2 * INR o / d) 0) as [-> | N]; [rewrite Rplus_0_r; lra|]. left. apply ln_increasing; lra. }
  assert (HE : INR o * exp (- g) < d / 2). { unfold g. rewrite exp_Ropp, exp_ln by lra. apply (Rmult_lt_reg_r (1 + 2 * INR o / d)); [lra|]. rewrite Rmult_assoc, Rinv_l by lra. replace (d / 2 * (1 + 2 * INR o / d)) with (d / 2 + INR o) by (field; lra). lra. }
  set (D := sqdist i o (p_w (e_p e)) (scaled i o g W) + sqdist 1 o (p_b (e_p e)) (scaled 1 o g B)).
  assert (HD0 : 0 <= D). { apply Rplus_le_le_0_compat; apply sqdist_nonneg. }
  assert (HQ : 0 <= D / (lr * d)). { apply Rmult_le_pos; [exact HD0|]. left. apply Rinv_0_lt_compat, Rmult_lt_0_compat; assumption. }
  exists g, (up (D / (lr * d))). destruct (archimed (D / (lr * d))) as (U1 & _). split; [exact Hg|]. split.
  - apply (Zlt_le_succ 0). apply lt_IZR. lra.
  - intros epochs He. assert (HT0 : D / (lr * d) < IZR epochs). { apply IZR_le in He. lra. }
    assert (HT1 : 0 < IZR epochs) by lra. fold D. assert (D / (2 * lr * IZR epochs) < d / 2); [|lra].
    apply (Rmult_lt_reg_r (2 * lr * IZR epochs)); [nra|]. unfold Rdiv at 1. rewrite Rmult_assoc, Rinv_l by nra. rewrite Rmult_1_r.
    apply (Rmult_lt_compat_r (lr * d)) in HT0; [|nra]. unfold Rdiv in HT0. rewrite Rmult_assoc, Rinv_l in HT0 by nra. nra.
Qed.
Lemma sep_loss_to_0 eps : separable n i o X Y -> 0 < eps -> exists T, forall epochs, (T <= epochs)%Z -> exists s' l s'', Fit m mx y epochs bs xv yv 0 s = (Ret tt, s') /\ CalculateLoss m mx y s' = (Ret l, s'') /\ 0 <= l < eps.
Proof.
  intros (W & B & HS) He. destruct (small_enough W B eps He) as (g & T & Hg & HT1 & HB). exists T. intros epochs Hep.
  destruct (after epochs W B g ltac:(lia) HS Hg) as (s' & a & l & s1 & s2 & E1 & E2 & E3 & E4 & _ & E5). exists s', l, s2. split; [exact E1|]. split; [exact E3|]. specialize (HB epochs Hep). lra.
Qed.
Lemma sep_perfect : separable n i o X Y -> exists T, forall epochs, (T <= epochs)%Z -> perfect_after s m mx y epochs bs xv yv.
Proof.
  intros (W & B & HS). pose proof (EvalParts.INR_pos n Hn) as P. pose proof ln2_pos as P2.
  destruct (small_enough W B (ln 2 / INR n)) as (g & T & Hg & HT1 & HB); [now apply Rdiv_lt_0_compat|]. exists T. intros epochs Hep.
  destruct (after epochs W B g ltac:(lia) HS Hg) as (s' & a & l & s1 & s2 & E1 & E2 & E3 & E4 & E6 & E5). exists s', s1. split; [exact E1|]. rewrite <- E6; [exact E2|]. specialize (HB epochs Hep).
  assert (HQ : INR n * l < INR n * (ln 2 / INR n)) by (apply Rmult_lt_compat_l; [exact P|exact (Rle_lt_trans _ _ _ E5 HB)]).
  eapply Rlt_le_trans; [exact HQ|]. right. field. lra.
Qed.
End Run.

(** ** Perfect classifiers separate *)
Lemma pos_min k : forall f : nat -> R, exists g, 0 < g /\ forall a, (a < k)%nat -> 0 < f a -> g <= f a.
Proof.
  induction k as [|k IH]; intros f; [exists 1; split; [lra|intros; lia]|]. destruct (IH f) as (g & G1 & G2). destruct (Rlt_dec 0 (f k)) as [H|H].
  - exists (Rmin g (f k)). split; [now apply Rmin_glb_lt|]. intros a Ha Hf. destruct (Nat.eq_dec a k) as [->|N]; [apply Rmin_r|]. eapply Rle_trans; [apply Rmin_l|]. apply G2; [lia|exact Hf].
  - exists g. split; [exact G1|]. intros a Ha Hf. destruct (Nat.eq_dec a k) as [->|N]; [contradiction|]. apply G2; [lia|exact Hf].
Qed.
Lemma pos_min2 n k (f : nat -> nat -> R) : exists g, 0 < g /\ forall a b, (a < n)%nat -> (b < k)%nat -> 0 < f a b -> g <= f a b.
Proof.
  induction n as [|n IH]; [exists 1; split; [lra|intros; lia]|]. destruct IH as (g & G1 & G2). destruct (pos_min k (f n)) as (g' & G1' & G2').
  exists (Rmin g g'). split; [now apply Rmin_glb_lt|]. intros a b Ha Hb Hf. destruct (Nat.eq_dec a n) as [->|N].
  - eapply Rle_trans; [apply Rmin_r|]. now apply G2'.
  - eapply Rle_trans; [apply Rmin_l|]. apply G2; [lia|exact Hb|exact Hf].
Qed.
(** The first class with the largest score is the right one. *)
Lemma first_max_sep n i o X Y W B (lab : nat -> nat) : (forall a, (a < n)%nat -> (lab a < o)%nat /\ forall j, (j < o)%nat -> entry Y a j = if (lab a =? j)%nat then 1 else 0) ->
  (forall a j, (a < n)%nat -> (j < o)%nat -> score i X W B a j <= score i X W B a (lab a) /\ ((j < lab a)%nat -> score i X W B a j < score i X W B a (lab a))) -> separable n i o X Y.
Proof.
  intros HL HM. destruct (pos_min2 n o (fun a j => score i X W B a (lab a) - score i X W B a j)) as (g & G1 & G2).
  set (d := g / (INR o + 1)). pose proof (pos_INR o) as PO. assert (Hd : 0 < d) by (apply Rdiv_lt_0_compat; lra). assert (Egd : g = d * INR o + d) by (unfold d; field; lra).
  set (B' := mk (K := RNum) 1 o (fun _ j => entry B 0 j - d * INR j)).
  assert (ES : forall a j, (j < o)%nat -> score i X W B' a j = score i X W B a j - d * INR j). { intros a j Hj. unfold score, B'. rewrite entry_mk by lia. change (F RNum) with R. ring. }
  exists (scaled i o (/ d) W), (scaled 1 o (/ d) B'). intros a c j Ha Hc Hj HYc Nj. rewrite !score_scaled by assumption. rewrite !ES by assumption.
  destruct (HL a Ha) as (L1 & L2). assert (Ec : c = lab a). { rewrite L2 in HYc by exact Hc. destruct (lab a =? c)%nat eqn:E; [now apply Nat.eqb_eq in E|]. exfalso. lra. } subst c.
  destruct (HM a j Ha Hj) as (M1 & M2). assert (score i X W B a j - d * INR j + d <= score i X W B a (lab a) - d * INR (lab a)).
  { assert (lab a < j \/ j < lab a)%nat as [Hlt|Hlt] by lia.
    - apply le_INR in Hlt. rewrite S_INR in Hlt. nra.
    - specialize (M2 Hlt). assert (HG : g <= score i X W B a (lab a) - score i X W B a j) by (apply G2; [exact Ha|exact Hj|lra]). apply lt_INR in L1. pose proof (pos_INR j). nra. }
  apply (Rmult_le_reg_l d); [exact Hd|]. rewrite Rmult_plus_distr_l, <- !Rmult_assoc, Rinv_r, !Rmult_1_l by lra. lra.
Qed.
Lemma perfect_sep (p : player RNum) n i o X Y : p_kind p = SoftmaxK -> p_in p = i -> p_out p = o -> (1 <= n)%nat -> classes n o Y ->
  categorical_accuracy (K := RNum) n o (pnet [p] n X) Y = 1 -> separable n i o X Y.
Proof.
  intros HK Hi Ho Hn HC HAcc. destruct (pce_rows n o [] Y HC) as (lab & HL & _).
  assert (EP : pnet [p] n X = psoftmax (K := RNum) n o (paffine p n X)). { cbn [pnet fold_left]. unfold pforward, pact. now rewrite HK, Ho. }
  rewrite EP in HAcc. unfold categorical_accuracy in HAcc. cbn [fdiv RNum] in HAcc. rewrite !ofZ_INR in HAcc. pose proof (EvalParts.INR_pos n Hn) as P.
  set (hit := fun a => feq (n := RNum) (entry Y a (fst (scan_max (K := RNum) o (entry (psoftmax (K := RNum) n o (paffine p n X)) a)))) f1) in *.
  assert (ECount : count_rows n hit = n). { apply INR_eq. apply (Rmult_eq_reg_r (/ INR n)); [|apply Rinv_neq_0_compat; lra]. rewrite Rinv_r by lra. exact HAcc. }
  assert (HAll : forall a, (a < n)%nat -> hit a = true).
  { intros a Ha. unfold count_rows in ECount. assert (Hf : forall l : list nat, length (filter hit l) = length l -> forall b, In b l -> hit b = true).
    { induction l as [|b l IH]; intros HLn b' Hb'; [destruct Hb'|]. simpl in HLn. assert (FL : (length (filter hit l) <= length l)%nat) by (clear; induction l as [|b0 l0 IH0]; simpl; [lia|]; destruct (hit b0); simpl; lia). destruct (hit b) eqn:Eb.
      - destruct Hb' as [<-|Hb']; [exact Eb|]. apply IH; [simpl in HLn; lia|exact Hb'].
      - lia. }
    apply (Hf (seq 0 n)); [now rewrite seq_length|]. apply in_seq. lia. }
  apply (first_max_sep n i o X Y (p_w p) (p_b p) lab); [intros a Ha; destruct (HL a Ha) as (A & _ & B); now split|].
  intros a j Ha Hj. destruct (HL a Ha) as (L1 & _ & L2). set (g := entry (psoftmax (K := RNum) n o (paffine p n X)) a).
  destruct (scan_max_argmax (K := RNum) (fun _ => True) o g RNum_weak_order I (fun _ _ => I)) as (A1 & A2 & A3). { exists j. split; [exact Hj|]. apply r_ltb_true. now apply R_softmax_pos. }
  cbv zeta in A1, A2, A3. specialize (HAll a Ha). unfold hit in HAll. fold g in HAll. set (w := fst (scan_max (K := RNum) o g)) in *.
  assert (Ew : w = lab a). { apply r_eqb_true in HAll. rewrite (L2 w A1) in HAll. destruct (lab a =? w)%nat eqn:E; [symmetry; now apply Nat.eqb_eq|]. exfalso. change (f1 (K := RNum)) with 1 in HAll. lra. }
  assert (ES : forall c, (c < o)%nat -> entry (paffine p n X) a c = score i X (p_w p) (p_b p) a c). { intros c Hc. destruct (soft_out p n X a c HK Ha) as (_ & ->); [lia|]. now rewrite Hi. }
  rewrite <- !ES by assumption. rewrite <- Ew. split.
  - apply Rnot_lt_le. intros Hlt. apply (R_softmax_order n o (paffine p n X) a w j Ha A1 Hj) in Hlt. specialize (A2 j Hj). apply r_ltb_false in A2. fold g in Hlt. lra.
  - intros Hlt. apply (R_softmax_order n o (paffine p n X) a j w Ha Hj A1). apply r_ltb_true. apply A3. exact Hlt.
Qed.
Lemma accurate_sep (s : state RNum) m e i o x rsx y rsy n X Y s' : consistent s m [e] i o -> (Z.of_nat o <= 2 ^ 53)%Z -> own s x rsx n i X -> own s y rsy n o Y -> (1 <= n)%nat ->
  m_acctype m = 1%Z -> p_kind (e_p e) = SoftmaxK -> classes n o Y -> CalculateAccuracy m x y s = (Ret 1, s') -> separable n i o X Y.
Proof.
  intros HC Ho HX HY Hn HA HK HCl E. pose proof (proj1 (proj2 (proj2 (proj2 (proj2 HC))))) as H. cbn in H. destruct H as (H1 & H2).
  apply (perfect_sep (e_p e) n i o X Y HK H1 H2 Hn HCl).
  assert (PA : paccuracy (K := RNum) (m_acctype m) (m_prec m) n o (pnet (net [e]) n X) Y = Some (categorical_accuracy (K := RNum) n o (pnet (net [e]) n X) Y)) by (rewrite HA; reflexivity).
  destruct (returns_wp _ _ _ (wp_CalculateAccuracy s m [e] i o x rsx y rsy n X Y _ RNum_int_faithful Ho HC (le_n 1) PA HX HY Hn)) as (v1 & s1 & E1 & Ev & _).
  rewrite E in E1. injection E1 as E1 _. rewrite Ev in E1. symmetry. exact E1.
Qed.
Lemma perfect_iff s m e x i o mx rsx y rsy n X Y bs xv yv lr : (bs = 0 \/ Z.of_nat n <= bs)%Z -> (Z.of_nat n + bs <= 2 ^ 52)%Z -> (1 <= n)%nat -> (Z.of_nat o <= 2 ^ 53)%Z ->
  trainable s m [e] [x] i o CE -> data_ok s [e] mx rsx y rsy n i o X Y -> p_kind (e_p e) = SoftmaxK -> classes n o Y -> plain_sgd lr (x_po x) -> 0 < lr ->
  lr * (1 / INR n) * (sqnorm n i X + INR n) <= 1 -> m_acctype m = 1%Z ->
  separable n i o X Y <-> exists T, forall epochs, (T <= epochs)%Z -> perfect_after s m mx y epochs bs xv yv.
Proof.
  intros Hb H52 Hn Ho HT HD HK HY HP Hlr Hs HA. split; [now apply (sep_perfect s m e x i o mx rsx y rsy n X Y bs xv yv lr)|].
  intros (T & HTT). destruct (HTT T (Z.le_refl T)) as (s' & s'' & E1 & E2).
  destruct (fit_trains s m [e] [x] i o CE mx rsx y rsy n X Y T bs xv yv RNum_min_faithful (bs_nonneg n bs Hb H52) H52 Hn HT HD) as ([] & s'0 & EF0 & nn & _ & (es' & xs' & HT' & HSP & _) & OX & OY).
  rewrite E1 in EF0. injection EF0 as <-. inversion HSP as [|? e' ? ? HS HN]; subst. inversion HN; subst.
  apply (accurate_sep s' m e' i o mx rsx y rsy n X Y s'' (proj1 HT') Ho OX OY Hn HA); [|exact HY|exact E2]. rewrite <- HK. destruct HS as (_ & _ & _ & HLk & _). exact HLk.
Qed.
(** ** The loss is never 0 *)
Lemma loss_positive (s : state RNum) m es i o x rsx y rsy n X Y : consistent s m es i o -> (1 <= length es)%nat -> own s x rsx n i X -> own s y rsy n o Y -> (1 <= n)%nat -> (2 <= o)%nat ->
  m_loss m = Some (MkLoss CE (Z.of_nat o)) -> ends_with SoftmaxK es -> classes n o Y -> exists l s', CalculateLoss m x y s = (Ret l, s') /\ 0 < l.
Proof.
  intros HC HL HX HY Hn Ho Hk HE HCl. destruct (returns_wp _ _ _ (wp_CalculateLoss s m es i o CE x rsx y rsy n X Y HC HL Hk HX HY Hn)) as (v & s' & E & -> & _).
  exists (ploss (K := RNum) CE n o (pnet (net es) n X) Y), s'. split; [exact E|]. destruct (ends s m es i o n X HC HL SoftmaxK HE) as (p & Z & HP & HO & EN).
  rewrite EN. unfold pact. rewrite HP, HO. unfold ploss. destruct (pce_rows n o Z Y HCl) as (lab & HLb & ->). apply Rdiv_lt_0_compat; [|now apply EvalParts.INR_pos].
  apply rsum_pos; [exact Hn|]. intros a Ha. destruct (HLb a Ha) as (L1 & _).
  assert (HS : entry (psoftmax (K := RNum) n o Z) a (lab a) < 1).
  { assert (exists j, (j < o)%nat /\ j <> lab a) as (j & Hj & Nj). { destruct (Nat.eq_dec (lab a) 0) as [E0|E0]; [exists 1%nat; lia|exists O; lia]. }
    pose proof (R_softmax_sum n o Z a Ha ltac:(lia)) as S. pose proof (R_softmax_pos n o Z a j Ha Hj) as Pj.
    assert (LE : rsum o (fun c => (if (lab a =? c)%nat then entry (psoftmax (K := RNum) n o Z) a c else 0) + (if (j =? c)%nat then entry (psoftmax (K := RNum) n o Z) a c else 0)) <= rsum o (fun c => entry (psoftmax (K := RNum) n o Z) a c)).
    { apply rsum_le. intros c Hc. pose proof (R_softmax_pos n o Z a c Ha Hc). destruct (lab a =? c)%nat eqn:Q1; destruct (j =? c)%nat eqn:Q2; try lra. apply Nat.eqb_eq in Q1, Q2. congruence. }
    rewrite rsum_plus, (rsum_delta o (lab a) (fun c => entry (psoftmax (K := RNum) n o Z) a c) L1), (rsum_delta o j (fun c => entry (psoftmax (K := RNum) n o Z) a c) Hj) in LE. lra. }
  pose proof (R_softmax_pos n o Z a (lab a) Ha L1) as P0. assert (ln (entry (psoftmax (K := RNum) n o Z) a (lab a)) < ln 1) by (now apply ln_increasing). rewrite ln_1 in H. lra.
Qed.
