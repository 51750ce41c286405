(** * MiniBatch: mini-batch training of one linear layer on data that a linear layer can fit exactly. *)
From Coq Require Import String ZArith List Bool Arith Lia Reals Lra Psatz.
From Coquelicot Require Import Coquelicot.
From Verif Require Import Num NumR Heap Spec Matrix Loss Network Optimizers ModelGo PureSpec Repr HeapLemmas LoopLemmas MatrixFacts MiscFacts RSum LayerFacts LayerReal GradSpec Grad LossProofs LossReal LossCode OptSpec ModelSpec ModelProofs FitProofs FitFacts NetGradSpec NetGrad NetGradCode Converge ConvergeFit ConserveProofs.
Import ListNotations.
Open Scope R_scope.

(** The linear map with weights [W] and biases [B] takes every sample to its label. *)
Definition solves (n i o : nat) (X Y W B : rpm) : Prop :=
  forall a j, (a < n)%nat -> (j < o)%nat -> entry (paff n i o X W B) a j = entry Y a j.

(** ** Sums over batches *)
Lemma rsum_app n m g : rsum (n + m) g = rsum n g + rsum m (fun a => g (n + a)%nat).
Proof.
  induction m as [|m IH]; [rewrite Nat.add_0_r, rsum_0; lra|]. rewrite Nat.add_succ_r, !rsum_S, IH. lra.
Qed.
Lemma entry_app_l (A B : rpm) a j : (a < length A)%nat -> entry (A ++ B) a j = entry A a j.
Proof. intros H. unfold entry. now rewrite app_nth1. Qed.
Lemma entry_app_r (A B : rpm) a j : entry (A ++ B) (length A + a) j = entry B a j.
Proof. unfold entry. rewrite app_nth2 by lia. do 2 f_equal. lia. Qed.
Lemma sqnorm_app i (A B : rpm) : sqnorm (length (A ++ B)) i (A ++ B) = sqnorm (length A) i A + sqnorm (length B) i B.
Proof.
  unfold sqnorm. rewrite app_length, rsum_app. f_equal; apply rsum_ext; intros a Ha; apply rsum_ext; intros j Hj; [now rewrite entry_app_l|now rewrite entry_app_r].
Qed.

Section Steps.
Variables (i o : nat) (lr : R) (v : rpm * rpm).
Hypothesis Ho : (1 <= o)%nat.
Hypothesis Hlr : 0 < lr.
Notation batch := (rpm * rpm)%type.
Definition fb (b : batch) (w : rpm * rpm) : R := obj (length (fst b)) i o (fst b) (msePhi (length (fst b)) o (snd b)) w.
Definition gb (b : batch) (w : rpm * rpm) : rpm * rpm := gd (length (fst b)) i o (fst b) (mseGr (length (fst b)) o (snd b)) lr w.
Definition okb (b : batch) : Prop :=
  lr * (2 / INR o) * (sqnorm (length (fst b)) i (fst b) + INR (length (fst b))) <= 1 /\
  solves (length (fst b)) i o (fst b) (snd b) (fst v) (snd v).
Notation D := (dist i o).
Lemma INRo : 0 < INR o. Proof. apply lt_0_INR. lia. Qed.
Lemma two_o : 0 <= 2 / INR o. Proof. apply Rmult_le_pos; [lra|left; apply Rinv_0_lt_compat, INRo]. Qed.
Lemma fb_nonneg b w : 0 <= fb b w.
Proof.
  unfold fb, obj, msePhi. apply rsum_nonneg. intros a Ha. apply Rmult_le_pos; [|left; apply Rinv_0_lt_compat, INRo].
  apply rsum_nonneg. intros j Hj. apply pow2_ge_0.
Qed.
(** One step approaches every exact solution. *)
Lemma approach b w : okb b -> D (gb b w) v <= D w v - 2 * lr * (fb b w + fb b (gb b w)).
Proof.
  intros (HR & HS). set (r := length (fst b)) in *. set (X := fst b) in *. set (Y := snd b) in *.
  pose proof (step_falls r i o X (msePhi r o Y) (mseGr r o Y) (2 / INR o) lr (mse_smooth r o Y Ho) Hlr HR two_o w) as H1.
  pose proof (mse_expand r o Y Ho (paff r i o X (fst w) (snd w)) (paff r i o X (fst v) (snd v))) as H2. rewrite inner_delta in H2.
  assert (E0 : msePhi r o Y (paff r i o X (fst v) (snd v)) = 0).
  { unfold msePhi. rewrite (rsum_ext _ _ (fun _ => 0)); [apply rsum_zero|]. intros a Ha. rewrite (rsum_ext _ _ (fun _ => 0)); [rewrite rsum_zero; unfold Rdiv; ring|].
    intros j Hj. rewrite HS by assumption. ring. }
  assert (E1 : 2 / INR o / 2 * sqnorm r o (delta r o (paff r i o X (fst w) (snd w)) (paff r i o X (fst v) (snd v))) = msePhi r o Y (paff r i o X (fst w) (snd w))).
  { unfold msePhi, sqnorm. rewrite <- rsum_scal. apply rsum_ext. intros a Ha. rewrite <- rsum_scal, <- rsum_div. apply rsum_ext. intros j Hj.
    unfold delta. rewrite entry_mk by assumption. rewrite HS by assumption. cbn [F RNum]. pose proof INRo. field. lra. }
  rewrite E0, E1 in H2. unfold gb, fb. fold X Y; fold r. unfold dist. unfold gd at 1 2. cbn [fst snd]. rewrite !sqdist_step.
  unfold gnorm in H1. unfold obj in H1 |- *.
  set (I1 := inner i o _ _) in *. set (I2 := inner 1 o _ _) in *. set (f := msePhi r o Y (paff r i o X (fst w) (snd w))) in *.
  set (f' := msePhi r o Y (paff r i o X (fst (gd r i o X (mseGr r o Y) lr w)) (snd (gd r i o X (mseGr r o Y) lr w)))) in *.
  set (g1 := sqnorm i o _) in *. set (g2 := sqnorm 1 o _) in *.
  assert (E : I1 + I2 = -2 * f) by lra.
  replace (sqdist i o (fst w) (fst v) + 2 * lr * I1 + lr ^ 2 * g1 + (sqdist 1 o (snd w) (snd v) + 2 * lr * I2 + lr ^ 2 * g2))
    with (sqdist i o (fst w) (fst v) + sqdist 1 o (snd w) (snd v) + 2 * lr * (I1 + I2) + 2 * lr * (lr / 2 * (g1 + g2))) by field.
  rewrite E. assert (2 * lr * (lr / 2 * (g1 + g2)) <= 2 * lr * (f - f')). { apply Rmult_le_compat_l; [lra|]. clearbody f f' g1 g2. clear - H1. lra. } clearbody I1 I2 f f' g1 g2. lra.
Qed.
(** ... and moves no further than it approaches. *)
Lemma sqdist_self r c P Q : sqdist r c (mk (K := RNum) r c (fun a j => entry P a j - lr * entry Q a j)) P = lr ^ 2 * sqnorm r c Q.
Proof.
  unfold sqdist, sqnorm. rewrite <- rsum_scal. apply rsum_ext. intros a Ha. rewrite <- rsum_scal. apply rsum_ext. intros j Hj. rewrite entry_mk by assumption. cbn [F RNum]. ring.
Qed.
Lemma move b w : okb b -> D (gb b w) w <= 2 * lr * fb b w.
Proof.
  intros (HR & HS). set (r := length (fst b)) in *. set (X := fst b) in *. set (Y := snd b) in *.
  pose proof (step_falls r i o X (msePhi r o Y) (mseGr r o Y) (2 / INR o) lr (mse_smooth r o Y Ho) Hlr HR two_o w) as H1.
  unfold gb. fold X Y; fold r. unfold dist. unfold gd at 1 2. cbn [fst snd]. rewrite !sqdist_self. unfold gnorm in H1. unfold fb. fold X Y; fold r.
  pose proof (fb_nonneg b (gb b w)) as H0. unfold fb, gb in H0. fold X Y in H0; fold r in H0.
  replace (lr ^ 2 * sqnorm i o (dw r i o X (mseGr r o Y) w) + lr ^ 2 * sqnorm 1 o (db r i o X (mseGr r o Y) w))
    with (2 * lr * (lr / 2 * (sqnorm i o (dw r i o X (mseGr r o Y) w) + sqnorm 1 o (db r i o X (mseGr r o Y) w)))) by field.
  apply Rmult_le_compat_l; lra.
Qed.
(** The objective at one point and at another. *)
Lemma sq2 a b : (a + b) ^ 2 <= 2 * a ^ 2 + 2 * b ^ 2. Proof. pose proof (pow2_ge_0 (a - b)). nra. Qed.
Lemma elsewhere b w e : okb b -> fb b e <= 2 * fb b w + / lr * D e w.
Proof.
  intros (HR & _). set (r := length (fst b)) in *. set (X := fst b) in *. set (Y := snd b) in *. unfold fb, obj. fold X Y; fold r.
  set (Zw := paff r i o X (fst w) (snd w)). set (Ze := paff r i o X (fst e) (snd e)). pose proof INRo as Hi.
  assert (H1 : msePhi r o Y Ze <= 2 * msePhi r o Y Zw + 2 / INR o * sqnorm r o (delta r o Zw Ze)).
  { unfold msePhi, sqnorm. rewrite <- !rsum_scal, <- rsum_plus. apply rsum_le. intros a Ha. rewrite <- !rsum_div, <- !rsum_scal, <- rsum_plus. apply rsum_le. intros j Hj.
    unfold delta. rewrite entry_mk by assumption. set (p := entry Zw a j). set (q := entry Ze a j). set (y := entry Y a j). change (F RNum) with R in *.
    pose proof (sq2 (p - y) (q - p)) as S. replace (p - y + (q - p)) with (q - y) in S by ring.
    replace (2 * ((p - y) ^ 2 / INR o) + 2 / INR o * (q - p) ^ 2) with ((2 * (p - y) ^ 2 + 2 * (q - p) ^ 2) * / INR o) by (field; lra).
    apply Rmult_le_compat_r; [left; apply Rinv_0_lt_compat, Hi|exact S]. }
  eapply Rle_trans; [exact H1|]. apply Rplus_le_compat_l.
  assert (H2 : sqnorm r o (delta r o Zw Ze) <= (sqnorm r i X + INR r) * D e w).
  { rewrite (sqnorm_ext r o _ (paff r i o X (mk (K := RNum) i o (fun a j => entry (fst e) a j - entry (fst w) a j)) (mk (K := RNum) 1 o (fun a j => entry (snd e) a j - entry (snd w) a j)))) by (intros a j Ha Hj; apply delta_aff; assumption).
    eapply Rle_trans; [apply affine_bound|]. apply Req_le. f_equal. unfold dist, sqnorm, sqdist. f_equal; apply rsum_ext; intros a Ha; apply rsum_ext; intros j Hj; now rewrite entry_mk by assumption. }
  pose proof (dist_nonneg i o e w) as HD. pose proof two_o as H2o.
  apply Rle_trans with (2 / INR o * ((sqnorm r i X + INR r) * D e w)); [apply Rmult_le_compat_l; assumption|].
  rewrite <- Rmult_assoc. apply Rmult_le_compat_r; [exact HD|]. apply (Rmult_le_reg_l lr); [exact Hlr|]. rewrite Rinv_r by lra. rewrite <- Rmult_assoc. exact HR.
Qed.

(** ** One epoch *)
Definition run (bs : list batch) (w : rpm * rpm) : rpm * rpm := fold_left (fun w b => gb b w) bs w.
Definition total (bs : list batch) (w : rpm * rpm) : R := fold_right (fun b s => fb b w + s) 0 bs.
Lemma run_approach bs : List.Forall okb bs -> forall w, D (run bs w) v <= D w v.
Proof.
  induction bs as [|b bs IH]; intros H w; [apply Rle_refl|]. inversion H; subst. cbn [run fold_left]. fold (run bs (gb b w)).
  eapply Rle_trans; [apply IH; assumption|]. pose proof (approach b w H2). pose proof (fb_nonneg b w). pose proof (fb_nonneg b (gb b w)).
  assert (0 <= 2 * lr * (fb b w + fb b (gb b w))) by (apply Rmult_le_pos; lra). lra.
Qed.
Lemma sq_mix n a b : 0 < n -> n * (a + b) ^ 2 <= n * (1 + n) * a ^ 2 + (1 + n) * b ^ 2.
Proof. intros H. pose proof (pow2_ge_0 (n * a - b)). nra. Qed.
Lemma sqdist_mix r c n A B C : 0 < n -> n * sqdist r c A C <= n * (1 + n) * sqdist r c B C + (1 + n) * sqdist r c A B.
Proof.
  intros H. unfold sqdist. rewrite <- !rsum_scal, <- rsum_plus. apply rsum_le. intros a Ha. rewrite <- !rsum_scal, <- rsum_plus. apply rsum_le. intros j Hj.
  pose proof (sq_mix n (entry B a j - entry C a j) (entry A a j - entry B a j) H) as S. change (F RNum) with R in *.
  replace (entry B a j - entry C a j + (entry A a j - entry B a j)) with (entry A a j - entry C a j) in S by ring. exact S.
Qed.
Lemma dist_refl w : D w w = 0.
Proof.
  unfold dist, sqdist. rewrite (rsum_ext i _ (fun _ => 0)), (rsum_ext 1 _ (fun _ => 0)), !rsum_zero; [ring| |]; intros a Ha; (rewrite (rsum_ext o _ (fun _ => 0)); [apply rsum_zero|intros j Hj; ring]).
Qed.
Lemma run_move bs : List.Forall okb bs -> forall w, D (run bs w) w <= INR (length bs) * (D w v - D (run bs w) v).
Proof.
  induction bs as [|b bs IH]; intros H w; [cbn [run fold_left length INR]; rewrite dist_refl; lra|]. inversion H; subst. cbn [run fold_left]. fold (run bs (gb b w)).
  set (w1 := gb b w). set (e := run bs w1). specialize (IH H3 w1). fold e in IH. pose proof (approach b w H2) as A. pose proof (move b w H2) as M. fold w1 in A, M.
  pose proof (fb_nonneg b w1) as F1. pose proof (run_approach bs H3 w1) as R1. fold e in R1.
  assert (M2 : D w1 w <= D w v - D w1 v). { assert (0 <= 2 * lr * fb b w1) by (apply Rmult_le_pos; lra). lra. }
  replace (INR (length (b :: bs))) with (1 + INR (length bs)) by (cbn [length]; rewrite S_INR; ring).
  destruct bs as [|b2 bs'].
  - subst e. cbn [run fold_left length INR] in *. rewrite Rplus_0_r, Rmult_1_l. exact M2.
  - set (n := INR (length (b2 :: bs'))) in *. assert (Hn : 0 < n) by (apply lt_0_INR; simpl; lia).
    assert (X : n * D e w <= n * (1 + n) * D w1 w + (1 + n) * D e w1).
    { unfold dist. pose proof (sqdist_mix i o n (fst e) (fst w1) (fst w) Hn). pose proof (sqdist_mix 1 o n (snd e) (snd w1) (snd w) Hn). lra. }
    apply (Rmult_le_reg_l n); [exact Hn|]. eapply Rle_trans; [exact X|].
    assert (n * (1 + n) * D w1 w <= n * (1 + n) * (D w v - D w1 v)) by (apply Rmult_le_compat_l; [apply Rmult_le_pos; lra|exact M2]).
    assert ((1 + n) * D e w1 <= (1 + n) * (n * (D w1 v - D e v))) by (apply Rmult_le_compat_l; [lra|exact IH]).
    lra.
Qed.
Lemma run_total bs : List.Forall okb bs -> forall w, total bs (run bs w) <= / lr * INR (length bs) ^ 2 * (D w v - D (run bs w) v).
Proof.
  induction bs as [|b bs IH]; intros H w; [simpl; lra|]. inversion H; subst. cbn [run fold_left]. fold (run bs (gb b w)). cbn [total fold_right]. fold (total bs (run bs (gb b w))).
  set (w1 := gb b w). set (e := run bs w1). specialize (IH H3 w1). fold e in IH.
  pose proof (approach b w H2) as A. fold w1 in A. pose proof (fb_nonneg b w) as F0. pose proof (fb_nonneg b w1) as F1. pose proof (run_approach bs H3 w1) as R1. fold e in R1.
  pose proof (run_move bs H3 w1) as M. fold e in M. pose proof (elsewhere b w1 e H2) as E.
  replace (INR (length (b :: bs))) with (1 + INR (length bs)) by (cbn [length]; rewrite S_INR; ring).
  set (n := INR (length bs)) in *. assert (Hn : 0 <= n) by apply pos_INR. assert (Hil : 0 < / lr) by (apply Rinv_0_lt_compat; exact Hlr).
  assert (A2 : 0 <= 2 * lr * fb b w) by (apply Rmult_le_pos; lra).
  assert (A3 : 2 * fb b w1 <= / lr * (D w v - D w1 v)).
  { apply (Rmult_le_reg_l lr); [exact Hlr|]. rewrite <- (Rmult_assoc lr (/ lr)), Rinv_r by lra. lra. }
  assert (A4 : / lr * D e w1 <= / lr * (n * (D w1 v - D e v))) by (apply Rmult_le_compat_l; lra).
  set (d1 := D w v - D w1 v) in *. set (d2 := D w1 v - D e v) in *. replace (D w v - D e v) with (d1 + d2) by (unfold d1, d2; ring).
  assert (Hd2 : 0 <= d2) by (unfold d2; lra). assert (Hd1 : 0 <= d1). { unfold d1. assert (0 <= 2 * lr * fb b w1) by (apply Rmult_le_pos; lra). lra. }
  apply Rle_trans with (/ lr * (d1 + n * d2 + n ^ 2 * d2)); [lra|]. rewrite (Rmult_assoc (/ lr)). apply Rmult_le_compat_l; [lra|].
  assert (0 <= n * d1) by (apply Rmult_le_pos; lra). assert (0 <= n * d2) by (apply Rmult_le_pos; lra). assert (0 <= n * (n * d1)) by (apply Rmult_le_pos; lra). nra.
Qed.
End Steps.

(** ** Epochs *)
Section Epochs.
Variables (i o : nat) (lr : R) (bs : list (rpm * rpm)) (v : rpm * rpm).
Hypothesis Ho : (1 <= o)%nat.
Hypothesis Hlr : 0 < lr.
Hypothesis Hok : List.Forall (okb i o lr v) bs.
Notation D := (dist i o).
Definition after (w : rpm * rpm) (n : nat) : rpm * rpm := Nat.iter n (run i o lr bs) w.
Lemma after_approach w n : D (after w n) v <= D w v.
Proof. induction n as [|n IH]; [apply Rle_refl|]. cbn [after Nat.iter]. eapply Rle_trans; [apply run_approach; assumption|exact IH]. Qed.
Definition C : R := / lr * INR (length bs) ^ 2.
Lemma C_nonneg : 0 <= C.
Proof. apply Rmult_le_pos; [left; apply Rinv_0_lt_compat; exact Hlr|apply pow2_ge_0]. Qed.
Lemma total_nonneg l w : 0 <= total i o l w.
Proof. induction l as [|b l IH]; cbn [total fold_right]; [lra|]. fold (total i o l w). pose proof (fb_nonneg i o Ho b w). lra. Qed.
Lemma after_total w n : total i o bs (after w (S n)) <= C * (D (after w n) v - D (after w (S n)) v).
Proof. cbn [after Nat.iter]. apply (run_total i o lr v Ho Hlr bs Hok). Qed.
(** Some epoch among the first n ends with a small objective. *)
Lemma small_objective w n : (1 <= n)%nat -> exists t, (1 <= t <= n)%nat /\ total i o bs (after w t) <= C * D w v / INR n.
Proof.
  intros Hn. assert (Hp : 0 < INR n) by (apply lt_0_INR; lia).
  assert (H : forall c, (forall t, (1 <= t <= n)%nat -> c < total i o bs (after w t)) -> forall m, (m <= n)%nat -> INR m * c <= C * (D w v - D (after w m) v)).
  { intros c Hc. induction m as [|m IH]; intros Hm; [cbn [after Nat.iter INR]; rewrite Rminus_eq_0; lra|].
    rewrite S_INR. specialize (IH ltac:(lia)). pose proof (after_total w m) as A. specialize (Hc (S m) ltac:(lia)). lra. }
  set (c := C * D w v / INR n). destruct (Classical_Prop.classic (exists t, (1 <= t <= n)%nat /\ total i o bs (after w t) <= c)) as [E|N]; [exact E|exfalso].
  assert (Hc : forall t, (1 <= t <= n)%nat -> c < total i o bs (after w t)).
  { intros t Ht. apply Rnot_le_lt. intros HC. apply N. exists t. split; assumption. }
  (* strict: the last epoch gives a strict inequality *)
  destruct n as [|m]; [lia|]. pose proof (H c Hc m ltac:(lia)) as H1. pose proof (after_total w m) as A. pose proof (Hc (S m) ltac:(lia)) as H2.
  assert (HD : 0 <= C * D (after w (S m)) v) by (apply Rmult_le_pos; [apply C_nonneg|apply dist_nonneg]).
  assert (E : c * INR (S m) = C * D w v) by (unfold c; field; lra). rewrite S_INR in E. lra.
Qed.
Lemma objective_vanishes w eps : 0 < eps -> exists N, forall n, (N <= n)%nat -> total i o bs (after w n) < eps.
Proof.
  intros He.
  assert (L : ex_finite_lim_seq (fun n => D (after w n) v)).
  { apply (ex_finite_lim_seq_decr _ 0); [|intros n; apply dist_nonneg]. intros n. cbn [after Nat.iter]. apply run_approach; assumption. }
  destruct L as (l & L). pose proof C_nonneg as HC.
  assert (He2 : 0 < eps / (2 * (C + 1))) by (apply Rdiv_lt_0_compat; lra).
  apply is_lim_seq_spec in L. destruct (L (mkposreal _ He2)) as (N & HN). cbn [pos] in HN. exists (S N). intros n Hn. destruct n as [|n]; [lia|].
  pose proof (HN n ltac:(lia)) as A1. pose proof (HN (S n) ltac:(lia)) as A2. apply Rabs_def2 in A1, A2.
  eapply Rle_lt_trans; [apply after_total|].
  assert (B : D (after w n) v - D (after w (S n)) v < eps / (C + 1)).
  { replace (eps / (C + 1)) with (eps / (2 * (C + 1)) + eps / (2 * (C + 1))) by (field; lra). lra. }
  assert (B0 : 0 < eps / (C + 1)) by (apply Rdiv_lt_0_compat; lra).
  apply Rle_lt_trans with (C * (eps / (C + 1))); [apply Rmult_le_compat_l; lra|].
  apply Rlt_le_trans with ((C + 1) * (eps / (C + 1))); [lra|]. apply Req_le. field. lra.
Qed.
End Epochs.
