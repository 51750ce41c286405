(** * LossReal: the losses in exact arithmetic. *)
From Coq Require Import String ZArith List Bool Arith Lia Reals Lra.
From Coquelicot Require Import Coquelicot.
From Verif Require Import Num NumR Heap Matrix Loss Spec PureSpec Repr RSum HeapLemmas MatrixFacts MiscFacts LayerReal LossProofs GradSpec Grad.
Import ListNotations.
Open Scope R_scope.

Lemma R_Zofnat n : IZR (Z.of_nat n) = INR n.
Proof. symmetry. apply INR_IZR_INZ. Qed.
Lemma INR_pos n : (1 <= n)%nat -> 0 < INR n.
Proof. intros H. apply lt_0_INR. lia. Qed.
Lemma R_csum r c (g : nat -> nat -> R) : csum (K := RNum) r c g = rsum r (fun i => rsum c (g i)).
Proof.
  unfold csum.
  assert (H : forall (f : nat -> R) l a, fold_left (fun s j => s + f j) l a = a + fold_left (fun s j => s + f j) l 0).
  { intros f l. induction l as [|x l IH]; intros a; simpl; [lra|]. rewrite (IH (a + f x)), (IH (0 + f x)). lra. }
  assert (E : forall n a, fold_left (fun s i => fold_left (fun s j => s + g i j) (seq 0 c) s) (seq 0 n) a = a + rsum n (fun i => rsum c (g i))).
  { induction n as [|n IH]; intros a; [rewrite rsum_0; simpl; lra|].
    rewrite seq_S, fold_left_app. simpl. rewrite IH, H, rsum_S.
    change (fold_left (fun s j => s + g n j) (seq 0 c) 0) with (rsum c (g n)). lra. }
  change (fold_left (fun s i => fold_left (fun s j => s + g i j) (seq 0 c) s) (seq 0 r) 0 = rsum r (fun i => rsum c (g i))).
  rewrite E. lra.
Qed.
Lemma R_pow2 (x : R) : fpow (n := RNum) x (ofZ (n := RNum) 2) = x ^ 2.
Proof. change (r_pow x (IZR 2) = x ^ 2). rewrite r_pow_Z. reflexivity. Qed.

(** ** Values *)
Lemma R_pmse c (Yh Y : rpm) : pmse c Yh Y = rsum c (fun j => (entry Yh 0 j - entry Y 0 j) ^ 2) / INR c.
Proof.
  unfold pmse. change (rsum c (fun j => fpow (n := RNum) (entry Yh 0 j - entry Y 0 j) (ofZ (n := RNum) 2)) / IZR (Z.of_nat c) = rsum c (fun j => (entry Yh 0 j - entry Y 0 j) ^ 2) / INR c).
  rewrite R_Zofnat. f_equal. apply rsum_ext. intros. apply R_pow2.
Qed.
Lemma R_pmae c (Yh Y : rpm) : pmae c Yh Y = rsum c (fun j => Rabs (entry Yh 0 j - entry Y 0 j)) / INR c.
Proof.
  unfold pmae. change (rsum c (fun j => Rabs (entry Yh 0 j - entry Y 0 j)) / IZR (Z.of_nat c) = rsum c (fun j => Rabs (entry Yh 0 j - entry Y 0 j)) / INR c).
  now rewrite R_Zofnat.
Qed.
Definition clipR (x : R) : R := clip1 (K := RNum) x.
Lemma R_pce r c (Yh Y : rpm) : pce r c Yh Y = rsum r (fun i => - ln (rsum c (fun j => clipR (entry Yh i j) * entry Y i j)) / INR r).
Proof. rewrite <- R_Zofnat. reflexivity. Qed.
Lemma R_pbce r c (Yh Y : rpm) : pbce r c Yh Y = rsum r (fun i => rsum c (fun j =>
  - (entry Y i j * ln (clipR (entry Yh i j)) + (1 - entry Y i j) * ln (1 - clipR (entry Yh i j))) / INR r / INR c)).
Proof. unfold pbce. rewrite R_csum, <- !R_Zofnat. reflexivity. Qed.

(** ** Signs *)
Lemma clipR_id x : 0 <= x <= 1 -> clipR x = x.
Proof. apply R_clip. Qed.
Lemma clipR_range x : 0 <= clipR x <= 1.
Proof.
  destruct (R_clip x) as (H1 & H2 & H3). unfold clipR. destruct (Rlt_dec x 0); [rewrite H1 by auto; lra|].
  destruct (Rlt_dec 1 x); [rewrite H2 by auto; lra|]. rewrite H3 by lra. lra.
Qed.
Lemma clipR_pos x : x <> 0 -> 0 < clipR x.
Proof.
  intros H. destruct (R_clip x) as (H1 & H2 & H3). unfold clipR. destruct (Rlt_dec x 0); [rewrite H1 by auto; lra|].
  destruct (Rlt_dec 1 x); [rewrite H2 by auto; lra|]. rewrite H3 by lra. lra.
Qed.
Lemma clipR_lt1 x : x <> 1 -> clipR x < 1.
Proof.
  intros H. destruct (R_clip x) as (H1 & H2 & H3). unfold clipR. destruct (Rlt_dec x 0); [rewrite H1 by auto; lra|].
  destruct (Rlt_dec 1 x); [rewrite H2 by auto; lra|]. rewrite H3 by lra. lra.
Qed.
Lemma ln_le_0 x : 0 < x <= 1 -> ln x <= 0.
Proof. intros [H1 H2]. rewrite <- ln_1. destruct H2 as [H2| ->]; [left; now apply ln_increasing|lra]. Qed.
Lemma onehot_dot c (y : nat -> R) (lab : nat) (g : nat -> R) : (lab < c)%nat -> (forall j, (j < c)%nat -> y j = if (lab =? j)%nat then 1 else 0) ->
  rsum c (fun j => g j * y j) = g lab.
Proof.
  intros Hl Hy. rewrite (rsum_ext c _ (fun j => if (lab =? j)%nat then g j else 0)); [now apply rsum_delta|].
  intros j Hj. rewrite Hy by auto. destruct (lab =? j)%nat; ring.
Qed.
Lemma div_nonneg a b : 0 <= a -> 0 < b -> 0 <= a / b.
Proof. intros Ha Hb. unfold Rdiv. apply Rmult_le_pos; [auto|]. left. now apply Rinv_0_lt_compat. Qed.
Lemma mse_nonneg c (Yh Y : rpm) : (1 <= c)%nat -> 0 <= pmse c Yh Y /\
  (pmse c Yh Y = 0 <-> forall j, (j < c)%nat -> entry Yh 0 j = entry Y 0 j).
Proof.
  intros Hc. rewrite R_pmse. pose proof (INR_pos c Hc). set (f := fun j => (entry Yh 0 j - entry Y 0 j) ^ 2).
  assert (Hf : forall j, (j < c)%nat -> 0 <= f j) by (intros j _; unfold f; apply pow2_ge_0).
  pose proof (rsum_nonneg c f Hf). split; [apply div_nonneg; auto|]. split.
  - intros E j Hj. assert (E0 : rsum c f = 0). { apply Rmult_eq_reg_r with (/ INR c); [|apply Rinv_neq_0_compat; lra]. change (rsum c f / INR c = 0 * / INR c). rewrite Rmult_0_l. exact E. }
    pose proof (rsum_zero_inv c f Hf E0 j Hj) as Ej. unfold f in Ej.
    assert (entry Yh 0 j - entry Y 0 j = 0); [|lra]. apply Rsqr_eq_0. unfold Rsqr. rewrite <- Ej. ring.
  - intros E. rewrite (rsum_ext c f (fun _ => 0)); [rewrite rsum_zero; toR; unfold Rdiv; ring|].
    intros j Hj. unfold f. rewrite E by auto. ring.
Qed.
Lemma mae_nonneg c (Yh Y : rpm) : (1 <= c)%nat -> 0 <= pmae c Yh Y /\
  (pmae c Yh Y = 0 <-> forall j, (j < c)%nat -> entry Yh 0 j = entry Y 0 j).
Proof.
  intros Hc. rewrite R_pmae. pose proof (INR_pos c Hc). set (f := fun j => Rabs (entry Yh 0 j - entry Y 0 j)).
  assert (Hf : forall j, (j < c)%nat -> 0 <= f j) by (intros j _; unfold f; apply Rabs_pos).
  pose proof (rsum_nonneg c f Hf). split; [apply div_nonneg; auto|]. split.
  - intros E j Hj. assert (E0 : rsum c f = 0). { apply Rmult_eq_reg_r with (/ INR c); [|apply Rinv_neq_0_compat; lra]. change (rsum c f / INR c = 0 * / INR c). rewrite Rmult_0_l. exact E. }
    pose proof (rsum_zero_inv c f Hf E0 j Hj) as Ej. unfold f in Ej.
    assert (entry Yh 0 j - entry Y 0 j = 0); [|lra]. destruct (Req_dec (entry Yh 0 j - entry Y 0 j) 0) as [H1|H1]; [exact H1|].
    apply Rabs_no_R0 in H1. contradiction.
  - intros E. rewrite (rsum_ext c f (fun _ => 0)); [rewrite rsum_zero; toR; unfold Rdiv; ring|].
    intros j Hj. unfold f. rewrite E by auto. rewrite Rminus_eq_0. apply Rabs_R0.
Qed.
Lemma ce_nonneg r c (Yh Y : rpm) : (1 <= r)%nat -> one_hot r c Y -> (forall i j, (i < r)%nat -> (j < c)%nat -> entry Yh i j <> 0) -> 0 <= pce r c Yh Y.
Proof.
  intros Hr (lab & Hlab) Hz. rewrite R_pce. apply rsum_nonneg. intros i Hi. apply div_nonneg; [|now apply INR_pos].
  destruct (Hlab i Hi) as (Hl & HY). rewrite (onehot_dot c (fun j => entry Y i j) (lab i) (fun j => clipR (entry Yh i j)) Hl HY).
  assert (ln (clipR (entry Yh i (lab i))) <= 0); [|lra]. apply ln_le_0. split; [apply clipR_pos, Hz; auto|apply clipR_range].
Qed.
Lemma bce_nonneg r c (Yh Y : rpm) : (1 <= r)%nat -> (1 <= c)%nat ->
  (forall i j, (i < r)%nat -> (j < c)%nat -> entry Yh i j <> 0 /\ entry Yh i j <> 1) ->
  (forall i j, (i < r)%nat -> (j < c)%nat -> 0 <= entry Y i j <= 1) -> 0 <= pbce r c Yh Y.
Proof.
  intros Hr Hc Hz HY. rewrite R_pbce. apply rsum_nonneg. intros i Hi. apply rsum_nonneg. intros j Hj.
  apply div_nonneg; [|now apply INR_pos]. apply div_nonneg; [|now apply INR_pos].
  destruct (Hz i j Hi Hj) as [H0 H1]. pose proof (clipR_pos _ H0). pose proof (clipR_lt1 _ H1). specialize (HY i j Hi Hj).
  assert (ln (clipR (entry Yh i j)) <= 0) by (apply ln_le_0; lra).
  assert (ln (1 - clipR (entry Yh i j)) <= 0) by (apply ln_le_0; lra).
  set (a := ln (clipR (entry Yh i j))) in *. set (b := ln (1 - clipR (entry Yh i j))) in *. set (y := entry Y i j : R) in *.
  assert (y * a <= 0) by nra. assert ((1 - y) * b <= 0) by nra. lra.
Qed.

(** ** Gradients *)
Lemma d_ln (f : R -> R) (x a : R) : 0 < f x -> is_derive f x a -> is_derive (fun t => ln (f t)) x (/ f x * a).
Proof. intros Hf Hd. apply (d_comp ln); [|exact Hd]. exact (is_derive_ln _ Hf). Qed.
Lemma d_clip x : 0 < x < 1 -> is_derive clipR x 1.
Proof.
  intros Hx. apply (is_derive_ext_loc (fun t => t)); [|exact (is_derive_id x)].
  set (e := Rmin x (1 - x)). assert (He : 0 < e) by (unfold e; apply Rmin_glb_lt; lra).
  exists (mkposreal e He). intros y Hy. unfold ball in Hy. simpl in Hy. unfold AbsRing_ball, abs, minus, plus, opp in Hy. simpl in Hy.
  apply Rabs_def2 in Hy. pose proof (Rmin_l x (1 - x)). pose proof (Rmin_r x (1 - x)). fold e in H, H0. symmetry. apply clipR_id. lra.
Qed.
Lemma d_div (f : R -> R) (x a k : R) : is_derive f x a -> is_derive (fun t => f t / k) x (a / k).
Proof. intros H. unfold Rdiv. now apply d_scal_r. Qed.
Definition row_mse_sum (r c : nat) (Y Yh : rpm) : R := rsum r (fun i => rsum c (fun j => (entry Yh i j - entry Y i j) ^ 2) / INR c).
Lemma mse_grad r c (Yh Y : rpm) : (1 <= c)%nat -> is_grad r c (row_mse_sum r c Y) Yh (pmse_back r c Yh Y).
Proof.
  intros Hc Ac A' H0 HD. unfold row_mse_sum, inner. pose proof (INR_pos c Hc).
  apply (d_rsum r (fun i t => rsum c (fun j => (entry (Ac t) i j - entry Y i j) ^ 2) / INR c)). intros i Hi.
  eapply d_eq; [|apply d_div; apply (d_rsum c (fun j t => (entry (Ac t) i j - entry Y i j) ^ 2) 0 (fun j => 2 * (entry Yh i j - entry Y i j) * entry A' i j))].
  - rewrite <- rsum_div. apply rsum_ext. intros j Hj. unfold pmse_back. rewrite entry_mk by auto.
    cbn [fmul fsub fdiv ofZ RNum]. rewrite R_Zofnat. toR. field. lra.
  - intros j Hj. apply (d_ext (fun t => (entry (Ac t) i j - entry Y i j) * (entry (Ac t) i j - entry Y i j))). { intros t. ring. }
    eapply d_eq; [|apply d_mult; apply d_minus; [apply HD; auto|apply d_const|apply HD; auto|apply d_const]].
    cbv beta. rewrite H0. toR. ring.
Qed.
Lemma ce_grad r c (Yh Y : rpm) : (1 <= r)%nat -> one_hot r c Y -> in01 r c Yh -> is_grad r c (fun A => pce r c A Y) Yh (pce_loss_back r c Yh Y).
Proof.
  intros Hr (lab & Hlab) H01 Ac A' H0 HD. unfold inner. pose proof (INR_pos r Hr).
  apply (d_ext (fun t => rsum r (fun i => - ln (rsum c (fun j => clipR (entry (Ac t) i j) * entry Y i j)) / INR r))). { intros t. now rewrite R_pce. }
  apply (d_rsum r (fun i t => - ln (rsum c (fun j => clipR (entry (Ac t) i j) * entry Y i j)) / INR r)). intros i Hi.
  destruct (Hlab i Hi) as (Hl & HY). pose proof (H01 i _ Hi Hl) as Hp.
  apply (d_ext (fun t => - ln (clipR (entry (Ac t) i (lab i))) / INR r)).
  { intros t. now rewrite (onehot_dot c (fun j => entry Y i j) (lab i) (fun j => clipR (entry (Ac t) i j)) Hl HY). }
  assert (E : entry (Ac 0) i (lab i) = entry Yh i (lab i)) by now rewrite H0.
  assert (Ec : clipR (entry (Ac 0) i (lab i)) = entry Yh i (lab i)) by (rewrite E; apply clipR_id; lra).
  eapply d_eq; [|apply d_div, d_opp; apply (d_ln (fun t => clipR (entry (Ac t) i (lab i)))); [rewrite Ec; lra|]].
  2:{ apply (d_comp clipR (fun t => entry (Ac t) i (lab i))); [rewrite E; now apply d_clip|apply HD; auto]. }
  rewrite Ec.
  rewrite (rsum_ext c _ (fun j => - (entry A' i j / entry Yh i j) / INR r * entry Y i j)).
  - rewrite (onehot_dot c (fun j => entry Y i j) (lab i) (fun j => - (entry A' i j / entry Yh i j) / INR r) Hl HY). toR. field. lra.
  - intros j Hj. unfold pce_loss_back. rewrite entry_mk by auto. cbn [fdiv fneg ofZ RNum]. rewrite R_Zofnat. pose proof (H01 i j Hi Hj).
    toR. field. lra.
Qed.
Lemma bce_grad r c (Yh Y : rpm) : (1 <= r)%nat -> (1 <= c)%nat -> in01 r c Yh -> is_grad r c (fun A => pbce r c A Y) Yh (pbce_back r c Yh Y).
Proof.
  intros Hr Hc H01 Ac A' H0 HD. unfold inner. pose proof (INR_pos r Hr). pose proof (INR_pos c Hc).
  set (F := fun i j t => - (entry Y i j * ln (clipR (entry (Ac t) i j)) + (1 - entry Y i j) * ln (1 - clipR (entry (Ac t) i j))) / INR r / INR c).
  apply (d_ext (fun t => rsum r (fun i => rsum c (fun j => F i j t)))). { intros t. now rewrite R_pbce. }
  apply (d_rsum r (fun i t => rsum c (fun j => F i j t))). intros i Hi. apply (d_rsum c (fun j t => F i j t)). intros j Hj.
  pose proof (H01 i j Hi Hj) as Hp. unfold F.
  assert (E : entry (Ac 0) i j = entry Yh i j) by now rewrite H0.
  assert (Ec : clipR (entry (Ac 0) i j) = entry Yh i j) by (rewrite E; apply clipR_id; lra).
  assert (DC : is_derive (fun t => clipR (entry (Ac t) i j)) 0 (1 * entry A' i j)).
  { apply (d_comp clipR (fun t => entry (Ac t) i j)); [rewrite E; now apply d_clip|apply HD; auto]. }
  eapply d_eq; [|apply d_div, d_div, d_opp, d_plus; apply d_scal;
    [apply (d_ln (fun t => clipR (entry (Ac t) i j))); [rewrite Ec; lra|exact DC]
    |apply (d_ln (fun t => 1 - clipR (entry (Ac t) i j))); [rewrite Ec; lra|apply d_minus; [apply d_const|exact DC]]]].
  cbv beta. rewrite Ec. unfold pbce_back. rewrite entry_mk by auto. fold (clipR (entry Yh i j)). rewrite clipR_id by lra.
  unfold f1. cbn [fdiv fneg fsub ofZ RNum]. rewrite !R_Zofnat. toR. field. lra.
Qed.
(** MAE: with one column the sign, with more the zero matrix. *)
Definition sgn (x : R) : R := if Rlt_dec 0 x then 1 else if Rlt_dec x 0 then -1 else 0.
Lemma mae_back_one r (Yh Y : rpm) : pmae_back r 1 Yh Y = mk (K := RNum) r 1 (fun i j => sgn (entry Yh i j - entry Y i j)).
Proof.
  unfold pmae_back. apply mk_ext. intros i j Hi Hj. cbv zeta. unfold sgn, f0. cbn [flt fsub ofZ RNum]. unfold r_ltb.
  destruct (Rlt_dec 0 (entry Yh i j - entry Y i j)); [reflexivity|]. destruct (Rlt_dec (entry Yh i j - entry Y i j) 0); reflexivity.
Qed.
Lemma mae_back_zero {K : Num} r c (Yh Y : pm K) : (2 <= c)%nat -> pmae_back r c Yh Y = mk r c (fun _ _ => f0).
Proof.
  intros Hc. unfold pmae_back. apply mk_ext. intros i j Hi Hj. cbv zeta.
  assert (E1 : Z.quot 1 (Z.of_nat c) = 0%Z) by (apply Z.quot_small; lia).
  assert (E2 : Z.quot (-1) (Z.of_nat c) = 0%Z). { rewrite (Z.quot_opp_l 1) by lia. rewrite E1. reflexivity. }
  rewrite E1, E2. destruct (flt f0 _); [reflexivity|]. destruct (flt _ f0); reflexivity.
Qed.
