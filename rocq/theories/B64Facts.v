(** * B64Facts: facts about binary64 arithmetic used by the property files. *)
From Coq Require Import ZArith Reals Lra Lia Bool List.
From Flocq Require Import Core.Core IEEE754.BinarySingleNaN IEEE754.Binary IEEE754.Bits.
From Verif Require Import Num NumB64 Spec PureSpec.
Import ListNotations.

Notation fexp64 := (FLT_exp (-1074) 53).
Notation rnd := (round radix2 fexp64 ZnearestE).

Lemma rnd_mono x y : (x <= y)%R -> (rnd x <= rnd y)%R.
Proof. apply round_le; [apply (FLT_exp_valid (-1074) 53)|apply valid_rnd_N]. Qed.
Lemma rnd_Z (z : Z) : (Z.abs z <= 2 ^ 53)%Z -> rnd (IZR z) = IZR z.
Proof.
  intros Hz. destruct (ofZ_exact z Hz) as (_ & H & _). destruct (ofZ_round z) as (_ & G); [lia|]. congruence.
Qed.
Lemma rnd_0 : rnd 0 = 0%R.
Proof. apply round_0. apply valid_rnd_N. Qed.
Lemma rnd_1 : rnd 1 = 1%R.
Proof. apply (rnd_Z 1). simpl. lia. Qed.

Lemma b64_le_finite x y : b64_finite x = true -> b64_finite y = true -> (b64_R x <= b64_R y)%R -> b64_le x y = true.
Proof.
  intros Hx Hy H. apply b64_le_spec; try (apply finite_not_nan; auto). intros [G|[_ G]].
  - rewrite !finite_rank in G by auto. lia.
  - lra.
Qed.

(** a / b for integers 0 <= a <= b, b >= 1: between 0 and 1, and 1 for a = b. *)
Lemma b64_ratio (a b : Z) : (0 <= a <= b)%Z -> (1 <= b < 2 ^ 63)%Z ->
  let q := b64_div mode_NE (b64_ofZ a) (b64_ofZ b) in
  b64_finite q = true /\ b64_R q = rnd (b64_R (b64_ofZ a) / b64_R (b64_ofZ b)) /\ (0 <= b64_R q <= 1)%R.
Proof.
  intros Ha Hb q.
  destruct (ofZ_round a) as (Fa & Ra); [lia|]. destruct (ofZ_round b) as (Fb & Rb); [lia|].
  assert (B1 : (1 <= b64_R (b64_ofZ b))%R).
  { rewrite Rb, <- rnd_1. apply rnd_mono. apply IZR_le. lia. }
  assert (A0 : (0 <= b64_R (b64_ofZ a))%R).
  { rewrite Ra, <- rnd_0. apply rnd_mono. apply IZR_le. lia. }
  assert (AB : (b64_R (b64_ofZ a) <= b64_R (b64_ofZ b))%R).
  { rewrite Ra, Rb. apply rnd_mono. apply IZR_le. lia. }
  set (t := (b64_R (b64_ofZ a) / b64_R (b64_ofZ b))%R).
  assert (T0 : (0 <= t)%R) by (unfold t, Rdiv; apply Rmult_le_pos; [lra|left; apply Rinv_0_lt_compat; lra]).
  assert (T1 : (t <= 1)%R).
  { unfold t. apply (Rmult_le_reg_r (b64_R (b64_ofZ b))); [lra|]. field_simplify; lra. }
  assert (R0 : (0 <= rnd t)%R) by (rewrite <- rnd_0; now apply rnd_mono).
  assert (R1 : (rnd t <= 1)%R) by (rewrite <- rnd_1; now apply rnd_mono).
  pose proof (Bdiv_correct 53 1024 (eq_refl Lt) (eq_refl Lt) binop_nan_pl64 mode_NE (b64_ofZ a) (b64_ofZ b)) as H.
  change (B2R 53 1024 (b64_ofZ b)) with (b64_R (b64_ofZ b)) in H.
  change (B2R 53 1024 (b64_ofZ a)) with (b64_R (b64_ofZ a)) in H.
  specialize (H ltac:(lra)). fold t in H.
  change (round radix2 (SpecFloat.fexp 53 1024) (round_mode mode_NE) t) with (rnd t) in H.
  rewrite Rlt_bool_true in H.
  - destruct H as (H1 & H2 & _). change (Bdiv 53 1024 (eq_refl Lt) (eq_refl Lt) binop_nan_pl64 mode_NE (b64_ofZ a) (b64_ofZ b)) with q in H1, H2.
    split; [|split].
    + unfold b64_finite in *. congruence.
    + exact H1.
    + unfold b64_R at 1 2. rewrite H1. lra.
  - rewrite Rabs_pos_eq by auto. apply Rle_lt_trans with 1%R; auto. change 1%R with (bpow radix2 0). apply bpow_lt. lia.
Qed.

Lemma b64_ratio_01 L (a b : Z) : (0 <= a <= b)%Z -> (1 <= b < 2 ^ 63)%Z ->
  let q := fdiv (n := B64 L) (ofZ a) (ofZ b) in fle f0 q = true /\ fle q f1 = true.
Proof.
  intros Ha Hb q. destruct (b64_ratio a b Ha Hb) as (H1 & _ & H3).
  destruct (ofZ_exact 0) as (Z1 & Z2 & _); [simpl; lia|]. destruct (ofZ_exact 1) as (O1 & O2 & _); [simpl; lia|].
  split.
  - apply (b64_le_finite (b64_ofZ 0) q); auto. rewrite Z2. apply H3.
  - apply (b64_le_finite q (b64_ofZ 1)); auto. rewrite O2. apply H3.
Qed.
Lemma b64_ratio_1 L (b : Z) : (1 <= b < 2 ^ 63)%Z -> feq (fdiv (n := B64 L) (ofZ b) (ofZ b)) f1 = true.
Proof.
  intros Hb. destruct (b64_ratio b b ltac:(lia) Hb) as (H1 & H2 & H3).
  destruct (ofZ_exact 1) as (O1 & O2 & _); [simpl; lia|]. destruct (ofZ_round b) as (Fb & Rb); [lia|].
  change (b64_eq (b64_div mode_NE (b64_ofZ b) (b64_ofZ b)) (b64_ofZ 1) = true).
  apply b64_eq_spec; try (apply finite_not_nan; auto). split.
  - rewrite !finite_rank; auto.
  - rewrite H2, O2. unfold Rdiv. rewrite Rinv_r; [apply rnd_1|].
    assert (1 <= b64_R (b64_ofZ b))%R; [|lra]. rewrite Rb, <- rnd_1. apply rnd_mono. apply IZR_le. lia.
Qed.

(** The order on numbers that are not NaN. *)
Lemma B64_weak_order L : weak_order (K := B64 L) (fun x => b64_nan x = false).
Proof.
  split; [|split]; simpl.
  - intros x Hx. destruct (b64_lt x x) eqn:E; auto. apply b64_lt_spec in E; auto. exfalso. exact (xlt_irr _ E).
  - intros x y z Hx Hy Hz. rewrite !b64_lt_spec by auto. apply xlt_trans.
  - intros x y z Hx Hy Hz. rewrite !b64_lt_spec by auto. intros H.
    destruct (xtotal x y) as [G|[G|G]]; auto.
    + right. eapply xlt_xeq_l; [|exact H]. destruct G; split; auto.
    + right. eapply xlt_trans; eauto.
Qed.

(** ** ReLU *)
Lemma b64_relu_nonneg L (x : B64 L) : flt (relu1 x) f0 = false.
Proof.
  unfold relu1, f0. simpl. unfold b64_max.
  destruct (is_pinf x || is_pinf (b64_ofZ 0)) eqn:E1; [reflexivity|].
  destruct (b64_nan x || b64_nan (b64_ofZ 0)) eqn:E2; [reflexivity|].
  destruct (is_zero x && is_zero (b64_ofZ 0)) eqn:E3.
  - destruct x as [[|]| | |]; try discriminate; reflexivity.
  - destruct (b64_lt (b64_ofZ 0) x) eqn:E4; [|reflexivity].
    apply orb_false_iff in E2 as [E2 _].
    destruct (b64_lt x (b64_ofZ 0)) eqn:E5; auto.
    apply b64_lt_spec in E4; auto. apply b64_lt_spec in E5; auto. exfalso. exact (xlt_irr _ (xlt_trans _ _ _ E4 E5)).
Qed.
Lemma b64_relu_idem L (x : B64 L) : relu1 (relu1 x) = relu1 x.
Proof.
  unfold relu1, f0. simpl. unfold b64_max at 2 3.
  destruct (is_pinf x || is_pinf (b64_ofZ 0)) eqn:E1; [reflexivity|].
  destruct (b64_nan x || b64_nan (b64_ofZ 0)) eqn:E2; [reflexivity|].
  destruct (is_zero x && is_zero (b64_ofZ 0)) eqn:E3.
  - destruct x as [[|]| | |]; try discriminate; reflexivity.
  - destruct (b64_lt (b64_ofZ 0) x) eqn:E4; [|reflexivity].
    unfold b64_max. rewrite E1, E2, E3, E4. reflexivity.
Qed.
(** For numbers that are not NaN the output is the larger of x and 0 as an extended real. *)
Lemma b64_relu_value L (x : B64 L) : b64_nan x = false ->
  (flt f0 x = true -> relu1 x = x) /\ (flt f0 x = false -> feq (relu1 x) f0 = true).
Proof.
  intros Hx. unfold relu1, f0. simpl. unfold b64_max.
  rewrite Hx. change (b64_nan (b64_ofZ 0)) with false. change (is_pinf (b64_ofZ 0)) with false. rewrite !orb_false_r. cbn [orb].
  split; intros H.
  - destruct (is_pinf x) eqn:E1. { destruct x as [|[|]| |]; try discriminate. reflexivity. }
    destruct (is_zero x && is_zero (b64_ofZ 0)) eqn:E3.
    + destruct x as [[|]| | |]; try discriminate; reflexivity.
    + now rewrite H.
  - destruct (is_pinf x) eqn:E1. { destruct x as [|[|]| |]; try discriminate. }
    destruct (is_zero x && is_zero (b64_ofZ 0)) eqn:E3.
    + destruct x as [[|]| | |]; try discriminate; reflexivity.
    + rewrite H. reflexivity.
Qed.

(** ** Thresholds and clipping constants *)
Lemma B64_half L : flt (n := B64 L) f0 lit_half = true /\ flt (n := B64 L) f1 lit_half = false.
Proof. split; reflexivity. Qed.
Lemma B64_01 L : feq (n := B64 L) f0 f0 = true /\ feq (n := B64 L) f1 f1 = true /\ feq (n := B64 L) f0 f1 = false /\
  flt (n := B64 L) f0 f1 = true /\ flt (n := B64 L) f1 f1 = false /\ flt (n := B64 L) f1 f0 = false /\ flt (n := B64 L) f0 f0 = false.
Proof. repeat split; reflexivity. Qed.
Lemma B64_lits L : fle (n := B64 L) f0 lit_1em7 = true /\ fle (n := B64 L) lit_1em7 f1 = true /\
  fle (n := B64 L) f0 lit_1m1em7 = true /\ fle (n := B64 L) lit_1m1em7 f1 = true /\
  flt (n := B64 L) lit_1em7 f0 = false /\ flt (n := B64 L) f1 lit_1em7 = false /\
  flt (n := B64 L) lit_1m1em7 f0 = false /\ flt (n := B64 L) f1 lit_1m1em7 = false.
Proof. repeat split; reflexivity. Qed.
Lemma b64_not_lt_le x y : b64_nan x = false -> b64_nan y = false -> b64_lt y x = false -> b64_le x y = true.
Proof. intros Hx Hy H. apply b64_le_spec; auto. intros G. apply b64_lt_spec in G; auto. congruence. Qed.

(** ** Infinite sums *)
Definition inf_or_nan (x : binary64) : Prop := b64_finite x = false.
Lemma plus_inf_l x y : b64_finite x = false -> b64_finite (b64_plus mode_NE x y) = false.
Proof. destruct x as [|[|]| |], y as [|[|]| |]; try discriminate; intros _; try reflexivity. Qed.
Lemma plus_inf_r x y : b64_finite y = false -> b64_finite (b64_plus mode_NE x y) = false.
Proof. destruct x as [|[|]| |], y as [|[|]| |]; try discriminate; intros _; try reflexivity. Qed.
Lemma fsum_inf L n (g : nat -> B64 L) j : (j < n)%nat -> b64_finite (g j) = false -> b64_finite (fsum n g) = false.
Proof.
  induction n; intros Hj Hg; [lia|]. rewrite fsum_S. destruct (Nat.eq_dec j n) as [->|].
  - now apply plus_inf_r.
  - apply plus_inf_l. apply IHn; auto. lia.
Qed.
Lemma div_inf_inf s x : b64_finite x = false -> b64_nan (b64_div mode_NE (b64_inf s) x) = true.
Proof. destruct s, x as [|[|]| |]; try discriminate; reflexivity. Qed.
