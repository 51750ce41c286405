(** * Rounding: how far float64 results are from exact ones. *)
From Coq Require Import String ZArith List Bool Arith Lia Reals Lra Psatz.
From Flocq Require Import Core.Core Relative Plus_error IEEE754.BinarySingleNaN IEEE754.Binary IEEE754.Bits.
From Verif Require Import Num NumR NumB64 Heap Spec PureSpec Repr Matrix Network RSum B64Facts RoundSpec.
Import ListNotations.
Open Scope R_scope.

Lemma bpow_inv n : bpow radix2 (- Z.of_nat n) = / 2 ^ n.
Proof. rewrite bpow_opp, bpow_powerRZ. f_equal. change (IZR radix2) with 2. symmetry. apply pow_powerRZ. Qed.
Lemma u64_bpow : u64 = bpow radix2 (-53).
Proof. symmetry. exact (bpow_inv 53). Qed.
Lemma eta64_bpow : eta64 = bpow radix2 (-1075).
Proof. unfold eta64. rewrite <- bpow_inv. f_equal. Qed.
Lemma u64_pos : 0 < u64. Proof. rewrite u64_bpow. apply bpow_gt_0. Qed.
Lemma eta64_pos : 0 < eta64. Proof. rewrite eta64_bpow. apply bpow_gt_0. Qed.
Lemma half_bpow : / 2 = bpow radix2 (-1).
Proof. pose proof (bpow_inv 1) as H. rewrite pow_1 in H. symmetry. exact H. Qed.

Lemma rnd_error x : Rabs (rnd x - x) <= u64 * Rabs x + eta64.
Proof.
  assert (HU : / 2 * bpow radix2 (-53 + 1) = u64).
  { rewrite u64_bpow, half_bpow, <- bpow_plus. reflexivity. }
  destruct (Rle_or_lt (bpow radix2 (-1074 + 53 - 1)) (Rabs x)) as [H|H].
  - pose proof (relative_error_N_FLT radix2 (-1074) 53 ltac:(lia) (fun x => negb (Z.even x)) x H) as E. change (/ 2 * bpow radix2 (- (53) + 1)) with (/ 2 * bpow radix2 (-53 + 1)) in E. rewrite HU in E.
    eapply Rle_trans; [exact E|]. pose proof eta64_pos. lra.
  - assert (E : Rabs (rnd x - x) <= / 2 * ulp radix2 fexp64 x) by (apply error_le_half_ulp; apply (FLT_exp_valid (-1074) 53)).
    rewrite ulp_FLT_small in E.
    + replace (/ 2 * bpow radix2 (-1074)) with eta64 in E.
      * pose proof u64_pos. pose proof (Rabs_pos x). nra.
      * rewrite eta64_bpow, half_bpow, <- bpow_plus. reflexivity.
    + reflexivity.
    + eapply Rlt_trans; [exact H|]. apply bpow_lt. lia.
Qed.
Lemma b64_format (x : binary64) : generic_format radix2 fexp64 (b64_R x).
Proof. apply (generic_format_B2R 53 1024). Qed.
Lemma rnd_plus_error (x y : binary64) : Rabs (rnd (b64_R x + b64_R y) - (b64_R x + b64_R y)) <= u64 * Rabs (b64_R x + b64_R y).
Proof.
  destruct (FLT_plus_error_N_ex radix2 (-1074) 53 (fun x => negb (Z.even x)) (b64_R x) (b64_R y) (b64_format x) (b64_format y)) as (e & He & E).
  rewrite E. replace ((b64_R x + b64_R y) * (1 + e) - (b64_R x + b64_R y)) with (e * (b64_R x + b64_R y)) by ring.
  rewrite Rabs_mult. apply Rmult_le_compat_r; [apply Rabs_pos|].
  assert (HU : u_ro radix2 53 = u64).
  { unfold u_ro. rewrite u64_bpow, half_bpow, <- bpow_plus. reflexivity. }
  rewrite HU in He. eapply Rle_trans; [exact He|]. pose proof u64_pos. apply (Rmult_le_reg_r (1 + u64)); [lra|]. unfold Rdiv. rewrite Rmult_assoc, Rinv_l by lra. nra.
Qed.

(** ** One operation *)
Lemma plus_exact (x y : binary64) : b64_finite (b64_plus mode_NE x y) = true ->
  b64_finite x = true /\ b64_finite y = true /\ b64_R (b64_plus mode_NE x y) = rnd (b64_R x + b64_R y).
Proof.
  intros H. destruct (b64_finite x) eqn:Fx; [|rewrite plus_inf_l in H by exact Fx; discriminate].
  destruct (b64_finite y) eqn:Fy; [|rewrite plus_inf_r in H by exact Fy; discriminate].
  split; [reflexivity|]. split; [reflexivity|].
  pose proof (Bplus_correct 53 1024 (eq_refl Lt) (eq_refl Lt) binop_nan_pl64 mode_NE x y Fx Fy) as C.
  change (round radix2 (SpecFloat.fexp 53 1024) (round_mode mode_NE) (B2R 53 1024 x + B2R 53 1024 y)) with (rnd (b64_R x + b64_R y)) in C.
  change (Bplus 53 1024 (eq_refl Lt) (eq_refl Lt) binop_nan_pl64 mode_NE x y) with (b64_plus mode_NE x y) in C.
  destruct (Rlt_bool (Rabs (rnd (b64_R x + b64_R y))) (bpow radix2 1024)).
  - apply C.
  - exfalso. destruct C as (C & _). destruct (b64_plus mode_NE x y); try discriminate.
Qed.
Lemma plus_fits (x y : binary64) : b64_finite x = true -> b64_finite y = true -> Rabs (b64_R x + b64_R y) <= bpow radix2 1023 -> b64_finite (b64_plus mode_NE x y) = true.
Proof.
  intros Fx Fy HB. pose proof (Bplus_correct 53 1024 (eq_refl Lt) (eq_refl Lt) binop_nan_pl64 mode_NE x y Fx Fy) as C.
  change (round radix2 (SpecFloat.fexp 53 1024) (round_mode mode_NE) (B2R 53 1024 x + B2R 53 1024 y)) with (rnd (b64_R x + b64_R y)) in C.
  change (Bplus 53 1024 (eq_refl Lt) (eq_refl Lt) binop_nan_pl64 mode_NE x y) with (b64_plus mode_NE x y) in C.
  rewrite Rlt_bool_true in C; [apply C|].
  apply Rle_lt_trans with (bpow radix2 1023); [|apply bpow_lt; lia].
  apply abs_round_le_generic; [apply (FLT_exp_valid (-1074) 53)|apply valid_rnd_N| |exact HB].
  apply generic_format_bpow. unfold FLT_exp. lia.
Qed.
Lemma mult_exact (x y : binary64) : b64_finite (b64_mult mode_NE x y) = true ->
  b64_finite x = true /\ b64_finite y = true /\ b64_R (b64_mult mode_NE x y) = rnd (b64_R x * b64_R y).
Proof.
  intros H. assert (F : b64_finite x = true /\ b64_finite y = true) by (destruct x, y; try discriminate; auto).
  destruct F as (Fx & Fy). split; [exact Fx|]. split; [exact Fy|].
  pose proof (Bmult_correct 53 1024 (eq_refl Lt) (eq_refl Lt) binop_nan_pl64 mode_NE x y) as C.
  change (round radix2 (SpecFloat.fexp 53 1024) (round_mode mode_NE) (B2R 53 1024 x * B2R 53 1024 y)) with (rnd (b64_R x * b64_R y)) in C.
  change (Bmult 53 1024 (eq_refl Lt) (eq_refl Lt) binop_nan_pl64 mode_NE x y) with (b64_mult mode_NE x y) in C.
  destruct (Rlt_bool (Rabs (rnd (b64_R x * b64_R y))) (bpow radix2 1024)).
  - apply C.
  - exfalso. destruct (b64_mult mode_NE x y); try discriminate.
Qed.
Lemma mult_fits (x y : binary64) : b64_finite x = true -> b64_finite y = true -> Rabs (b64_R x * b64_R y) <= bpow radix2 1023 -> b64_finite (b64_mult mode_NE x y) = true.
Proof.
  intros Fx Fy HB. pose proof (Bmult_correct 53 1024 (eq_refl Lt) (eq_refl Lt) binop_nan_pl64 mode_NE x y) as C.
  change (round radix2 (SpecFloat.fexp 53 1024) (round_mode mode_NE) (B2R 53 1024 x * B2R 53 1024 y)) with (rnd (b64_R x * b64_R y)) in C.
  change (Bmult 53 1024 (eq_refl Lt) (eq_refl Lt) binop_nan_pl64 mode_NE x y) with (b64_mult mode_NE x y) in C.
  rewrite Rlt_bool_true in C.
  - destruct C as (_ & C & _). unfold b64_finite in *. rewrite C, Fx, Fy. reflexivity.
  - apply Rle_lt_trans with (bpow radix2 1023); [|apply bpow_lt; lia].
    apply abs_round_le_generic; [apply (FLT_exp_valid (-1074) 53)|apply valid_rnd_N| |exact HB].
    apply generic_format_bpow. unfold FLT_exp. lia.
Qed.

(** ** A sum of products *)
Section Dot.
Context (L : libm).
Notation BN := (B64 L).
Lemma pow_ge1 n : 1 <= (1 + u64) ^ n.
Proof. apply pow_R1_Rle. pose proof u64_pos. lra. Qed.
Lemma dot_bound_S n a t : 0 <= a -> 0 <= t ->
  dot_bound n a * (1 + u64) + a * u64 + (u64 * t + eta64) * (1 + u64) + t * u64 <= dot_bound (S n) (a + t).
Proof.
  intros Ha Ht. unfold dot_bound. rewrite S_INR, !Nat.add_1_r. set (v := (1 + u64) ^ n). pose proof (pow_ge1 n) as Hv. fold v in Hv.
  replace ((1 + u64) ^ S (S n)) with ((1 + u64) * ((1 + u64) * v)) by (unfold v; simpl; ring).
  replace ((1 + u64) ^ S n) with ((1 + u64) * v) by (unfold v; simpl; ring).
  pose proof u64_pos as Hu. pose proof eta64_pos as He. set (u := u64) in *. set (e := eta64) in *.
  assert (0 <= (v - 1) * (1 + u) * (1 + u) * t) by (repeat apply Rmult_le_pos; lra).
  assert (0 <= e * (1 + u) * (v - 1)) by (repeat apply Rmult_le_pos; lra).
  nra.
Qed.
(** [s] approximates [S] up to [E]; both are at most [a] in exact arithmetic. *)
Lemma add_error (s p : binary64) S P a b E D : b64_finite (b64_plus mode_NE s p) = true ->
  Rabs (b64_R s - S) <= E -> Rabs S <= a -> Rabs (b64_R p - P) <= D -> Rabs P <= b ->
  Rabs (b64_R (b64_plus mode_NE s p) - (S + P)) <= (E + D) * (1 + u64) + (a + b) * u64.
Proof.
  intros HF HE HS HD HP. destruct (plus_exact s p HF) as (_ & _ & E1). rewrite E1.
  pose proof (rnd_plus_error s p) as R1. set (x := b64_R s) in *. set (y := b64_R p) in *. pose proof u64_pos.
  replace (rnd (x + y) - (S + P)) with ((rnd (x + y) - (x + y)) + ((x - S) + (y - P))) by ring.
  eapply Rle_trans; [apply Rabs_triang|].
  assert (A1 : Rabs ((x - S) + (y - P)) <= E + D) by (eapply Rle_trans; [apply Rabs_triang|]; lra).
  assert (A2 : Rabs (x + y) <= (E + D) + (a + b)).
  { replace (x + y) with (((x - S) + (y - P)) + (S + P)) by ring. eapply Rle_trans; [apply Rabs_triang|].
    apply Rplus_le_compat; [exact A1|]. eapply Rle_trans; [apply Rabs_triang|]. lra. }
  nra.
Qed.
Lemma fsum_error n (g : nat -> BN) (x y : nat -> binary64) :
  (forall k, (k < n)%nat -> g k = (b64_mult mode_NE (x k) (y k) : BN)) -> b64_finite (fsum n g) = true ->
  Rabs (b64_R (fsum n g) - rsum n (fun k => b64_R (x k) * b64_R (y k))) <= dot_bound n (rsum n (fun k => Rabs (b64_R (x k) * b64_R (y k)))) /\
  Rabs (rsum n (fun k => b64_R (x k) * b64_R (y k))) <= rsum n (fun k => Rabs (b64_R (x k) * b64_R (y k))) /\
  0 <= rsum n (fun k => Rabs (b64_R (x k) * b64_R (y k))).
Proof.
  induction n as [|n IH]; intros HG HF.
  - rewrite !rsum_0. change (b64_R (fsum 0 g)) with 0. unfold dot_bound. rewrite Rminus_0_r, Rabs_R0. simpl. lra.
  - rewrite fsum_S in HF |- *. rewrite HG in HF |- * by lia. cbn [fadd B64] in HF |- *.
    destruct (plus_exact _ _ HF) as (F1 & F2 & _). destruct IH as (H1 & H2 & H3); [intros k Hk; apply HG; lia|exact F1|].
    destruct (mult_exact _ _ F2) as (_ & _ & EM). rewrite !rsum_S. set (t := b64_R (x n) * b64_R (y n)) in *.
    assert (HP : Rabs (b64_R (b64_mult mode_NE (x n) (y n)) - t) <= u64 * Rabs t + eta64) by (rewrite EM; apply rnd_error).
    pose proof (Rabs_pos t). split; [|split; [|lra]].
    + eapply Rle_trans; [eapply add_error; [exact HF|exact H1|exact H2|exact HP|apply Rle_refl]|].
      eapply Rle_trans; [|apply dot_bound_S; assumption]. apply Req_le. ring.
    + eapply Rle_trans; [apply Rabs_triang|]. lra.
Qed.
(** No overflow if the sum of the absolute products is far enough below 2^1023. *)
Lemma fsum_fits n (g : nat -> BN) (x y : nat -> binary64) :
  (forall k, (k < n)%nat -> g k = (b64_mult mode_NE (x k) (y k) : BN)) ->
  (forall k, (k < n)%nat -> b64_finite (x k) = true /\ b64_finite (y k) = true) ->
  rsum n (fun k => Rabs (b64_R (x k) * b64_R (y k))) + dot_bound n (rsum n (fun k => Rabs (b64_R (x k) * b64_R (y k)))) <= bpow radix2 1023 ->
  b64_finite (fsum n g) = true.
Proof.
  induction n as [|n IH]; intros HG HF HB; [reflexivity|].
  rewrite rsum_S in HB. set (t := b64_R (x n) * b64_R (y n)) in *. set (a := rsum n (fun k => Rabs (b64_R (x k) * b64_R (y k)))) in *.
  assert (Ha : 0 <= a) by (apply rsum_nonneg; intros; apply Rabs_pos). pose proof (Rabs_pos t) as Ht.
  pose proof (dot_bound_S n a (Rabs t) Ha Ht) as HS. pose proof u64_pos as Hu. pose proof eta64_pos as He.
  assert (Hd : 0 <= dot_bound n a).
  { unfold dot_bound. rewrite Nat.add_1_r. pose proof (pow_ge1 n). pose proof (pow_ge1 (S n)). pose proof (pos_INR n).
    assert (0 <= ((1 + u64) ^ S n - 1) * a) by (apply Rmult_le_pos; lra). assert (0 <= INR n * eta64 * (1 + u64) ^ n) by (repeat apply Rmult_le_pos; lra). lra. }
  assert (0 <= u64 * Rabs t) by (apply Rmult_le_pos; lra). assert (0 <= a * u64) by (apply Rmult_le_pos; lra). assert (0 <= dot_bound n a * u64) by (apply Rmult_le_pos; lra).
  assert (0 <= (u64 * Rabs t + eta64) * u64) by (apply Rmult_le_pos; lra).
  assert (Fs : b64_finite (fsum n g) = true).
  { apply IH; [intros k Hk; apply HG; lia|intros k Hk; apply HF; lia|]. fold a. lra. }
  destruct (HF n ltac:(lia)) as (Fx & Fy).
  assert (Fm : b64_finite (b64_mult mode_NE (x n) (y n)) = true) by (apply mult_fits; [exact Fx|exact Fy|]; fold t; lra).
  rewrite fsum_S, HG by lia. cbn [fadd B64]. apply plus_fits; [exact Fs|exact Fm|].
  destruct (fsum_error n g x y) as (G1 & G2 & _); [intros k Hk; apply HG; lia|exact Fs|]. fold a in G1, G2.
  destruct (mult_exact _ _ Fm) as (_ & _ & EM). pose proof (rnd_error t) as HP. fold t in EM. rewrite <- EM in HP.
  set (S := rsum n (fun k => b64_R (x k) * b64_R (y k))) in *.
  replace (b64_R (fsum n g) + b64_R (b64_mult mode_NE (x n) (y n))) with ((b64_R (fsum n g) - S) + ((b64_R (b64_mult mode_NE (x n) (y n)) - t) + (S + t))) by ring.
  eapply Rle_trans; [apply Rabs_triang|]. eapply Rle_trans; [apply Rplus_le_compat; [exact G1|apply Rabs_triang]|].
  eapply Rle_trans; [apply Rplus_le_compat_l, Rplus_le_compat; [exact HP|apply Rabs_triang]|]. lra.
Qed.

Lemma dot_bound_mono n a b : a <= b -> dot_bound n a <= dot_bound n b.
Proof. intros H. unfold dot_bound. rewrite Nat.add_1_r. pose proof (pow_ge1 (S n)). apply Rplus_le_compat_r, Rmult_le_compat_l; lra. Qed.
Lemma dot_bound_nonneg n a : 0 <= a -> 0 <= dot_bound n a.
Proof.
  intros Ha. unfold dot_bound. rewrite Nat.add_1_r. pose proof (pow_ge1 n). pose proof (pow_ge1 (S n)). pose proof (pos_INR n). pose proof eta64_pos.
  assert (0 <= ((1 + u64) ^ S n - 1) * a) by (apply Rmult_le_pos; lra). assert (0 <= INR n * eta64 * (1 + u64) ^ n) by (repeat apply Rmult_le_pos; lra). lra.
Qed.
End Dot.
