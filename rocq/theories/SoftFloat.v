(** * SoftFloat: in float64, softmax yields numbers between 0 and 1 or NaNs. *)
From Coq Require Import String ZArith List Bool Arith Lia Reals Lra Psatz.
From Flocq Require Import Core.Core IEEE754.BinarySingleNaN IEEE754.Binary IEEE754.Bits.
From Verif Require Import Num NumB64 Heap Spec PureSpec Repr B64Facts RoundSpec Rounding RoundProofs.
Import ListNotations.
Open Scope R_scope.

(** Not below zero: what the exponential function returns. *)
Definition nonneg (x : binary64) : Prop := b64_lt x (b64_ofZ 0) = false.
Definition exp_nonneg (L : libm) : Prop := forall x, nonneg (l_exp L x).
(** A NaN or a number between 0 and 1. *)
Definition unit_or_nan (x : binary64) : Prop := b64_nan x = true \/ (b64_finite x = true /\ 0 <= b64_R x <= 1).

Lemma zero_is : b64_ofZ 0 = B754_zero 53 1024 false. Proof. reflexivity. Qed.
Lemma nonneg_cases x : nonneg x <-> b64_nan x = true \/ x = b64_inf false \/ (b64_finite x = true /\ 0 <= b64_R x).
Proof.
  unfold nonneg. rewrite zero_is. destruct x as [s|s|s pl H|s m e H].
  - split; [|destruct s; reflexivity]. intros _. right; right. split; [reflexivity|]. simpl. lra.
  - destruct s; split; intros H; try discriminate; auto. destruct H as [H|[H|[H _]]]; discriminate.
  - split; [|reflexivity]. left; reflexivity.
  - destruct s; split; intros H0; try discriminate; auto.
    + destruct H0 as [H0|[H0|[_ H0]]]; try discriminate. exfalso. unfold b64_R in H0. simpl in H0.
      assert (F2R (beta := radix2) {| Fnum := Z.neg m; Fexp := e |} < 0) by (apply F2R_lt_0; reflexivity). lra.
    + right; right. split; [reflexivity|]. unfold b64_R. simpl. apply F2R_ge_0. simpl. lia.
Qed.
Lemma rnd_mono x y : x <= y -> rnd x <= rnd y.
Proof. apply round_le; [apply (FLT_exp_valid (-1074) 53); reflexivity|apply valid_rnd_N]. Qed.
Lemma rnd_id (x : binary64) : rnd (b64_R x) = b64_R x.
Proof. apply round_generic; [apply valid_rnd_N|apply b64_format]. Qed.

(** [x] is at most [y], unless [y] is NaN or infinite. *)
Definition below (x y : binary64) : Prop := b64_nan y = true \/ y = b64_inf false \/ (b64_finite x = true /\ b64_finite y = true /\ 0 <= b64_R x <= b64_R y).
Lemma below_refl x : nonneg x -> below x x.
Proof. intros H. apply nonneg_cases in H as [H|[H|[H1 H2]]]; unfold below; auto. right; right. repeat split; auto; lra. Qed.
Lemma plus_nonneg x y : nonneg x -> nonneg y -> nonneg (b64_plus mode_NE x y) /\ below x (b64_plus mode_NE x y) /\ below y (b64_plus mode_NE x y).
Proof.
  intros Hx Hy. apply nonneg_cases in Hx, Hy.
  assert (NaN : b64_nan (b64_plus mode_NE x y) = true -> nonneg (b64_plus mode_NE x y) /\ below x (b64_plus mode_NE x y) /\ below y (b64_plus mode_NE x y))
    by (intros H; split; [apply nonneg_cases; auto|unfold below; auto]).
  assert (Inf : b64_plus mode_NE x y = b64_inf false -> nonneg (b64_plus mode_NE x y) /\ below x (b64_plus mode_NE x y) /\ below y (b64_plus mode_NE x y))
    by (intros H; split; [apply nonneg_cases; auto|unfold below; auto]).
  destruct Hx as [Hx|[Hx|[Fx Px]]].
  { apply NaN. destruct x; try discriminate. reflexivity. }
  { subst x. destruct Hy as [Hy|[Hy|[Fy Py]]].
    - apply NaN. destruct y; try discriminate. reflexivity.
    - subst y. apply Inf. reflexivity.
    - apply Inf. destruct y; try discriminate; reflexivity. }
  destruct Hy as [Hy|[Hy|[Fy Py]]].
  { apply NaN. destruct y; try discriminate. destruct x; reflexivity. }
  { subst y. apply Inf. destruct x; try discriminate; reflexivity. }
  pose proof (Bplus_correct 53 1024 (eq_refl Lt) (eq_refl Lt) binop_nan_pl64 mode_NE x y Fx Fy) as C.
  change (round radix2 (SpecFloat.fexp 53 1024) (round_mode mode_NE) (B2R 53 1024 x + B2R 53 1024 y)) with (rnd (b64_R x + b64_R y)) in C.
  change (Bplus 53 1024 (eq_refl Lt) (eq_refl Lt) binop_nan_pl64 mode_NE x y) with (b64_plus mode_NE x y) in C.
  destruct (Rlt_bool_spec (Rabs (rnd (b64_R x + b64_R y))) (bpow radix2 1024)) as [HB|HB].
  - destruct C as (C1 & C2 & _). fold (b64_R (b64_plus mode_NE x y)) in C1. fold (b64_finite (b64_plus mode_NE x y)) in C2.
    assert (A1 : b64_R x <= rnd (b64_R x + b64_R y)) by (rewrite <- (rnd_id x) at 1; apply rnd_mono; lra).
    assert (A2 : b64_R y <= rnd (b64_R x + b64_R y)) by (rewrite <- (rnd_id y) at 1; apply rnd_mono; lra).
    split; [apply nonneg_cases; right; right; rewrite C1; split; [exact C2|lra]|].
    split; right; right; rewrite C1; auto.
  - destruct C as (C1 & C2).
    assert (Sx : Bsign 53 1024 x = false).
    { destruct (Bsign 53 1024 x) eqn:E; [|reflexivity]. exfalso.
      assert (Z0 : forall v : binary64, b64_finite v = true -> 0 <= b64_R v -> Bsign 53 1024 v = true -> b64_R v = 0).
      { intros v Fv Pv Sv. destruct v as [s|s|s pl H|s m e H]; try discriminate; [reflexivity|]. simpl in Sv. subst s. exfalso.
        unfold b64_R in Pv. simpl in Pv. assert (F2R (beta := radix2) {| Fnum := Z.neg m; Fexp := e |} < 0) by (apply F2R_lt_0; reflexivity).
        lra. }
      rewrite (Z0 x Fx Px E), (Z0 y Fy Py) in HB by congruence.
      assert (R0 : rnd (0 + 0) = 0) by (rewrite Rplus_0_r; apply round_0, valid_rnd_N). rewrite R0, Rabs_R0 in HB.
      pose proof (bpow_gt_0 radix2 1024). lra. }
    rewrite Sx in C1. apply Inf. destruct (b64_plus mode_NE x y); try discriminate. simpl in C1. injection C1 as ->. reflexivity.
Qed.
Lemma below_trans x y z : below x y -> below y z -> below x z.
Proof.
  intros H [G|[G|(F3 & F4 & G)]]; [left; exact G|right; left; exact G|].
  destruct H as [H|[H|(F1 & F2 & H)]].
  - exfalso. destruct y; discriminate.
  - exfalso. subst y. discriminate.
  - right; right. split; [exact F1|]. split; [exact F4|]. lra.
Qed.
Lemma b64_sum_nonneg (L : libm) (f : nat -> binary64) : (forall j, nonneg (f j)) -> forall n,
  nonneg (@fsum (B64 L) n f) /\ (forall j, (j < n)%nat -> below (f j) (@fsum (B64 L) n f)).
Proof.
  intros HF. induction n as [|n [IH1 IH2]].
  { split; [reflexivity|]. intros; lia. }
  rewrite (@fsum_S (B64 L)). change (@fadd (B64 L)) with (b64_plus mode_NE).
  destruct (plus_nonneg _ _ IH1 (HF n)) as (A & B & C). split; [exact A|]. intros j Hj.
  destruct (Nat.eq_dec j n) as [->|Hne]; [exact C|]. eapply below_trans; [apply IH2; lia|exact B].
Qed.
Lemma div_unit x y : nonneg x -> below x y -> unit_or_nan (b64_div mode_NE x y).
Proof.
  intros Hx [H|[H|(F1 & F2 & H)]].
  - left. destruct y; try discriminate. destruct x; reflexivity.
  - subst y. apply nonneg_cases in Hx as [Hx|[Hx|[Fx Px]]].
    + left. destruct x; try discriminate. reflexivity.
    + subst x. left. reflexivity.
    + right. destruct x; try discriminate; (split; [reflexivity|unfold b64_R; simpl; lra]).
  - destruct (Req_dec (b64_R y) 0) as [Hz|Hz].
    + left. assert (Z0 : forall v : binary64, b64_finite v = true -> b64_R v = 0 -> exists b, v = B754_zero 53 1024 b).
      { intros v Fv Ev. destruct v as [b|b|b pl Hb|b m e Hb]; try discriminate; [now exists b|]. exfalso.
        unfold b64_R in Ev. simpl in Ev. apply eq_0_F2R in Ev. destruct b; discriminate. }
      destruct (Z0 y F2 Hz) as [b ->]. destruct (Z0 x F1) as [b' ->]; [lra|]. reflexivity.
    + right. pose proof (Bdiv_correct 53 1024 (eq_refl Lt) (eq_refl Lt) binop_nan_pl64 mode_NE x y Hz) as C.
      change (round radix2 (SpecFloat.fexp 53 1024) (round_mode mode_NE) (B2R 53 1024 x / B2R 53 1024 y)) with (rnd (b64_R x / b64_R y)) in C.
      change (Bdiv 53 1024 (eq_refl Lt) (eq_refl Lt) binop_nan_pl64 mode_NE x y) with (b64_div mode_NE x y) in C.
      assert (Hq : 0 <= b64_R x / b64_R y <= 1).
      { assert (0 < b64_R y) by lra. split; [apply Rmult_le_pos; [lra|left; apply Rinv_0_lt_compat; lra]|].
        apply (Rmult_le_reg_r (b64_R y)); [assumption|]. unfold Rdiv. rewrite Rmult_assoc, Rinv_l by lra. lra. }
      assert (Hr : 0 <= rnd (b64_R x / b64_R y) <= 1).
      { replace 0 with (rnd 0) by (apply round_0, valid_rnd_N).
        assert (R1 : rnd 1 = 1). { replace 1 with (b64_R (b64_ofZ 1)) by (unfold b64_R; vm_compute; lra). apply rnd_id. }
        split; [apply rnd_mono; lra|]. rewrite <- R1. apply rnd_mono. lra. }
      assert (B1 : 1 < bpow radix2 1024) by (change 1 with (bpow radix2 0); apply bpow_lt; lia).
      rewrite Rlt_bool_true in C by (rewrite Rabs_pos_eq by lra; lra).
      destruct C as (C1 & C2 & _). fold (b64_R (b64_div mode_NE x y)) in C1. fold (b64_finite (b64_div mode_NE x y)) in C2.
      rewrite C1, C2. split; [exact F1|exact Hr].
Qed.
Lemma unit_clip (L : libm) x : unit_or_nan x -> @clip1 (B64 L) x = x.
Proof.
  intros [H|[HF H]]; unfold clip1; cbn [flt B64]; unfold f0, f1; cbn [ofZ B64].
  - rewrite b64_lt_nan_l, b64_lt_nan_r by exact H. reflexivity.
  - assert (R0 : b64_R (b64_ofZ 0) = 0) by (unfold b64_R; vm_compute; lra).
    assert (R1 : b64_R (b64_ofZ 1) = 1) by (unfold b64_R; vm_compute; lra).
    destruct (b64_lt x (b64_ofZ 0)) eqn:E1; [apply b64_lt_R in E1; auto; lra|].
    destruct (b64_lt (b64_ofZ 1) x) eqn:E2; [apply b64_lt_R in E2; auto; lra|]. reflexivity.
Qed.
Lemma softmax_unit (L : libm) r c (A : pm (B64 L)) i j : exp_nonneg L -> (i < r)%nat -> (j < c)%nat -> unit_or_nan (entry (psoftmax r c A) i j).
Proof.
  intros HE Hi Hj. unfold psoftmax. rewrite entry_mk by assumption. cbn [fdiv fexp B64].
  apply div_unit; [apply HE|]. apply (b64_sum_nonneg L (fun k => l_exp L (entry A i k))); [intros; apply HE|exact Hj].
Qed.
Lemma softmax_clip (L : libm) r c (A : pm (B64 L)) : exp_nonneg L -> pmap r c clip1 (psoftmax r c A) = psoftmax r c A.
Proof.
  intros HE. unfold pmap. rewrite (mk_ext _ _ _ (fun i j => entry (psoftmax r c A) i j)).
  - unfold psoftmax at 2. apply mk_ext. intros i j Hi Hj. unfold psoftmax. now rewrite entry_mk.
  - intros i j Hi Hj. apply unit_clip, softmax_unit; assumption.
Qed.
