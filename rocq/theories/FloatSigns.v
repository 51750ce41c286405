(** * FloatSigns: sign and range of what float64 computations return. *)
From Coq Require Import String ZArith List Bool Arith Lia Reals Lra Psatz.
From Flocq Require Import Core.Core IEEE754.BinarySingleNaN IEEE754.Binary IEEE754.Bits.
From Verif Require Import Num NumB64 Heap Spec PureSpec OptSpec Repr B64Facts RoundSpec Rounding RoundProofs SoftFloat.
Import ListNotations.
Open Scope R_scope.

(** Not above zero. *)
Definition nonpos (x : binary64) : Prop := b64_lt (b64_ofZ 0) x = false.
Notation sgn := (Bsign 53 1024).

Lemma F2R_neg m e : F2R (beta := radix2) {| Fnum := Z.neg m; Fexp := e |} < 0. Proof. apply F2R_lt_0. reflexivity. Qed.
Lemma F2R_pos m e : 0 < F2R (beta := radix2) {| Fnum := Z.pos m; Fexp := e |}. Proof. apply F2R_gt_0. reflexivity. Qed.
Lemma sign_nonneg x : sgn x = false -> nonneg x.
Proof. intros H. unfold nonneg. rewrite zero_is. destruct x as [s|s|s pl Hp|s m e Hm]; simpl in H; subst; reflexivity. Qed.
Lemma sign_nonpos x : sgn x = true -> nonpos x.
Proof. intros H. unfold nonpos. rewrite zero_is. destruct x as [s|s|s pl Hp|s m e Hm]; simpl in H; subst; reflexivity. Qed.
Lemma nonpos_cases x : nonpos x <-> b64_nan x = true \/ x = b64_inf true \/ (b64_finite x = true /\ b64_R x <= 0).
Proof.
  unfold nonpos. rewrite zero_is. destruct x as [s|s|s pl H|s m e H].
  - split; [|destruct s; reflexivity]. intros _. right; right. split; [reflexivity|]. simpl. lra.
  - destruct s; split; intros H; try discriminate; auto. destruct H as [H|[H|[H _]]]; discriminate.
  - split; [|reflexivity]. left; reflexivity.
  - destruct s; split; intros H0; try discriminate; auto.
    + right; right. split; [reflexivity|]. unfold b64_R. simpl. left. apply F2R_neg.
    + destruct H0 as [H0|[H0|[_ H0]]]; try discriminate. exfalso. unfold b64_R in H0. simpl in H0. pose proof (F2R_pos m e). lra.
Qed.
Lemma opp_nonneg x : nonpos x -> nonneg (b64_opp x).
Proof.
  unfold nonpos, nonneg. rewrite zero_is. destruct x as [s|s|s pl H|s m e H]; try destruct s; simpl; auto; discriminate.
Qed.
Lemma abs_nonneg x : nonneg (b64_abs x).
Proof. unfold nonneg. rewrite zero_is. destruct x as [s|s|s pl H|s m e H]; try destruct s; reflexivity. Qed.

(** ** Products and quotients *)
Lemma mult_sign x y : b64_nan (b64_mult mode_NE x y) = false -> sgn (b64_mult mode_NE x y) = xorb (sgn x) (sgn y).
Proof.
  intros HN. pose proof (Bmult_correct 53 1024 (eq_refl Lt) (eq_refl Lt) binop_nan_pl64 mode_NE x y) as C.
  change (Bmult 53 1024 (eq_refl Lt) (eq_refl Lt) binop_nan_pl64 mode_NE x y) with (b64_mult mode_NE x y) in C.
  destruct (Rlt_bool _ _).
  - apply C. exact HN.
  - destruct (b64_mult mode_NE x y) as [s|s|s pl H|s m e H]; try discriminate. simpl in C. injection C as ->. reflexivity.
Qed.
Lemma nonneg_sign x : nonneg x -> b64_nan x = true \/ (exists s, x = B754_zero 53 1024 s) \/ sgn x = false.
Proof. unfold nonneg. rewrite zero_is. destruct x as [s|s|s pl H|s m e H]; try destruct s; eauto; try discriminate. Qed.
Lemma nonpos_sign x : nonpos x -> b64_nan x = true \/ (exists s, x = B754_zero 53 1024 s) \/ sgn x = true.
Proof. unfold nonpos. rewrite zero_is. destruct x as [s|s|s pl H|s m e H]; try destruct s; eauto; try discriminate. Qed.
Lemma zero_nonneg s : nonneg (B754_zero 53 1024 s). Proof. destruct s; reflexivity. Qed.
Lemma zero_nonpos s : nonpos (B754_zero 53 1024 s). Proof. destruct s; reflexivity. Qed.
Lemma nan_nonneg x : b64_nan x = true -> nonneg x. Proof. intros H. apply nonneg_cases. auto. Qed.
Lemma nan_nonpos x : b64_nan x = true -> nonpos x. Proof. intros H. apply nonpos_cases. auto. Qed.
(** A product with a zero is a zero or a NaN. *)
Lemma mult_zero x y s : x = B754_zero 53 1024 s \/ y = B754_zero 53 1024 s -> b64_nan (b64_mult mode_NE x y) = true \/ exists t, b64_mult mode_NE x y = B754_zero 53 1024 t.
Proof. intros [->| ->]; [destruct y|destruct x]; first [right; eexists; reflexivity|left; reflexivity]. Qed.
Lemma mult_nan x y : b64_nan x = true \/ b64_nan y = true -> b64_nan (b64_mult mode_NE x y) = true.
Proof. intros [H|H]; [destruct x; try discriminate; reflexivity|destruct y; try discriminate; destruct x; reflexivity]. Qed.
Lemma mult_nonneg x y : nonneg x -> nonneg y -> nonneg (b64_mult mode_NE x y).
Proof.
  intros Hx Hy. apply nonneg_sign in Hx, Hy. destruct (b64_nan (b64_mult mode_NE x y)) eqn:N; [now apply nan_nonneg|].
  destruct Hx as [Hx|[[s Hx]|Hx]]; [rewrite mult_nan in N by auto; discriminate| |].
  { destruct (mult_zero x y s) as [E|[t E]]; [auto|congruence|]. rewrite E. apply zero_nonneg. }
  destruct Hy as [Hy|[[s Hy]|Hy]]; [rewrite mult_nan in N by auto; discriminate| |].
  { destruct (mult_zero x y s) as [E|[t E]]; [auto|congruence|]. rewrite E. apply zero_nonneg. }
  apply sign_nonneg. rewrite mult_sign, Hx, Hy by exact N. reflexivity.
Qed.
Lemma mult_nonpos x y : nonneg x -> nonpos y -> nonpos (b64_mult mode_NE x y).
Proof.
  intros Hx Hy. apply nonneg_sign in Hx. apply nonpos_sign in Hy. destruct (b64_nan (b64_mult mode_NE x y)) eqn:N; [now apply nan_nonpos|].
  destruct Hx as [Hx|[[s Hx]|Hx]]; [rewrite mult_nan in N by auto; discriminate| |].
  { destruct (mult_zero x y s) as [E|[t E]]; [auto|congruence|]. rewrite E. apply zero_nonpos. }
  destruct Hy as [Hy|[[s Hy]|Hy]]; [rewrite mult_nan in N by auto; discriminate| |].
  { destruct (mult_zero x y s) as [E|[t E]]; [auto|congruence|]. rewrite E. apply zero_nonpos. }
  apply sign_nonpos. rewrite mult_sign, Hx, Hy by exact N. reflexivity.
Qed.
Lemma div_nonneg x y : nonneg x -> sgn y = false -> nonneg (b64_div mode_NE x y).
Proof.
  intros Hx Hy. apply nonneg_sign in Hx. destruct (b64_nan (b64_div mode_NE x y)) eqn:N; [now apply nan_nonneg|].
  destruct Hx as [Hx|[[s Hx]|Hx]].
  - assert (E : b64_nan (b64_div mode_NE x y) = true) by (destruct x; try discriminate; destruct y; reflexivity). congruence.
  - subst x. destruct y as [t|t|t pl H|t m e H]; simpl; try apply zero_nonneg; apply nan_nonneg; reflexivity.
  - apply sign_nonneg. destruct (Req_dec (b64_R y) 0) as [Z0|Z0].
    + assert (HY : forall t m e H, y = B754_finite 53 1024 t m e H -> False).
      { intros t m e H ->. unfold b64_R in Z0. simpl in Z0, Hy. subst t. pose proof (F2R_pos m e). simpl in Z0. lra. }
      destruct y as [t|t|t pl H|t m e H]; try (exfalso; eapply HY; reflexivity); simpl in Hy; subst;
        destruct x as [s|s|s pl2 H2|s m2 e2 H2]; try discriminate; simpl in *; subst; reflexivity.
    + pose proof (Bdiv_correct 53 1024 (eq_refl Lt) (eq_refl Lt) binop_nan_pl64 mode_NE x y Z0) as C.
      change (Bdiv 53 1024 (eq_refl Lt) (eq_refl Lt) binop_nan_pl64 mode_NE x y) with (b64_div mode_NE x y) in C.
      destruct (Rlt_bool _ _).
      * destruct C as (_ & _ & C). rewrite C by exact N. now rewrite Hx, Hy.
      * destruct (b64_div mode_NE x y) as [s|s|s pl H|s m e H]; try discriminate. simpl in C. injection C as ->. simpl. now rewrite Hx, Hy.
Qed.
Lemma plus_nonpos x y : nonpos x -> nonpos y -> nonpos (b64_plus mode_NE x y).
Proof.
  intros Hx Hy. apply nonpos_cases in Hx, Hy.
  destruct Hx as [Hx|[Hx|[Fx Px]]].
  { apply nan_nonpos. destruct x; try discriminate. reflexivity. }
  { subst x. destruct Hy as [Hy|[Hy|[Fy Py]]].
    - apply nan_nonpos. destruct y; try discriminate. reflexivity.
    - subst y. reflexivity.
    - destruct y; try discriminate; reflexivity. }
  destruct Hy as [Hy|[Hy|[Fy Py]]].
  { apply nan_nonpos. destruct y; try discriminate. destruct x; reflexivity. }
  { subst y. destruct x; try discriminate; reflexivity. }
  pose proof (Bplus_correct 53 1024 (eq_refl Lt) (eq_refl Lt) binop_nan_pl64 mode_NE x y Fx Fy) as C.
  change (round radix2 (SpecFloat.fexp 53 1024) (round_mode mode_NE) (B2R 53 1024 x + B2R 53 1024 y)) with (rnd (b64_R x + b64_R y)) in C.
  change (Bplus 53 1024 (eq_refl Lt) (eq_refl Lt) binop_nan_pl64 mode_NE x y) with (b64_plus mode_NE x y) in C.
  destruct (Rlt_bool_spec (Rabs (rnd (b64_R x + b64_R y))) (bpow radix2 1024)) as [HB|HB].
  - destruct C as (C1 & C2 & _). apply nonpos_cases. right; right. split; [exact C2|]. unfold b64_R at 1. rewrite C1.
    replace 0 with (rnd 0) by (apply round_0, valid_rnd_N). apply rnd_mono. lra.
  - destruct C as (C1 & C2).
    assert (Sx : sgn x = true).
    { destruct (sgn x) eqn:E; [reflexivity|]. exfalso.
      assert (Z0 : forall v : binary64, b64_finite v = true -> b64_R v <= 0 -> sgn v = false -> b64_R v = 0).
      { intros v Fv Pv Sv. destruct v as [s|s|s pl H|s m e H]; try discriminate; [reflexivity|]. simpl in Sv. subst s. exfalso.
        unfold b64_R in Pv. simpl in Pv. pose proof (F2R_pos m e). lra. }
      rewrite (Z0 x Fx Px E), (Z0 y Fy Py) in HB by congruence.
      assert (R0 : rnd (0 + 0) = 0) by (rewrite Rplus_0_r; apply round_0, valid_rnd_N). rewrite R0, Rabs_R0 in HB.
      pose proof (bpow_gt_0 radix2 1024). lra. }
    apply sign_nonpos. rewrite Sx in C1. destruct (b64_plus mode_NE x y); try discriminate. simpl in C1. injection C1 as ->. reflexivity.
Qed.
Lemma sqrt_nonneg x : nonneg (b64_sqrt mode_NE x).
Proof.
  apply nonneg_cases. destruct (Bsqrt_correct 53 1024 (eq_refl Lt) (eq_refl Lt) unop_nan_pl64 mode_NE x) as (C1 & C2 & C3).
  change (Bsqrt 53 1024 (eq_refl Lt) (eq_refl Lt) unop_nan_pl64 mode_NE x) with (b64_sqrt mode_NE x) in *.
  destruct (b64_nan (b64_sqrt mode_NE x)) eqn:N; [now left|]. right.
  destruct x as [s|s|s pl H|s m e H].
  - right. split; [reflexivity|simpl; lra].
  - destruct s; [discriminate|now left].
  - discriminate.
  - destruct s; [discriminate|]. right. split; [exact C2|]. unfold b64_R. rewrite C1.
    replace 0 with (rnd 0) by (apply round_0, valid_rnd_N). apply rnd_mono, sqrt_pos.
Qed.
Lemma ofZ_sign n : (0 <= n)%Z -> sgn (b64_ofZ n) = false.
Proof.
  intros Hn. pose proof (binary_normalize_correct 53 1024 prec53_gt0 prec53_lt mode_NE n 0 false) as C. fold (b64_ofZ n) in C.
  assert (HR : 0 <= F2R (beta := radix2) {| Fnum := n; Fexp := 0 |}) by (apply F2R_ge_0; exact Hn).
  destruct (Rlt_bool (Rabs _) _) in C.
  - destruct C as (_ & _ & C). rewrite C. destruct (Rcompare_spec (F2R (beta := radix2) {| Fnum := n; Fexp := 0 |}) 0); [lra|reflexivity|reflexivity].
  - rewrite Rlt_bool_false in C by exact HR. destruct (b64_ofZ n); try discriminate. simpl in C. injection C as ->. reflexivity.
Qed.
