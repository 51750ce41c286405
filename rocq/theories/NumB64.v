(** * NumB64: the IEEE-754 binary64 instance of [Num] (Flocq).

    +, -, *, /, sqrt round to nearest even; comparisons are false on NaN; [float64(n)]
    rounds to nearest even; [int(x)] truncates and yields -2^63 for NaN and values outside
    the int64 range (what the amd64 conversion instruction returns).  Exp, Log and Pow are
    parameters ([libm]): nothing is assumed about them unless a theorem says so.
    Products and sums are rounded separately (no fused multiply-add, as on amd64).  Which
    NaN a failing operation yields is taken from Flocq and not claimed to match hardware. *)
From Coq Require Import ZArith Reals Lra Lia Bool.
From Flocq Require Import Core.Core IEEE754.BinarySingleNaN IEEE754.Binary IEEE754.Bits.
From Verif Require Import Num LayerData.

Record libm := MkLibm { l_exp : binary64 -> binary64; l_log : binary64 -> binary64; l_pow : binary64 -> binary64 -> binary64 }.

Lemma prec53_gt0 : (0 < 53)%Z. Proof. reflexivity. Qed.
Global Instance prec53_gt0_inst : Prec_gt_0 53 := prec53_gt0.
Lemma prec53_lt : (53 < 1024)%Z. Proof. reflexivity. Qed.

Definition b64_ofZ (z : Z) : binary64 := binary_normalize 53 1024 prec53_gt0 prec53_lt mode_NE z 0 false.
Definition b64_nan (x : binary64) : bool := is_nan 53 1024 x.
Definition b64_finite (x : binary64) : bool := is_finite 53 1024 x.
Definition b64_R (x : binary64) : R := B2R 53 1024 x.
Definition b64_toZ (x : binary64) : Z :=
  if b64_finite x then
    let z := Btrunc 53 1024 x in
    if ((- 2 ^ 63 <=? z) && (z <? 2 ^ 63))%Z then z else (- 2 ^ 63)%Z
  else (- 2 ^ 63)%Z.
Definition b64_lt (x y : binary64) : bool :=
  match b64_compare x y with Some Lt => true | _ => false end.
Definition b64_le (x y : binary64) : bool :=
  match b64_compare x y with Some Lt | Some Eq => true | _ => false end.
Definition b64_eq (x y : binary64) : bool :=
  match b64_compare x y with Some Eq => true | _ => false end.
Definition b64_inf (s : bool) : binary64 := B754_infinity 53 1024 s.
Definition the_nan : binary64 := proj1_sig default_nan_pl64.
Definition is_pinf (x : binary64) := match x with B754_infinity _ _ false => true | _ => false end.
Definition is_minf (x : binary64) := match x with B754_infinity _ _ true => true | _ => false end.
Definition is_zero (x : binary64) := match x with B754_zero _ _ _ => true | _ => false end.

(** math.Max / math.Min with their documented special cases. *)
Definition b64_max (x y : binary64) : binary64 :=
  if is_pinf x || is_pinf y then b64_inf false
  else if b64_nan x || b64_nan y then the_nan
  else if is_zero x && is_zero y then (if Bsign 53 1024 x then y else x)
  else if b64_lt y x then x else y.
Definition b64_min (x y : binary64) : binary64 :=
  if is_minf x || is_minf y then b64_inf true
  else if b64_nan x || b64_nan y then the_nan
  else if is_zero x && is_zero y then (if Bsign 53 1024 x then x else y)
  else if b64_lt x y then x else y.

Definition B64 (L : libm) : Num := {|
  F := binary64;
  fadd := b64_plus mode_NE; fsub := b64_minus mode_NE; fmul := b64_mult mode_NE; fdiv := b64_div mode_NE;
  fneg := b64_opp; fabs := b64_abs; fsqrt := b64_sqrt mode_NE;
  fexp := l_exp L; flog := l_log L; fpow := l_pow L;
  fmax := b64_max; fmin := b64_min;
  flt := b64_lt; fle := b64_le; feq := b64_eq;
  ofZ := b64_ofZ; toZ := b64_toZ
|}.

(** math.Float64bits / math.Float64frombits. *)
Definition B64_bits (L : libm) : FBits (B64 L) := MkFBits (B64 L) bits_of_b64 b64_of_bits.

Lemma B64_bits_ok L : bits_ok (B64_bits L).
Proof.
  intros x. split.
  - apply (bits_of_binary_float_range 52 11 eq_refl eq_refl).
  - apply (binary_float_of_bits_of_binary_float 52 11 eq_refl eq_refl eq_refl).
Qed.
Lemma B64_bits_surj L z : (0 <= z < 2 ^ 64)%Z -> to_bits (B64_bits L) (of_bits (B64_bits L) z) = z.
Proof. intros Hz. apply (bits_of_binary_float_of_bits 52 11 eq_refl eq_refl eq_refl). exact Hz. Qed.

(** ** Order *)
Definition rank (x : binary64) : Z :=
  match x with B754_infinity _ _ true => -1 | B754_infinity _ _ false => 1 | _ => 0 end.
(** A NaN-free number as a pair, ordered lexicographically. *)
Definition xlt (x y : binary64) : Prop :=
  (rank x < rank y)%Z \/ (rank x = rank y /\ (b64_R x < b64_R y)%R).
Definition xeq (x y : binary64) : Prop := rank x = rank y /\ b64_R x = b64_R y.

Lemma b64_compare_spec x y : b64_nan x = false -> b64_nan y = false ->
  match b64_compare x y with
  | Some Lt => xlt x y | Some Eq => xeq x y | Some Gt => xlt y x | None => False
  end.
Proof.
  intros Hx Hy.
  destruct (b64_finite x) eqn:Fx, (b64_finite y) eqn:Fy.
  - unfold b64_compare. rewrite Bcompare_correct by assumption.
    assert (Rx : rank x = 0%Z) by (destruct x; try discriminate; reflexivity).
    assert (Ry : rank y = 0%Z) by (destruct y; try discriminate; reflexivity).
    unfold xlt, xeq, b64_R. rewrite Rx, Ry.
    destruct (Rcompare_spec (B2R 53 1024 x) (B2R 53 1024 y)); auto.
  - unfold xlt, xeq. destruct y as [|[|]| |]; try discriminate; destruct x as [|[|]| |[|]]; try discriminate; simpl; auto; left; reflexivity.
  - unfold xlt, xeq. destruct x as [|[|]| |]; try discriminate; destruct y as [|[|]| |[|]]; try discriminate; simpl; auto; left; reflexivity.
  - unfold xlt, xeq. destruct x as [|[|]| |]; try discriminate; destruct y as [|[|]| |]; try discriminate; simpl; auto; left; reflexivity.
Qed.

Lemma xlt_irr x : ~ xlt x x.
Proof. unfold xlt. intros [H|[_ H]]; [lia|lra]. Qed.
Lemma xlt_trans x y z : xlt x y -> xlt y z -> xlt x z.
Proof. unfold xlt. intros [H|[H H']] [G|[G G']]; try (left; lia). right. split; [congruence|lra]. Qed.
Lemma xlt_xeq_l x y z : xeq x y -> xlt y z -> xlt x z.
Proof. unfold xlt, xeq. intros [H H'] [G|[G G']]; [left; lia|right; split; [congruence|lra]]. Qed.
Lemma xlt_xeq_r x y z : xlt x y -> xeq y z -> xlt x z.
Proof. unfold xlt, xeq. intros [H|[H H']] [G G']; [left; lia|right; split; [congruence|lra]]. Qed.
Lemma xtotal x y : xlt x y \/ xeq x y \/ xlt y x.
Proof.
  unfold xlt, xeq. destruct (Z.lt_trichotomy (rank x) (rank y)) as [H|[H|H]]; auto.
  destruct (Rtotal_order (b64_R x) (b64_R y)) as [G|[G|G]]; auto 6.
Qed.
Lemma xlt_not_xeq x y : xlt x y -> ~ xeq x y.
Proof. intros H E. apply (xlt_irr y). eapply xlt_xeq_r in H; [|split; reflexivity]. destruct E as [E1 E2]. unfold xlt in *. rewrite E1, E2 in H. exact H. Qed.

Lemma b64_lt_spec x y : b64_nan x = false -> b64_nan y = false -> b64_lt x y = true <-> xlt x y.
Proof.
  intros Hx Hy. pose proof (b64_compare_spec x y Hx Hy) as H. unfold b64_lt.
  destruct (b64_compare x y) as [[| |]|]; split; auto; try discriminate; try tauto.
  - intros G. exfalso. exact (xlt_not_xeq _ _ G H).
  - intros G. exfalso. exact (xlt_irr _ (xlt_trans _ _ _ G H)).
Qed.
Lemma b64_lt_nan_l x y : b64_nan x = true -> b64_lt x y = false.
Proof. destruct x; try discriminate. reflexivity. Qed.
Lemma b64_lt_nan_r x y : b64_nan y = true -> b64_lt x y = false.
Proof. destruct y; try discriminate. destruct x as [| | |]; reflexivity. Qed.
Lemma b64_eq_spec x y : b64_nan x = false -> b64_nan y = false -> b64_eq x y = true <-> xeq x y.
Proof.
  intros Hx Hy. pose proof (b64_compare_spec x y Hx Hy) as H. unfold b64_eq.
  destruct (b64_compare x y) as [[| |]|]; split; auto; try discriminate; try tauto.
  - intros G. exfalso. exact (xlt_not_xeq _ _ H G).
  - intros [G1 G2]. exfalso. apply (xlt_not_xeq _ _ H). split; auto.
Qed.
Lemma b64_eq_nan x y : b64_nan x = true -> b64_eq x y = false.
Proof. destruct x; try discriminate. reflexivity. Qed.
Lemma b64_eq_refl x : b64_nan x = false -> b64_eq x x = true.
Proof. intros H. apply b64_eq_spec; auto. split; reflexivity. Qed.
Lemma b64_eq_sym x y : b64_eq x y = b64_eq y x.
Proof.
  destruct (b64_nan x) eqn:Nx; [|destruct (b64_nan y) eqn:Ny].
  - rewrite b64_eq_nan by auto. destruct x; try discriminate. now destruct y as [| | |].
  - rewrite (b64_eq_nan y) by auto. destruct y; try discriminate. now destruct x as [| | |].
  - apply eq_true_iff_eq. rewrite !b64_eq_spec by auto. unfold xeq. intuition congruence.
Qed.
Lemma b64_le_spec x y : b64_nan x = false -> b64_nan y = false -> b64_le x y = true <-> ~ xlt y x.
Proof.
  intros Hx Hy. pose proof (b64_compare_spec x y Hx Hy) as H. unfold b64_le.
  destruct (b64_compare x y) as [[| |]|]; split; auto; try discriminate; try tauto.
  - intros _ G. apply (xlt_not_xeq _ _ G). destruct H; split; auto.
  - intros _ G. exact (xlt_irr _ (xlt_trans _ _ _ G H)).
Qed.

(** ** Integers *)
Lemma ofZ_exact z : (Z.abs z <= 2 ^ 53)%Z ->
  b64_finite (b64_ofZ z) = true /\ b64_R (b64_ofZ z) = IZR z /\ Bsign 53 1024 (b64_ofZ z) = (z <? 0)%Z.
Proof.
  intros Hz. unfold b64_ofZ, b64_finite, b64_R.
  pose proof (binary_normalize_correct 53 1024 prec53_gt0 prec53_lt mode_NE z 0 false) as H.
  assert (E : F2R (Float radix2 z 0) = IZR z) by (unfold F2R; simpl; ring). rewrite E in H.
  assert (HR : round radix2 (SpecFloat.fexp 53 1024) (round_mode mode_NE) (IZR z) = IZR z).
  { apply round_generic; [apply valid_rnd_round_mode|].
    change (SpecFloat.fexp 53 1024) with (FLT_exp (-1074) 53). apply generic_format_FLT.
    destruct (Z.eq_dec (Z.abs z) (2 ^ 53)) as [He|Hne].
    - assert (z = (if (z <? 0)%Z then -1 else 1) * 2 ^ 53)%Z by (destruct (Z.ltb_spec z 0); lia).
      exists (Float radix2 (if (z <? 0)%Z then -1 else 1) 53).
      + rewrite H0 at 1. rewrite mult_IZR. unfold F2R. simpl. reflexivity.
      + simpl. destruct (z <? 0)%Z; simpl; lia.
      + simpl. lia.
    - exists (Float radix2 z 0); simpl; auto; lia. }
  rewrite HR in H. rewrite Rlt_bool_true in H.
  - destruct H as (H1 & H2 & H3). split; auto. split; auto. rewrite H3. destruct (Rcompare_spec (IZR z) 0) as [G|G|G].
    + apply lt_IZR in G. symmetry. apply Z.ltb_lt. lia.
    + apply eq_IZR in G. subst. reflexivity.
    + apply lt_IZR in G. symmetry. apply Z.ltb_ge. lia.
  - rewrite <- abs_IZR. change (bpow radix2 1024) with (IZR (2 ^ 1024)). apply IZR_lt.
    eapply Z.le_lt_trans; [exact Hz|]. apply Z.pow_lt_mono_r; lia.
Qed.

(** Larger integers round, but monotonically and never to NaN. *)
Lemma ofZ_round z : (Z.abs z < 2 ^ 63)%Z ->
  b64_finite (b64_ofZ z) = true /\ b64_R (b64_ofZ z) = round radix2 (FLT_exp (-1074) 53) ZnearestE (IZR z).
Proof.
  intros Hz. unfold b64_ofZ, b64_finite, b64_R.
  pose proof (binary_normalize_correct 53 1024 prec53_gt0 prec53_lt mode_NE z 0 false) as H.
  assert (E : F2R (Float radix2 z 0) = IZR z) by (unfold F2R; simpl; ring). rewrite E in H.
  rewrite Rlt_bool_true in H.
  - destruct H as (H1 & H2 & _). auto.
  - apply Rle_lt_trans with (bpow radix2 63); [|apply bpow_lt; lia].
    apply abs_round_le_generic.
    + apply (FLT_exp_valid (-1074) 53).
    + apply valid_rnd_round_mode.
    + change (SpecFloat.fexp 53 1024) with (FLT_exp (-1074) 53). apply generic_format_bpow. unfold FLT_exp. lia.
    + rewrite <- abs_IZR. change (bpow radix2 63) with (IZR (2 ^ 63)). apply IZR_le. lia.
Qed.

Lemma finite_not_nan x : b64_finite x = true -> b64_nan x = false.
Proof. destruct x; auto; discriminate. Qed.
Lemma finite_rank x : b64_finite x = true -> rank x = 0%Z.
Proof. destruct x as [| | |]; auto; discriminate. Qed.

Lemma toZ_exact x z : b64_finite x = true -> b64_R x = IZR z -> (Z.abs z <= 2 ^ 53)%Z -> b64_toZ x = z.
Proof.
  intros Hf Hr Hz. unfold b64_toZ. rewrite Hf.
  assert (E : Btrunc 53 1024 x = z).
  { apply eq_IZR. rewrite Btrunc_correct by reflexivity. change (B2R 53 1024 x) with (b64_R x). rewrite Hr.
    apply round_generic; [apply valid_rnd_ZR|]. apply generic_format_FIX. exists (Float radix2 z 0); auto.
    unfold F2R; simpl; ring. }
  cbv zeta. rewrite E. replace ((- 2 ^ 63 <=? z) && (z <? 2 ^ 63))%Z with true; auto.
  symmetry. apply andb_true_intro. split; [apply Z.leb_le|apply Z.ltb_lt]; lia.
Qed.

Lemma B64_int_faithful L : int_faithful (B64 L).
Proof.
  intros z Hz. unfold small_int in Hz. destruct (ofZ_exact z) as (H1 & H2 & _); [lia|]. apply toZ_exact; auto; lia.
Qed.

Lemma b64_lt_ofZ a b : (Z.abs a <= 2 ^ 53)%Z -> (Z.abs b <= 2 ^ 53)%Z -> b64_lt (b64_ofZ a) (b64_ofZ b) = (a <? b)%Z.
Proof.
  intros Ha Hb. destruct (ofZ_exact a Ha) as (A1 & A2 & _). destruct (ofZ_exact b Hb) as (B1 & B2 & _).
  apply eq_true_iff_eq. rewrite b64_lt_spec by (apply finite_not_nan; auto). unfold xlt.
  rewrite !finite_rank by auto. rewrite A2, B2, Z.ltb_lt. split.
  - intros [H|[_ H]]; [lia|]. now apply lt_IZR.
  - intros H. right. split; auto. now apply IZR_lt.
Qed.
Lemma b64_eq_ofZ a b : (Z.abs a <= 2 ^ 53)%Z -> (Z.abs b <= 2 ^ 53)%Z -> b64_eq (b64_ofZ a) (b64_ofZ b) = (a =? b)%Z.
Proof.
  intros Ha Hb. destruct (ofZ_exact a Ha) as (A1 & A2 & _). destruct (ofZ_exact b Hb) as (B1 & B2 & _).
  apply eq_true_iff_eq. rewrite b64_eq_spec by (apply finite_not_nan; auto). unfold xeq.
  rewrite !finite_rank by auto. rewrite A2, B2, Z.eqb_eq. split.
  - intros [_ H]. now apply eq_IZR.
  - intros ->. auto.
Qed.

Lemma is_zero_ofZ z : (Z.abs z <= 2 ^ 53)%Z -> is_zero (b64_ofZ z) = (z =? 0)%Z.
Proof.
  intros Hz. destruct (ofZ_exact z Hz) as (H1 & H2 & _). apply eq_true_iff_eq. rewrite Z.eqb_eq.
  split.
  - intros E. apply eq_IZR. rewrite <- H2. destruct (b64_ofZ z); try discriminate. reflexivity.
  - intros ->. reflexivity.
Qed.

Lemma B64_min_faithful L : min_faithful (B64 L).
Proof.
  intros a b Ha Hb. unfold small_int in *. pose proof (B64_int_faithful L) as HI. unfold int_faithful in HI. simpl in *.
  destruct (ofZ_exact a) as (A1 & A2 & A3); [lia|]. destruct (ofZ_exact b) as (B1 & B2 & B3); [lia|].
  unfold b64_min. rewrite !finite_not_nan by auto.
  assert (Ia : is_minf (b64_ofZ a) = false) by (destruct (b64_ofZ a); auto; discriminate).
  assert (Ib : is_minf (b64_ofZ b) = false) by (destruct (b64_ofZ b); auto; discriminate).
  rewrite Ia, Ib. cbn [orb]. rewrite !is_zero_ofZ by lia. rewrite b64_lt_ofZ by lia. rewrite A3.
  destruct (Z.eqb_spec a 0), (Z.eqb_spec b 0), (Z.ltb_spec a b), (Z.ltb_spec a 0); cbn [andb]; rewrite HI by (unfold small_int; lia); lia.
Qed.
