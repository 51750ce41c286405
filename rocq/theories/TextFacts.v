(** * TextFacts: what can be read from the texts. *)
From Coq Require Import ZArith Reals Lra Lia Bool Ascii String List Psatz.
From Flocq Require Import Core.Core IEEE754.BinarySingleNaN IEEE754.Binary IEEE754.Bits.
From Verif Require Import Num Heap NumB64 LayerData ModelData TextGo TextSpec.
Import ListNotations.
Open Scope string_scope.
Open Scope Z_scope.

(** ** Digits *)
Lemma app_assoc_s (a b c : string) : (a ++ b) ++ c = a ++ b ++ c.
Proof. induction a as [|x a IH]; simpl; [reflexivity|now rewrite IH]. Qed.
Lemma app_nil_s (a : string) : a ++ "" = a.
Proof. induction a as [|x a IH]; simpl; [reflexivity|now rewrite IH]. Qed.

Lemma digit_read d : 0 <= d < 10 -> digit_value (digit d) = Some d.
Proof.
  intros Hd. assert (H : d = 0 \/ d = 1 \/ d = 2 \/ d = 3 \/ d = 4 \/ d = 5 \/ d = 6 \/ d = 7 \/ d = 8 \/ d = 9) by lia.
  repeat destruct H as [->|H]; try reflexivity. subst. reflexivity.
Qed.
Lemma read_digits_cons v k d t : 0 <= d < 10 -> read_digits v k (String (digit d) t) = read_digits (10 * v + d) (S k) t.
Proof. intros H. cbn [read_digits]. now rewrite digit_read. Qed.
Definition no_digit (t : string) : Prop := match t with EmptyString => True | String c _ => digit_value c = None end.
Lemma read_digits_stop v k t : no_digit t -> read_digits v k t = (v, k, t).
Proof. destruct t as [|c t]; [reflexivity|]. simpl. now intros ->. Qed.
Lemma digits_app fuel : forall n acc t, digits fuel n acc ++ t = digits fuel n (acc ++ t).
Proof. induction fuel as [|f IH]; intros n acc t; simpl; [reflexivity|]. destruct (n <? 10); [reflexivity|]. apply IH. Qed.
(** Reading the digits of [n] after [v]. *)
Lemma digits_read fuel : forall n acc v k, 0 <= n < 2 ^ Z.of_nat fuel ->
  exists j, (n < 10 ^ Z.of_nat j) /\ (n <> 0 -> 10 ^ (Z.of_nat j - 1) <= n) /\ (1 <= j \/ fuel = 0)%nat /\
    read_digits v k (digits fuel n acc) = read_digits (v * 10 ^ Z.of_nat j + n) (k + j) acc.
Proof.
  induction fuel as [|f IH]; intros n acc v k Hn.
  - exists 0%nat. change (2 ^ Z.of_nat 0) with 1 in Hn. assert (n = 0) by lia. subst n. split; [reflexivity|]. split; [lia|]. split; [lia|].
    change (10 ^ Z.of_nat 0) with 1. cbn [digits]. f_equal; lia.
  - simpl digits. destruct (n <? 10) eqn:E.
    + exists 1%nat. rewrite Z.mod_small by lia. split; [change (10 ^ Z.of_nat 1) with 10; lia|].
      split; [intros HN; change (10 ^ (Z.of_nat 1 - 1)) with 1; lia|]. split; [lia|]. rewrite read_digits_cons by lia. f_equal; [change (10 ^ Z.of_nat 1) with 10|]; lia.
    + rewrite Nat2Z.inj_succ, Z.pow_succ_r in Hn by lia.
      destruct (IH (n / 10) (String (digit (n mod 10)) acc) v k) as (j & H1 & H1' & H2 & H3).
      { split; [apply Z.div_pos; lia|]. apply Z.div_lt_upper_bound; lia. }
      exists (S j). rewrite Nat2Z.inj_succ, Z.pow_succ_r by lia.
      assert (HM := Z.div_mod n 10 ltac:(lia)). assert (HB := Z.mod_pos_bound n 10 ltac:(lia)).
      split; [lia|]. split.
      { intros _. assert (HD : n / 10 <> 0). { intros HD. rewrite HD in HM. lia. } specialize (H1' HD).
        destruct j as [|j']; [change (10 ^ Z.of_nat 0) with 1 in H1; assert (0 <= n / 10) by (apply Z.div_pos; lia); lia|].
        replace (Z.succ (Z.of_nat (S j')) - 1) with (Z.succ (Z.of_nat (S j') - 1)) by lia. rewrite Z.pow_succ_r by lia. lia. }
      split; [lia|]. rewrite H3. rewrite read_digits_cons by lia. f_equal; lia.
Qed.
Lemma log2_fuel n : 0 <= n -> 0 <= n < 2 ^ Z.of_nat (S (Z.to_nat (Z.log2 n))).
Proof.
  intros Hn. split; [exact Hn|]. assert (H0 := Z.log2_nonneg n). rewrite Nat2Z.inj_succ, Z2Nat.id by lia.
  destruct (Z.eq_dec n 0) as [->|H]; [reflexivity|]. apply (Z.log2_spec n). lia.
Qed.
Lemma fmt_nat_read n t v k : 0 <= n ->
  exists j, (1 <= j)%nat /\ read_digits v k (fmt_nat n ++ t) = read_digits (v * 10 ^ Z.of_nat j + n) (k + j) t.
Proof.
  intros Hn. unfold fmt_nat. rewrite digits_app. simpl ("" ++ t). destruct (digits_read _ n t v k (log2_fuel n Hn)) as (j & _ & _ & Hj & E).
  exists j. split; [lia|exact E].
Qed.
Lemma fmt_pad_app w : forall n acc t, fmt_pad w n acc ++ t = fmt_pad w n (acc ++ t).
Proof. induction w as [|w IH]; intros n acc t; simpl; [reflexivity|apply IH]. Qed.
Lemma fmt_pad_read w : forall n acc v k, 0 <= n < 10 ^ Z.of_nat w ->
  read_digits v k (fmt_pad w n acc) = read_digits (v * 10 ^ Z.of_nat w + n) (k + w) acc.
Proof.
  induction w as [|w IH]; intros n acc v k Hn.
  - change (10 ^ Z.of_nat 0) with 1 in *. simpl. f_equal; lia.
  - rewrite Nat2Z.inj_succ, Z.pow_succ_r in * by lia.
    assert (HM := Z.div_mod n 10 ltac:(lia)). assert (HB := Z.mod_pos_bound n 10 ltac:(lia)).
    simpl fmt_pad. rewrite IH by (split; [apply Z.div_pos; lia|apply Z.div_lt_upper_bound; lia]).
    rewrite read_digits_cons by lia. f_equal; lia.
Qed.

(** The first character of a number is a digit. *)
Definition is_digit (c : ascii) : Prop := digit_value c <> None.
Lemma digits_head fuel : forall n acc, 0 <= n -> (1 <= fuel)%nat \/ (exists c t, acc = String c t /\ is_digit c) ->
  exists c t, digits fuel n acc = String c t /\ is_digit c.
Proof.
  assert (HD : forall n, is_digit (digit (n mod 10))).
  { intros n. unfold is_digit. rewrite digit_read; [discriminate|apply Z.mod_pos_bound; lia]. }
  induction fuel as [|f IH]; intros n acc Hn H.
  - destruct H as [H|H]; [lia|exact H].
  - simpl. destruct (n <? 10); [eauto|]. apply IH; [apply Z.div_pos; lia|]. right. eauto.
Qed.
Lemma fmt_nat_head n : 0 <= n -> exists c t, fmt_nat n = String c t /\ is_digit c.
Proof. intros Hn. apply digits_head; [exact Hn|]. left. lia. Qed.
Lemma digit_not_minus c t : is_digit c -> read_sign (String c t) = (false, String c t).
Proof.
  intros H. destruct (Ascii.eqb c "-") eqn:E; [apply Ascii.eqb_eq in E; subst c; exfalso; apply H; reflexivity|].
  apply Ascii.eqb_neq in E. destruct c as [[] [] [] [] [] [] [] []]; try reflexivity. exfalso. apply E. reflexivity.
Qed.
Lemma read_sign_nat n t : 0 <= n -> read_sign (fmt_nat n ++ t) = (false, fmt_nat n ++ t).
Proof. intros Hn. destruct (fmt_nat_head n Hn) as (c & u & E & HD). rewrite E. apply digit_not_minus, HD. Qed.

(** %d *)
Lemma read_fmt_d n t : no_digit t -> read_int (fmt_d n ++ t) = Some (n, t).
Proof.
  intros Ht. unfold fmt_d, read_int. destruct (n <? 0) eqn:E.
  - change (("-" ++ fmt_nat (- n)) ++ t) with (String "-" (fmt_nat (- n) ++ t)). cbv beta iota delta [read_sign].
    destruct (fmt_nat_read (- n) t 0 0 ltac:(lia)) as (j & Hj & ->). rewrite read_digits_stop by exact Ht.
    replace (0 + j =? 0)%nat with false by (symmetry; apply Nat.eqb_neq; lia). do 2 f_equal. lia.
  - rewrite read_sign_nat by lia. destruct (fmt_nat_read n t 0 0 ltac:(lia)) as (j & Hj & ->). rewrite read_digits_stop by exact Ht.
    replace (0 + j =? 0)%nat with false by (symmetry; apply Nat.eqb_neq; lia). do 2 f_equal.
Qed.
Lemma fmt_d_inj n n' t t' : no_digit t -> no_digit t' -> fmt_d n ++ t = fmt_d n' ++ t' -> n = n' /\ t = t'.
Proof. intros Ht Ht' E. assert (H := read_fmt_d n t Ht). rewrite E, read_fmt_d in H by exact Ht'. injection H as -> ->. auto. Qed.

(** ** %f *)
Lemma micro_nearest m e : micro m e = ZnearestE (10 ^ 6 * F2R (Float radix2 (Zpos m) e)).
Proof.
  unfold micro. set (num := Z.pos m * 10 ^ 6 * 2 ^ Z.max e 0). set (den := 2 ^ Z.max (- e) 0).
  assert (HD : 0 < den) by (apply Z.pow_pos_nonneg; lia).
  assert (EV : (10 ^ 6 * F2R (Float radix2 (Zpos m) e) = IZR num / IZR den)%R).
  { unfold F2R. cbn [Fnum Fexp]. unfold num, den. rewrite !mult_IZR, !(IZR_Zpower radix2) by lia.
    change (IZR (10 ^ 6)) with (1000000)%R. replace (10 ^ 6)%R with 1000000%R by (simpl; ring).
    destruct (Z.le_gt_cases 0 e).
    - rewrite (Z.max_l e), (Z.max_r (- e)) by lia. simpl (bpow radix2 0). field.
    - rewrite (Z.max_r e), (Z.max_l (- e)) by lia. simpl (bpow radix2 0). rewrite bpow_opp. field. apply Rgt_not_eq, bpow_gt_0. }
  rewrite EV. unfold ZnearestE, Znearest. rewrite Zfloor_div by lia.
  assert (HM := Z.div_mod num den ltac:(lia)). assert (HB := Z.mod_pos_bound num den HD).
  assert (HDR : (0 < IZR den)%R) by (apply IZR_lt; exact HD).
  assert (EQ : (IZR num / IZR den = IZR (num / den) + IZR (num mod den) / IZR den)%R).
  { rewrite HM at 1. rewrite plus_IZR, mult_IZR. field. lra. }
  replace (IZR num / IZR den - IZR (num / den))%R with (IZR (num mod den) / IZR den)%R by lra.
  assert (HC : num mod den <> 0 -> Zceil (IZR num / IZR den) = num / den + 1).
  { intros H0. apply Zceil_imp. rewrite EQ, minus_IZR, plus_IZR. simpl (IZR 1).
    assert (0 < IZR (num mod den) / IZR den)%R by (apply Rdiv_lt_0_compat; [apply IZR_lt; lia|exact HDR]).
    assert (IZR (num mod den) / IZR den < 1)%R.
    { apply Rmult_lt_reg_r with (IZR den); [exact HDR|]. unfold Rdiv. rewrite Rmult_assoc, Rinv_l, Rmult_1_r, Rmult_1_l by lra. apply IZR_lt. lia. }
    lra. }
  assert (HH : (IZR (num mod den) / IZR den - / 2 = IZR (2 * (num mod den) - den) * / (2 * IZR den))%R).
  { rewrite minus_IZR, mult_IZR. field. lra. }
  assert (HI : (0 < / (2 * IZR den))%R) by (apply Rinv_0_lt_compat; lra).
  destruct (Z.ltb_spec (2 * (num mod den)) den) as [C1|C1].
  - rewrite Rcompare_Lt; [reflexivity|]. assert (IZR (2 * (num mod den) - den) < 0)%R by (apply IZR_lt; lia). nra.
  - destruct (Z.ltb_spec den (2 * (num mod den))) as [C2|C2].
    + rewrite Rcompare_Gt; [symmetry; apply HC; lia|]. assert (0 < IZR (2 * (num mod den) - den))%R by (apply IZR_lt; lia). nra.
    + rewrite Rcompare_Eq.
      * destruct (Z.even (num / den)); [reflexivity|]. cbn [negb]. symmetry. apply HC. lia.
      * assert (E0 : 2 * (num mod den) - den = 0) by lia. rewrite E0 in HH. lra.
Qed.
Lemma micro_nonneg m e : 0 <= micro m e.
Proof.
  rewrite micro_nearest. apply Z.le_trans with (ZnearestE 0).
  - change 0%R with (IZR 0). rewrite (Zrnd_IZR _). lia.
  - apply Zrnd_le; [apply valid_rnd_N|]. apply Rmult_le_pos; [simpl; lra|]. apply F2R_ge_0. simpl. lia.
Qed.
(** What %f writes: millionths. *)
Definition millionths (x : binary64) : Z := ZnearestE (10 ^ 6 * b64_R x).
Lemma expect_app p t : expect p (p ++ t) = Some t.
Proof. induction p as [|c p IH]; simpl; [reflexivity|]. rewrite Ascii.eqb_refl. exact IH. Qed.
Lemma read_fmt_micro n t neg : 0 <= n -> no_digit t ->
  read_decimal (sign_text neg ++ fmt_micro n ++ t) = Some (Decimal (IZR (if neg then - n else n) / 10 ^ 6), t).
Proof.
  intros Hn Ht. unfold read_decimal.
  assert (HS : read_sign (sign_text neg ++ fmt_micro n ++ t) = (neg, fmt_micro n ++ t)).
  { destruct neg; [reflexivity|]. unfold fmt_micro. rewrite !app_assoc_s. simpl (sign_text false ++ _).
    apply read_sign_nat. apply Z.div_pos; lia. }
  rewrite HS. unfold fmt_micro. rewrite !app_assoc_s.
  destruct (fmt_nat_read (n / 10 ^ 6) ("." ++ fmt_pad 6 (n mod 10 ^ 6) "" ++ t) 0 0 ltac:(apply Z.div_pos; lia)) as (j & Hj & ->).
  rewrite read_digits_stop by reflexivity.
  replace (0 + j =? 0)%nat with false by (symmetry; apply Nat.eqb_neq; lia). rewrite expect_app.
  rewrite fmt_pad_app, fmt_pad_read by (apply Z.mod_pos_bound; lia). simpl ("" ++ t). rewrite read_digits_stop by exact Ht.
  cbn [Nat.add Nat.eqb]. replace ((0 * 10 ^ Z.of_nat j + n / 10 ^ 6) * 10 ^ Z.of_nat 6 + n mod 10 ^ 6) with n; [reflexivity|].
  assert (H := Z.div_mod n (10 ^ 6) ltac:(lia)). change (Z.of_nat 6) with 6. lia.
Qed.
Lemma expect_digit p c a t : is_digit a -> digit_value c = None -> expect (String c p) (String a t) = None.
Proof.
  intros Ha Hc. simpl. destruct (Ascii.eqb c a) eqn:E; [|reflexivity]. apply Ascii.eqb_eq in E. subst. contradiction.
Qed.
Lemma expect_cons a p b t : expect (String a p) (String b t) = if Ascii.eqb a b then expect p t else None.
Proof. reflexivity. Qed.
Lemma expect_sign_digit neg n t p a b : 0 <= n -> digit_value a = None -> digit_value b = None ->
  expect (String a (String b p)) (sign_text neg ++ fmt_micro n ++ t) = None.
Proof.
  intros Hn Ha Hb. unfold fmt_micro. rewrite !app_assoc_s. destruct (fmt_nat_head (n / 10 ^ 6) ltac:(apply Z.div_pos; lia)) as (c & u & -> & HD).
  destruct neg; simpl sign_text.
  - cbn [append]. rewrite expect_cons. destruct (Ascii.eqb a "-"); [|reflexivity]. apply expect_digit; assumption.
  - cbn [append]. apply expect_digit; assumption.
Qed.
Lemma read_float_micro n t neg : 0 <= n -> no_digit t ->
  read_float (sign_text neg ++ fmt_micro n ++ t) = Some (Decimal (IZR (if neg then - n else n) / 10 ^ 6), t).
Proof.
  intros Hn Ht. unfold read_float. rewrite !expect_sign_digit by (try exact Hn; reflexivity). apply read_fmt_micro; assumption.
Qed.
Lemma ZnearestE_opp x : ZnearestE (- x) = - ZnearestE x.
Proof.
  rewrite Znearest_opp. f_equal. unfold Znearest. destruct (Rcompare _ _); try reflexivity.
  rewrite Z.even_opp, Z.even_add. cbn [Z.even]. now destruct (Z.even (Zfloor x)).
Qed.
Lemma read_fmt_f x t : no_digit t -> read_float (fmt_f x ++ t) = Some (match x with
  | B754_nan _ _ _ _ _ => NotANumber | B754_infinity _ _ s => Infinite s | _ => Decimal (IZR (millionths x) / 10 ^ 6) end, t).
Proof.
  intros Ht. destruct x as [s|[]|s pl Hpl|s m e Hb]; try reflexivity.
  - unfold fmt_f. rewrite app_assoc_s, read_float_micro by (try lia; exact Ht). do 4 f_equal.
    unfold millionths. simpl b64_R. rewrite Rmult_0_r. change 0%R with (IZR 0). rewrite (Zrnd_IZR _). now destruct s.
  - unfold fmt_f. rewrite app_assoc_s, read_float_micro by (try apply micro_nonneg; exact Ht). do 4 f_equal.
    rewrite micro_nearest. unfold millionths, b64_R, B2R. destruct s; cbn [cond_Zopp]; [|reflexivity].
    rewrite F2R_Zopp, Ropp_mult_distr_r_reverse, ZnearestE_opp. reflexivity.
Qed.
Lemma read_fmt_finite x t : b64_finite x = true -> no_digit t -> read_float (fmt_f x ++ t) = Some (Decimal (IZR (millionths x) / 10 ^ 6), t).
Proof. intros Fx Ht. rewrite read_fmt_f by exact Ht. destruct x; try discriminate; reflexivity. Qed.
Lemma millionths_close x : (Rabs (IZR (millionths x) / 10 ^ 6 - b64_R x) <= 5 / 10 ^ 7)%R.
Proof.
  unfold millionths. assert (H := Znearest_half (fun z => negb (Z.even z)) (10 ^ 6 * b64_R x)).
  set (z := IZR (ZnearestE (10 ^ 6 * b64_R x))) in *. set (r := b64_R x) in *.
  replace (10 ^ 6)%R with 1000000%R in * by (simpl; ring). replace (10 ^ 7)%R with 10000000%R by (simpl; ring).
  apply Rabs_le. apply Rabs_le_inv in H. lra.
Qed.
Lemma millionths_mono x y : (b64_R x <= b64_R y)%R -> millionths x <= millionths y.
Proof. intros H. apply Zrnd_le; [apply valid_rnd_N|]. apply Rmult_le_compat_l; [simpl; lra|exact H]. Qed.
Lemma fmt_f_same x y : b64_finite x = true -> b64_finite y = true -> fmt_f x = fmt_f y -> (Rabs (b64_R x - b64_R y) <= 1 / 10 ^ 6)%R.
Proof.
  intros Fx Fy E. assert (Hx := read_fmt_finite x "" Fx I). rewrite E, (read_fmt_finite y "" Fy I) in Hx.
  assert (HZ : (IZR (millionths x) / 10 ^ 6 = IZR (millionths y) / 10 ^ 6)%R) by congruence.
  assert (H1 := millionths_close x). assert (H2 := millionths_close y). rewrite HZ in H1.
  apply Rabs_le_inv in H1. apply Rabs_le_inv in H2. apply Rabs_le.
  replace (10 ^ 6)%R with 1000000%R in * by (simpl; ring). replace (10 ^ 7)%R with 10000000%R in * by (simpl; ring). lra.
Qed.

Definition reading_of (x : binary64) : reading :=
  match x with B754_nan _ _ _ _ _ => NotANumber | B754_infinity _ _ s => Infinite s | _ => Decimal (IZR (millionths x) / 10 ^ 6) end.
Lemma read_fmt_f_of x t : no_digit t -> read_float (fmt_f x ++ t) = Some (reading_of x, t).
Proof. exact (read_fmt_f x t). Qed.
