(** * TrackNum: the bounds of [TNum] hold for float64, and its values are the exact ones. *)
From Coq Require Import ZArith QArith Qpower Qabs Qreduction Qreals List Bool Arith Lia Reals Lra Psatz.
From Flocq Require Import Core.Core IEEE754.BinarySingleNaN IEEE754.Binary IEEE754.Bits.
From Verif Require Import Num NumR NumQ NumB64 Heap Spec PureSpec RSum B64Facts RoundSpec Rounding RoundProofs TrackSpec.
Import ListNotations.
Open Scope R_scope.

(** ** Rationals *)
Lemma Q2R_abs q : Q2R (Qabs q) = Rabs (Q2R q).
Proof.
  destruct (Qlt_le_dec q 0) as [H|H].
  - rewrite (Qeq_eqR (Qabs q) (- q)) by (apply Qabs_neg, Qlt_le_weak, H). rewrite Q2R_opp. apply Qlt_Rlt in H. rewrite RMicromega.Q2R_0 in H. rewrite Rabs_left; lra.
  - rewrite (Qeq_eqR (Qabs q) q) by (apply Qabs_pos, H). apply Qle_Rle in H. rewrite RMicromega.Q2R_0 in H. rewrite Rabs_right; lra.
Qed.
Lemma Q2R_red q : Q2R (Qred q) = Q2R q.
Proof. apply Qeq_eqR, Qred_correct. Qed.
Lemma Q2R_inject z : Q2R (inject_Z z) = IZR z.
Proof. unfold Q2R, inject_Z. simpl. lra. Qed.
Lemma Qle_bool_R a b : Qle_bool a b = true <-> Q2R a <= Q2R b.
Proof. rewrite Qle_bool_iff. split; [apply Qle_Rle|apply Rle_Qle]. Qed.
Lemma Qle_bool_false_R a b : Qle_bool a b = false <-> Q2R b < Q2R a.
Proof. rewrite <- Bool.not_true_iff_false, Qle_bool_R. lra. Qed.
Lemma q_ltb_R a b : q_ltb a b = true <-> Q2R a < Q2R b.
Proof. unfold q_ltb. rewrite negb_true_iff. apply Qle_bool_false_R. Qed.
Lemma q_ltb_false_R a b : q_ltb a b = false <-> Q2R b <= Q2R a.
Proof. unfold q_ltb. rewrite negb_false_iff. apply Qle_bool_R. Qed.
Lemma q_max_R a b : Q2R (q_max a b) = Rmax (Q2R a) (Q2R b).
Proof. unfold q_max. destruct (q_ltb a b) eqn:E; [apply q_ltb_R in E; rewrite Rmax_right; lra|apply q_ltb_false_R in E; rewrite Rmax_left; lra]. Qed.
Lemma up_R e : Q2R e <= Q2R (up e).
Proof.
  apply Qle_Rle. unfold Qle, up. cbn [Qnum Qden]. pose proof (Z.mul_div_le (- Qnum e * 2 ^ 200) (Zpos (Qden e)) (Pos2Z.is_pos _)) as H.
  replace (Zpos (2 ^ 200)) with (2 ^ 200)%Z by (rewrite Pos2Z.inj_pow; reflexivity). nia.
Qed.
Lemma uQ_R : Q2R uQ = u64.
Proof. unfold Q2R, uQ, u64. cbn [Qnum Qden]. rewrite Pos2Z.inj_pow, (pow_IZR 2 53). rewrite Rmult_1_l. reflexivity. Qed.
Lemma etaQ_R : eta64 <= Q2R etaQ.
Proof.
  assert (E : Q2R etaQ = bpow radix2 (-200)).
  { unfold Q2R, etaQ. cbn [Qnum Qden]. rewrite Pos2Z.inj_pow, Rmult_1_l. change (2 ^ 200)%Z with (radix2 ^ 200)%Z. rewrite IZR_Zpower by lia. symmetry. apply (bpow_opp radix2 200). }
  rewrite E, eta64_bpow. apply bpow_le. lia.
Qed.
Lemma bigQ_R : Q2R bigQ = bpow radix2 1023.
Proof. unfold bigQ. rewrite Q2R_inject. change (2 ^ 1023)%Z with (radix2 ^ 1023)%Z. rewrite IZR_Zpower by lia. reflexivity. Qed.
Lemma Q2R_pow2 e : Q2R (Qpower 2 e) = bpow radix2 e.
Proof.
  assert (P : forall p, Q2R (Qpower_positive 2 p) = bpow radix2 (Zpos p)).
  { intros p. induction p as [|p IH] using Pos.peano_ind.
    - unfold Qpower_positive. simpl. unfold Q2R. simpl. lra.
    - rewrite (Qeq_eqR (Qpower_positive 2 (Pos.succ p)) (2 * Qpower_positive 2 p)).
      + rewrite Q2R_mult, IH, Pos2Z.inj_succ, <- Z.add_1_l, bpow_plus. unfold Q2R at 1. simpl. lra.
      + change (Qpower 2 (Zpos (Pos.succ p)) == 2 * Qpower 2 (Zpos p))%Q. rewrite Pos2Z.inj_succ, <- Z.add_1_l, Qpower_plus by discriminate. reflexivity. }
  destruct e as [|p|p]; [unfold Q2R; simpl; lra|apply P|].
  unfold Qpower. assert (H : Q2R (Qpower_positive 2 p) <> 0) by (rewrite P; apply Rgt_not_eq, bpow_gt_0). rewrite Q2R_inv.
  - rewrite P. change (Zneg p) with (- Zpos p)%Z. rewrite bpow_opp. reflexivity.
  - intros E. apply H. rewrite (Qeq_eqR _ _ E). apply RMicromega.Q2R_0.
Qed.
Lemma b64_Q_R x : b64_R x = Q2R (b64_Q x).
Proof.
  destruct x as [s|s|s pl H|s m e H]; unfold b64_Q; try (rewrite RMicromega.Q2R_0; reflexivity).
  rewrite Q2R_red, Q2R_mult, Q2R_inject, Q2R_pow2. unfold b64_R, B2R, F2R. cbn [Fnum Fexp]. destruct s; reflexivity.
Qed.

(** ** Exact values *)
Definition rho_R (r : R) (a : tracked) : Prop := t_ok a = true -> Q2R (t_val a) = r.
Lemma rounded_ok v e tiny ok : t_ok (rounded v e tiny ok) = true -> ok = true /\ Rabs (Q2R v) + Q2R e <= bpow radix2 1023.
Proof. unfold rounded. cbn [t_ok]. intros H. apply andb_prop in H. destruct H as (H1 & H2). apply Qle_bool_R in H2. rewrite Q2R_plus, Q2R_abs, bigQ_R in H2. auto. Qed.
Lemma R_add x y a b : rho_R x a -> rho_R y b -> rho_R (x + y) (t_add a b).
Proof. intros HA HB H. apply rounded_ok in H. destruct H as (H & _). apply andb_prop in H. destruct H as (H1 & H2). cbn [t_val t_add rounded]. now rewrite Q2R_red, Q2R_plus, HA, HB. Qed.
Lemma R_sub x y a b : rho_R x a -> rho_R y b -> rho_R (x - y) (t_sub a b).
Proof. intros HA HB H. apply rounded_ok in H. destruct H as (H & _). apply andb_prop in H. destruct H as (H1 & H2). cbn [t_val t_sub rounded]. now rewrite Q2R_red, Q2R_minus, HA, HB. Qed.
Lemma R_mul x y a b : rho_R x a -> rho_R y b -> rho_R (x * y) (t_mul a b).
Proof. intros HA HB H. apply rounded_ok in H. destruct H as (H & _). apply andb_prop in H. destruct H as (H1 & H2). cbn [t_val t_mul rounded]. now rewrite Q2R_red, Q2R_mult, HA, HB. Qed.
Lemma R_div x y a b : rho_R x a -> rho_R y b -> rho_R (x / y) (t_div a b).
Proof.
  intros HA HB H. apply rounded_ok in H. destruct H as (H & _). apply andb_prop in H. destruct H as (H & _). apply andb_prop in H. destruct H as (H & N). apply andb_prop in H. destruct H as (H1 & H2).
  apply negb_true_iff in N. cbn [t_val t_div rounded]. rewrite Q2R_red, Q2R_div, HA, HB by (auto; intros E; apply Qeq_bool_iff in E; congruence). reflexivity.
Qed.
Lemma R_neg x a : rho_R x a -> rho_R (- x) (t_neg a).
Proof. intros HA H. cbn [t_val t_neg]. now rewrite Q2R_red, Q2R_opp, HA. Qed.
Lemma R_max x y a b : rho_R x a -> rho_R y b -> rho_R (Rmax x y) (t_max a b).
Proof. intros HA HB H. cbn [t_ok t_max] in H. apply andb_prop in H. destruct H as (H1 & H2). cbn [t_val t_max]. now rewrite q_max_R, HA, HB. Qed.
Lemma R_ofZ z : rho_R (IZR z) (t_ofZ z).
Proof. intros _. apply Q2R_inject. Qed.
Lemma R_unknown x : rho_R x unknown.
Proof. intros H. discriminate H. Qed.
Lemma decided_ok a : decided a = true -> t_ok a = true.
Proof. unfold decided. intros H. apply andb_prop in H. apply H. Qed.
Lemma Q2R_zero : Q2R (inject_Z 0) = 0. Proof. apply Q2R_inject. Qed.
Lemma R_le x a : rho_R x a -> decided a = true -> r_leb x 0 = Qle_bool (t_val a) (inject_Z 0).
Proof. intros HA HD. rewrite <- (HA (decided_ok a HD)). apply eq_true_iff_eq. rewrite r_leb_true, Qle_bool_R, Q2R_zero. tauto. Qed.
Lemma R_lt x a : rho_R x a -> decided a = true -> r_ltb x 0 = q_ltb (t_val a) (inject_Z 0).
Proof. intros HA HD. rewrite <- (HA (decided_ok a HD)). apply eq_true_iff_eq. rewrite r_ltb_true, q_ltb_R, Q2R_zero. tauto. Qed.

(** ** float64 *)
Definition rho_B (x : binary64) (a : tracked) : Prop := t_ok a = true -> b64_finite x = true /\ Rabs (b64_R x - Q2R (t_val a)) <= Q2R (t_err a).
Lemma rounded_B (x : binary64) t v e tiny ok : b64_R x = rnd t -> Rabs (t - Q2R v) <= Q2R e -> Rabs (rnd t - t) <= u64 * Rabs t + Q2R tiny ->
  Rabs (b64_R x - Q2R (t_val (rounded v e tiny ok))) <= Q2R (t_err (rounded v e tiny ok)).
Proof.
  intros EX HE HR. unfold rounded. cbn [t_val t_err]. eapply Rle_trans; [|apply up_R]. rewrite !Q2R_plus, Q2R_mult, Q2R_plus, Q2R_abs, uQ_R, EX.
  assert (A : Rabs t <= Rabs (Q2R v) + Q2R e) by (replace t with (Q2R v + (t - Q2R v)) by ring; eapply Rle_trans; [apply Rabs_triang|]; lra).
  replace (rnd t - Q2R v) with ((t - Q2R v) + (rnd t - t)) by ring. eapply Rle_trans; [apply Rabs_triang|]. pose proof u64_pos. nra.
Qed.
Lemma near_big t v e : Rabs (t - v) <= e -> Rabs v + e <= bpow radix2 1023 -> Rabs t <= bpow radix2 1023.
Proof. intros H1 H2. replace t with (v + (t - v)) by ring. eapply Rle_trans; [apply Rabs_triang|]. lra. Qed.
Lemma B_add x y a b : rho_B x a -> rho_B y b -> rho_B (b64_plus mode_NE x y) (t_add a b).
Proof.
  intros HA HB H. pose proof (rounded_ok _ _ _ _ H) as (H1 & H2). apply andb_prop in H1. destruct H1 as (Oa & Ob). destruct (HA Oa) as (Fx & Ex). destruct (HB Ob) as (Fy & Ey).
  rewrite Q2R_red, !Q2R_plus in H2.
  assert (D : Rabs (b64_R x + b64_R y - Q2R (Qred (t_val a + t_val b))) <= Q2R (t_err a + t_err b)).
  { rewrite Q2R_red, !Q2R_plus. replace (b64_R x + b64_R y - (Q2R (t_val a) + Q2R (t_val b))) with ((b64_R x - Q2R (t_val a)) + (b64_R y - Q2R (t_val b))) by ring. eapply Rle_trans; [apply Rabs_triang|]. lra. }
  assert (FF : b64_finite (b64_plus mode_NE x y) = true).
  { apply plus_fits; auto. apply (near_big _ _ _ D). rewrite Q2R_red, !Q2R_plus. exact H2. }
  split; [exact FF|]. destruct (plus_exact x y FF) as (_ & _ & E). unfold t_add. eapply rounded_B; [exact E|exact D|]. rewrite RMicromega.Q2R_0, Rplus_0_r. apply rnd_plus_error.
Qed.
Lemma minus_plus (x y : binary64) : b64_finite x = true -> b64_finite y = true -> Rabs (b64_R x - b64_R y) <= bpow radix2 1023 ->
  b64_finite (b64_minus mode_NE x y) = true /\ b64_R (b64_minus mode_NE x y) = rnd (b64_R x - b64_R y).
Proof.
  intros Fx Fy HB. pose proof (Bminus_correct 53 1024 (eq_refl Lt) (eq_refl Lt) binop_nan_pl64 mode_NE x y Fx Fy) as C.
  change (round radix2 (SpecFloat.fexp 53 1024) (round_mode mode_NE) (B2R 53 1024 x - B2R 53 1024 y)) with (rnd (b64_R x - b64_R y)) in C.
  change (Bminus 53 1024 (eq_refl Lt) (eq_refl Lt) binop_nan_pl64 mode_NE x y) with (b64_minus mode_NE x y) in C.
  rewrite Rlt_bool_true in C; [split; apply C|].
  apply Rle_lt_trans with (bpow radix2 1023); [|apply bpow_lt; lia].
  apply abs_round_le_generic; [apply (FLT_exp_valid (-1074) 53)|apply valid_rnd_N| |exact HB]. apply generic_format_bpow. unfold FLT_exp. lia.
Qed.
Lemma rnd_minus_error (x y : binary64) : Rabs (rnd (b64_R x - b64_R y) - (b64_R x - b64_R y)) <= u64 * Rabs (b64_R x - b64_R y).
Proof. pose proof (rnd_plus_error x (b64_opp y)) as H. replace (b64_R (b64_opp y)) with (- b64_R y) in H; [exact H|]. symmetry. apply B2R_Bopp. Qed.
Lemma B_sub x y a b : rho_B x a -> rho_B y b -> rho_B (b64_minus mode_NE x y) (t_sub a b).
Proof.
  intros HA HB H. pose proof (rounded_ok _ _ _ _ H) as (H1 & H2). apply andb_prop in H1. destruct H1 as (Oa & Ob). destruct (HA Oa) as (Fx & Ex). destruct (HB Ob) as (Fy & Ey).
  assert (D : Rabs (b64_R x - b64_R y - Q2R (Qred (t_val a - t_val b))) <= Q2R (t_err a + t_err b)).
  { rewrite Q2R_red, Q2R_minus, Q2R_plus. replace (b64_R x - b64_R y - (Q2R (t_val a) - Q2R (t_val b))) with ((b64_R x - Q2R (t_val a)) + - (b64_R y - Q2R (t_val b))) by ring.
    eapply Rle_trans; [apply Rabs_triang|]. rewrite Rabs_Ropp. lra. }
  destruct (minus_plus x y Fx Fy (near_big _ _ _ D H2)) as (FF & E). split; [exact FF|]. unfold t_sub. eapply rounded_B; [exact E|exact D|]. rewrite RMicromega.Q2R_0, Rplus_0_r. apply rnd_minus_error.
Qed.
Lemma B_mul x y a b : rho_B x a -> rho_B y b -> rho_B (b64_mult mode_NE x y) (t_mul a b).
Proof.
  intros HA HB H. pose proof (rounded_ok _ _ _ _ H) as (H1 & H2). apply andb_prop in H1. destruct H1 as (Oa & Ob). destruct (HA Oa) as (Fx & Ex). destruct (HB Ob) as (Fy & Ey).
  set (e := (Qabs (t_val a) * t_err b + t_err a * Qabs (t_val b) + t_err a * t_err b)%Q) in *.
  assert (D : Rabs (b64_R x * b64_R y - Q2R (Qred (t_val a * t_val b))) <= Q2R e).
  { unfold e. rewrite Q2R_red, !Q2R_plus, !Q2R_mult, !Q2R_abs. set (v := Q2R (t_val a)) in *. set (w := Q2R (t_val b)) in *. set (c := Q2R (t_err a)) in *. set (d := Q2R (t_err b)) in *.
    replace (b64_R x * b64_R y - v * w) with (v * (b64_R y - w) + ((b64_R x - v) * w + (b64_R x - v) * (b64_R y - w))) by ring.
    rewrite Rplus_assoc. repeat (eapply Rle_trans; [apply Rabs_triang|]; apply Rplus_le_compat); rewrite Rabs_mult; apply Rmult_le_compat; try apply Rabs_pos; try assumption; apply Rle_refl. }
  assert (FF : b64_finite (b64_mult mode_NE x y) = true) by (apply mult_fits; auto; apply (near_big _ _ _ D H2)).
  split; [exact FF|]. destruct (mult_exact x y FF) as (_ & _ & E). unfold t_mul. fold e. eapply rounded_B; [exact E|exact D|]. eapply Rle_trans; [apply rnd_error|]. pose proof etaQ_R. lra.
Qed.
Lemma div_fits (x y : binary64) : b64_finite x = true -> b64_R y <> 0 -> Rabs (b64_R x / b64_R y) <= bpow radix2 1023 ->
  b64_finite (b64_div mode_NE x y) = true /\ b64_R (b64_div mode_NE x y) = rnd (b64_R x / b64_R y).
Proof.
  intros Fx Ny HB. pose proof (Bdiv_correct 53 1024 (eq_refl Lt) (eq_refl Lt) binop_nan_pl64 mode_NE x y Ny) as C.
  change (round radix2 (SpecFloat.fexp 53 1024) (round_mode mode_NE) (B2R 53 1024 x / B2R 53 1024 y)) with (rnd (b64_R x / b64_R y)) in C.
  change (Bdiv 53 1024 (eq_refl Lt) (eq_refl Lt) binop_nan_pl64 mode_NE x y) with (b64_div mode_NE x y) in C.
  rewrite Rlt_bool_true in C; [|apply Rle_lt_trans with (bpow radix2 1023); [|apply bpow_lt; lia];
    apply abs_round_le_generic; [apply (FLT_exp_valid (-1074) 53)|apply valid_rnd_N| |exact HB]; apply generic_format_bpow; unfold FLT_exp; lia].
  destruct C as (C1 & C2 & _). split; [unfold b64_finite in *; now rewrite C2|exact C1].
Qed.
Lemma quot_error x y v w c d : Rabs (x - v) <= c -> Rabs (y - w) <= d -> d < Rabs w -> y <> 0 /\ Rabs (x / y - v / w) <= (c * Rabs w + Rabs v * d) / ((Rabs w - d) * Rabs w).
Proof.
  intros Hx Hy Hd. assert (Hw : 0 < Rabs w) by (pose proof (Rabs_pos (y - w)); lra). assert (Nw : w <> 0) by (intros E; rewrite E, Rabs_R0 in Hw; lra).
  assert (Ay : Rabs w - d <= Rabs y). { pose proof (Rabs_triang_inv w (w - y)) as T. replace (w - (w - y)) with y in T by ring. rewrite <- Rabs_Ropp in Hy. replace (- (y - w)) with (w - y) in Hy by ring. lra. }
  assert (Py : 0 < Rabs y) by lra. assert (Ny : y <> 0) by (intros E; rewrite E, Rabs_R0 in Py; lra). split; [exact Ny|].
  replace (x / y - v / w) with (((x - v) * w - v * (y - w)) * / (y * w)) by (field; auto). rewrite Rabs_mult, Rabs_inv, Rabs_mult. unfold Rdiv.
  apply Rmult_le_compat; [apply Rabs_pos|left; apply Rinv_0_lt_compat, Rmult_lt_0_compat; assumption| |].
  - replace ((x - v) * w - v * (y - w)) with ((x - v) * w + - (v * (y - w))) by ring. eapply Rle_trans; [apply Rabs_triang|]. rewrite Rabs_Ropp, !Rabs_mult.
    apply Rplus_le_compat; [apply Rmult_le_compat_r; [apply Rabs_pos|exact Hx]|apply Rmult_le_compat_l; [apply Rabs_pos|exact Hy]].
  - apply Rinv_le_contravar; [apply Rmult_lt_0_compat; lra|]. apply Rmult_le_compat_r; lra.
Qed.
Lemma B_div x y a b : rho_B x a -> rho_B y b -> rho_B (b64_div mode_NE x y) (t_div a b).
Proof.
  intros HA HB H. pose proof (rounded_ok _ _ _ _ H) as (H1 & H2). apply andb_prop in H1. destruct H1 as (H1 & Hd). apply andb_prop in H1. destruct H1 as (H1 & Nb). apply andb_prop in H1. destruct H1 as (Oa & Ob). apply negb_true_iff in Nb. destruct (HA Oa) as (Fx & Ex). destruct (HB Ob) as (Fy & Ey).
  apply q_ltb_R in Hd. rewrite Q2R_abs in Hd.
  set (e := ((t_err a * Qabs (t_val b) + Qabs (t_val a) * t_err b) / ((Qabs (t_val b) - t_err b) * Qabs (t_val b)))%Q) in *.
  assert (Nb' : ~ (t_val b == 0)%Q) by (intros E; apply Qeq_bool_iff in E; congruence).
  destruct (quot_error (b64_R x) (b64_R y) (Q2R (t_val a)) (Q2R (t_val b)) _ _ Ex Ey Hd) as (Ny & D).
  assert (P : 0 < (Rabs (Q2R (t_val b)) - Q2R (t_err b)) * Rabs (Q2R (t_val b))) by (pose proof (Rabs_pos (b64_R y - Q2R (t_val b))); apply Rmult_lt_0_compat; lra).
  assert (EE : Q2R e = (Q2R (t_err a) * Rabs (Q2R (t_val b)) + Rabs (Q2R (t_val a)) * Q2R (t_err b)) / ((Rabs (Q2R (t_val b)) - Q2R (t_err b)) * Rabs (Q2R (t_val b)))).
  { unfold e. rewrite Q2R_div, Q2R_plus, !Q2R_mult, Q2R_minus, !Q2R_abs; [reflexivity|]. intros E. apply Qeq_eqR in E. rewrite Q2R_mult, Q2R_minus, Q2R_abs, RMicromega.Q2R_0 in E. lra. }
  rewrite <- EE in D. assert (D' : Rabs (b64_R x / b64_R y - Q2R (Qred (t_val a / t_val b))) <= Q2R e) by (rewrite Q2R_red, Q2R_div by exact Nb'; exact D).
  destruct (div_fits x y Fx Ny (near_big _ _ _ D' H2)) as (FF & E). split; [exact FF|]. unfold t_div. fold e. eapply rounded_B; [exact E|exact D'|]. eapply Rle_trans; [apply rnd_error|]. pose proof etaQ_R. lra.
Qed.
Lemma B_neg x a : rho_B x a -> rho_B (b64_opp x) (t_neg a).
Proof.
  intros HA H. destruct (HA H) as (Fx & Ex). cbn [t_val t_err t_neg]. split; [unfold b64_finite in *; rewrite <- Fx; apply is_finite_Bopp|].
  replace (b64_R (b64_opp x)) with (- b64_R x) by (symmetry; apply B2R_Bopp). rewrite Q2R_red, Q2R_opp. replace (- b64_R x - - Q2R (t_val a)) with (- (b64_R x - Q2R (t_val a))) by ring. rewrite Rabs_Ropp. exact Ex.
Qed.
Lemma max_exact (x y : binary64) : b64_finite x = true -> b64_finite y = true -> b64_finite (b64_max x y) = true /\ b64_R (b64_max x y) = Rmax (b64_R x) (b64_R y).
Proof.
  intros Fx Fy. unfold b64_max.
  assert (P : is_pinf x || is_pinf y = false) by (destruct x as [|[|]| |], y as [|[|]| |]; try discriminate; reflexivity).
  assert (N : b64_nan x || b64_nan y = false) by (destruct x, y; try discriminate; reflexivity). rewrite P, N.
  destruct (is_zero x && is_zero y) eqn:Z.
  - apply andb_prop in Z. destruct Z as (Zx & Zy). assert (Rx : b64_R x = 0) by (destruct x; try discriminate; reflexivity). assert (Ry : b64_R y = 0) by (destruct y; try discriminate; reflexivity).
    rewrite Rx, Ry, Rmax_left by lra. destruct (Bsign 53 1024 x); split; assumption.
  - destruct (b64_lt y x) eqn:E.
    + apply (b64_lt_R y x Fy Fx) in E. rewrite Rmax_left by lra. split; [exact Fx|reflexivity].
    + assert (H : ~ b64_R y < b64_R x) by (intros H; apply (b64_lt_R y x Fy Fx) in H; congruence). rewrite Rmax_right by lra. split; [exact Fy|reflexivity].
Qed.
Lemma B_max x y a b : rho_B x a -> rho_B y b -> rho_B (b64_max x y) (t_max a b).
Proof.
  intros HA HB H. cbn [t_ok t_max] in H. apply andb_prop in H. destruct H as (Oa & Ob). destruct (HA Oa) as (Fx & Ex). destruct (HB Ob) as (Fy & Ey).
  destruct (max_exact x y Fx Fy) as (FF & E). split; [exact FF|]. rewrite E. cbn [t_val t_err t_max]. rewrite q_max_R.
  assert (X1 := Rabs_le_inv _ _ Ex). assert (Y1 := Rabs_le_inv _ _ Ey).
  destruct (Qle_bool _ (t_val b - t_err b)) eqn:C1; [|destruct (Qle_bool _ (t_val a - t_err a)) eqn:C2].
  - apply Qle_bool_R in C1. rewrite Q2R_plus, Q2R_minus in C1. rewrite !Rmax_right by lra. exact Ey.
  - apply Qle_bool_R in C2. rewrite Q2R_plus, Q2R_minus in C2. rewrite !Rmax_left by lra. exact Ex.
  - rewrite q_max_R. apply Rabs_le. unfold Rmax. repeat destruct Rle_dec; lra.
Qed.
Lemma B_ofZ z : rho_B (b64_ofZ z) (t_ofZ z).
Proof.
  intros H. cbn [t_ok t_ofZ] in H. apply Z.leb_le in H. destruct (ofZ_exact z H) as (F & E & _). split; [exact F|]. cbn [t_val t_err t_ofZ].
  rewrite E, Q2R_inject, RMicromega.Q2R_0, Rminus_eq_0, Rabs_R0. lra.
Qed.
Lemma B_unknown x : rho_B x unknown.
Proof. intros H. discriminate H. Qed.
Lemma decided_sign x a : rho_B x a -> decided a = true -> b64_finite x = true /\ (b64_R x < 0 <-> Q2R (t_val a) < 0) /\ (b64_R x <= 0 <-> Q2R (t_val a) <= 0).
Proof.
  intros HA HD. destruct (HA (decided_ok a HD)) as (Fx & Ex). split; [exact Fx|]. unfold decided in HD. apply andb_prop in HD. destruct HD as (_ & HD). apply orb_prop in HD.
  assert (X1 := Rabs_le_inv _ _ Ex). destruct HD as [HD|HD].
  - apply q_ltb_R in HD. rewrite Q2R_abs in HD. unfold Rabs in HD. destruct Rcase_abs in HD; lra.
  - apply andb_prop in HD. destruct HD as (H1 & H2). apply Qeq_bool_iff, Qeq_eqR in H1, H2. rewrite RMicromega.Q2R_0 in H1, H2. lra.
Qed.
Lemma zero_R : b64_finite (b64_ofZ 0) = true /\ b64_R (b64_ofZ 0) = 0.
Proof. destruct (ofZ_exact 0) as (A & B & _); [simpl; lia|auto]. Qed.
Lemma B_le x a : rho_B x a -> decided a = true -> b64_le x (b64_ofZ 0) = Qle_bool (t_val a) (inject_Z 0).
Proof.
  intros HA HD. destruct (decided_sign x a HA HD) as (Fx & _ & HS). destruct zero_R as (F0 & R0). apply eq_true_iff_eq. rewrite Qle_bool_R, Q2R_zero, <- HS.
  split; [|intros H; apply b64_le_finite; auto; now rewrite R0].
  intros H. apply Rnot_lt_le. intros G. apply b64_le_spec in H; try (apply finite_not_nan; assumption). apply H. right. rewrite !finite_rank, R0 by assumption. auto.
Qed.
Lemma B_lt x a : rho_B x a -> decided a = true -> b64_lt x (b64_ofZ 0) = q_ltb (t_val a) (inject_Z 0).
Proof.
  intros HA HD. destruct (decided_sign x a HA HD) as (Fx & HS & _). destruct zero_R as (F0 & R0). apply eq_true_iff_eq. rewrite q_ltb_R, Q2R_zero, <- HS, (b64_lt_R x _ Fx F0), R0. tauto.
Qed.
