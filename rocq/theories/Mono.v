(** * Mono: networks without negative weights are monotone. *)
From Coq Require Import String ZArith List Bool Arith Lia Reals Lra.
From Flocq Require Import Core.Core IEEE754.BinarySingleNaN IEEE754.Binary IEEE754.Bits.
From Verif Require Import Num NumR NumB64 Heap Spec Matrix Network ModelGo PureSpec Repr HeapLemmas MatrixFacts ModelSpec B64Facts RoundSpec Rounding RoundProofs SoftFloat FloatSigns MiscFacts MonoSpec.
From Verif Require ModelRefute NanProofs.
Import ListNotations.
Open Scope R_scope.

Section Laws.
Context (K : Num).
Record mono_laws : Prop := MkMono {
  mono_irr : forall a : K, upto a a;
  mono_add : forall a b c d : K, upto a b -> upto c d -> upto (fadd a c) (fadd b d);
  mono_mul : forall a b w : K, upto a b -> upto f0 w -> upto (fmul a w) (fmul b w);
  mono_relu : forall a b : K, upto a b -> upto (relu1 a) (relu1 b);
  mono_leaky : forall s a b : K, upto f0 s -> upto a b -> upto (leaky1 s a) (leaky1 s b);
  mono_binary : forall a b : K, feq a a = true -> upto a b -> upto (binary1 a) (binary1 b) }.
Hypothesis H : mono_laws.
Definition sig_law : Prop := forall a b : K, upto a b -> upto (sigmoid1 a) (sigmoid1 b).
Definition sig_ok (p : player K) : Prop := p_kind p = SigmoidK -> sig_law.
Lemma sum_mono n (f g : nat -> K) : (forall k, (k < n)%nat -> upto (f k) (g k)) -> upto (fsum n f) (fsum n g).
Proof.
  intros HF. unfold fsum. assert (HL : forall k, In k (seq 0 n) -> upto (f k) (g k)) by (intros k Hk; apply in_seq in Hk; apply HF; lia).
  assert (HG : forall l (u v : K), (forall k, In k l -> upto (f k) (g k)) -> upto u v -> upto (fold_left (fun s k => fadd s (f k)) l u) (fold_left (fun s k => fadd s (g k)) l v)).
  { induction l as [|k l IH]; intros u v HL' HA; [exact HA|]. cbn [fold_left]. apply IH; [intros k' Hk'; apply HL'; now right|]. apply (mono_add H); [exact HA|]. apply HL'. now left. }
  apply HG; [exact HL|apply (mono_irr H)].
Qed.
Lemma layer_mono p r (X : pm K) a b j : sig_ok p -> rising_kind p -> raises p X a b -> (a < r)%nat -> (b < r)%nat -> (j < p_out p)%nat ->
  upto (entry (pforward p r X) a j) (entry (pforward p r X) b j).
Proof.
  intros HSg HK HR Ha Hb Hj.
  assert (HZ : upto (entry (paffine p r X) a j) (entry (paffine p r X) b j)).
  { unfold paffine, paff. rewrite !entry_mk by assumption. apply (mono_add H); [|apply (mono_irr H)]. apply sum_mono. intros n Hn.
    destruct (HR n Hn) as [->|(H1 & H2)]; [apply (mono_irr H)|]. apply (mono_mul H); [exact H1|apply H2; exact Hj]. }
  unfold pforward, pact. unfold rising_kind in HK.
  destruct (p_kind p) eqn:E; try contradiction; try exact HZ; unfold pmap; rewrite !entry_mk by assumption; unfold act1; rewrite E;
    [apply (mono_relu H); exact HZ|exact (HSg E _ _ HZ)|apply (mono_leaky H); assumption|apply (mono_relu H); exact HZ].
Qed.
Lemma rest_mono r a b : (a < r)%nat -> (b < r)%nat -> forall (ps : list (player K)) (X : pm K) i o j, chain i ps o -> List.Forall sig_ok ps -> List.Forall rising_layer ps ->
  (forall n, (n < i)%nat -> upto (entry X a n) (entry X b n)) -> (j < o)%nat -> upto (entry (pnet ps r X) a j) (entry (pnet ps r X) b j).
Proof.
  intros Ha Hb. induction ps as [|p ps IH]; intros X i o j HC HSg HP HX Hj.
  - cbn in HC. subst o. apply HX. exact Hj.
  - destruct HC as (Hi & HC). inversion HP as [|? ? (HK & HW) HP']; subst. inversion HSg as [|? ? HSp HSg']; subst. change (pnet (p :: ps) r X) with (pnet ps r (pforward p r X)). apply (IH _ _ _ _ HC HSg' HP'); [|exact Hj].
    intros n Hn. apply layer_mono; auto. intros k Hk. right. split; [apply HX; exact Hk|]. intros u Hu. apply HW; assumption.
Qed.
Lemma net_mono r a b (ps : list (player K)) (X : pm K) i o j : (a < r)%nat -> (b < r)%nat -> chain i ps o -> List.Forall sig_ok ps -> rising ps X a b -> (j < o)%nat ->
  upto (entry (pnet ps r X) a j) (entry (pnet ps r X) b j).
Proof.
  intros Ha Hb HC HSg HR Hj. destruct ps as [|p ps]; [destruct HR|]. destruct HR as (HK & HX & HP). destruct HC as (Hi & HC). inversion HSg as [|? ? HSp HSg']; subst.
  change (pnet (p :: ps) r X) with (pnet ps r (pforward p r X)). apply (rest_mono r a b Ha Hb _ _ _ _ _ HC HSg' HP); [|exact Hj]. intros n Hn. now apply layer_mono.
Qed.
Lemma rising_length (es : list (lent K)) X a b : rising (net es) X a b -> (1 <= length es)%nat.
Proof. destruct es; [intros []|simpl; lia]. Qed.
Lemma predict_mono (s : state K) m es i o x rsx r X a b : List.Forall sig_ok (net es) -> consistent s m es i o -> rising (net es) X a b -> m_acctype m = 0%Z -> own s x rsx r i X -> (a < r)%nat -> (b < r)%nat ->
  returns (Predict m x) s (fun out s' => exists rs P, own s' out rs r o P /\ forall j, (j < o)%nat -> upto (entry P a j) (entry P b j)).
Proof.
  intros HSg HC HR HA HX Ha Hb.
  destruct (ModelRefute.predict_spec s m es i o x rsx r X o (pnet (net es) r X) HC (rising_length _ _ _ _ HR)) as (out & s' & E & rs & HO & _); [rewrite HA; reflexivity|exact HX|lia|].
  exists out, s'. split; [exact E|]. exists rs, (pnet (net es) r X). split; [exact HO|]. intros j Hj. apply (net_mono r a b _ _ i o); auto. apply HC.
Qed.
Lemma predict_binary_mono (s : state K) m es i o x rsx r X a b : List.Forall sig_ok (net es) -> consistent s m es i o -> rising (net es) X a b -> m_acctype m = 2%Z -> own s x rsx r i X -> (a < r)%nat -> (b < r)%nat ->
  returns (Predict m x) s (fun out s' => exists rs P, own s' out rs r o P /\
    forall j, (j < o)%nat -> feq (entry (pnet (net es) r X) a j) (entry (pnet (net es) r X) a j) = true -> upto (entry P a j) (entry P b j)).
Proof.
  intros HSg HC HR HA HX Ha Hb.
  destruct (ModelRefute.predict_spec s m es i o x rsx r X o (pmap r o binary1 (pnet (net es) r X)) HC (rising_length _ _ _ _ HR)) as (out & s' & E & rs & HO & _); [rewrite HA; reflexivity|exact HX|lia|].
  exists out, s'. split; [exact E|]. exists rs, (pmap r o binary1 (pnet (net es) r X)). split; [exact HO|]. intros j Hj HF. unfold pmap. rewrite !entry_mk by assumption. apply (mono_binary H); [exact HF|].
  apply (net_mono r a b _ _ i o); auto. apply HC.
Qed.
End Laws.

(** ** Exact arithmetic *)
Lemma upto_R (a b : R) : upto (K := RNum) a b <-> a <= b.
Proof. unfold upto. cbn [flt RNum]. unfold r_ltb. destruct (Rlt_dec b a); split; intros; try lra; try discriminate; reflexivity. Qed.
Lemma RNum_mono : mono_laws RNum.
Proof.
  constructor.
  - intros a. apply upto_R. apply Rle_refl.
  - intros a b c d H1 H2. apply upto_R in H1, H2. apply upto_R. cbn [fadd RNum]. change (F RNum) with R in *. lra.
  - intros a b w H1 H2. apply upto_R in H1, H2. apply upto_R. cbn [fmul RNum]. apply Rmult_le_compat_r; assumption.
  - intros a b H1. apply upto_R in H1. apply upto_R. rewrite !R_relu. apply Rle_max_compat_r. exact H1.
  - intros s a b H1 H2. apply upto_R in H1, H2. apply upto_R. unfold f0 in H1. cbn [ofZ RNum] in H1. unfold leaky1, f0. cbn [flt fmul ofZ RNum]. unfold r_ltb. change (F RNum) with R in *.
    destruct (Rlt_dec a 0) as [Ha|Ha], (Rlt_dec b 0) as [Hb|Hb]; try lra.
    + apply Rmult_le_compat_r; assumption.
    + apply Rle_trans with 0; [|lra]. rewrite <- (Rmult_0_l s). apply Rmult_le_compat_r; [assumption|lra].
  - intros a b _ H1. apply upto_R in H1. apply upto_R. unfold binary1, f0, f1. cbn [flt RNum ofZ]. unfold r_ltb.
    destruct (Rlt_dec a lit_half) as [Ha|Ha], (Rlt_dec b lit_half) as [Hb|Hb]; change (F RNum) with R in *; lra.
Qed.

(** ** Float64 *)
Definition top : R := bpow radix2 1024.
(** A number that is not a NaN on the real line; the infinities are just beyond the finite ones. *)
Definition ek (x : binary64) : R := if is_minf x then - top else if is_pinf x then top else b64_R x.
Definition clamp (v : R) : R := Rmax (- top) (Rmin v top).
Lemma clamp_mono u v : u <= v -> clamp u <= clamp v.
Proof. intros H. unfold clamp. apply Rle_max_compat_l. apply Rle_min_compat_r. exact H. Qed.
Lemma top_pos : 0 < top. Proof. apply bpow_gt_0. Qed.
Lemma clamp_in v : Rabs v < top -> clamp v = v.
Proof. intros H. apply Rabs_lt_inv in H. unfold clamp. rewrite Rmin_left by lra. apply Rmax_right. lra. Qed.
Lemma clamp_hi v : top <= v -> clamp v = top.
Proof. intros H. pose proof top_pos. unfold clamp. rewrite Rmin_right by lra. apply Rmax_right. lra. Qed.
Lemma clamp_lo v : v <= - top -> clamp v = - top.
Proof. intros H. pose proof top_pos. unfold clamp. rewrite Rmin_left by lra. apply Rmax_left. lra. Qed.
Lemma ek_fin x : b64_finite x = true -> ek x = b64_R x /\ Rabs (ek x) < top.
Proof. intros H. assert (E : ek x = b64_R x) by (destruct x as [|[|]| |]; try discriminate; reflexivity). split; [exact E|]. rewrite E. apply (abs_B2R_lt_emax 53 1024). Qed.
Lemma ek_range x : - top <= ek x <= top.
Proof.
  pose proof top_pos. destruct (b64_finite x) eqn:F; [destruct (ek_fin x F) as [_ H1]; apply Rabs_lt_inv in H1; lra|].
  destruct x as [|[|]| |]; try discriminate; cbn [ek is_minf is_pinf]; [lra|lra|]. unfold b64_R. cbn. lra.
Qed.
Lemma ek_top x : b64_nan x = false -> top <= ek x -> x = b64_inf false.
Proof.
  intros N H. pose proof top_pos. destruct (b64_finite x) eqn:F; [destruct (ek_fin x F) as [_ H1]; apply Rabs_lt_inv in H1; lra|].
  destruct x as [|[|]| |]; try discriminate; [cbn [ek is_minf is_pinf] in H; lra|reflexivity].
Qed.
Lemma ek_bot x : b64_nan x = false -> ek x <= - top -> x = b64_inf true.
Proof.
  intros N H. pose proof top_pos. destruct (b64_finite x) eqn:F; [destruct (ek_fin x F) as [_ H1]; apply Rabs_lt_inv in H1; lra|].
  destruct x as [|[|]| |]; try discriminate; [reflexivity|cbn [ek is_minf is_pinf] in H; lra].
Qed.
Lemma lt_ek x y : b64_nan x = false -> b64_nan y = false -> (b64_lt x y = true <-> ek x < ek y).
Proof.
  intros Nx Ny. rewrite (b64_lt_spec x y Nx Ny). pose proof top_pos. unfold xlt.
  assert (C : forall z, b64_nan z = false -> (rank z = 0%Z /\ ek z = b64_R z /\ Rabs (ek z) < top) \/ (rank z = 1%Z /\ ek z = top /\ b64_R z = 0) \/ (rank z = (-1)%Z /\ ek z = - top /\ b64_R z = 0)).
  { intros z Nz. destruct (b64_finite z) eqn:F; [left; split; [destruct z; try discriminate; reflexivity|apply ek_fin; exact F]|]. right. destruct z as [|[|]| |]; try discriminate; [right|left]; repeat split. }
  destruct (C x Nx) as [(R1 & E1 & B1)|[(R1 & E1 & B1)|(R1 & E1 & B1)]], (C y Ny) as [(R2 & E2 & B2)|[(R2 & E2 & B2)|(R2 & E2 & B2)]]; rewrite R1, R2;
    try apply Rabs_lt_inv in B1; try apply Rabs_lt_inv in B2; split; intros G; try (destruct G as [G|[G G']]); try lia; try lra; (left; lia) || (right; split; [lia|lra]).
Qed.
Lemma upto_ek L (x y : B64 L) : upto x y <-> b64_nan x = true \/ b64_nan y = true \/ ek x <= ek y.
Proof.
  unfold upto. cbn [flt B64]. destruct (b64_nan x) eqn:Nx; [split; [auto|intros _; now apply b64_lt_nan_r]|]. destruct (b64_nan y) eqn:Ny; [split; [auto|intros _; now apply b64_lt_nan_l]|].
  pose proof (lt_ek y x Ny Nx) as HL. destruct (b64_lt y x).
  - split; [discriminate|]. intros [H|[H|H]]; try discriminate. pose proof (proj1 HL eq_refl). lra.
  - split; [|reflexivity]. intros _. right; right. apply Rnot_lt_le. intros H. apply HL in H. discriminate.
Qed.
Lemma sign_R x : b64_finite x = true -> if Bsign 53 1024 x then b64_R x <= 0 else 0 <= b64_R x.
Proof.
  destruct x as [s|s|s pl H|s m e H]; try discriminate; intros _; unfold b64_R; cbn [Bsign B2R]; [destruct s; lra|]. destruct s; [apply F2R_le_0|apply F2R_ge_0]; simpl; lia.
Qed.
Lemma over_ek z s v : B2FF 53 1024 z = binary_overflow 53 1024 mode_NE s -> Rlt_bool (Rabs (rnd v)) top = false -> (if s then v <= 0 else 0 <= v) -> b64_nan z = false /\ ek z = clamp (rnd v).
Proof.
  intros E HB HS. assert (Z : z = b64_inf s) by (destruct z; destruct s; cbn in E; try discriminate; injection E; intros; subst; reflexivity). subst z. split; [reflexivity|].
  assert (HA : top <= Rabs (rnd v)) by (destruct (Rlt_bool_spec (Rabs (rnd v)) top) as [H|H]; [discriminate|exact H]).
  assert (R0 : rnd 0 = 0) by (apply round_0, valid_rnd_N).
  destruct s; cbn [b64_inf ek is_minf is_pinf].
  - assert (rnd v <= 0) by (rewrite <- R0; apply rnd_mono; exact HS). rewrite Rabs_left1 in HA by assumption. rewrite clamp_lo by lra. reflexivity.
  - assert (0 <= rnd v) by (rewrite <- R0; apply rnd_mono; exact HS). rewrite Rabs_pos_eq in HA by assumption. rewrite clamp_hi by lra. reflexivity.
Qed.
Lemma fin_not_nan z : b64_finite z = true -> b64_nan z = false.
Proof. destruct z; try discriminate; reflexivity. Qed.
Lemma plus_ek x y : b64_finite x = true -> b64_finite y = true -> b64_nan (b64_plus mode_NE x y) = false /\ ek (b64_plus mode_NE x y) = clamp (rnd (b64_R x + b64_R y)).
Proof.
  intros Fx Fy. pose proof (Bplus_correct 53 1024 (eq_refl Lt) (eq_refl Lt) binop_nan_pl64 mode_NE x y Fx Fy) as C.
  change (Bplus 53 1024 (eq_refl Lt) (eq_refl Lt) binop_nan_pl64 mode_NE x y) with (b64_plus mode_NE x y) in C. fold (b64_R x) (b64_R y) in C.
  change (round radix2 (SpecFloat.fexp 53 1024) (round_mode mode_NE) (b64_R x + b64_R y)) with (rnd (b64_R x + b64_R y)) in C. fold top in C.
  destruct (Rlt_bool (Rabs (rnd (b64_R x + b64_R y))) top) eqn:HB.
  - destruct C as (C1 & C2 & _). split; [now apply fin_not_nan|]. destruct (ek_fin _ C2) as [E _]. rewrite E. unfold b64_R at 1. rewrite C1. symmetry. apply clamp_in. destruct (Rlt_bool_spec (Rabs (rnd (b64_R x + b64_R y))) top) as [H|H]; [exact H|discriminate].
  - destruct C as (C1 & C2). pose proof (sign_R x Fx) as Sx. pose proof (sign_R y Fy) as Sy. rewrite <- C2 in Sy. apply (over_ek _ _ _ C1 HB). destruct (Bsign 53 1024 x); lra.
Qed.
Lemma mult_ek x y : b64_finite x = true -> b64_finite y = true -> b64_nan (b64_mult mode_NE x y) = false /\ ek (b64_mult mode_NE x y) = clamp (rnd (b64_R x * b64_R y)).
Proof.
  intros Fx Fy. pose proof (Bmult_correct 53 1024 (eq_refl Lt) (eq_refl Lt) binop_nan_pl64 mode_NE x y) as C.
  change (Bmult 53 1024 (eq_refl Lt) (eq_refl Lt) binop_nan_pl64 mode_NE x y) with (b64_mult mode_NE x y) in C. fold (b64_R x) (b64_R y) in C.
  change (round radix2 (SpecFloat.fexp 53 1024) (round_mode mode_NE) (b64_R x * b64_R y)) with (rnd (b64_R x * b64_R y)) in C. fold top in C.
  destruct (Rlt_bool (Rabs (rnd (b64_R x * b64_R y))) top) eqn:HB.
  - destruct C as (C1 & C2 & _). fold (b64_finite x) (b64_finite y) in C2. rewrite Fx, Fy in C2. cbn in C2. split; [now apply fin_not_nan|]. destruct (ek_fin _ C2) as [E _]. rewrite E. unfold b64_R at 1. rewrite C1. symmetry. apply clamp_in. destruct (Rlt_bool_spec (Rabs (rnd (b64_R x * b64_R y))) top) as [H|H]; [exact H|discriminate].
  - pose proof (sign_R x Fx) as Sx. pose proof (sign_R y Fy) as Sy. apply (over_ek _ _ _ C HB). destruct (Bsign 53 1024 x), (Bsign 53 1024 y); cbn [xorb]; nra.
Qed.

Lemma plus_inf_r x s : b64_nan (b64_plus mode_NE x (b64_inf s)) = false -> b64_plus mode_NE x (b64_inf s) = b64_inf s.
Proof. destruct x as [|[|]| |]; destruct s; intros H; try discriminate H; reflexivity. Qed.
Lemma plus_inf_l y s : b64_nan (b64_plus mode_NE (b64_inf s) y) = false -> b64_plus mode_NE (b64_inf s) y = b64_inf s.
Proof. destruct y as [|[|]| |]; destruct s; intros H; try discriminate H; reflexivity. Qed.
Lemma plus_nan_l x y : b64_nan x = true -> b64_nan (b64_plus mode_NE x y) = true.
Proof. apply NanProofs.nan_add_l. Qed.
Lemma plus_nan_r x y : b64_nan y = true -> b64_nan (b64_plus mode_NE x y) = true.
Proof. destruct y; try discriminate. intros _. destruct x; reflexivity. Qed.
Lemma shape_of x : b64_nan x = false -> b64_finite x = true \/ x = b64_inf true \/ x = b64_inf false.
Proof. destruct x as [|[|]| |]; intros H; try discriminate H; auto. Qed.
Lemma ek_minf : ek (b64_inf true) = - top. Proof. reflexivity. Qed.
Lemma ek_pinf : ek (b64_inf false) = top. Proof. reflexivity. Qed.
Lemma add_upto L (a b c d : B64 L) : upto a b -> upto c d -> upto (fadd a c) (fadd b d).
Proof.
  intros H1 H2. apply upto_ek in H1, H2. apply upto_ek. cbn [fadd B64].
  destruct (b64_nan (b64_plus mode_NE a c)) eqn:N1; [auto|]. destruct (b64_nan (b64_plus mode_NE b d)) eqn:N2; [auto|]. right; right.
  assert (Na : b64_nan a = false) by (destruct (b64_nan a) eqn:E; [rewrite plus_nan_l in N1 by exact E; discriminate|reflexivity]).
  assert (Nc : b64_nan c = false) by (destruct (b64_nan c) eqn:E; [rewrite plus_nan_r in N1 by exact E; discriminate|reflexivity]).
  assert (Nb : b64_nan b = false) by (destruct (b64_nan b) eqn:E; [rewrite plus_nan_l in N2 by exact E; discriminate|reflexivity]).
  assert (Nd : b64_nan d = false) by (destruct (b64_nan d) eqn:E; [rewrite plus_nan_r in N2 by exact E; discriminate|reflexivity]).
  destruct H1 as [H1|[H1|H1]]; [congruence|congruence|]. destruct H2 as [H2|[H2|H2]]; [congruence|congruence|].
  destruct (shape_of a Na) as [Fa|[->| ->]].
  2: { rewrite plus_inf_l by exact N1. rewrite ek_minf. apply ek_range. }
  2: { rewrite ek_pinf in H1. apply ek_top in H1; [|exact Nb]. subst b. rewrite (plus_inf_l d) by exact N2. rewrite ek_pinf. apply ek_range. }
  destruct (shape_of c Nc) as [Fc|[->| ->]].
  2: { rewrite plus_inf_r by exact N1. rewrite ek_minf. apply ek_range. }
  2: { rewrite ek_pinf in H2. apply ek_top in H2; [|exact Nd]. subst d. rewrite (plus_inf_r b) by exact N2. rewrite ek_pinf. apply ek_range. }
  destruct (shape_of b Nb) as [Fb|[->| ->]].
  2: { rewrite ek_minf in H1. apply ek_bot in H1; [|exact Na]. subst a. discriminate Fa. }
  2: { rewrite (plus_inf_l d) by exact N2. rewrite ek_pinf. apply ek_range. }
  destruct (shape_of d Nd) as [Fd|[->| ->]].
  2: { rewrite ek_minf in H2. apply ek_bot in H2; [|exact Nc]. subst c. discriminate Fc. }
  2: { rewrite (plus_inf_r b) by exact N2. rewrite ek_pinf. apply ek_range. }
  rewrite (proj2 (plus_ek a c Fa Fc)), (proj2 (plus_ek b d Fb Fd)). apply clamp_mono, rnd_mono.
  rewrite (proj1 (ek_fin a Fa)), (proj1 (ek_fin b Fb)) in H1. rewrite (proj1 (ek_fin c Fc)), (proj1 (ek_fin d Fd)) in H2. lra.
Qed.
Lemma mult_nan_l x y : b64_nan x = true -> b64_nan (b64_mult mode_NE x y) = true.
Proof. destruct x; try discriminate. intros _. destruct y; reflexivity. Qed.
Lemma mult_nan_r x y : b64_nan y = true -> b64_nan (b64_mult mode_NE x y) = true.
Proof. destruct y; try discriminate. intros _. destruct x; reflexivity. Qed.
Lemma mult_inf_r x : b64_nan (b64_mult mode_NE x (b64_inf false)) = false -> (b64_mult mode_NE x (b64_inf false) = b64_inf true /\ ek x < 0) \/ (b64_mult mode_NE x (b64_inf false) = b64_inf false /\ 0 < ek x).
Proof.
  pose proof top_pos. destruct x as [s|[|]|s pl H1|s m e H1]; intros N; try discriminate N.
  - left. split; [reflexivity|]. cbn [ek is_minf is_pinf]. lra.
  - right. split; [reflexivity|]. cbn [ek is_minf is_pinf]. lra.
  - destruct s; [left|right]; (split; [reflexivity|]); cbn [ek is_minf is_pinf]; unfold b64_R; cbn [B2R]; [apply F2R_lt_0|apply F2R_gt_0]; simpl; lia.
Qed.
Lemma mult_inf_l s w : b64_finite w = true -> 0 <= b64_R w -> b64_nan (b64_mult mode_NE (b64_inf s) w) = false -> b64_mult mode_NE (b64_inf s) w = b64_inf s.
Proof.
  destruct w as [s'|s'|s' pl H1|s' m e H1]; intros F HP N; try discriminate F; [destruct s; discriminate N|]. destruct s'.
  - exfalso. unfold b64_R in HP. cbn [B2R] in HP. assert (F2R (beta := radix2) {| Fnum := Z.neg m; Fexp := e |} < 0) by (apply F2R_lt_0; reflexivity). cbn in HP. lra.
  - destruct s; reflexivity.
Qed.
Lemma upto_zero L (w : B64 L) : upto f0 w <-> b64_nan w = true \/ w = b64_inf false \/ (b64_finite w = true /\ 0 <= b64_R w).
Proof. exact (nonneg_cases w). Qed.
Lemma mul_upto L (a b w : B64 L) : upto a b -> upto f0 w -> upto (fmul a w) (fmul b w).
Proof.
  intros H1 H2. apply upto_ek in H1. apply upto_zero in H2. apply upto_ek. cbn [fmul B64].
  destruct (b64_nan (b64_mult mode_NE a w)) eqn:N1; [auto|]. destruct (b64_nan (b64_mult mode_NE b w)) eqn:N2; [auto|]. right; right.
  assert (Na : b64_nan a = false) by (destruct (b64_nan a) eqn:E; [rewrite mult_nan_l in N1 by exact E; discriminate|reflexivity]).
  assert (Nb : b64_nan b = false) by (destruct (b64_nan b) eqn:E; [rewrite mult_nan_l in N2 by exact E; discriminate|reflexivity]).
  destruct H1 as [H1|[H1|H1]]; [congruence|congruence|].
  destruct H2 as [H2|[->|(Fw & Pw)]]; [rewrite mult_nan_r in N1 by exact H2; discriminate| |].
  - destruct (mult_inf_r a N1) as [(-> & Sa)|(-> & Sa)]; [rewrite ek_minf; apply ek_range|]. destruct (mult_inf_r b N2) as [(_ & Sb)|(-> & Sb)]; [lra|]. apply Rle_refl.
  - destruct (shape_of a Na) as [Fa|[->| ->]].
    2: { rewrite mult_inf_l by assumption. rewrite ek_minf. apply ek_range. }
    2: { rewrite ek_pinf in H1. apply ek_top in H1; [|exact Nb]. subst b. apply Rle_refl. }
    destruct (shape_of b Nb) as [Fb|[->| ->]].
    2: { rewrite ek_minf in H1. apply ek_bot in H1; [|exact Na]. subst a. discriminate Fa. }
    2: { rewrite (mult_inf_l false) by assumption. rewrite ek_pinf. apply ek_range. }
    rewrite (proj2 (mult_ek a w Fa Fw)), (proj2 (mult_ek b w Fb Fw)). apply clamp_mono, rnd_mono. rewrite (proj1 (ek_fin a Fa)), (proj1 (ek_fin b Fb)) in H1. apply Rmult_le_compat_r; assumption.
Qed.
Lemma relu_ek (x : binary64) : b64_nan x = false -> b64_nan (b64_max x (b64_ofZ 0)) = false /\ ek (b64_max x (b64_ofZ 0)) = Rmax (ek x) 0.
Proof.
  intros N. pose proof top_pos. destruct x as [s|[|]|s pl H1|s m e H1]; try discriminate N.
  - assert (E : Rmax (ek (B754_zero 53 1024 s)) 0 = 0) by (unfold ek; cbn [is_minf is_pinf]; unfold b64_R; cbn [B2R]; apply Rmax_left; lra). rewrite E. destruct s; (split; [reflexivity|]); unfold ek, b64_R; cbn; reflexivity.
  - split; [reflexivity|]. change (ek (B754_infinity 53 1024 true)) with (- top). rewrite Rmax_right by lra. unfold ek, b64_R; cbn; reflexivity.
  - split; [reflexivity|]. change (ek (B754_infinity 53 1024 false)) with top. rewrite Rmax_left by lra. reflexivity.
  - set (x := B754_finite 53 1024 s m e H1) in *. assert (E0 : ek (b64_ofZ 0) = 0) by (unfold ek, b64_R; cbn; reflexivity).
    pose proof (lt_ek (b64_ofZ 0) x eq_refl N) as HL. rewrite E0 in HL. unfold b64_max. cbn [is_pinf orb x b64_nan is_nan is_zero andb]. change (is_pinf (b64_ofZ 0)) with false. change (is_nan 53 1024 (b64_ofZ 0)) with false. cbn [orb]. fold x.
    destruct (b64_lt (b64_ofZ 0) x).
    + split; [exact N|]. rewrite Rmax_left; [reflexivity|]. apply Rlt_le, HL. reflexivity.
    + split; [reflexivity|]. rewrite Rmax_right; [exact E0|]. apply Rnot_lt_le. intros G. apply HL in G. discriminate.
Qed.
Lemma relu_upto L (a b : B64 L) : upto a b -> upto (relu1 a) (relu1 b).
Proof.
  intros H. apply upto_ek in H. apply upto_ek. unfold relu1, f0. cbn [fmax ofZ B64].
  destruct (b64_nan a) eqn:Na; [left; exact (NanProofs.relu_nan L a Na)|]. destruct (b64_nan b) eqn:Nb; [right; left; exact (NanProofs.relu_nan L b Nb)|].
  destruct H as [H|[H|H]]; try discriminate. right; right. rewrite (proj2 (relu_ek a Na)), (proj2 (relu_ek b Nb)). apply Rle_max_compat_r. exact H.
Qed.
Lemma leaky_upto L (s a b : B64 L) : upto f0 s -> upto a b -> upto (leaky1 s a) (leaky1 s b).
Proof.
  intros Hs H. pose proof H as H'. apply upto_ek in H'.
  destruct (b64_nan a) eqn:Na; [apply upto_ek; left; exact (NanProofs.leaky_nan L s a Na)|]. destruct (b64_nan b) eqn:Nb; [apply upto_ek; right; left; exact (NanProofs.leaky_nan L s b Nb)|].
  destruct H' as [H'|[H'|H']]; try discriminate.
  assert (E0 : ek (b64_ofZ 0) = 0) by (unfold ek, b64_R; cbn; reflexivity).
  pose proof (lt_ek a (b64_ofZ 0) Na eq_refl) as La. pose proof (lt_ek b (b64_ofZ 0) Nb eq_refl) as Lb. rewrite E0 in La, Lb.
  unfold leaky1. cbn [flt B64]. change (@f0 (B64 L)) with (b64_ofZ 0).
  destruct (b64_lt a (b64_ofZ 0)) eqn:Ca, (b64_lt b (b64_ofZ 0)) eqn:Cb.
  - apply mul_upto; assumption.
  - assert (Pb : 0 <= ek b) by (apply Rnot_lt_le; intros G; apply Lb in G; discriminate). pose proof (proj1 La eq_refl) as Ga.
    apply upto_ek. cbn [fmul B64]. destruct (b64_nan (b64_mult mode_NE a s)) eqn:N1; [left; reflexivity|]. right; right.
    apply upto_zero in Hs. destruct Hs as [Hs|[->|(Fs & Ps)]]; [rewrite mult_nan_r in N1 by exact Hs; discriminate| |].
    + destruct (mult_inf_r a N1) as [(-> & _)|(_ & G)]; [rewrite ek_minf; apply ek_range|lra].
    + destruct (shape_of a Na) as [Fa|[->| ->]]; [|rewrite mult_inf_l by assumption; rewrite ek_minf; apply ek_range|pose proof top_pos; rewrite ek_pinf in Ga; lra].
      rewrite (proj2 (mult_ek a s Fa Fs)). apply Rle_trans with 0; [|exact Pb]. rewrite (proj1 (ek_fin a Fa)) in Ga.
      assert (R0 : rnd 0 = 0) by (apply round_0, valid_rnd_N). rewrite <- (clamp_in 0) by (rewrite Rabs_R0; apply top_pos). apply clamp_mono. rewrite <- R0. apply rnd_mono. nra.
  - exfalso. pose proof (proj1 Lb eq_refl). assert (0 <= ek a) by (apply Rnot_lt_le; intros G; apply La in G; discriminate). lra.
  - exact H.
Qed.
Lemma binary_upto L (a b : B64 L) : feq a a = true -> upto a b -> upto (binary1 a) (binary1 b).
Proof.
  intros HF H. assert (Na : b64_nan a = false) by (destruct a; try reflexivity; discriminate HF). apply upto_ek in H. unfold binary1. cbn [flt B64]. set (h := @lit_half (B64 L)).
  assert (HB : b64_lt a h = false -> b64_lt b h = false).
  { intros G. destruct (b64_nan b) eqn:Nb; [now apply b64_lt_nan_l|]. destruct H as [H|[H|H]]; [congruence|discriminate|].
    destruct (b64_lt b h) eqn:E; [|reflexivity]. apply lt_ek in E; [|exact Nb|reflexivity]. assert (G2 : b64_lt a h = true) by (apply lt_ek; [exact Na|reflexivity|lra]). congruence. }
  destruct (b64_lt a h), (b64_lt b h); try reflexivity. discriminate (HB eq_refl).
Qed.
Lemma B64_mono L : mono_laws (B64 L).
Proof.
  constructor; [|apply add_upto|apply mul_upto|apply relu_upto|apply leaky_upto|apply binary_upto].
  intros a. apply upto_ek. destruct (b64_nan a); [auto|]. right; right. apply Rle_refl.
Qed.
(** ** The sigmoid *)
Lemma RNum_sig : sig_law RNum.
Proof.
  intros a b H. apply upto_R in H. apply upto_R. unfold sigmoid1, f1. cbn [fdiv fadd fexp fneg ofZ RNum]. change (F RNum) with R in *.
  assert (HE : exp (- b) <= exp (- a)) by (destruct H as [H|H]; [left; apply exp_increasing; lra|rewrite H; apply Rle_refl]). pose proof (exp_pos (- b)) as P.
  unfold Rdiv. rewrite !Rmult_1_l. apply Rinv_le_contravar; lra.
Qed.
Lemma neg_ek x : b64_nan (b64_opp x) = b64_nan x /\ (b64_nan x = false -> ek (b64_opp x) = - ek x).
Proof.
  split; [destruct x; reflexivity|]. intros N.
  assert (HB : b64_R (b64_opp x) = - b64_R x) by apply (B2R_Bopp 53 1024).
  destruct (shape_of x N) as [Fx|[->| ->]].
  - assert (Fy : b64_finite (b64_opp x) = true) by (destruct x; try discriminate Fx; reflexivity). rewrite (proj1 (ek_fin _ Fx)), (proj1 (ek_fin _ Fy)). exact HB.
  - change (ek (b64_opp (b64_inf true))) with top. change (ek (b64_inf true)) with (- top). ring.
  - change (ek (b64_opp (b64_inf false))) with (- top). change (ek (b64_inf false)) with top. ring.
Qed.
Lemma neg_upto L (a b : B64 L) : upto a b -> upto (fneg b) (fneg a).
Proof.
  intros H. apply upto_ek in H. apply upto_ek. cbn [fneg B64]. rewrite (proj1 (neg_ek a)), (proj1 (neg_ek b)). destruct (b64_nan a) eqn:Na; [auto|]. destruct (b64_nan b) eqn:Nb; [auto|].
  right; right. rewrite (proj2 (neg_ek a) Na), (proj2 (neg_ek b) Nb). destruct H as [H|[H|H]]; try discriminate. lra.
Qed.
Definition one : binary64 := b64_ofZ 1.
Lemma one_R : b64_R one = 1. Proof. unfold b64_R. vm_compute. lra. Qed.
Lemma inv_ek y : b64_finite y = true -> 1 <= b64_R y -> b64_nan (b64_div mode_NE one y) = false /\ ek (b64_div mode_NE one y) = rnd (1 / b64_R y).
Proof.
  intros F H1. assert (Hz : b64_R y <> 0) by lra. pose proof (Bdiv_correct 53 1024 (eq_refl Lt) (eq_refl Lt) binop_nan_pl64 mode_NE one y Hz) as C.
  change (round radix2 (SpecFloat.fexp 53 1024) (round_mode mode_NE) (B2R 53 1024 one / B2R 53 1024 y)) with (rnd (b64_R one / b64_R y)) in C.
  change (Bdiv 53 1024 (eq_refl Lt) (eq_refl Lt) binop_nan_pl64 mode_NE one y) with (b64_div mode_NE one y) in C. rewrite one_R in C.
  assert (Hq : 0 <= 1 / b64_R y <= 1) by (unfold Rdiv; rewrite Rmult_1_l; split; [left; apply Rinv_0_lt_compat; lra|rewrite <- Rinv_1; apply Rinv_le_contravar; lra]).
  assert (R0 : rnd 0 = 0) by (apply round_0, valid_rnd_N). assert (R1 : rnd 1 = 1) by (rewrite <- one_R; apply rnd_id).
  assert (Hr : 0 <= rnd (1 / b64_R y) <= 1) by (split; [apply Rle_trans with (rnd 0); [rewrite R0; apply Rle_refl|]|apply Rle_trans with (rnd 1); [|rewrite R1; apply Rle_refl]]; apply rnd_mono; lra).
  assert (B1 : 1 < top) by (change 1 with (bpow radix2 0); apply bpow_lt; lia). fold top in C.
  rewrite Rlt_bool_true in C by (rewrite Rabs_pos_eq by lra; lra). destruct C as (C1 & C2 & _).
  assert (F2 : b64_finite (b64_div mode_NE one y) = true) by exact C2. split; [now apply fin_not_nan|]. rewrite (proj1 (ek_fin _ F2)). exact C1.
Qed.
Lemma inv_inf : ek (b64_div mode_NE one (b64_inf false)) = 0. Proof. unfold ek, b64_R. vm_compute. reflexivity. Qed.
Lemma inv_upto u v : b64_nan u = false -> b64_nan v = false -> 1 <= ek u -> ek u <= ek v -> ek (b64_div mode_NE one v) <= ek (b64_div mode_NE one u).
Proof.
  intros Nu Nv H1 H2. assert (R0 : rnd 0 = 0) by (apply round_0, valid_rnd_N). pose proof top_pos.
  destruct (shape_of u Nu) as [Fu|[->| ->]]; [|rewrite ek_minf in H1; lra|rewrite ek_pinf in H2; apply ek_top in H2; [|exact Nv]; subst v; apply Rle_refl].
  rewrite (proj1 (ek_fin u Fu)) in H1, H2. rewrite (proj2 (inv_ek u Fu H1)).
  destruct (shape_of v Nv) as [Fv|[->| ->]]; [|rewrite ek_minf in H2; lra|].
  - rewrite (proj1 (ek_fin v Fv)) in H2. rewrite (proj2 (inv_ek v Fv ltac:(lra))). apply rnd_mono. unfold Rdiv. rewrite !Rmult_1_l. apply Rinv_le_contravar; lra.
  - rewrite inv_inf, <- R0. apply rnd_mono. unfold Rdiv. rewrite Rmult_1_l. left. apply Rinv_0_lt_compat. lra.
Qed.
Lemma B64_sig L : exp_rising (B64 L) -> exp_nonneg L -> sig_law (B64 L).
Proof.
  intros HR HN a b H. apply neg_upto, HR in H. unfold sigmoid1. cbn [fdiv fadd fexp fneg B64] in *. change (@f1 (B64 L)) with one. set (p := l_exp L (b64_opp a)) in *. set (q := l_exp L (b64_opp b)) in *.
  assert (HP : upto (K := B64 L) (b64_plus mode_NE one q) (b64_plus mode_NE one p)) by exact (add_upto L one one q p (mono_irr (B64 L) (B64_mono L) one) H).
  assert (H1 : forall t, nonneg t -> b64_nan (b64_plus mode_NE one t) = false -> 1 <= ek (b64_plus mode_NE one t)).
  { intros t Ht N. assert (G : upto (K := B64 L) (b64_plus mode_NE one (b64_ofZ 0)) (b64_plus mode_NE one t)) by exact (add_upto L one one (b64_ofZ 0) t (mono_irr (B64 L) (B64_mono L) one) Ht).
    apply upto_ek in G. change (b64_plus mode_NE one (b64_ofZ 0)) with one in G. destruct G as [G|[G|G]]; [discriminate|congruence|]. rewrite <- one_R. exact G. }
  apply upto_ek in HP. apply upto_ek. set (u := b64_plus mode_NE one q) in *. set (v := b64_plus mode_NE one p) in *.
  destruct (b64_nan u) eqn:Nu; [right; left; destruct u; try discriminate; reflexivity|]. destruct (b64_nan v) eqn:Nv; [left; destruct v; try discriminate; reflexivity|].
  destruct HP as [HP|[HP|HP]]; try discriminate. right; right. apply inv_upto; auto. apply H1; [apply HN|exact Nu].
Qed.
Lemma sig_cases L (ps : list (player (B64 L))) : no_sigmoid ps \/ (exp_rising (B64 L) /\ exp_nonneg L) -> List.Forall (sig_ok (B64 L)) ps.
Proof.
  intros [H|[H1 H2]]; apply List.Forall_forall; intros p Hp E; [|now apply B64_sig]. exfalso. unfold no_sigmoid in H. rewrite List.Forall_forall in H. exact (H p Hp E).
Qed.
Lemma predict_mono_R (s : state RNum) m es i o x rsx r (X : pm RNum) a b : consistent s m es i o -> rising (net es) X a b -> m_acctype m = 0%Z -> own s x rsx r i X -> (a < r)%nat -> (b < r)%nat ->
  returns (Predict m x) s (fun out s' => exists rs (P : pm RNum), own s' out rs r o P /\ forall j, (j < o)%nat -> (entry P a j <= entry P b j)%R).
Proof.
  intros HC HR HA HX Ha Hb. destruct (predict_mono RNum RNum_mono s m es i o x rsx r X a b (proj2 (List.Forall_forall _ _) (fun p _ _ => RNum_sig)) HC HR HA HX Ha Hb) as (out & s' & E & rs & P & HO & HP).
  exists out, s'. split; [exact E|]. exists rs, P. split; [exact HO|]. intros j Hj. apply upto_R. exact (HP j Hj).
Qed.
