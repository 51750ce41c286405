(** * RoundProofs: float64 networks stay within the running error bound. *)
From Coq Require Import String ZArith List Bool Arith Lia Reals Lra Psatz.
From Flocq Require Import Core.Core IEEE754.BinarySingleNaN IEEE754.Binary IEEE754.Bits.
From Verif Require Import Num NumR NumB64 Heap Spec PureSpec Repr Matrix Network HeapLemmas MatrixFacts MatrixProofs RSum B64Facts
  MiscProofs ModelSpec ModelRefute ModelGo AdamBound RoundSpec Rounding.
Import ListNotations.
Open Scope R_scope.

Lemma pow_1023 : 2 ^ 1023 = bpow radix2 1023.
Proof. rewrite pow_powerRZ, bpow_powerRZ. reflexivity. Qed.

Section Net.
Context (L : libm).
Notation BN := (B64 L).

Lemma b64_lt_R (x y : binary64) : b64_finite x = true -> b64_finite y = true -> b64_lt x y = true <-> b64_R x < b64_R y.
Proof.
  intros Hx Hy. rewrite b64_lt_spec by (apply finite_not_nan; auto). unfold xlt. rewrite !finite_rank by auto. split; [intros [H|[_ H]]; [lia|exact H]|auto].
Qed.
Lemma relu_exact (z : BN) : b64_finite z = true -> b64_finite (relu1 z) = true /\ b64_R (relu1 z) = Rmax (b64_R z) 0.
Proof.
  intros Hz. destruct (b64_relu_value L z (finite_not_nan _ Hz)) as (H1 & H2). destruct (flt f0 z) eqn:E.
  - rewrite H1 by reflexivity. split; [exact Hz|]. symmetry. apply Rmax_left. change (b64_lt (b64_ofZ 0) z = true) in E. apply b64_lt_R in E; [|reflexivity|exact Hz].
    change (b64_R (b64_ofZ 0)) with 0 in E. lra.
  - specialize (H2 eq_refl). change (b64_lt (b64_ofZ 0) z = false) in E.
    assert (N : ~ (b64_R (b64_ofZ 0) < b64_R z)) by (intros C; apply b64_lt_R in C; [congruence|reflexivity|exact Hz]). change (b64_R (b64_ofZ 0)) with 0 in N.
    rewrite Rmax_right by lra. clear H1 E. revert H2. generalize (relu1 z). intros w H2. destruct w as [sg|sg|sg pl Hpl|sg mm ee Hb]; try (destruct sg; discriminate H2). split; reflexivity.
Qed.

Lemma relu_lip x y : Rabs (Rmax x 0 - Rmax y 0) <= Rabs (x - y).
Proof. unfold Rmax. destruct (Rle_dec x 0), (Rle_dec y 0); unfold Rabs; repeat destruct Rcase_abs; lra. Qed.
Lemma leaky_lip s x y : x < 0 -> 0 <= y -> Rabs (x * s - y) <= Rmax 1 (Rabs s) * Rabs (x - y).
Proof.
  intros Hx Hy. pose proof (Rmax_l 1 (Rabs s)). pose proof (Rmax_r 1 (Rabs s)). set (M := Rmax 1 (Rabs s)) in *.
  rewrite (Rabs_left (x - y)) by lra. eapply Rle_trans; [apply Rabs_triang|]. rewrite Rabs_Ropp, Rabs_mult, (Rabs_left x), (Rabs_pos_eq y) by lra.
  replace (M * - (x - y)) with (- x * M + y * M) by ring. apply Rplus_le_compat; [apply Rmult_le_compat_l; lra|].
  rewrite <- (Rmult_1_r y) at 1. apply Rmult_le_compat_l; lra.
Qed.

(** ** One layer *)
(** The sum of the absolute products of the float64 numbers is at most what the bounds promise. *)
Lemma size_le (p : player BN) r (X : pm BN) (Y E : pm RNum) i j : within L r (p_in p) X Y E -> (i < r)%nat ->
  rsum (p_in p) (fun n => Rabs (b64_R (entry X i n) * b64_R (entry (p_w p) n j))) <= size_of L p Y E i j.
Proof.
  intros HX Hi. unfold size_of, weighted. apply rsum_le. intros n Hn. rewrite Rabs_mult. apply Rmult_le_compat_r; [apply Rabs_pos|].
  destruct (HX i n Hi Hn) as (_ & D). replace (b64_R (entry X i n)) with ((b64_R (entry X i n) - entry Y i n) + entry Y i n) by ring.
  eapply Rle_trans; [apply Rabs_triang|]. rewrite Rplus_comm. apply Rplus_le_compat_l. exact D.
Qed.
(** Adding the bias to a sum [s] that is accurate enough. *)
Lemma bias_within (p : player BN) r (X : pm BN) (Y E : pm RNum) i j (s : binary64) : finite_layer L p -> within L r (p_in p) X Y E -> layer_fits L p r Y E -> (i < r)%nat -> (j < p_out p)%nat ->
  b64_finite s = true ->
  Rabs (b64_R s - rsum (p_in p) (fun n => b64_R (entry X i n) * b64_R (entry (p_w p) n j))) <= dot_bound (p_in p) (rsum (p_in p) (fun n => Rabs (b64_R (entry X i n) * b64_R (entry (p_w p) n j)))) ->
  b64_finite (b64_plus mode_NE s (entry (p_b p) 0 j)) = true /\
  Rabs (b64_R (b64_plus mode_NE s (entry (p_b p) 0 j)) - entry (paffine (exact_layer L p) r Y) i j) <= affine_err L p Y E i j.
Proof.
  intros (_ & _ & HW & HB) HX HF Hi Hj Fs H1. specialize (HF i j Hi Hj). cbv zeta in HF. destruct HF as (HF & _).
  unfold paffine, paff. rewrite !entry_mk by assumption.
  change (p_in (exact_layer L p)) with (p_in p). change (p_w (exact_layer L p)) with (real_mat L (p_in p) (p_out p) (p_w p)). change (p_b (exact_layer L p)) with (real_mat L 1 (p_out p) (p_b p)).
  unfold real_mat at 2. rewrite entry_mk by (assumption || lia).
  pose proof (size_le p r X Y E i j HX Hi) as Ha.
  set (x := fun n => entry X i n : binary64) in *. set (w := fun n => entry (p_w p) n j : binary64) in *. set (b := entry (p_b p) 0 j : binary64) in *.
  assert (EY : fsum (K := RNum) (p_in p) (fun n => fmul (entry Y i n) (entry (real_mat L (p_in p) (p_out p) (p_w p)) n j)) = rsum (p_in p) (fun n => entry Y i n * b64_R (w n))).
  { unfold rsum. apply (fsum_ext (K := RNum)). intros n Hn. unfold real_mat. rewrite entry_mk by assumption. reflexivity. }
  rewrite EY. clear EY.
  set (a := size_of L p Y E i j) in *.
  change (rsum (p_in p) (fun n => Rabs (b64_R (x n) * b64_R (w n))) <= a) in Ha.
  change (Rabs (b64_R s - rsum (p_in p) (fun n => b64_R (x n) * b64_R (w n))) <= dot_bound (p_in p) (rsum (p_in p) (fun n => Rabs (b64_R (x n) * b64_R (w n))))) in H1.
  set (a' := rsum (p_in p) (fun n => Rabs (b64_R (x n) * b64_R (w n)))) in *.
  assert (Ha0 : 0 <= a') by (apply rsum_nonneg; intros; apply Rabs_pos).
  pose proof (dot_bound_mono (p_in p) _ _ Ha) as Hd. pose proof (Rabs_pos (b64_R b)) as Hb0. rewrite pow_1023 in HF. fold b in HF.
  set (S1 := rsum (p_in p) (fun n => b64_R (x n) * b64_R (w n))) in *.
  assert (H2 : Rabs S1 <= a') by (unfold S1, a'; apply rsum_abs).
  assert (Fb : b64_finite b = true) by (apply HB; exact Hj).
  assert (Fp : b64_finite (b64_plus mode_NE s b) = true).
  { apply plus_fits; [exact Fs|exact Fb|]. eapply Rle_trans; [apply Rabs_triang|]. replace (b64_R s) with ((b64_R s - S1) + S1) by ring.
    pose proof (Rabs_triang (b64_R s - S1) S1). lra. }
  change (b64_finite (b64_plus mode_NE s b) = true /\ Rabs (b64_R (b64_plus mode_NE s b) - (rsum (p_in p) (fun n => entry Y i n * b64_R (w n)) + b64_R b)) <= affine_err L p Y E i j).
  split; [exact Fp|].
  assert (HA : Rabs (b64_R (b64_plus mode_NE s b) - (S1 + b64_R b)) <= (dot_bound (p_in p) a' + 0) * (1 + u64) + (a' + Rabs (b64_R b)) * u64).
  { apply add_error; [exact Fp|exact H1|exact H2| |apply Rle_refl]. rewrite Rminus_eq_0, Rabs_R0. apply Rle_refl. }
  assert (HS : Rabs (S1 - rsum (p_in p) (fun n => entry Y i n * b64_R (w n))) <= weighted L p (fun n => entry E i n) j).
  { unfold S1, weighted. rewrite <- rsum_minus. eapply Rle_trans; [apply rsum_abs|]. apply rsum_le. intros n Hn.
    replace (b64_R (x n) * b64_R (w n) - entry Y i n * b64_R (w n)) with ((b64_R (x n) - entry Y i n) * b64_R (w n)) by ring.
    rewrite Rabs_mult. apply Rmult_le_compat_r; [apply Rabs_pos|]. apply (HX i n Hi Hn). }
  unfold affine_err. cbv zeta. fold a. fold b. pose proof u64_pos as Hu.
  set (T := rsum (p_in p) (fun n => entry Y i n * b64_R (w n))) in *.
  replace (b64_R (b64_plus mode_NE s b) - (T + b64_R b)) with ((S1 - T) + (b64_R (b64_plus mode_NE s b) - (S1 + b64_R b))) by ring.
  eapply Rle_trans; [apply Rabs_triang|]. apply Rplus_le_compat; [exact HS|]. eapply Rle_trans; [exact HA|]. rewrite Rplus_0_r.
  apply Rplus_le_compat; [apply Rmult_le_compat_r; lra|]. apply Rmult_le_compat_r; lra.
Qed.
Lemma affine_within p r (X : pm BN) (Y E : pm RNum) : finite_layer L p -> within L r (p_in p) X Y E -> layer_fits L p r Y E ->
  forall i j, (i < r)%nat -> (j < p_out p)%nat ->
    b64_finite (entry (paffine p r X) i j) = true /\
    Rabs (b64_R (entry (paffine p r X) i j) - entry (paffine (exact_layer L p) r Y) i j) <= affine_err L p Y E i j.
Proof.
  intros HP HX HF i j Hi Hj. pose proof (size_le p r X Y E i j HX Hi) as Ha. pose proof (HF i j Hi Hj) as HF'. cbv zeta in HF'. destruct HF' as (HF' & _).
  pose proof (dot_bound_mono (p_in p) _ _ Ha) as Hd. pose proof (Rabs_pos (b64_R (entry (p_b p) 0 j))) as Hb0. rewrite pow_1023 in HF'.
  assert (Fs : b64_finite (fsum (K := BN) (p_in p) (fun n => b64_mult mode_NE (entry X i n) (entry (p_w p) n j))) = true).
  { apply (fsum_fits L (p_in p) _ (fun n => entry X i n) (fun n => entry (p_w p) n j)); [reflexivity| |cbv beta; lra]. intros n Hn. destruct HP as (_ & _ & HW & _). split; [apply (HX i n Hi Hn)|apply (HW n j Hn Hj)]. }
  destruct (fsum_error L (p_in p) _ (fun n => entry X i n) (fun n => entry (p_w p) n j) (fun _ _ => eq_refl) Fs) as (H1 & _).
  pose proof (bias_within p r X Y E i j _ HP HX HF Hi Hj Fs H1) as HB. unfold paffine at 1 2, paff at 1 2. rewrite !(entry_mk (K := BN)) by assumption. exact HB.
Qed.
(** The activation of an accurate sum [A]. *)
Lemma act_within p r (A : pm BN) (Y E : pm RNum) : finite_layer L p -> layer_fits L p r Y E ->
  (forall i j, (i < r)%nat -> (j < p_out p)%nat -> b64_finite (entry A i j) = true /\ Rabs (b64_R (entry A i j) - entry (paffine (exact_layer L p) r Y) i j) <= affine_err L p Y E i j) ->
  within L r (p_out p) (pact p r A) (pforward (exact_layer L p) r Y) (layer_err L p r Y E).
Proof.
  intros HP HF HA i j Hi Hj. destruct (HA i j Hi Hj) as (F1 & A1).
  destruct (HF i j Hi Hj) as (_ & HF2). destruct HP as (HK & FS & _).
  unfold layer_err. rewrite entry_mk by assumption. cbv zeta.
  unfold pforward, pact. change (p_kind (exact_layer L p)) with (p_kind p). change (p_out (exact_layer L p)) with (p_out p).
  set (z := entry A i j) in *. set (Z := entry (paffine (exact_layer L p) r Y) i j) in *. set (e := affine_err L p Y E i j) in *.
  assert (HR : p_kind p = Hidden \/ p_kind p = Dropout -> b64_finite (relu1 z) = true /\ Rabs (b64_R (relu1 z) - relu1 (K := RNum) Z) <= e).
  { intros _. destruct (relu_exact z F1) as (G1 & G2). split; [exact G1|]. rewrite G2. eapply Rle_trans; [apply relu_lip|exact A1]. }
  destruct HK as [K|[K|[K|K]]]; rewrite K in *.
  - split; assumption.
  - unfold pmap. rewrite !entry_mk by assumption. fold z Z. unfold act1. change (p_kind (exact_layer L p)) with (p_kind p). rewrite K. apply HR. auto.
  - unfold pmap. rewrite !entry_mk by assumption. fold z Z. unfold act1. change (p_kind (exact_layer L p)) with (p_kind p). rewrite K. apply HR. auto.
  - unfold pmap. rewrite !entry_mk by assumption. fold z Z. unfold act1. change (p_kind (exact_layer L p)) with (p_kind p). rewrite K. clear HR.
    specialize (HF2 eq_refl). rewrite pow_1023 in HF2. change (p_slope (exact_layer L p)) with (b64_R (p_slope p)).
    set (s := b64_R (p_slope p)) in *. unfold leaky1.
    change (flt (n := BN) z f0) with (b64_lt z (b64_ofZ 0)). change (flt (n := RNum) Z f0) with (r_ltb Z 0).
    pose proof (Rabs_pos (b64_R z - Z)) as He. pose proof u64_pos as Hu. pose proof eta64_pos as Ht. pose proof (Rabs_pos s) as Hs. pose proof (Rabs_pos Z) as HZ.
    pose proof (Rmax_l 1 (Rabs s)) as M1. pose proof (Rmax_r 1 (Rabs s)) as M2. set (M := Rmax 1 (Rabs s)) in *.
    assert (HM : M * Rabs (b64_R z - Z) <= M * e) by (apply Rmult_le_compat_l; lra).
    assert (Hse : 0 <= Rabs s * (Rabs Z + e)) by (apply Rmult_le_pos; lra). assert (Hue : 0 <= u64 * (Rabs s * (Rabs Z + e))) by (apply Rmult_le_pos; lra).
    assert (Hzz : Rabs (b64_R z) <= Rabs Z + e).
    { replace (b64_R z) with ((b64_R z - Z) + Z) by ring. eapply Rle_trans; [apply Rabs_triang|]. lra. }
    destruct (b64_lt z (b64_ofZ 0)) eqn:Ez.
    + apply b64_lt_R in Ez; [|exact F1|reflexivity]. change (b64_R (b64_ofZ 0)) with 0 in Ez.
      change (fmul (n := BN) z (p_slope p)) with (b64_mult mode_NE z (p_slope p)).
      assert (Hzs : Rabs (b64_R z * s) <= Rabs s * (Rabs Z + e)) by (rewrite Rabs_mult, Rmult_comm; apply Rmult_le_compat_l; lra).
      assert (Fm : b64_finite (b64_mult mode_NE z (p_slope p)) = true) by (apply mult_fits; [exact F1|exact FS|fold s; lra]).
      split; [exact Fm|]. destruct (mult_exact _ _ Fm) as (_ & _ & EM). rewrite EM. fold s. pose proof (rnd_error (b64_R z * s)) as RE.
      assert (Hr : Rabs (rnd (b64_R z * s) - b64_R z * s) <= u64 * (Rabs s * (Rabs Z + e)) + eta64) by (eapply Rle_trans; [exact RE|]; apply Rplus_le_compat_r, Rmult_le_compat_l; lra).
      destruct (r_ltb Z 0) eqn:EZ.
      * change (fmul (n := RNum) Z s) with (Z * s). replace (rnd (b64_R z * s) - Z * s) with ((b64_R z - Z) * s + (rnd (b64_R z * s) - b64_R z * s)) by ring.
        eapply Rle_trans; [apply Rabs_triang|]. apply Rplus_le_compat; [|exact Hr]. rewrite Rabs_mult, Rmult_comm. eapply Rle_trans; [|exact HM]. apply Rmult_le_compat_r; lra.
      * apply r_ltb_false in EZ. replace (rnd (b64_R z * s) - Z) with ((b64_R z * s - Z) + (rnd (b64_R z * s) - b64_R z * s)) by ring.
        eapply Rle_trans; [apply Rabs_triang|]. apply Rplus_le_compat; [|exact Hr]. eapply Rle_trans; [apply leaky_lip; assumption|exact HM].
    + assert (Nz : 0 <= b64_R z).
      { apply Rnot_lt_le. intros C. change 0 with (b64_R (b64_ofZ 0)) in C. apply b64_lt_R in C; [congruence|exact F1|reflexivity]. }
      split; [exact F1|]. apply Rle_trans with (M * e); [|lra]. destruct (r_ltb Z 0) eqn:EZ.
      * apply r_ltb_true in EZ. change (fmul (n := RNum) Z s) with (Z * s). rewrite Rabs_minus_sym. eapply Rle_trans; [apply leaky_lip; assumption|]. rewrite Rabs_minus_sym. exact HM.
      * eapply Rle_trans; [|exact HM]. rewrite <- (Rmult_1_l (Rabs (b64_R z - Z))) at 1. apply Rmult_le_compat_r; lra.
Qed.
Lemma layer_within p r (X : pm BN) (Y E : pm RNum) : finite_layer L p -> within L r (p_in p) X Y E -> layer_fits L p r Y E ->
  within L r (p_out p) (pforward p r X) (pforward (exact_layer L p) r Y) (layer_err L p r Y E).
Proof. intros HP HX HF. apply act_within; [exact HP|exact HF|]. apply affine_within; assumption. Qed.

(** ** Networks *)
Lemma net_within ps r : forall i o (X : pm BN) (Y E : pm RNum), chain i ps o -> List.Forall (finite_layer L) ps -> within L r i X Y E -> net_fits L ps r Y E ->
  within L r o (pnet ps r X) (pnet (map (exact_layer L) ps) r Y) (net_err L ps r Y E).
Proof.
  induction ps as [|p ps IH]; intros i o X Y E HC HP HX HF.
  - cbn in HC. subst. exact HX.
  - destruct HC as (<- & HC). inversion HP; subst. destruct HF as (HF1 & HF2).
    apply (IH (p_out p) o); [exact HC|assumption| |exact HF2]. apply layer_within; assumption.
Qed.

(** ** Programs *)
Lemma dot_rounding (s : state BN) m b rs rs2 r k c (A B : pm BN) : own s m rs r k A -> own s b rs2 k c B -> (1 <= r)%nat -> (1 <= c)%nat ->
  returns (Dot m b) s (fun out s' => exists rs' (D : pm BN), own s' out rs' r c D /\
    forall i j, (i < r)%nat -> (j < c)%nat ->
      let exact := rsum k (fun n => b64_R (entry A i n) * b64_R (entry B n j)) in
      let size := rsum k (fun n => Rabs (b64_R (entry A i n) * b64_R (entry B n j))) in
      (b64_finite (entry D i j) = true -> Rabs (b64_R (entry D i j) - exact) <= dot_bound k size) /\
      ((forall n, (n < k)%nat -> b64_finite (entry A i n) = true /\ b64_finite (entry B n j) = true) -> size + dot_bound k size <= 2 ^ 1023 ->
       b64_finite (entry D i j) = true)).
Proof.
  intros HA HB Hr Hc. apply returns_wp. eapply wp_conseq; [eapply wp_Dot; eassumption|]. cbv beta. intros out s' H. unfold fresh_result in H. destruct H as (rs' & HM & _).
  exists rs', (pdot r k c A B). split; [apply HM|]. intros i j Hi Hj. cbv zeta. unfold pdot. rewrite entry_mk by assumption. split.
  - intros HF. apply (fsum_error L k _ (fun n => entry A i n) (fun n => entry B n j)); [reflexivity|exact HF].
  - intros HF HS. apply (fsum_fits L k _ (fun n => entry A i n) (fun n => entry B n j)); [reflexivity|exact HF|]. rewrite <- pow_1023. exact HS.
Qed.
Lemma predict_rounding (s : state BN) m es i o x rsx r (X : pm BN) (Y E : pm RNum) : consistent s m es i o -> (1 <= length es)%nat -> m_acctype m = 0%Z ->
  own s x rsx r i X -> (1 <= r)%nat -> List.Forall (finite_layer L) (net es) -> within L r i X Y E -> net_fits L (net es) r Y E ->
  returns (Predict m x) s (fun out s' => exists rs P, own s' out rs r o P /\
    within L r o P (pnet (map (exact_layer L) (net es)) r Y) (net_err L (net es) r Y E)).
Proof.
  intros HC HL HT HO Hr HP HX HF. pose proof HC as (_ & _ & _ & _ & HCh & _).
  destruct (predict_spec s m es i o x rsx r X o (pnet (net es) r X) HC HL) as (out & s' & ER & rs & H1 & _); [rewrite HT; reflexivity|exact HO|exact Hr|].
  exists out, s'. split; [exact ER|]. exists rs, (pnet (net es) r X). split; [exact H1|]. apply (net_within (net es) r i o); assumption.
Qed.
Lemma scan_wins r o (P : pm BN) (Y E : pm RNum) a c : within L r o P Y E -> (a < r)%nat -> wins o Y E a c -> fst (scan_max o (entry P a)) = c.
Proof.
  intros HW Ha (Hc & H0 & HJ).
  assert (V : forall j, (j < o)%nat -> entry Y a j - entry E a j <= b64_R (entry P a j) <= entry Y a j + entry E a j).
  { intros j Hj. destruct (HW a j Ha Hj) as (_ & D). apply Rabs_le_inv in D. change (F RNum) with R in *. split; lra. }
  assert (FF : forall j, (j < o)%nat -> b64_finite (entry P a j) = true) by (intros j Hj; apply (HW a j Ha Hj)).
  destruct (scan_max_argmax (K := BN) (fun x => b64_nan x = false) o (entry P a)) as (A1 & A2 & _).
  - apply (B64_weak_order L).
  - reflexivity.
  - intros j Hj. apply finite_not_nan, FF, Hj.
  - exists c. split; [exact Hc|]. change (b64_lt (b64_ofZ 0) (entry P a c) = true). apply b64_lt_R; [reflexivity|apply FF, Hc|]. change (b64_R (b64_ofZ 0)) with 0. specialize (V c Hc). lra.
  - set (w := fst (scan_max o (entry P a))) in *. destruct (Nat.eq_dec w c) as [|N]; [assumption|exfalso].
    specialize (A2 c Hc). change (b64_lt (entry P a w) (entry P a c) = false) in A2.
    assert (G : b64_lt (entry P a w) (entry P a c) = true).
    { apply b64_lt_R; [apply FF, A1|apply FF, Hc|]. pose proof (V c Hc). pose proof (V w A1). pose proof (HJ w A1 N). lra. }
    congruence.
Qed.
Lemma class_rounding (s : state BN) m es i o x rsx r (X : pm BN) (Y E : pm RNum) : consistent s m es i o -> (1 <= length es)%nat -> m_acctype m = 1%Z ->
  own s x rsx r i X -> (1 <= r)%nat -> List.Forall (finite_layer L) (net es) -> within L r i X Y E -> net_fits L (net es) r Y E ->
  returns (Predict m x) s (fun out s' => exists rs P, own s' out rs r 1 P /\
    forall a c, (a < r)%nat -> wins o (pnet (map (exact_layer L) (net es)) r Y) (net_err L (net es) r Y E) a c -> entry P a 0 = ofZ (Z.of_nat c)).
Proof.
  intros HC HL HT HO Hr HP HX HF. pose proof HC as (_ & _ & _ & _ & HCh & _).
  destruct (predict_spec s m es i o x rsx r X 1 (row_max r o (pnet (net es) r X)) HC HL) as (out & s' & ER & rs & H1 & _); [rewrite HT; reflexivity|exact HO|exact Hr|].
  exists out, s'. split; [exact ER|]. exists rs, (row_max r o (pnet (net es) r X)). split; [exact H1|]. intros a c Ha HW.
  unfold row_max. rewrite entry_mk by (assumption || lia). do 2 f_equal. eapply scan_wins; [apply (net_within (net es) r i o); eassumption|exact Ha|exact HW].
Qed.
End Net.
