(** * FloatRange: what layers, losses and Adam return in float64. *)
From Coq Require Import String ZArith List Bool Arith Lia Reals Lra Psatz.
From Flocq Require Import Core.Core IEEE754.BinarySingleNaN IEEE754.Binary IEEE754.Bits.
From Verif Require Import Num NumB64 Heap Spec Matrix Network Loss Optimizers PureSpec OptSpec Repr HeapLemmas MatrixFacts LayerFacts LayerGlue LossProofs LossMore OptProofs OptFacts B64Facts RoundSpec Rounding RoundProofs SoftFloat FloatSigns.
Import ListNotations.
Open Scope R_scope.

Definition in_unit (x : binary64) : Prop := b64_finite x = true /\ 0 <= b64_R x <= 1.
Section Float.
Context (L : libm).
Notation BN := (B64 L).

Lemma R_zero : b64_R (b64_ofZ 0) = 0. Proof. unfold b64_R. vm_compute. lra. Qed.
Lemma R_one : b64_R (b64_ofZ 1) = 1. Proof. unfold b64_R. vm_compute. lra. Qed.
Lemma unit_nonneg x : unit_or_nan x -> nonneg x.
Proof. intros [H|[F H]]; apply nonneg_cases; [auto|right; right; split; [exact F|lra]]. Qed.
Lemma lit_unit a b : (0 <= a <= b)%Z -> (1 <= b < 2 ^ 63)%Z -> in_unit (b64_div mode_NE (b64_ofZ a) (b64_ofZ b)).
Proof. intros H1 H2. destruct (b64_ratio a b H1 H2) as (F & _ & H). split; assumption. Qed.
Lemma clip_unit (x : BN) : unit_or_nan (clip1 x).
Proof.
  unfold clip1. cbn [flt B64]. unfold f0, f1. cbn [ofZ B64].
  destruct (b64_lt x (b64_ofZ 0)) eqn:E1; [right; apply lit_unit; lia|].
  destruct (b64_lt (b64_ofZ 1) x) eqn:E2; [right; apply lit_unit; lia|].
  assert (N : nonneg x) by exact E1. apply nonneg_cases in N as [N|[N|[F N]]]; [left; exact N|subst x; discriminate|].
  right. split; [exact F|]. split; [exact N|]. apply Rnot_lt_le. intros H. rewrite <- R_one in H. apply b64_lt_R in H; [congruence|reflexivity|exact F].
Qed.
Lemma one_minus (y : binary64) : in_unit y -> in_unit (b64_minus mode_NE (b64_ofZ 1) y) /\ sgn (b64_minus mode_NE (b64_ofZ 1) y) = false.
Proof.
  intros [F H]. pose proof (Bminus_correct 53 1024 (eq_refl Lt) (eq_refl Lt) binop_nan_pl64 mode_NE (b64_ofZ 1) y eq_refl F) as C.
  change (Bminus 53 1024 (eq_refl Lt) (eq_refl Lt) binop_nan_pl64 mode_NE (b64_ofZ 1) y) with (b64_minus mode_NE (b64_ofZ 1) y) in C.
  fold (b64_R (b64_ofZ 1)) in C. fold (b64_R y) in C. rewrite R_one in C.
  change (round radix2 (SpecFloat.fexp 53 1024) (round_mode mode_NE) (1 - b64_R y)) with (rnd (1 - b64_R y)) in C.
  assert (Hr : 0 <= rnd (1 - b64_R y) <= 1).
  { replace 0 with (rnd 0) at 1 by (apply round_0, valid_rnd_N).
    assert (R1 : rnd 1 = 1). { rewrite <- R_one. apply rnd_id. }
    split; [apply rnd_mono; lra|]. rewrite <- R1 at 2. apply rnd_mono. lra. }
  assert (B1 : 1 < bpow radix2 1024) by (change 1 with (bpow radix2 0); apply bpow_lt; lia).
  rewrite Rlt_bool_true in C by (rewrite Rabs_pos_eq by lra; lra).
  destruct C as (C1 & C2 & C3). split.
  - split; [exact C2|]. unfold b64_R. rewrite C1. exact Hr.
  - rewrite C3. destruct (Rcompare_spec (1 - b64_R y) 0); [lra|reflexivity|reflexivity].
Qed.
Lemma one_minus_nan (y : binary64) : unit_or_nan y -> unit_or_nan (b64_minus mode_NE (b64_ofZ 1) y).
Proof. intros [H|H]; [left; destruct y; try discriminate; reflexivity|right; apply one_minus; exact H]. Qed.

(** ** Layers *)
Lemma sigmoid_unit (x : BN) : exp_nonneg L -> unit_or_nan (sigmoid1 x).
Proof.
  intros HE. unfold sigmoid1. cbn [fdiv fadd fexp fneg B64]. unfold f1. cbn [ofZ B64]. apply div_unit; [reflexivity|].
  apply plus_nonneg; [reflexivity|apply HE].
Qed.
Lemma relu_nonneg (x : BN) : nonneg (relu1 x).
Proof.
  unfold relu1, f0. cbn [fmax ofZ B64]. unfold b64_max. destruct (is_pinf x || is_pinf (b64_ofZ 0)); [reflexivity|].
  destruct (b64_nan x || b64_nan (b64_ofZ 0)); [reflexivity|]. destruct (is_zero x && is_zero (b64_ofZ 0)) eqn:E.
  - apply andb_true_iff in E as [E _]. destruct x; try discriminate. simpl. destruct s; reflexivity.
  - destruct (b64_lt (b64_ofZ 0) x) eqn:E2; [|reflexivity]. destruct (b64_nan x) eqn:N; [now apply nan_nonneg|].
    apply b64_lt_spec in E2; [|reflexivity|exact N]. unfold nonneg. destruct (b64_lt x (b64_ofZ 0)) eqn:E3; [|reflexivity].
    apply b64_lt_spec in E3; [|exact N|reflexivity]. exfalso. exact (xlt_irr _ (xlt_trans _ _ _ E2 E3)).
Qed.
Lemma mask_nonneg (d u : BN) : nonneg (mask1 d u).
Proof. unfold mask1. cbv zeta. destruct (flt u _); destruct (negb _); reflexivity. Qed.
(** What an activation returns: softmax and sigmoid NaNs or numbers in [0,1]; ReLU, with or without dropout, NaNs or numbers that are not negative. *)
Definition out_ok (k : lkind) (x : binary64) : Prop :=
  match k with SoftmaxK | SigmoidK => unit_or_nan x | Hidden | Dropout => nonneg x | _ => True end.
Lemma forward_range (p : player BN) r X i j : exp_nonneg L -> (i < r)%nat -> (j < p_out p)%nat -> out_ok (p_kind p) (entry (pforward p r X) i j).
Proof.
  intros HE Hi Hj. unfold pforward, pact, out_ok, act1. destruct (p_kind p); auto; try (unfold pmap; rewrite entry_mk by assumption).
  - apply relu_nonneg. - apply sigmoid_unit, HE. - apply softmax_unit; assumption. - apply relu_nonneg.
Qed.
Lemma dropout_range (p : player BN) r X u i j : in_unit (p_drop p) -> (i < r)%nat -> (j < p_out p)%nat -> nonneg (entry (pforward_drop p r X u) i j).
Proof.
  intros HD Hi Hj. unfold pforward_drop. rewrite entry_mk by assumption. cbn [fmul fdiv B64]. apply mult_nonneg; [apply relu_nonneg|].
  apply div_nonneg; [apply mask_nonneg|]. unfold f1. cbn [fsub ofZ B64]. apply one_minus, HD.
Qed.

(** ** Losses *)
Lemma sum_nonneg n (f : nat -> BN) : (forall j, (j < n)%nat -> nonneg (f j)) -> nonneg (fsum n f).
Proof.
  intros H. rewrite (fsum_ext n f (fun j => if (j <? n)%nat then f j else b64_ofZ 0)).
  - apply (b64_sum_nonneg L). intros j. destruct (Nat.ltb_spec j n); [auto|reflexivity].
  - intros j Hj. apply Nat.ltb_lt in Hj. now rewrite Hj.
Qed.
Lemma fold_nonneg {A} (l : list A) (g : A -> BN) : forall a, nonneg a -> (forall x, In x l -> nonneg (g x)) -> nonneg (fold_left (fun s x => fadd s (g x)) l a).
Proof.
  induction l as [|x l IH]; intros a Ha H; [exact Ha|]. cbn [fold_left]. apply IH; [|intros; apply H; now right].
  apply plus_nonneg; [exact Ha|apply H; now left].
Qed.
Lemma csum_nonneg r c (g : nat -> nat -> BN) : (forall i j, (i < r)%nat -> (j < c)%nat -> nonneg (g i j)) -> nonneg (csum r c g).
Proof.
  intros H. unfold csum. assert (G : forall l a, nonneg a -> (forall i, In i l -> (i < r)%nat) -> nonneg (fold_left (fun s i => fold_left (fun s j => fadd s (g i j)) (seq 0 c) s) l a)).
  { induction l as [|i l IH]; intros a Ha Hl; [exact Ha|]. cbn [fold_left]. apply IH; [|intros; apply Hl; now right].
    apply fold_nonneg; [exact Ha|]. intros j Hj. apply in_seq in Hj. apply H; [apply Hl; now left|lia]. }
  apply G; [reflexivity|]. intros i Hi. apply in_seq in Hi. lia.
Qed.
(** The logarithm of a number in [0,1] is not positive; a square is not negative. *)
Definition log_nonpos : Prop := forall x, unit_or_nan x -> nonpos (l_log L x).
Definition square_nonneg : Prop := forall x, nonneg (l_pow L x (b64_ofZ 2)).

Lemma mse_nonneg c (Yh Y : pm BN) : square_nonneg -> nonneg (pmse c Yh Y).
Proof. intros H. unfold pmse. cbn [fdiv B64]. apply div_nonneg; [|apply ofZ_sign; lia]. apply sum_nonneg. intros j _. apply H. Qed.
Lemma mae_nonneg c (Yh Y : pm BN) : nonneg (pmae c Yh Y).
Proof. unfold pmae. cbn [fdiv B64]. apply div_nonneg; [|apply ofZ_sign; lia]. apply sum_nonneg. intros j _. apply abs_nonneg. Qed.
(** Labels: one 1 per row, otherwise 0. *)
Definition hot (r c : nat) (Y : pm BN) : Prop :=
  forall i, (i < r)%nat -> exists l, (l < c)%nat /\ forall j, (j < c)%nat -> entry Y i j = if (j =? l)%nat then f1 else f0.
Lemma unit_times_0 x : unit_or_nan x -> b64_nan (b64_mult mode_NE x (b64_ofZ 0)) = true \/ (b64_finite (b64_mult mode_NE x (b64_ofZ 0)) = true /\ b64_R (b64_mult mode_NE x (b64_ofZ 0)) = 0).
Proof. intros _. rewrite zero_is. destruct x; first [left; reflexivity|right; split; reflexivity]. Qed.
Lemma unit_times_1 x : unit_or_nan x -> b64_nan (b64_mult mode_NE x (b64_ofZ 1)) = true \/ in_unit (b64_mult mode_NE x (b64_ofZ 1)).
Proof.
  intros [H|[F H]]; [left; apply mult_nan; auto|right].
  pose proof (Bmult_correct 53 1024 (eq_refl Lt) (eq_refl Lt) binop_nan_pl64 mode_NE x (b64_ofZ 1)) as C.
  change (Bmult 53 1024 (eq_refl Lt) (eq_refl Lt) binop_nan_pl64 mode_NE x (b64_ofZ 1)) with (b64_mult mode_NE x (b64_ofZ 1)) in C.
  fold (b64_R (b64_ofZ 1)) in C. fold (b64_R x) in C. rewrite R_one, Rmult_1_r in C.
  change (round radix2 (SpecFloat.fexp 53 1024) (round_mode mode_NE) (b64_R x)) with (rnd (b64_R x)) in C. rewrite rnd_id in C.
  assert (B1 : 1 < bpow radix2 1024) by (change 1 with (bpow radix2 0); apply bpow_lt; lia).
  rewrite Rlt_bool_true in C by (rewrite Rabs_pos_eq by lra; lra). destruct C as (C1 & C2 & _).
  split; [unfold b64_finite; rewrite C2; unfold b64_finite in F; now rewrite F|]. unfold b64_R at 1 2. rewrite C1. exact H.
Qed.
Lemma plus_id x y : b64_finite x = true -> b64_finite y = true -> b64_R x = 0 \/ b64_R y = 0 -> (0 <= b64_R x + b64_R y <= 1) ->
  b64_finite (b64_plus mode_NE x y) = true /\ b64_R (b64_plus mode_NE x y) = b64_R x + b64_R y.
Proof.
  intros Fx Fy H0 H1. pose proof (Bplus_correct 53 1024 (eq_refl Lt) (eq_refl Lt) binop_nan_pl64 mode_NE x y Fx Fy) as C.
  change (Bplus 53 1024 (eq_refl Lt) (eq_refl Lt) binop_nan_pl64 mode_NE x y) with (b64_plus mode_NE x y) in C. fold (b64_R x) in C. fold (b64_R y) in C.
  change (round radix2 (SpecFloat.fexp 53 1024) (round_mode mode_NE) (b64_R x + b64_R y)) with (rnd (b64_R x + b64_R y)) in C.
  assert (E : rnd (b64_R x + b64_R y) = b64_R x + b64_R y) by (destruct H0 as [H0|H0]; rewrite H0; [rewrite Rplus_0_l|rewrite Rplus_0_r]; apply rnd_id).
  rewrite E in C. assert (B1 : 1 < bpow radix2 1024) by (change 1 with (bpow radix2 0); apply bpow_lt; lia).
  rewrite Rlt_bool_true in C by (rewrite Rabs_pos_eq by lra; lra). destruct C as (C1 & C2 & _). split; [exact C2|exact C1].
Qed.
Lemma hot_sum c l (p y : nat -> BN) : (forall j, unit_or_nan (p j)) -> (l < c)%nat -> (forall j, (j < c)%nat -> y j = if (j =? l)%nat then f1 else f0) ->
  unit_or_nan (fsum c (fun j => fmul (p j) (y j))).
Proof.
  intros Hp Hl Hy.
  assert (G : forall n, (n <= c)%nat -> let S := fsum n (fun j => fmul (p j) (y j)) in
    b64_nan S = true \/ (b64_finite S = true /\ 0 <= b64_R S <= 1 /\ ((n <= l)%nat -> b64_R S = 0))).
  { induction n as [|n IH]; intros Hn S.
    { right. split; [reflexivity|]. split; [|intros _]; unfold S; rewrite fsum_0; unfold f0; cbn [ofZ B64]; rewrite R_zero; lra. }
    unfold S. rewrite fsum_S. cbn [fadd fmul B64]. specialize (IH ltac:(lia)). cbv zeta in IH. set (S0 := fsum n _) in *. clearbody S0.
    destruct IH as [IH|(F0 & B0 & Z0)].
    { left. destruct S0; try discriminate. reflexivity. }
    rewrite Hy by lia. destruct (Nat.eqb_spec n l) as [->|Hne].
    - unfold f1. cbn [ofZ B64]. destruct (unit_times_1 (p l) (Hp l)) as [N|[F1 B1]].
      + left. destruct (b64_mult mode_NE (p l) (b64_ofZ 1)); try discriminate. destruct S0; reflexivity.
      + right. rewrite Z0 in B0 by lia. destruct (plus_id S0 _ F0 F1) as [F2 R2]; [left; apply Z0; lia|rewrite Z0 by lia; lra|].
        split; [exact F2|]. rewrite R2, Z0 by lia. split; [lra|intros; lia].
    - unfold f0. cbn [ofZ B64]. destruct (unit_times_0 (p n) (Hp n)) as [N|[F1 B1]].
      + left. destruct (b64_mult mode_NE (p n) (b64_ofZ 0)); try discriminate. destruct S0; reflexivity.
      + right. destruct (plus_id S0 _ F0 F1) as [F2 R2]; [right; exact B1|rewrite B1; lra|].
        split; [exact F2|]. rewrite R2, B1, Rplus_0_r. split; [lra|]. intros; apply Z0; lia. }
  destruct (G c (le_n c)) as [N|(F & B & _)]; [left; exact N|right; split; assumption].
Qed.
Lemma ce_nonneg r c (Yh Y : pm BN) : log_nonpos -> hot r c Y -> nonneg (pce r c Yh Y).
Proof.
  intros HL HY. unfold pce. apply sum_nonneg. intros i Hi. cbn [fdiv fneg flog B64]. apply div_nonneg; [|apply ofZ_sign; lia].
  apply opp_nonneg, HL. destruct (HY i Hi) as (l & Hl & Hj).
  apply (hot_sum c l (fun j => clip1 (entry Yh i j)) (fun j => entry Y i j)); [intros; apply clip_unit|exact Hl|exact Hj].
Qed.
Lemma bce_nonneg r c (Yh Y : pm BN) : log_nonpos -> (forall i j, (i < r)%nat -> (j < c)%nat -> in_unit (entry Y i j)) -> nonneg (pbce r c Yh Y).
Proof.
  intros HL HY. unfold pbce. apply csum_nonneg. intros i j Hi Hj. cbn [fdiv B64]. apply div_nonneg; [|apply ofZ_sign; lia]. apply div_nonneg; [|apply ofZ_sign; lia].
  unfold bce1. cbn [fneg fadd fmul flog fsub B64]. unfold f1. cbn [ofZ B64]. specialize (HY i j Hi Hj).
  pose proof (clip_unit (entry Yh i j)) as HC.
  apply opp_nonneg, plus_nonpos; apply mult_nonpos.
  - apply unit_nonneg. right. exact HY.
  - apply HL. exact HC.
  - apply unit_nonneg. right. apply one_minus, HY.
  - apply HL, one_minus_nan, HC.
Qed.

(** ** Adam *)
Lemma adam_cache (b2 c g : BN) : square_nonneg -> in_unit b2 -> nonneg c -> nonneg (adam_c1 b2 c g).
Proof.
  intros HS Hb Hc. unfold adam_c1. cbn [fadd fmul fpow fsub B64]. unfold f1. cbn [ofZ B64]. apply plus_nonneg; apply mult_nonneg; auto.
  - apply unit_nonneg. right. exact Hb.
  - apply unit_nonneg. right. apply one_minus, Hb.
Qed.
Lemma adam_denominator (c corr eps : BN) : nonneg eps -> let D := fadd (fsqrt (fmul c corr)) eps in
  b64_nan D = true \/ D = b64_inf false \/ (b64_finite eps = true /\ b64_finite D = true /\ b64_R eps <= b64_R D).
Proof.
  intros He D. destruct (plus_nonneg (b64_sqrt mode_NE (b64_mult mode_NE c corr)) eps (sqrt_nonneg _) He) as (_ & _ & [H|[H|(A1 & A2 & A3)]]); auto.
  right; right. split; [exact A1|]. split; [exact A2|]. apply A3.
Qed.
Definition caches_ok (po : popt BN) (k c : nat) : Prop :=
  (forall i j, (i < k)%nat -> (j < c)%nat -> nonneg (entry (po_wc po) i j)) /\ (forall j, (j < c)%nat -> nonneg (entry (po_bc po) 0 j)).
Lemma pupdate_caches (po : popt BN) k c W B dW dB : square_nonneg -> in_unit (po_b2 po) -> caches_ok po k c -> caches_ok (fst (fst (pupdate po k c W B dW dB))) k c.
Proof.
  intros HS Hb [C1 C2]. unfold pupdate, pupd1. destruct (po_kind po).
  - destruct (po_usemom po); split; assumption.
  - split; cbn [fst po_after po_wc po_bc].
    + intros i j Hi Hj. unfold pmap2. rewrite entry_mk by assumption. apply adam_cache; auto.
    + intros j Hj. unfold pmap2. rewrite entry_mk by (auto; lia). apply adam_cache; auto.
Qed.
Lemma pupdates_caches Gs : forall (po : popt BN) k c W B, square_nonneg -> in_unit (po_b2 po) -> caches_ok po k c -> caches_ok (fst (fst (pupdates po k c W B Gs))) k c.
Proof.
  induction Gs as [|[dW dB] Gs IH]; intros po k c W B HS Hb HC; [exact HC|]. cbn [pupdates].
  pose proof (pupdate_caches po k c W B dW dB HS Hb HC) as H.
  assert (E : po_b2 (fst (fst (pupdate po k c W B dW dB))) = po_b2 po) by (unfold pupdate; destruct (pupd1 po k c _ _ _ _) as [[? ?] ?]; destruct (pupd1 po 1 c _ _ _ _) as [[? ?] ?]; reflexivity).
  destruct (pupdate po k c W B dW dB) as [[po' W'] B']. cbn [fst] in *. apply IH; [exact HS|now rewrite E|exact H].
Qed.
End Float.
