(** * BinomialEx: concrete calls of binomial.Rand, one for each of its three methods. *)
From Coq Require Import ZArith List Bool Lia Reals Lra.
From Flocq Require Import Core.Raux IEEE754.BinarySingleNaN IEEE754.Binary IEEE754.Bits.
From Verif Require Import Num NumR NumB64 Heap Network Binomial BinomialProofs CodecEx.
Import ListNotations.
Local Open Scope R_scope.

Definition be_lib : binlib RNum := MkBinlib (K := RNum) (fun _ => 0) (fun _ => 0) (fun _ => 0) (fun x => IZR (Zfloor x)) 3.
Lemma be_floor : is_floor (b_floor be_lib).
Proof. intros x. exists (Zfloor x). split; [reflexivity|]. split; [apply Zfloor_lb|apply Zfloor_ub]. Qed.

(** 1/4, 3/4, 1/8, then 0. *)
Definition be_U : nat -> R := fun i => nth i [1 / 4; 3 / 4; 1 / 8] 0.
Definition be_E : nat -> R := fun _ => 1.

Lemma be_direct_low : bin_Rand (K := RNum) be_lib be_U be_E (INR 3) (1 / 2) 0 (MkDraws 0 0) = Some (INR 2, MkDraws 3 0).
Proof.
  rewrite Rand_direct by lia. do 2 f_equal. unfold successes. destruct (Rle_dec _ _); [|lra]. f_equal.
  cbn. destruct (Rlt_dec (1 / 4) (1 / 2)); [|lra]. destruct (Rlt_dec (3 / 4) (1 / 2)); [lra|].
  destruct (Rlt_dec (1 / 8) (1 / 2)); [|lra]. reflexivity.
Qed.
Lemma be_direct_high : bin_Rand (K := RNum) be_lib be_U be_E (INR 3) (4 / 5) 0 (MkDraws 0 0) = Some (INR 2, MkDraws 3 0).
Proof.
  rewrite Rand_direct by lia. do 2 f_equal. unfold successes. destruct (Rle_dec _ _); [lra|]. f_equal.
  cbn. destruct (Rlt_dec (1 / 4) (1 - 4 / 5)); [lra|]. destruct (Rlt_dec (3 / 4) (1 - 4 / 5)); [lra|].
  destruct (Rlt_dec (1 / 8) (1 - 4 / 5)); [|lra]. reflexivity.
Qed.

(** Poisson proposal: 30 trials with P = 1/60; one arrival before 1/2, then accepted. *)
Definition be_E2 : nat -> R := fun i => nth i [1 / 4; 1; 10] 0.
Lemma be_poisson : bin_Rand (K := RNum) be_lib be_U be_E2 (INR 30) (1 / 60) 1 (MkDraws 0 0) = Some (INR 1, MkDraws 0 3).
Proof.
  assert (Hp : bin_p (K := RNum) (1 / 60) = 1 / 60) by (apply p_low; lra).
  assert (HN : INR 30 = 30) by (rewrite INR_IZR_INZ; reflexivity).
  assert (Ha : bin_am (K := RNum) (INR 30) (1 / 60) = 1 / 2) by (unfold bin_am; rewrite Hp; cbn [fmul RNum]; rewrite HN; lra).
  assert (Hr : bin_arrivals (K := RNum) be_E2 (INR 30) (1 / 60) 30 f0 f0 0 = (1, 2%nat)).
  { cbn [bin_arrivals]. rewrite Ha. cbn [fle fadd RNum f0 f1 ofZ be_E2 nth].
    replace (r_leb (1 / 2) (0 + 1 / 4)) with false by (symmetry; apply r_leb_false; lra).
    replace (r_leb (1 / 2) (0 + 1 / 4 + 1)) with true by (symmetry; apply r_leb_true; lra).
    f_equal. unfold f0, f1. cbn [ofZ RNum]. lra. }
  unfold bin_Rand. rewrite many by lia. rewrite Ha.
  replace (flt (1 / 2 : RNum) f1) with true by (symmetry; apply r_ltb_true; change (1 / 2 < 1); lra).
  cbn [d_exp d_uni]. rewrite poisson_S, count_N, Hr.
  match goal with |- context [if ?b then _ else _] => replace b with true end.
  - rewrite out_low by lra. reflexivity.
  - symmetry. apply r_leb_true. change (be_E2 2) with 10. unfold bin_accept. cbn zeta. rewrite Hp, Ha.
    replace (bin_pade (K := RNum) (fdiv (fneg 1) (INR 30 : RNum))) with (- 177 / 5221).
    2:{ unfold bin_pade, lit_half, f1. cbn [fadd fsub fmul fdiv fneg ofZ RNum]. rewrite HN. field. }
    replace (bin_pade (K := RNum) (fneg (1 / 60 : RNum))) with (- 357 / 21241).
    2:{ unfold bin_pade, lit_half, f1. cbn [fadd fsub fmul fdiv fneg ofZ RNum]. field. }
    unfold lit_half. cbn [fadd fsub fmul fdiv ofZ RNum]. rewrite HN.
    replace (1 / (12 * (30 - 1))) with (1 / 348) by field. lra.
Qed.

(** Cauchy proposal: 100 trials with P = 1/2 and again with P = 3/4. *)
Lemma be_cauchy P : P = 1 / 2 \/ P = 3 / 4 ->
  bin_Rand (K := RNum) be_lib (fun _ => 0) be_E (INR 100) P 1 (MkDraws 0 0) = Some (INR 100 * P, MkDraws 2 0).
Proof.
  intros HP.
  assert (HN : INR 100 = 100) by (rewrite INR_IZR_INZ; reflexivity).
  assert (Hp : bin_p (K := RNum) P = 1 / 2 \/ bin_p (K := RNum) P = 1 / 4).
  { destruct HP; subst; [left; apply p_low; lra|right; rewrite p_high by lra; lra]. }
  assert (Ha : bin_am (K := RNum) (INR 100) P = IZR 50 \/ bin_am (K := RNum) (INR 100) P = IZR 25).
  { unfold bin_am. cbn [fmul RNum]. rewrite HN. destruct Hp as [-> | ->]; [left|right]; lra. }
  assert (Hz : exists z, bin_am (K := RNum) (INR 100) P = IZR z /\ (1 <= z <= 50)%Z) by (destruct Ha as [-> | ->]; eexists; (split; [reflexivity|lia])).
  destruct Hz as (z & Hz & Hb).
  assert (Hb1 : 1 <= IZR z <= 50) by (split; apply IZR_le; lia).
  unfold bin_Rand. rewrite many by lia. rewrite Hz.
  replace (flt (IZR z : RNum) f1) with false by (symmetry; apply r_ltb_false; change (1 <= IZR z); lra).
  cbn [d_exp d_uni]. rewrite cauchy_S, propose_S. cbn zeta. rewrite Hz.
  match goal with |- context [fle f0 ?e] => replace e with (IZR z) end.
  2:{ cbn [b_tan be_lib fadd fmul RNum]. lra. }
  replace (fle f0 (IZR z : RNum)) with true by (symmetry; apply r_leb_true; change (0 <= IZR z); lra).
  replace (flt (IZR z : RNum) (fadd (INR 100 : RNum) f1)) with true
    by (symmetry; apply r_ltb_true; change (IZR z < INR 100 + 1); rewrite HN; lra).
  cbn [andb].
  match goal with |- context [if ?b then _ else _] => replace b with true end.
  - cbn [b_floor be_lib]. rewrite Zfloor_IZR. rewrite <- Hz. do 2 f_equal. unfold bin_am.
    destruct HP; subst; [rewrite out_low, p_low by lra|rewrite out_high, p_high by lra]; cbn [fmul RNum]; rewrite HN; lra.
  - symmetry. apply r_leb_true. unfold bin_ratio. cbn [fmul fadd fexp RNum b_tan be_lib].
    apply Rmult_le_pos; [|left; apply exp_pos]. apply Rmult_le_pos; [|unfold f1; cbn [ofZ RNum]; lra].
    apply Rmult_le_pos; [cbn [fdiv ofZ RNum]; lra|]. unfold bin_sq. cbn [fsqrt RNum]. apply sqrt_pos.
Qed.

Lemma bnanp_nan : b64_nan bnanp = true.
Proof. reflexivity. Qed.
(** With fewer than 25 trials a NaN probability counts every trial as a success. *)
Lemma nan_direct (L : libm) (lib : binlib (B64 L)) E fuel :
  match bin_Rand lib (fun _ => bhalf : B64 L) E (bz 3 : B64 L) (bnanp : B64 L) fuel (MkDraws 0 0) with
  | Some (x, d) => b64_eq x (bz 3) = true /\ d = MkDraws 3 0 | None => False end.
Proof. vm_compute. split; reflexivity. Qed.
Lemma Rand_loops : exists N P : binary64, forall (L : libm) (lib : binlib (B64 L)) U E fuel d,
  bin_Rand lib U E (N : B64 L) (P : B64 L) fuel d = None.
Proof.
  exists (b64_ofZ 25), bnanp. intros L lib U E fuel d. apply Rand_nan; [exact bnanp_nan|]. vm_compute. reflexivity.
Qed.
