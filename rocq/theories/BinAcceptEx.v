(** * BinAcceptEx: a number of successes that Rand never returns, and examples *)
From Coq Require Import ZArith List Bool Lia Reals Lra.
From Flocq Require Import Core.Raux IEEE754.BinarySingleNaN IEEE754.Binary IEEE754.Bits.
From Verif Require Import Num NumR NumB64 Heap Network Binomial BinomialProofs BinomialEx CodecEx BinAccept.
Import ListNotations.

Definition p100 : binary64 := b64_div mode_NE (b64_ofZ 1) (b64_ofZ 100).
Lemma all_inf (L : libm) : bin_accept (K := B64 L) (bz 25) p100 (bz 25) = (B754_infinity 53 1024 false : binary64).
Proof. vm_compute. reflexivity. Qed.
Lemma inf_le (x : binary64) : is_finite 53 1024 x = true -> b64_le (B754_infinity 53 1024 false) x = false.
Proof. destruct x as [[]|[]| |[]]; try discriminate; reflexivity. Qed.
Lemma poisson_not_all (L : libm) (E : nat -> B64 L) fuel : (forall i, is_finite 53 1024 (E i) = true) ->
  forall e e', bin_poisson E (bz 25 : B64 L) (p100 : B64 L) fuel e <> Some (bz 25 : B64 L, e').
Proof.
  intros HE. induction fuel as [|f IH]; intros e e'; [discriminate|]. rewrite poisson_S.
  destruct (bin_arrivals _ _ _ _ _ _ _) as [b e1].
  destruct (fle (bin_accept (bz 25 : B64 L) (p100 : B64 L) b) (E e1)) eqn:D; [|apply IH].
  intros H. injection H. intros _ ->. rewrite all_inf in D. cbn [fle B64] in D. rewrite inf_le in D by apply HE. discriminate.
Qed.
Lemma Rand_not_all : exists N P : binary64, b64_lt (b64_ofZ 0) P = true /\ b64_lt P (b64_ofZ 1) = true /\
  forall (L : libm) (lib : binlib (B64 L)) U (E : nat -> B64 L) fuel d d', (forall i, is_finite 53 1024 (E i) = true) ->
    bin_Rand lib U E (N : B64 L) (P : B64 L) fuel d <> Some (N : B64 L, d').
Proof.
  exists (bz 25), p100. split; [vm_compute; reflexivity|]. split; [vm_compute; reflexivity|].
  intros L lib U E fuel d d' HE. unfold bin_Rand.
  replace (flt (bz 25 : B64 L) (ofZ 25)) with false by (vm_compute; reflexivity).
  replace (flt (bin_am (bz 25 : B64 L) (p100 : B64 L)) f1) with true by (vm_compute; reflexivity).
  destruct (bin_poisson E (bz 25 : B64 L) (p100 : B64 L) fuel (d_exp d)) as [[b e]|] eqn:Ep; [|discriminate].
  unfold bin_out. replace (feq (bin_p (p100 : B64 L)) (p100 : B64 L)) with true by (vm_compute; reflexivity). cbn [negb].
  intros H. injection H. intros _ ->. exact (poisson_not_all L E fuel HE _ _ Ep).
Qed.

Local Open Scope R_scope.
Definition ba_lib : binlib RNum :=
  MkBinlib (K := RNum) (fun x => ln (INR (fact (Z.to_nat (Zfloor x - 1))))) (fun x => ln (1 + x)) (fun _ => 0) (fun x => IZR (Zfloor x)) PI.
Lemma ba_real : real_lib ba_lib.
Proof.
  split; [|split; [reflexivity|]].
  - intros k. cbn [b_lgamma ba_lib]. do 3 f_equal. rewrite INR_IZR_INZ, <- (plus_IZR (Z.of_nat k) 1), Zfloor_IZR.
    replace (Z.of_nat k + 1 - 1)%Z with (Z.of_nat k) by lia. apply Nat2Z.id.
  - intros x. exists (Zfloor x). split; [reflexivity|]. split; [apply Zfloor_lb|apply Zfloor_ub].
Qed.
Lemma ba_ex : (forall i, 0 <= be_E2 i) /\ waited be_E2 0 1 < INR 30 * (1 / 60) <= waited be_E2 0 2 /\
  real_lib ba_lib /\ 1 <= INR 100 * (1 / 2) /\
  INR 50 <= sqrt (2 * (INR 100 * (1 / 2)) * (1 - 1 / 2)) * b_tan ba_lib (b_pi ba_lib * 0) + INR 100 * (1 / 2) < INR 50 + 1.
Proof.
  assert (H30 : INR 30 = 30) by (rewrite INR_IZR_INZ; reflexivity). assert (H100 : INR 100 = 100) by (rewrite INR_IZR_INZ; reflexivity).
  assert (H50 : INR 50 = 50) by (rewrite INR_IZR_INZ; reflexivity). rewrite H30, H100, H50.
  split; [intros [|[|[|[|i]]]]; unfold be_E2; cbn [nth]; lra|].
  split; [cbn [waited Nat.add be_E2 nth]; lra|]. split; [exact ba_real|]. split; [lra|]. cbn [b_tan ba_lib]. lra.
Qed.
