(** * BinAccept: the rejection steps of binomial.Rand accept with the right probabilities *)
From Coq Require Import ZArith List Bool Lia Reals Lra Psatz.
From Coquelicot Require Import Coquelicot.
From Flocq Require Import Core.Raux.
From Verif Require Import Num NumR Heap Network Binomial BinomialProofs.
Import ListNotations.
Local Open Scope R_scope.

Lemma grows (f df : R -> R) a b : a <= b -> (forall x, a <= x <= b -> is_derive f x (df x)) ->
  (forall x, a <= x <= b -> 0 <= df x) -> f a <= f b.
Proof.
  intros Hab Hd Hp. destruct (MVT_gen f a b df) as (x & Hx & E).
  - intros x. rewrite Rmin_left, Rmax_right by lra. intros. apply Hd. lra.
  - intros x. rewrite Rmin_left, Rmax_right by lra. intros. apply derivable_continuous_pt. exists (df x). apply is_derive_Reals, Hd. lra.
  - rewrite Rmin_left, Rmax_right in Hx by lra. pose proof (Hp x Hx). nra.
Qed.

(** ** The fraction for log(1 + z) *)
Definition frac (z : R) : R := (1 + 1 / 2 * z) * z / (1 + (1 + 1 / 6 * z) * z).
Lemma pade_frac z : bin_pade (K := RNum) z = frac z.
Proof. reflexivity. Qed.
Definition dfrac (z : R) : R := (1 + z + z * z / 3) / (1 + (1 + 1 / 6 * z) * z) ^ 2.

Lemma q_pos z : -1 <= z <= 0 -> 1 / 6 <= 1 + (1 + 1 / 6 * z) * z.
Proof. intros H. nra. Qed.
Lemma frac_derive z : -1 <= z <= 0 -> is_derive frac z (dfrac z).
Proof.
  intros H. pose proof (q_pos z H). unfold frac, dfrac. auto_derive; [lra|]. field. lra.
Qed.
Lemma diff_derive z : -1 < z <= 0 -> is_derive (fun z => ln (1 + z) - frac z) z (z ^ 4 / (36 * (1 + (1 + 1 / 6 * z) * z) ^ 2 * (1 + z))).
Proof.
  intros H. pose proof (q_pos z ltac:(lra)). unfold frac. auto_derive; [split; lra|]. field. lra.
Qed.
Lemma frac_bound z : - (1 / 2) <= z <= 0 -> ln (1 + z) <= frac z <= ln (1 + z) + (- z) ^ 5 / 26.
Proof.
  intros Hz. split.
  - pose proof (grows (fun z => ln (1 + z) - frac z) (fun z => z ^ 4 / (36 * (1 + (1 + 1 / 6 * z) * z) ^ 2 * (1 + z))) z 0) as G.
    cbv beta in G. replace (ln (1 + 0) - frac 0) with 0 in G by (unfold frac; rewrite Rplus_0_r, ln_1; field).
    cut (ln (1 + z) - frac z <= 0); [lra|]. apply G; [lra| |].
    + intros x Hx. apply diff_derive. lra.
    + intros x Hx. pose proof (q_pos x ltac:(lra)). assert (0 <= x ^ 4) by (replace (x ^ 4) with ((x * x) ^ 2) by ring; apply pow2_ge_0).
      apply Rdiv_le_0_compat; [assumption|]. apply Rmult_lt_0_compat; [|lra]. apply Rmult_lt_0_compat; [lra|]. apply pow_lt. lra.
  - pose proof (grows (fun z => frac z - ln (1 + z) + z ^ 5 / 26)
      (fun z => 5 * z ^ 4 / 26 - z ^ 4 / (36 * (1 + (1 + 1 / 6 * z) * z) ^ 2 * (1 + z))) z 0) as G.
    cbv beta in G. replace (frac 0 - ln (1 + 0) + 0 ^ 5 / 26) with 0 in G by (unfold frac; rewrite Rplus_0_r, ln_1; field).
    cut (frac z - ln (1 + z) + z ^ 5 / 26 <= 0); [intros; replace ((- z) ^ 5) with (- z ^ 5) by ring; lra|]. apply G; [lra| |].
    + intros x Hx. pose proof (q_pos x ltac:(lra)). unfold frac. auto_derive; [repeat split; lra|]. field. lra.
    + intros x Hx.
      assert (Hq : 13 / 24 <= 1 + (1 + 1 / 6 * x) * x) by nra. set (q := 1 + (1 + 1 / 6 * x) * x) in *.
      assert (H4 : 0 <= x ^ 4) by (replace (x ^ 4) with ((x * x) ^ 2) by ring; apply pow2_ge_0).
      assert (Hd : 26 / 5 <= 36 * q ^ 2 * (1 + x)).
      { assert (169 / 576 <= q ^ 2) by nra. assert (1 / 2 <= 1 + x) by lra. nra. }
      assert (/ (36 * q ^ 2 * (1 + x)) <= 5 / 26) by (replace (5 / 26) with (/ (26 / 5)) by field; apply Rinv_le_contravar; lra).
      unfold Rdiv. nra.
Qed.

(** ** Stirling's expansion, one step *)
Definition stir (n : R) (fact_n : R) : R := ln fact_n - (n + 1 / 2) * ln n + n - 1 / (12 * n).

Lemma atanh_derive u : 0 <= u <= 1 / 3 ->
  is_derive (fun u => u ^ 3 / (3 * (1 - u ^ 2)) + u - 1 / 2 * (ln (1 + u) - ln (1 - u))) u (2 * u ^ 4 / (3 * (1 - u ^ 2) ^ 2)).
Proof.
  intros H. auto_derive; [repeat split; nra|]. field. nra.
Qed.
Lemma atanh_bound u : 0 <= u <= 1 / 3 ->
  0 <= u ^ 3 / (3 * (1 - u ^ 2)) + u - 1 / 2 * (ln (1 + u) - ln (1 - u)) <= 8 / 45 * u ^ 5.
Proof.
  intros Hu. pose (f := fun u => u ^ 3 / (3 * (1 - u ^ 2)) + u - 1 / 2 * (ln (1 + u) - ln (1 - u))).
  assert (F0 : f 0 = 0) by (unfold f; replace (1 + 0) with 1 by ring; replace (1 - 0) with 1 by ring; rewrite ln_1; field).
  assert (Hd : forall x, 0 <= x <= u -> 0 <= 2 * x ^ 4 / (3 * (1 - x ^ 2) ^ 2) <= 8 / 9 * x ^ 4).
  { intros x Hx. assert (H4 : 0 <= x ^ 4) by (replace (x ^ 4) with ((x * x) ^ 2) by ring; apply pow2_ge_0).
    assert (Hw : 9 / 4 <= 3 * (1 - x ^ 2) ^ 2) by (assert (8 / 9 <= 1 - x ^ 2) by nra; nra).
    assert (Hi : / (3 * (1 - x ^ 2) ^ 2) <= 4 / 9) by (replace (4 / 9) with (/ (9 / 4)) by field; apply Rinv_le_contravar; lra).
    assert (0 < / (3 * (1 - x ^ 2) ^ 2)) by (apply Rinv_0_lt_compat; lra). unfold Rdiv. split; nra. }
  split.
  - change (0 <= f u). rewrite <- F0. eapply grows; [lra|intros x Hx; apply atanh_derive; lra|]. intros x Hx. apply Hd. exact Hx.
  - change (f u <= 8 / 45 * u ^ 5).
    pose proof (grows (fun x => 8 / 45 * x ^ 5 - f x) (fun x => 8 / 9 * x ^ 4 - 2 * x ^ 4 / (3 * (1 - x ^ 2) ^ 2)) 0 u) as G.
    cbv beta in G. rewrite F0 in G. cut (8 / 45 * 0 ^ 5 - 0 <= 8 / 45 * u ^ 5 - f u); [intros; lra|]. apply G; [lra| |].
    + intros x Hx. pose proof (atanh_derive x ltac:(lra)) as D. fold f in D.
      apply (is_derive_minus (fun x => 8 / 45 * x ^ 5) f); [|exact D]. auto_derive; [exact I|]. field.
    + intros x Hx. pose proof (Hd x Hx). lra.
Qed.
Lemma stir_step n F : 1 <= n -> 0 < F -> 0 <= stir (n + 1) ((n + 1) * F) - stir n F <= 1 / (90 * n ^ 4).
Proof.
  intros Hn HF. pose (u := / (2 * n + 1)).
  assert (Hu0 : 0 < u) by (apply Rinv_0_lt_compat; lra).
  assert (Hu : u <= 1 / 3) by (unfold u; replace (1 / 3) with (/ 3) by field; apply Rinv_le_contravar; lra).
  pose proof (atanh_bound u ltac:(lra)) as [Hl Hh].
  assert (E : stir (n + 1) ((n + 1) * F) - stir n F = (u ^ 3 / (3 * (1 - u ^ 2)) + u - 1 / 2 * (ln (1 + u) - ln (1 - u))) / u).
  { unfold stir. rewrite ln_mult by lra.
    replace (1 + u) with (2 * (n + 1) * u) by (unfold u; field; lra). replace (1 - u) with (2 * n * u) by (unfold u; field; lra).
    rewrite !ln_mult by nra.
    replace (u ^ 3 / (3 * (1 - u ^ 2))) with (u / (12 * n * (n + 1))) by (unfold u; field; repeat split; nra).
    generalize (ln 2) (ln (n + 1)) (ln n) (ln u) (ln F). intros. unfold u. field. repeat split; lra. }
  rewrite E. split; [apply Rdiv_le_0_compat; lra|].
  apply (Rmult_le_reg_r u); [lra|]. unfold Rdiv at 1. rewrite Rmult_assoc, Rinv_l by lra. rewrite Rmult_1_r. eapply Rle_trans; [exact Hh|].
  replace (8 / 45 * u ^ 5) with (8 / 45 * u ^ 4 * u) by ring. apply Rmult_le_compat_r; [lra|].
  replace (1 / (90 * n ^ 4)) with (8 / 45 * (/ (2 * n)) ^ 4) by (field; lra).
  apply Rmult_le_compat_l; [lra|]. apply pow_incr. split; [lra|]. unfold u. apply Rinv_le_contravar; lra.
Qed.
Lemma fact_pos n : 0 < INR (fact n).
Proof. apply lt_0_INR, lt_O_fact. Qed.
Lemma stir_steps m : (1 <= m)%nat -> forall k,
  0 <= stir (INR (m + k)) (INR (fact (m + k))) - stir (INR m) (INR (fact m)) <= INR k / (90 * INR m ^ 4).
Proof.
  intros Hm. assert (H1 : 1 <= INR m) by (apply (le_INR 1); exact Hm). induction k as [|k IH].
  - rewrite Nat.add_0_r. simpl INR. unfold Rdiv. rewrite Rmult_0_l. lra.
  - replace (m + S k)%nat with (S (m + k)) by lia. rewrite fact_simpl, mult_INR.
    pose proof (stir_step (INR (m + k)) (INR (fact (m + k)))) as St. rewrite (S_INR (m + k)). rewrite (S_INR k).
    assert (H2 : INR m <= INR (m + k)) by (apply le_INR; lia).
    specialize (St ltac:(lra) (fact_pos _)).
    assert (H3 : 1 / (90 * INR (m + k) ^ 4) <= 1 / (90 * INR m ^ 4)).
    { unfold Rdiv. rewrite !Rmult_1_l. apply Rinv_le_contravar; [apply Rmult_lt_0_compat; [lra|apply pow_lt; lra]|].
      apply Rmult_le_compat_l; [lra|]. apply pow_incr. lra. }
    replace ((INR k + 1) / (90 * INR m ^ 4)) with (INR k / (90 * INR m ^ 4) + 1 / (90 * INR m ^ 4)) by (unfold Rdiv; ring). lra.
Qed.

(** ** The laws *)
Definition binomial_law (n : nat) (p : R) (k : nat) : R := INR (choose n k) * p ^ k * (1 - p) ^ (n - k).
Definition poisson_law (mu : R) (k : nat) : R := exp (- mu) * mu ^ k / INR (fact k).

Lemma choose_fact n : forall k, (k <= n)%nat -> (choose n k * (fact k * fact (n - k)) = fact n)%nat.
Proof.
  induction n as [|n IH]; intros k Hk.
  - replace k with O by lia. reflexivity.
  - destruct k as [|k]; [simpl choose; rewrite Nat.sub_0_r; simpl (fact 0); lia|].
    simpl choose. replace (S n - S k)%nat with (n - k)%nat by lia.
    destruct (Nat.eq_dec k n) as [->|Hne].
    + rewrite (choose_over n (S n)) by lia. pose proof (IH n (le_n n)) as H. rewrite Nat.sub_diag in *. simpl (fact 0) in *. rewrite !fact_simpl. nia.
    + pose proof (IH k ltac:(lia)) as H1. pose proof (IH (S k) ltac:(lia)) as H2.
      replace (n - k)%nat with (S (n - S k)) in * by lia. rewrite !fact_simpl in *.
      remember (n - S k)%nat as d. assert (S n = S k + S d)%nat by lia.
      transitivity (S k * (choose n k * (fact k * (S d * fact d))) + S d * (choose n (S k) * (S k * fact k * fact d)))%nat; [ring|].
      rewrite H1, H2. nia.
Qed.
Lemma choose_real n k : (k <= n)%nat -> INR (choose n k) = INR (fact n) / (INR (fact k) * INR (fact (n - k))).
Proof.
  intros H. rewrite <- (choose_fact n k H), !mult_INR. field. split; apply INR_fact_neq_0.
Qed.
Lemma choose_pos n k : (k <= n)%nat -> 0 < INR (choose n k).
Proof.
  intros H. rewrite choose_real by exact H. apply Rdiv_lt_0_compat; [apply fact_pos|]. apply Rmult_lt_0_compat; apply fact_pos.
Qed.
Lemma ln_pow' x k : 0 < x -> ln (x ^ k) = INR k * ln x.
Proof.
  intros Hx. induction k as [|k IH]; [simpl; rewrite ln_1; ring|]. simpl pow. rewrite ln_mult, IH, S_INR by (try apply pow_lt; lra). ring.
Qed.
Lemma ln_ratio n p k : (k <= n)%nat -> (0 < n)%nat -> 0 < p < 1 ->
  ln (binomial_law n p k / poisson_law (INR n * p) k)
  = ln (INR (fact n)) - ln (INR (fact (n - k))) - INR k * ln (INR n) + INR (n - k) * ln (1 - p) + INR n * p.
Proof.
  intros Hk Hn Hp. assert (H0 : 0 < INR n) by (apply lt_0_INR; exact Hn).
  pose proof (fact_pos n). pose proof (fact_pos k). pose proof (fact_pos (n - k)).
  assert (0 < p ^ k) by (apply pow_lt; lra). assert (0 < (1 - p) ^ (n - k)) by (apply pow_lt; lra).
  assert (0 < INR n ^ k) by (apply pow_lt; lra). pose proof (exp_pos (- (INR n * p))).
  replace (binomial_law n p k / poisson_law (INR n * p) k)
    with (INR (fact n) * / INR (fact (n - k)) * / INR n ^ k * (1 - p) ^ (n - k) * / exp (- (INR n * p))).
  - assert (0 < / INR (fact (n - k))) by (apply Rinv_0_lt_compat; lra). assert (0 < / INR n ^ k) by (apply Rinv_0_lt_compat; lra).
    assert (0 < / exp (- (INR n * p))) by (apply Rinv_0_lt_compat; lra).
    rewrite !ln_mult by (repeat (assumption || apply Rmult_lt_0_compat)).
    rewrite !ln_Rinv by lra. rewrite ln_exp, !ln_pow' by lra. ring.
  - unfold binomial_law, poisson_law. rewrite choose_real by exact Hk. rewrite Rpow_mult_distr. field. repeat split; lra.
Qed.

(** ** The threshold of the Poisson method *)
Definition threshold (n : nat) (p : R) (k : nat) : R :=
  (INR (n - k) + 1 / 2) * frac (- INR k / INR n) + INR k - INR (n - k) * frac (- p) + 1 / (12 * INR (n - k)) - INR n * p + 26 / 1000.
Lemma accept_threshold n P k : (k <= n)%nat -> P <= 1 / 2 -> bin_accept (K := RNum) (INR n) P (INR k) = threshold n P k.
Proof.
  intros Hk HP. unfold bin_accept, bin_am. cbn zeta. rewrite p_low by exact HP. rewrite !pade_frac. unfold threshold, lit_half.
  rewrite minus_INR by exact Hk. cbn [fadd fsub fmul fdiv fneg ofZ RNum]. reflexivity.
Qed.
Lemma threshold_close n p k : (25 <= n)%nat -> (2 * k <= n)%nat -> 0 < p -> INR n * p < 1 ->
  let t0 := 26 / 1000 + 1 / (12 * INR n) - ln (binomial_law n p k / poisson_law (INR n * p) k) in
  - (INR (n - k) * p ^ 5 / 26) <= threshold n p k - t0
    <= (INR (n - k) + 1 / 2) * (INR k / INR n) ^ 5 / 26 + INR k / (90 * INR (n - k) ^ 4).
Proof.
  intros Hn Hk Hp Hm t0. assert (H25 : 25 <= INR n) by (replace 25 with (INR 25) by (rewrite INR_IZR_INZ; reflexivity); apply le_INR; exact Hn).
  assert (Hp1 : p < 1 / 25) by nra.
  pose (m := (n - k)%nat). assert (Enm : (m + k = n)%nat) by (unfold m; lia). assert (Hm1 : (1 <= m)%nat) by (unfold m; lia).
  assert (Em : INR n = INR m + INR k) by (rewrite <- plus_INR, Enm; reflexivity).
  assert (Hm2 : 1 <= INR m) by (apply (le_INR 1); exact Hm1). assert (Hk0 : 0 <= INR k) by apply pos_INR.
  assert (Hkm : INR k <= INR m) by (apply le_INR; unfold m; lia).
  pose proof (stir_steps m Hm1 k) as St. rewrite Enm in St. unfold stir in St.
  assert (Hz : - (1 / 2) <= - INR k / INR n <= 0).
  { assert (0 <= INR k / INR n) by (apply Rdiv_le_0_compat; lra).
    assert (INR k / INR n <= 1 / 2) by (apply (Rmult_le_reg_r (INR n)); [lra|]; unfold Rdiv at 1; rewrite Rmult_assoc, Rinv_l by lra; lra).
    unfold Rdiv in *. lra. }
  pose proof (frac_bound (- INR k / INR n) Hz) as F1. pose proof (frac_bound (- p) ltac:(lra)) as F2.
  replace (1 + - INR k / INR n) with (INR m / INR n) in F1 by (rewrite Em; field; lra).
  unfold Rdiv at 1 4 in F1. rewrite ln_mult, ln_Rinv in F1 by (try apply Rinv_0_lt_compat; lra).
  replace (- (- INR k / INR n)) with (INR k / INR n) in F1 by (field; lra).
  replace (1 + - p) with (1 - p) in F2 by ring. rewrite Ropp_involutive in F2.
  assert (Et : threshold n p k - t0 = (INR m + 1 / 2) * (frac (- INR k / INR n) - (ln (INR m) + - ln (INR n))) - INR m * (frac (- p) - ln (1 - p))
     + (ln (INR (fact n)) - (INR n + 1 / 2) * ln (INR n) + INR n - 1 / (12 * INR n)
        - (ln (INR (fact m)) - (INR m + 1 / 2) * ln (INR m) + INR m - 1 / (12 * INR m)))).
  { unfold t0. rewrite ln_ratio by (try lia; lra). unfold threshold. fold m.
    generalize (ln (INR n)) (ln (INR m)) (ln (INR (fact n))) (ln (INR (fact m))) (frac (- INR k / INR n)) (frac (- p)) (ln (1 - p)).
    intros. replace (INR k) with (INR n - INR m) by lra. lra. }
  fold m. rewrite Et. clear Et.
  set (A := frac (- INR k / INR n) - (ln (INR m) + - ln (INR n))) in *. set (B := frac (- p) - ln (1 - p)) in *.
  assert (HA : 0 <= A <= (INR k / INR n) ^ 5 / 26) by (unfold A; lra). assert (HB : 0 <= B <= p ^ 5 / 26) by (unfold B; lra).
  assert (0 <= (INR m + 1 / 2) * A <= (INR m + 1 / 2) * ((INR k / INR n) ^ 5 / 26)) by (split; nra).
  assert (0 <= INR m * B <= INR m * (p ^ 5 / 26)) by (split; nra).
  unfold Rdiv in *. lra.
Qed.

(** ** The threshold is positive: the acceptance probability is a probability *)
Lemma ln_low p : 0 <= p < 1 -> ln (1 - p) <= - p - p * p / 2.
Proof.
  intros Hp. pose proof (grows (fun x => - x - x * x / 2 - ln (1 - x)) (fun x => x * x / (1 - x)) 0 p) as G.
  cbv beta in G. replace (- 0 - 0 * 0 / 2 - ln (1 - 0)) with 0 in G by (rewrite Rminus_0_r, ln_1; field).
  cut (0 <= - p - p * p / 2 - ln (1 - p)); [lra|]. apply G; [lra| |].
  - intros x Hx. auto_derive; [lra|]. field. lra.
  - intros x Hx. apply Rdiv_le_0_compat; nra.
Qed.
Lemma falling_low n : (0 < n)%nat -> forall k, (k < n)%nat ->
  ln (INR (fact n)) - ln (INR (fact (n - k))) - INR k * ln (INR n) <= - (INR k * (INR k - 1) / (2 * INR n)).
Proof.
  intros Hn. assert (H0 : 0 < INR n) by (apply lt_0_INR; exact Hn). induction k as [|k IH]; intros Hk.
  - rewrite Nat.sub_0_r. simpl INR. unfold Rdiv. lra.
  - specialize (IH ltac:(lia)). replace (n - k)%nat with (S (n - S k)) in IH by lia.
    rewrite fact_simpl, mult_INR in IH. assert (Hm : 0 < INR (S (n - S k))) by (apply lt_0_INR; lia).
    rewrite ln_mult in IH by (try exact Hm; apply fact_pos).
    replace (S (n - S k)) with (n - k)%nat in * by lia. rewrite minus_INR in * by lia.
    assert (Hl : ln (INR n - INR k) - ln (INR n) <= - (INR k / INR n)).
    { pose proof (pos_INR k). assert (Hq : 0 <= INR k / INR n < 1).
      { split; [apply Rdiv_le_0_compat; lra|]. apply (Rmult_lt_reg_r (INR n)); [lra|]. unfold Rdiv. rewrite Rmult_assoc, Rinv_l by lra. lra. }
      pose proof (ln_low _ Hq) as L. replace (1 - INR k / INR n) with ((INR n - INR k) * / INR n) in L by (field; lra).
      rewrite ln_mult, ln_Rinv in L by (try apply Rinv_0_lt_compat; lra). nra. }
    rewrite S_INR in *. replace ((INR k + 1) * (INR k + 1 - 1) / (2 * INR n)) with (INR k * (INR k - 1) / (2 * INR n) + INR k / INR n) by (field; lra).
    lra.
Qed.
Lemma ratio_low n p k : (25 <= n)%nat -> (2 * k <= n)%nat -> 0 < p -> INR n * p < 1 ->
  ln (binomial_law n p k / poisson_law (INR n * p) k) <= 27 / 1250.
Proof.
  intros Hn Hk Hp Hm. assert (H25 : 25 <= INR n) by (replace 25 with (INR 25) by (rewrite INR_IZR_INZ; reflexivity); apply le_INR; exact Hn).
  assert (Hp1 : p < 1 / 25) by nra.
  rewrite ln_ratio by (try lia; lra). pose proof (falling_low n ltac:(lia) k ltac:(lia)) as F. pose proof (ln_low p ltac:(lra)) as L.
  assert (Hk0 : 0 <= INR k) by apply pos_INR. assert (Hkn : 2 * INR k <= INR n) by (replace 2 with (INR 2) by reflexivity; rewrite <- mult_INR; apply le_INR; exact Hk).
  rewrite (minus_INR n k) in * by lia.
  assert (B : ln (INR (fact n)) - ln (INR (fact (n - k))) - INR k * ln (INR n) + (INR n - INR k) * ln (1 - p) + INR n * p
    <= - (INR k * (INR k - 1) / (2 * INR n)) + INR k * p - (INR n - INR k) * (p * p / 2)) by nra.
  eapply Rle_trans; [exact B|]. clear B F L.
  set (N := INR n) in *. assert (Hi : / N <= / 25) by (apply Rinv_le_contravar; lra). assert (Hi0 : 0 < / N) by (apply Rinv_0_lt_compat; lra).
  assert (Hpi : p < / N) by (apply (Rmult_lt_reg_l N); [lra|]; rewrite Rinv_r by lra; lra).
  set (v := / N) in *. assert (Hv : N * v = 1) by (unfold v; apply Rinv_r; lra).
  replace (INR k * (INR k - 1) / (2 * N)) with (INR k * (INR k - 1) / 2 * v) by (unfold v; field; lra).
  destruct k as [|k]; [simpl INR in *; assert (0 <= (N - 0) * (p * p / 2)) by (apply Rmult_le_pos; nra); nra|].
  rewrite S_INR in *. assert (Hj : 0 <= INR k) by apply pos_INR. set (j := INR k) in *.
  assert (A : (j + 1) * p - (N - (j + 1)) * (p * p / 2) <= (j + 1) * v - (N - (j + 1)) * (v * v / 2)).
  { assert (0 <= (v - p) * ((j + 1) - (N - (j + 1)) * ((v + p) / 2))); [|nra].
    apply Rmult_le_pos; [lra|]. assert ((N - (j + 1)) * ((v + p) / 2) <= 1); [|lra].
    assert ((N - (j + 1)) * ((v + p) / 2) <= N * v); [|lra]. apply Rmult_le_compat; lra. }
  assert (C : (N - (j + 1)) * (v * v / 2) = v / 2 - (j + 1) * (v * v) / 2) by nra.
  destruct k as [|[|k]].
  - unfold j in *. simpl INR in *. nra.
  - unfold j in *. simpl INR in *. nra.
  - assert (2 <= j) by (unfold j; apply (le_INR 2); lia). assert ((j + 1) * v <= 1 / 2) by nra.
    assert (- ((j + 1) * (j + 1 - 1) / 2 * v) + (j + 1) * v <= 0) by nra. nra.
Qed.
Lemma threshold_pos n p k : (25 <= n)%nat -> (2 * k <= n)%nat -> 0 < p -> INR n * p < 1 -> 1 / 250 <= threshold n p k.
Proof.
  intros Hn Hk Hp Hm. pose proof (threshold_close n p k Hn Hk Hp Hm) as [T _]. cbv zeta in T.
  pose proof (ratio_low n p k Hn Hk Hp Hm) as B.
  assert (H25 : 25 <= INR n) by (replace 25 with (INR 25) by (rewrite INR_IZR_INZ; reflexivity); apply le_INR; exact Hn).
  assert (Hp1 : p < 1 / 25) by nra.
  assert (0 < 1 / (12 * INR n)) by (apply Rdiv_lt_0_compat; lra).
  assert (INR (n - k) * p ^ 5 <= 1 / 625).
  { assert (INR (n - k) * p <= 1) by (rewrite minus_INR by lia; pose proof (pos_INR k); nra).
    assert (0 <= p ^ 4 <= 1 / 625). { assert (0 <= p * p <= 1 / 25) by (split; nra). replace (p ^ 4) with ((p * p) * (p * p)) by ring. split; nra. }
    assert (0 <= INR (n - k)) by apply pos_INR. replace (INR (n - k) * p ^ 5) with (INR (n - k) * p * p ^ 4) by ring. nra. }
  lra.
Qed.

(** ** One attempt of the Poisson method *)
Fixpoint waited (E : nat -> R) (e k : nat) : R := match k with O => 0 | S k' => waited E e k' + E (e + k')%nat end.
Lemma arrivals_at (E : nat -> R) N P k : forall j fuel, (k - j < fuel)%nat -> (j <= k)%nat ->
  forall e, (forall i, (j <= i)%nat -> (i < k)%nat -> waited E e (S i) < bin_am (K := RNum) N P) -> bin_am (K := RNum) N P <= waited E e (S k) ->
  bin_arrivals (K := RNum) E N P fuel (waited E e j) (INR j) (e + j) = (INR k, (e + k + 1)%nat).
Proof.
  intros j fuel. revert j. induction fuel as [|f IH]; intros j Hf Hj e Hb Ha; [lia|]. cbn [bin_arrivals].
  change (fadd (n := RNum) (waited E e j) (E (e + j)%nat)) with (waited E e (S j)).
  destruct (Nat.eq_dec j k) as [->|Hne].
  - replace (fle (n := RNum) (bin_am (K := RNum) N P) (waited E e (S k))) with true by (symmetry; apply r_leb_true; exact Ha).
    f_equal. lia.
  - replace (fle (n := RNum) (bin_am (K := RNum) N P) (waited E e (S j))) with false by (symmetry; apply r_leb_false; apply Hb; lia).
    change (fadd (n := RNum) (INR j) f1) with (INR j + 1). rewrite <- S_INR. replace (S (e + j)) with (e + S j)%nat by lia.
    apply IH; [lia|lia| |exact Ha]. intros i Hi. apply Hb. lia.
Qed.
Lemma waited_mono E e : (forall i, 0 <= E i) -> forall j k, (j <= k)%nat -> waited E e j <= waited E e k.
Proof. intros HE j k H. induction H as [|k H IH]; [lra|]. simpl. specialize (HE (e + k)%nat). lra. Qed.

Lemma poisson_attempt lib (U E : nat -> R) n P k f u e : (25 <= n)%nat -> (k < n)%nat -> P <= 1 / 2 -> INR n * P < 1 ->
  (forall i, 0 <= E i) -> waited E e k < INR n * P <= waited E e (S k) ->
  bin_Rand (K := RNum) lib U E (INR n) P (S f) (MkDraws u e)
  = if Rle_dec (threshold n P k) (E (e + k + 1)%nat) then Some (INR k, MkDraws u (e + k + 2))
    else bin_Rand (K := RNum) lib U E (INR n) P f (MkDraws u (e + k + 2)).
Proof.
  intros Hn Hk HP Hm HE Hw.
  assert (Ha : bin_am (K := RNum) (INR n) P = INR n * P) by (unfold bin_am; rewrite p_low by exact HP; reflexivity).
  unfold bin_Rand. rewrite many by exact Hn. rewrite Ha.
  replace (flt (n := RNum) (INR n * P) f1) with true by (symmetry; apply r_ltb_true; exact Hm).
  cbn [d_exp d_uni]. rewrite poisson_S, count_N.
  pose proof (arrivals_at E (INR n) P k 0 n ltac:(lia) ltac:(lia) e) as A. rewrite Ha, Nat.add_0_r in A.
  change (waited E e 0) with (f0 (K := RNum)) in A. change (INR 0) with (f0 (K := RNum)) in A.
  rewrite A; [|intros i _ Hi; pose proof (waited_mono E e HE (S i) k Hi); lra|lra].
  rewrite accept_threshold by (try lia; exact HP). replace (S (e + k + 1)) with (e + k + 2)%nat by lia.
  cbn [fle RNum]. unfold r_leb. destruct (Rle_dec (threshold n P k) (E (e + k + 1)%nat)).
  - rewrite out_low by exact HP. reflexivity.
  - reflexivity.
Qed.

(** Both together, without mentioning the formula of the code. *)
Lemma poisson_accepts n P k : (25 <= n)%nat -> (2 * k <= n)%nat -> 0 < P -> INR n * P < 1 ->
  exists t, 1 / 250 <= t /\
    - (INR (n - k) * P ^ 5 / 26)
      <= t - (26 / 1000 + 1 / (12 * INR n) - ln (binomial_law n P k / poisson_law (INR n * P) k))
      <= (INR (n - k) + 1 / 2) * (INR k / INR n) ^ 5 / 26 + INR k / (90 * INR (n - k) ^ 4) /\
    forall lib (U E : nat -> R) f u e, (forall i, 0 <= E i) -> waited E e k < INR n * P <= waited E e (S k) ->
      bin_Rand (K := RNum) lib U E (INR n) P (S f) (MkDraws u e)
      = if Rle_dec t (E (e + k + 1)%nat) then Some (INR k, MkDraws u (e + k + 2))
        else bin_Rand (K := RNum) lib U E (INR n) P f (MkDraws u (e + k + 2)).
Proof.
  intros Hn Hk Hp Hm. exists (threshold n P k). split; [apply threshold_pos; assumption|]. split; [apply threshold_close; assumption|].
  intros. assert (H25 : 25 <= INR n) by (replace 25 with (INR 25) by (rewrite INR_IZR_INZ; reflexivity); apply le_INR; exact Hn).
  apply poisson_attempt; try assumption; [lia|nra].
Qed.

(** ** One attempt of the Cauchy method *)
Definition real_lib (lib : binlib RNum) : Prop :=
  (forall k, b_lgamma lib (INR k + 1) = ln (INR (fact k))) /\ (forall x, b_log1p lib x = ln (1 + x)) /\ is_floor (b_floor lib).

Lemma ratio_law lib n P y k : real_lib lib -> (k <= n)%nat -> 0 < P <= 1 / 2 ->
  bin_ratio (K := RNum) lib (INR n) P y (INR k) = 12 / 10 * sqrt (2 * (INR n * P) * (1 - P)) * (1 + y * y) * binomial_law n P k.
Proof.
  intros (Hg & Hl & _) Hk HP. unfold bin_ratio, bin_sq, bin_am. cbn zeta. rewrite p_low by lra.
  cbn [fadd fsub fmul fdiv fneg fexp flog fsqrt ofZ RNum f1]. change (f1 (K := RNum)) with 1.
  rewrite <- minus_INR by exact Hk. rewrite !Hg, Hl. f_equal. unfold binomial_law.
  assert (0 < P ^ k) by (apply pow_lt; lra). assert (0 < (1 - P) ^ (n - k)) by (apply pow_lt; lra).
  pose proof (choose_pos n k Hk) as Hc. replace (1 + - P) with (1 - P) by ring.
  rewrite <- !ln_pow' by lra.
  replace (ln (INR (fact n)) - ln (INR (fact k)) - ln (INR (fact (n - k)))) with (ln (INR (choose n k))).
  2:{ rewrite choose_real by exact Hk. pose proof (fact_pos k). pose proof (fact_pos (n - k)). pose proof (fact_pos n).
      unfold Rdiv. rewrite ln_mult, ln_Rinv, ln_mult by (try apply Rinv_0_lt_compat; try apply Rmult_lt_0_compat; assumption). ring. }
  rewrite <- !ln_mult by (repeat (assumption || apply Rmult_lt_0_compat)). apply exp_ln. repeat (assumption || apply Rmult_lt_0_compat).
Qed.
Lemma floor_at f x k : is_floor f -> INR k <= x < INR k + 1 -> f x = INR k.
Proof.
  intros Hf Hx. destruct (Hf x) as (z & -> & Hz). rewrite INR_IZR_INZ in *. f_equal.
  assert (IZR z < IZR (Z.of_nat k + 1)) by (rewrite plus_IZR; lra). assert (IZR (Z.of_nat k) < IZR (z + 1)) by (rewrite plus_IZR; lra).
  apply lt_IZR in H. apply lt_IZR in H0. lia.
Qed.
Lemma cauchy_accepts lib (U E : nat -> R) n P k f u e : real_lib lib -> (25 <= n)%nat -> (k <= n)%nat -> 0 < P <= 1 / 2 -> 1 <= INR n * P ->
  let y := b_tan lib (b_pi lib * U u) in let sq := sqrt (2 * (INR n * P) * (1 - P)) in
  INR k <= sq * y + INR n * P < INR k + 1 ->
  bin_Rand (K := RNum) lib U E (INR n) P (S f) (MkDraws u e)
  = if Rle_dec (U (S u)) (12 / 10 * sq * (1 + y * y) * binomial_law n P k) then Some (INR k, MkDraws (u + 2) e)
    else bin_Rand (K := RNum) lib U E (INR n) P f (MkDraws (u + 2) e).
Proof.
  intros Hlib Hn Hk HP Hm y sq He.
  assert (Ha : bin_am (K := RNum) (INR n) P = INR n * P) by (unfold bin_am; rewrite p_low by lra; reflexivity).
  assert (Hs : bin_sq (K := RNum) (INR n) P = sq) by (unfold bin_sq; rewrite Ha, p_low by lra; reflexivity).
  unfold bin_Rand. rewrite many by exact Hn. rewrite Ha.
  replace (flt (n := RNum) (INR n * P) f1) with false by (symmetry; apply r_ltb_false; exact Hm).
  cbn [d_exp d_uni]. rewrite cauchy_S, propose_S. cbn zeta. rewrite Ha, Hs.
  change (b_tan lib (fmul (n := RNum) (b_pi lib) (U u))) with y.
  change (fadd (n := RNum) (fmul (n := RNum) sq y) (INR n * P)) with (sq * y + INR n * P).
  assert (Hkn : INR k <= INR n) by (apply le_INR; exact Hk). pose proof (pos_INR k) as Hk0.
  replace (fle (n := RNum) f0 (sq * y + INR n * P)) with true by (symmetry; apply r_leb_true; change (0 <= sq * y + INR n * P); lra).
  replace (flt (n := RNum) (sq * y + INR n * P) (fadd (n := RNum) (INR n) f1)) with true
    by (symmetry; apply r_ltb_true; change (sq * y + INR n * P < INR n + 1); lra).
  cbn [andb].
  match goal with |- context [b_floor lib ?x] => replace (b_floor lib x) with (INR k) by (symmetry; exact (floor_at (b_floor lib) _ k (proj2 (proj2 Hlib)) He)) end.
  rewrite ratio_law by assumption. fold sq. replace (u + 2)%nat with (S (S u)) by lia. cbn [fle RNum]. unfold r_leb.
  destruct (Rle_dec (U (S u)) (12 / 10 * sq * (1 + y * y) * binomial_law n P k)).
  - rewrite out_low by lra. reflexivity.
  - reflexivity.
Qed.
(** A proposal outside 0..n is drawn again. *)
Lemma cauchy_again lib (U E : nat -> R) n P f u e r : (25 <= n)%nat -> 0 < P <= 1 / 2 -> 1 <= INR n * P ->
  let em := sqrt (2 * (INR n * P) * (1 - P)) * b_tan lib (b_pi lib * U u) + INR n * P in em < 0 \/ INR n + 1 <= em ->
  bin_Rand (K := RNum) lib U E (INR n) P f (MkDraws (S u) e) = Some r -> bin_Rand (K := RNum) lib U E (INR n) P (S f) (MkDraws u e) = Some r.
Proof.
  intros Hn HP Hm em He.
  assert (Ha : bin_am (K := RNum) (INR n) P = INR n * P) by (unfold bin_am; rewrite p_low by lra; reflexivity).
  assert (Hs : bin_sq (K := RNum) (INR n) P = sqrt (2 * (INR n * P) * (1 - P))) by (unfold bin_sq; rewrite Ha, p_low by lra; reflexivity).
  unfold bin_Rand. rewrite many by exact Hn. rewrite Ha.
  replace (flt (n := RNum) (INR n * P) f1) with false by (symmetry; apply r_ltb_false; exact Hm).
  cbn [d_exp d_uni]. destruct (bin_cauchy lib U (INR n : RNum) P f (S u)) as [[x u']|] eqn:Ec; [|discriminate]. intros Hr.
  enough (bin_cauchy lib U (INR n : RNum) P (S f) u = Some (x, u')) as -> by exact Hr.
  destruct f as [|f]; [discriminate|]. rewrite cauchy_S in Ec. rewrite cauchy_S, propose_S. cbn zeta. rewrite Ha, Hs.
  change (fadd (n := RNum) (fmul (n := RNum) (sqrt (2 * (INR n * P) * (1 - P))) (b_tan lib (fmul (n := RNum) (b_pi lib) (U u)))) (INR n * P)) with em.
  replace (fle (n := RNum) f0 em && flt (n := RNum) em (fadd (n := RNum) (INR n) f1)) with false.
  2:{ symmetry. apply andb_false_iff. destruct He as [He|He]; [left; apply r_leb_false; exact He|right; apply r_ltb_false; exact He]. }
  destruct (bin_propose lib U (INR n : RNum) P (S f) (S u)) as [[[y em1] u1]|]; [|discriminate]. cbn zeta in *.
  match goal with |- context [if ?b then _ else _] => destruct b end; [exact Ec|]. eapply cauchy_fuel; [|exact Ec]. lia.
Qed.
