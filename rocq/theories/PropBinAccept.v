(** * PropBinAccept: the acceptance steps of the binomial sampler (C127). *)
From Coq Require Import ZArith List Bool Arith Lia Reals.
From Flocq Require Import IEEE754.BinarySingleNaN IEEE754.Binary IEEE754.Bits.
From Verif Require Import Num NumR NumB64 Heap Network Binomial BinomialProofs BinomialEx BinAccept BinAcceptEx.
Import ListNotations.
Local Open Scope R_scope.

(** C127: 25 or more trials with N P below 1.  An attempt proposes k if the k-th exponential waiting time is the last one to end before N P (the
    Poisson law with that mean), and accepts it if one further exponential number reaches t.  Here t is positive, so that exp(-t) is a probability,
    and -t is the logarithm of binomial over Poisson probability up to a constant and the error given, for every k up to N/2.  Otherwise the next
    attempt starts afresh. *)
Theorem C127_poisson n P k : (25 <= n)%nat -> (2 * k <= n)%nat -> 0 < P -> INR n * P < 1 ->
  exists t, 1 / 250 <= t /\
    - (INR (n - k) * P ^ 5 / 26)
      <= t - (26 / 1000 + 1 / (12 * INR n) - ln (binomial_law n P k / poisson_law (INR n * P) k))
      <= (INR (n - k) + 1 / 2) * (INR k / INR n) ^ 5 / 26 + INR k / (90 * INR (n - k) ^ 4) /\
    forall lib (U E : nat -> R) f u e, (forall i, 0 <= E i) -> waited E e k < INR n * P <= waited E e (S k) ->
      bin_Rand (K := RNum) lib U E (INR n) P (S f) (MkDraws u e)
      = if Rle_dec t (E (e + k + 1)%nat) then Some (INR k, MkDraws u (e + k + 2))
        else bin_Rand (K := RNum) lib U E (INR n) P f (MkDraws u (e + k + 2)).
Proof. exact (poisson_accepts n P k). Qed.
(** The fraction used for log(1 + z) is never below it and within (-z)^5 / 26 above it. *)
Theorem C127_log z : - (1 / 2) <= z <= 0 -> ln (1 + z) <= bin_pade (K := RNum) z <= ln (1 + z) + (- z) ^ 5 / 26.
Proof. exact (frac_bound z). Qed.
(** With N P at least 1, an attempt whose Cauchy variable y lands in [k, k+1) returns k if the next uniform number is at most
    1.2 sq (1 + y^2) times the binomial probability of k, where sq (1 + y^2) is what the density of the proposal is divided by. *)
Theorem C127_cauchy lib (U E : nat -> R) n P k f u e : real_lib lib -> (25 <= n)%nat -> (k <= n)%nat -> 0 < P <= 1 / 2 -> 1 <= INR n * P ->
  let y := b_tan lib (b_pi lib * U u) in let sq := sqrt (2 * (INR n * P) * (1 - P)) in
  INR k <= sq * y + INR n * P < INR k + 1 ->
  bin_Rand (K := RNum) lib U E (INR n) P (S f) (MkDraws u e)
  = if Rle_dec (U (S u)) (12 / 10 * sq * (1 + y * y) * binomial_law n P k) then Some (INR k, MkDraws (u + 2) e)
    else bin_Rand (K := RNum) lib U E (INR n) P f (MkDraws (u + 2) e).
Proof. exact (cauchy_accepts lib U E n P k f u e). Qed.
(** A proposal outside 0..N costs one uniform number and is drawn again. *)
Theorem C127_cauchy_again lib (U E : nat -> R) n P f u e r : (25 <= n)%nat -> 0 < P <= 1 / 2 -> 1 <= INR n * P ->
  let em := sqrt (2 * (INR n * P) * (1 - P)) * b_tan lib (b_pi lib * U u) + INR n * P in em < 0 \/ INR n + 1 <= em ->
  bin_Rand (K := RNum) lib U E (INR n) P f (MkDraws (S u) e) = Some r -> bin_Rand (K := RNum) lib U E (INR n) P (S f) (MkDraws u e) = Some r.
Proof. exact (cauchy_again lib U E n P f u e r). Qed.
(** It is false that every number of successes can be returned: in float64, 25 out of 25 with P = 0.01 is rejected whatever the random numbers
    (the threshold divides by the number of failures). *)
Theorem C127_every_value_refuted : exists N P : binary64, b64_lt (b64_ofZ 0) P = true /\ b64_lt P (b64_ofZ 1) = true /\
  forall (L : libm) (lib : binlib (B64 L)) U (E : nat -> B64 L) fuel d d', (forall i, is_finite 53 1024 (E i) = true) ->
    bin_Rand lib U E (N : B64 L) (P : B64 L) fuel d <> Some (N : B64 L, d').
Proof. exact Rand_not_all. Qed.
Print Assumptions C127_poisson.
Print Assumptions C127_log.
Print Assumptions C127_cauchy.
Print Assumptions C127_cauchy_again.
Print Assumptions C127_every_value_refuted.
Example C127_ex : (forall i, 0 <= be_E2 i) /\ waited be_E2 0 1 < INR 30 * (1 / 60) <= waited be_E2 0 2 /\
  real_lib ba_lib /\ 1 <= INR 100 * (1 / 2) /\
  INR 50 <= sqrt (2 * (INR 100 * (1 / 2)) * (1 - 1 / 2)) * b_tan ba_lib (b_pi ba_lib * 0) + INR 100 * (1 / 2) < INR 50 + 1.
Proof. exact ba_ex. Qed.
