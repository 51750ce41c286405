(** * PropBinomial: the binomial sampler (C85). *)
From Coq Require Import ZArith List Bool Arith Lia Reals.
From Flocq Require Import IEEE754.BinarySingleNaN IEEE754.Binary IEEE754.Bits.
From Verif Require Import Num NumR NumB64 Heap Network Binomial BinomialProofs CodecEx BinomialEx.
Import ListNotations.

(** C85: with fewer than 25 trials Rand reads exactly one uniform number per trial and returns the number of successes: the draws below P if
    P is at most 1/2, else the draws not below 1 - P. *)
Theorem C85_direct lib (U E : nat -> R) n P fuel u e : (n < 25)%nat ->
  bin_Rand (K := RNum) lib U E (INR n) P fuel (MkDraws u e) = Some (INR (successes P (map U (seq u n))), MkDraws (u + n) e).
Proof. exact (Rand_direct lib U E n P fuel u e). Qed.
(** It has exactly the binomial distribution: if the uniform numbers range over the multiples of 1/m and P is k/m, then of the m^n equally likely
    sequences of draws exactly C(n,j) k^j (m-k)^(n-j) return j. *)
Theorem C85_law lib (E : nat -> R) m n k j fuel : (0 < m)%nat -> (k <= m)%nat -> (n < 25)%nat -> (j <= n)%nat ->
  exists ws, NoDup ws /\
    (forall w, In w ws <-> length w = n /\ List.Forall (fun a => (a < m)%nat) w /\
       exists d, bin_Rand (K := RNum) lib (grid m w) E (INR n) (INR k / INR m)%R fuel (MkDraws 0 0) = Some (INR j, d)) /\
    length ws = (choose n j * k ^ j * (m - k) ^ (n - j))%nat.
Proof. exact (Rand_law lib E m n k j fuel). Qed.
(** Whatever the method, the probability and the random numbers, a result is a whole number between 0 and n. *)
Theorem C85_range lib (U E : nat -> R) n P fuel d x d' : is_floor (b_floor lib) ->
  bin_Rand (K := RNum) lib U E (INR n) P fuel d = Some (x, d') -> exists j, (j <= n)%nat /\ x = INR j.
Proof. exact (Rand_range lib U E n P fuel d x d'). Qed.
(** With P = 0 the result is 0, with P = 1 it is n. *)
Theorem C85_certain lib (U E : nat -> R) n P fuel d x d' : (0 < n)%nat ->
  (forall i, (0 <= U i)%R) -> (forall i, (0 <= E i)%R) -> P = 0%R \/ P = 1%R ->
  bin_Rand (K := RNum) lib U E (INR n) P fuel d = Some (x, d') -> x = (INR n * P)%R.
Proof. exact (Rand_certain lib U E n P fuel d x d'). Qed.
(** Exchanging P and 1 - P exchanges successes and failures, draw for draw. *)
Theorem C85_mirror lib (U E : nat -> R) N P fuel d : (P < 1 / 2)%R ->
  bin_Rand (K := RNum) lib U E N (1 - P)%R fuel d
  = match bin_Rand (K := RNum) lib U E N P fuel d with Some (x, d') => Some ((N - x)%R, d') | None => None end.
Proof. exact (Rand_mirror lib U E N P fuel d). Qed.
(** The result does not depend on how long one is prepared to wait for the rejection loops. *)
Theorem C85_fuel {K : Num} (lib : binlib K) U E N P f f' d r : (f <= f')%nat ->
  bin_Rand lib U E N P f d = Some r -> bin_Rand lib U E N P f' d = Some r.
Proof. exact (Rand_fuel lib U E N P f f' d r). Qed.
(** The call the dropout layer makes (one trial) is the one-draw function used in the model of the layers. *)
Theorem C85_one {K : Num} (lib : binlib K) E (P : K) fuel e (s : state K) :
  flt (n := K) f1 (ofZ 25) = true -> toZ (n := K) f1 = 1%Z ->
  exists x, bin_Rand lib (r_uni (h_rng s)) E f1 P fuel (MkDraws (r_upos (h_rng s)) e)
            = Some (x, MkDraws (S (r_upos (h_rng s))) e)
    /\ fst (binomial1_Rand P s) = Ret x /\ r_upos (h_rng (snd (binomial1_Rand P s))) = S (r_upos (h_rng s)).
Proof. exact (Rand_one lib E P fuel e s). Qed.
(** With a NaN probability and 25 or more trials Rand loops for ever, whatever the random numbers. *)
Theorem C85_nan (L : libm) (lib : binlib (B64 L)) U E (N P : B64 L) fuel d : b64_nan P = true -> b64_lt N (b64_ofZ 25) = false ->
  bin_Rand lib U E N P fuel d = None.
Proof. exact (Rand_nan L lib U E N P fuel d). Qed.
(** So it is false that Rand always returns, even if the random numbers are favourable. *)
Theorem C85_terminates_refuted : exists N P : binary64, forall (L : libm) (lib : binlib (B64 L)) U E fuel d,
  bin_Rand lib U E (N : B64 L) (P : B64 L) fuel d = None.
Proof. exact Rand_loops. Qed.
Print Assumptions C85_direct.
Print Assumptions C85_law.
Print Assumptions C85_range.
Print Assumptions C85_certain.
Print Assumptions C85_mirror.
Print Assumptions C85_fuel.
Print Assumptions C85_one.
Print Assumptions C85_nan.
Print Assumptions C85_terminates_refuted.
Example C85_direct_ex : bin_Rand (K := RNum) be_lib be_U be_E (INR 3) (1 / 2)%R 0 (MkDraws 0 0) = Some (INR 2, MkDraws 3 0) /\
  bin_Rand (K := RNum) be_lib be_U be_E (INR 3) (4 / 5)%R 0 (MkDraws 0 0) = Some (INR 2, MkDraws 3 0).
Proof. exact (conj be_direct_low be_direct_high). Qed.
Example C85_law_ex : choose 4 2 = 6%nat /\ (choose 4 2 * 3 ^ 2 * (5 - 3) ^ (4 - 2) = 216)%nat /\ length (tuples 5 4) = 625%nat.
Proof. repeat split. Qed.
Example C85_range_ex : is_floor (b_floor be_lib) /\
  bin_Rand (K := RNum) be_lib be_U be_E2 (INR 30) (1 / 60)%R 1 (MkDraws 0 0) = Some (INR 1, MkDraws 0 3) /\
  bin_Rand (K := RNum) be_lib (fun _ => 0%R) be_E (INR 100) (3 / 4)%R 1 (MkDraws 0 0) = Some ((INR 100 * (3 / 4))%R, MkDraws 2 0).
Proof. exact (conj be_floor (conj be_poisson (be_cauchy (3 / 4) (or_intror eq_refl)))). Qed.
Example C85_nan_ex (L : libm) (lib : binlib (B64 L)) E fuel :
  match bin_Rand lib (fun _ => bhalf : B64 L) E (bz 3 : B64 L) (bnanp : B64 L) fuel (MkDraws 0 0) with
  | Some (x, d) => b64_eq x (bz 3) = true /\ d = MkDraws 3 0 | None => False end.
Proof. exact (nan_direct L lib E fuel). Qed.
