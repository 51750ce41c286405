(** * Properties C16-C19: activation.go and Matrix.Clip. *)
From Coq Require Import String ZArith List Bool Arith Lia Reals Lra QArith.
From Coquelicot Require Import Coquelicot.
From Verif Require Import Num NumR NumB64 NumQ Heap Spec PureSpec Repr Matrix Activation Misc Accuracy
  HeapLemmas LoopLemmas MatrixProofs ActivationProofs MiscProofs MatrixFacts B64Facts MiscFacts ActFacts RSum Ex.
Import ListNotations.
Open Scope Z_scope.
Open Scope go_scope.

(** ** C16 *)
Theorem C16_relu (K : Num) (s : state K) m rs r c A : own s m rs r c A -> NoDup rs ->
  returns (RELU m) s (inplace_result s m rs r c (mk r c (fun i j => fmax (entry A i j) f0))).
Proof. exact (fun H1 H2 => returns_wp _ _ _ (wp_RELU s m rs r c A H1 H2)). Qed.
Theorem C16_relu_real (s : state RNum) m rs r c (A : rpm) : own s m rs r c A -> NoDup rs ->
  returns (RELU m) s (fun m' s' => exists B, inplace_result s m rs r c B m' s' /\
    forall i j, (i < r)%nat -> (j < c)%nat ->
      (0 <= entry B i j)%R /\ ((0 <= entry A i j)%R -> entry B i j = entry A i j) /\ ((entry A i j <= 0)%R -> entry B i j = 0%R)).
Proof. exact (relu_real s m rs r c A). Qed.
Theorem C16_relu_binary64 (L : libm) (s : state (B64 L)) m rs r c (A : pm (B64 L)) : own s m rs r c A -> NoDup rs ->
  returns (RELU m) s (fun m' s' => exists B, inplace_result s m rs r c B m' s' /\
    forall i j, (i < r)%nat -> (j < c)%nat ->
      flt (entry B i j) f0 = false /\
      (b64_nan (entry A i j) = false -> flt f0 (entry A i j) = true -> entry B i j = entry A i j) /\
      (b64_nan (entry A i j) = false -> flt f0 (entry A i j) = false -> feq (entry B i j) f0 = true)).
Proof. exact (relu_binary64 L s m rs r c A). Qed.
(** Applying it twice is applying it once, bit for bit. *)
Theorem C16_relu_idempotent_real (s : state RNum) m rs r c (A : rpm) : own s m rs r c A -> NoDup rs ->
  returns (m' <- RELU m ;; RELU m') s (inplace_result s m rs r c (mk r c (fun i j => fmax (entry A i j) f0))).
Proof. exact (relu_twice RNum R_relu_idem s m rs r c A). Qed.
Theorem C16_relu_idempotent_binary64 (L : libm) (s : state (B64 L)) m rs r c (A : pm (B64 L)) : own s m rs r c A -> NoDup rs ->
  returns (m' <- RELU m ;; RELU m') s (inplace_result s m rs r c (mk r c (fun i j => fmax (entry A i j) f0))).
Proof. exact (relu_twice (B64 L) (b64_relu_idem L) s m rs r c A). Qed.
Theorem C16_leaky_relu (K : Num) (s : state K) m rs r c A slope : own s m rs r c A -> NoDup rs ->
  returns (LeakyRELU m slope) s (inplace_result s m rs r c
    (mk r c (fun i j => if flt (entry A i j) f0 then fmul (entry A i j) slope else entry A i j))).
Proof. exact (fun H1 H2 => returns_wp _ _ _ (wp_LeakyRELU s m rs r c A slope H1 H2)). Qed.
Print Assumptions C16_relu.
Print Assumptions C16_relu_real.
Print Assumptions C16_relu_binary64.
Print Assumptions C16_relu_idempotent_real.
Print Assumptions C16_relu_idempotent_binary64.
Print Assumptions C16_leaky_relu.
Example C16_ex : own exs mX [10;11]%nat 2 2 pX /\ NoDup [10;11]%nat /\
  (exists s', RELU mX exs = (Ret mX, s') /\ row_at s' 10 = Some [q 0; q 2] /\ row_at s' 11 = Some [q 4; q 0]) /\
  (exists s', LeakyRELU mX (1#10)%Q exs = (Ret mX, s') /\ row_at s' 10 = Some [(-3#10)%Q; q 2] /\ row_at s' 11 = Some [q 4; (-1#2)%Q]).
Proof. split; [exact own_mX|]. split; [nodup_tac|]. split; eexists; repeat split; reflexivity. Qed.

(** ** C17 *)
Theorem C17_sigmoid (K : Num) (s : state K) m rs r c A : own s m rs r c A -> NoDup rs ->
  returns (Sigmoid m) s (inplace_result s m rs r c
    (mk r c (fun i j => fdiv f1 (fadd f1 (fexp (fneg (entry A i j))))))).
Proof. exact (fun H1 H2 => returns_wp _ _ _ (wp_Sigmoid s m rs r c A H1 H2)). Qed.
Theorem C17_sigmoid_real (s : state RNum) m rs r c (A : rpm) : own s m rs r c A -> NoDup rs ->
  returns (Sigmoid m) s (fun m' s' => exists B, inplace_result s m rs r c B m' s' /\
    (forall i j, (i < r)%nat -> (j < c)%nat ->
      entry B i j = (1 / (1 + exp (- entry A i j)))%R /\ (0 < entry B i j < 1)%R) /\
    (forall i j i' j', (i < r)%nat -> (j < c)%nat -> (i' < r)%nat -> (j' < c)%nat ->
      (entry A i j < entry A i' j')%R -> (entry B i j < entry B i' j')%R)).
Proof. exact (sigmoid_real s m rs r c A). Qed.
(** SigmoidPrime(m, dValues): dValues times the derivative of the sigmoid at m. *)
Theorem C17_sigmoid_prime_real (s : state RNum) m rs x rsx r c (A D : rpm) :
  own s m rs r c A -> own s x rsx r c D -> NoDup rs -> disjoint rsx rs ->
  returns (SigmoidPrime m x) s (fun m' s' => exists B (d : nat -> nat -> R), inplace_result s m rs r c B m' s' /\
    forall i j, (i < r)%nat -> (j < c)%nat ->
      is_derive (fun t => 1 / (1 + exp (- t)))%R (entry A i j) (d i j) /\ entry B i j = (entry D i j * d i j)%R).
Proof. exact (sigmoid_prime_real s m rs x rsx r c A D). Qed.
Print Assumptions C17_sigmoid.
Print Assumptions C17_sigmoid_real.
Print Assumptions C17_sigmoid_prime_real.
Example C17_ex : own exs mX [10;11]%nat 2 2 pX /\ own exs mA [1;2]%nat 2 2 pA /\ NoDup [10;11]%nat /\ disjoint [1;2]%nat [10;11]%nat /\
  exists s', SigmoidPrime mX mA exs = (Ret mX, s').
Proof. split; [exact own_mX|]. split; [exact own_mA|]. split; [nodup_tac|]. split; [disj_tac|]. eexists. reflexivity. Qed.
(** The hypotheses are met over the reals too. *)
Example C17_ex_real : let s := MkState (K := RNum) [[0; 1]%R; [2; 3]%R] [[1]; [2]]%nat [] [] (MkRng (K := RNum) (fun _ => 0%R) (fun _ => 0%R) (fun _ => 0%Z) 0 0 0) true [] in
  own s (MkMatrix 1 2 (MkSlice 1 0 1)) [1]%nat 1 2 [[0; 1]%R] /\ own s (MkMatrix 1 2 (MkSlice 2 0 1)) [2]%nat 1 2 [[2; 3]%R] /\ disjoint [2]%nat [1]%nat.
Proof. split; [own_tac|]. split; [own_tac|disj_tac]. Qed.

(** ** C18 *)
Theorem C18_softmax (K : Num) (s : state K) m rs r c A : own s m rs r c A -> NoDup rs ->
  returns (Softmax m) s (inplace_result s m rs r c
    (mk r c (fun i j => fdiv (fexp (entry A i j)) (fsum c (fun k => fexp (entry A i k)))))).
Proof. exact (fun H1 H2 => returns_wp _ _ _ (wp_Softmax s m rs r c A H1 H2)). Qed.
Theorem C18_distribution_real (s : state RNum) m rs r c (A : rpm) : own s m rs r c A -> NoDup rs -> (1 <= c)%nat ->
  returns (Softmax m) s (fun m' s' => exists B, inplace_result s m rs r c B m' s' /\
    (forall i, (i < r)%nat -> rsum c (fun j => entry B i j) = 1%R) /\
    (forall i j, (i < r)%nat -> (j < c)%nat -> (0 < entry B i j <= 1)%R) /\
    (forall i j k, (i < r)%nat -> (j < c)%nat -> (k < c)%nat -> (entry A i j < entry A i k)%R <-> (entry B i j < entry B i k)%R)).
Proof. exact (softmax_real s m rs r c A). Qed.
(** Adding a constant to a row does not change the result for that row. *)
Theorem C18_shift_invariant_real (s : state RNum) m rs r c (A A' : rpm) m2 rs2 (t : nat -> R) :
  own s m rs r c A -> own s m2 rs2 r c A' -> NoDup rs -> NoDup rs2 ->
  (forall i j, (i < r)%nat -> (j < c)%nat -> entry A' i j = (entry A i j + t i)%R) ->
  exists B, returns (Softmax m) s (inplace_result s m rs r c B) /\ returns (Softmax m2) s (inplace_result s m2 rs2 r c B).
Proof. exact (softmax_shift s m rs r c A A' m2 rs2 t). Qed.
(** binary64: as soon as exp overflows on one entry, that entry of the result is NaN. *)
Theorem C18_overflow_is_nan (L : libm) (s : state (B64 L)) m rs r c (A : pm (B64 L)) i j :
  own s m rs r c A -> NoDup rs -> (i < r)%nat -> (j < c)%nat -> l_exp L (entry A i j) = b64_inf false ->
  returns (Softmax m) s (fun m' s' => exists B, inplace_result s m rs r c B m' s' /\ b64_nan (entry B i j) = true).
Proof. exact (softmax_overflow L s m rs r c A i j). Qed.
(** Guarantee "finite inputs give finite probabilities": false in binary64 for every math.Exp
    that overflows somewhere. *)
Theorem C18_binary64_refuted (L : libm) (x : Bits.binary64) : b64_finite x = true -> l_exp L x = b64_inf false ->
  exists (s : state (B64 L)) m rs A, own s m rs 1 2 A /\
    (forall j, (j < 2)%nat -> b64_finite (entry A 0 j) = true) /\
    returns (Softmax m) s (fun m' s' => exists B, inplace_result s m rs 1 2 B m' s' /\ b64_nan (entry B 0 1) = true).
Proof. exact (softmax_binary64_bad L x). Qed.
Print Assumptions C18_softmax.
Print Assumptions C18_distribution_real.
Print Assumptions C18_shift_invariant_real.
Print Assumptions C18_overflow_is_nan.
Print Assumptions C18_binary64_refuted.
(** [q_exp] is a stand-in for exp; the row is [e(-3), e(2)] = [1/4, 3] scaled. *)
Example C18_ex : own exs mX [10;11]%nat 2 2 pX /\ NoDup [10;11]%nat /\
  exists s', Softmax mX exs = (Ret mX, s') /\ row_at s' 10 = Some [(1#13)%Q; (12#13)%Q].
Proof. split; [exact own_mX|]. split; [nodup_tac|]. eexists. split; reflexivity. Qed.

(** ** C19 *)
Theorem C19_clip (K : Num) (s : state K) m rs r c A : own s m rs r c A -> NoDup rs ->
  returns (Clip m) s (inplace_result s m rs r c
    (mk r c (fun i j => if flt (entry A i j) f0 then lit_1em7 else if flt f1 (entry A i j) then lit_1m1em7 else entry A i j))).
Proof. exact (fun H1 H2 => returns_wp _ _ _ (wp_Clip s m rs r c A H1 H2)). Qed.
Theorem C19_range_real (s : state RNum) m rs r c (A : rpm) : own s m rs r c A -> NoDup rs ->
  returns (Clip m) s (fun m' s' => exists B, inplace_result s m rs r c B m' s' /\
    forall i j, (i < r)%nat -> (j < c)%nat -> (0 <= entry B i j <= 1)%R /\
      ((0 <= entry A i j <= 1)%R -> entry B i j = entry A i j)).
Proof. exact (clip_real s m rs r c A). Qed.
Theorem C19_range_binary64 (L : libm) (s : state (B64 L)) m rs r c (A : pm (B64 L)) : own s m rs r c A -> NoDup rs ->
  (forall i j, (i < r)%nat -> (j < c)%nat -> b64_nan (entry A i j) = false) ->
  returns (Clip m) s (fun m' s' => exists B, inplace_result s m rs r c B m' s' /\
    forall i j, (i < r)%nat -> (j < c)%nat -> fle f0 (entry B i j) = true /\ fle (entry B i j) f1 = true /\
      (fle f0 (entry A i j) = true -> fle (entry A i j) f1 = true -> entry B i j = entry A i j)).
Proof. exact (clip_binary64 L s m rs r c A). Qed.
Theorem C19_idempotent_real (s : state RNum) m rs r c (A : rpm) : own s m rs r c A -> NoDup rs ->
  returns (m' <- Clip m ;; Clip m') s (fun m' s' => returns (Clip m) s (fun m1 s1 => exists B, own s1 m1 rs r c B /\ inplace_result s m rs r c B m' s')).
Proof. exact (clip_twice RNum RNum_clip_lits s m rs r c A). Qed.
Theorem C19_idempotent_binary64 (L : libm) (s : state (B64 L)) m rs r c (A : pm (B64 L)) : own s m rs r c A -> NoDup rs ->
  returns (m' <- Clip m ;; Clip m') s (fun m' s' => returns (Clip m) s (fun m1 s1 => exists B, own s1 m1 rs r c B /\ inplace_result s m rs r c B m' s')).
Proof. exact (clip_twice (B64 L) (B64_clip_lits L) s m rs r c A). Qed.
(** Guarantee "entries stay at least 1e-7 away from 0 and 1" (which the losses rely on before
    taking logarithms): false, 0 and 1 are left as they are. *)
Theorem C19_strict_refuted (L : libm) : exists (s : state (B64 L)) m rs A,
  own s m rs 1 2 A /\ returns (Clip m) s (fun m' s' => exists B, own s' m' rs 1 2 B /\ entry B 0 0 = f0 /\ entry B 0 1 = f1).
Proof. exact (clip_not_strict L). Qed.
Print Assumptions C19_clip.
Print Assumptions C19_range_real.
Print Assumptions C19_range_binary64.
Print Assumptions C19_idempotent_real.
Print Assumptions C19_idempotent_binary64.
Print Assumptions C19_strict_refuted.
Example C19_ex : own exs mX [10;11]%nat 2 2 pX /\ NoDup [10;11]%nat /\
  exists s', Clip mX exs = (Ret mX, s') /\ row_at s' 10 = Some [(1#10000000)%Q; (9999999#10000000)%Q].
Proof. split; [exact own_mX|]. split; [nodup_tac|]. eexists. split; reflexivity. Qed.
