(** * Proofs and definitions used by PropOpt.v *)
From Coq Require Import String ZArith List Bool Arith Lia QArith Reals Lra.
From Verif Require Import Num Heap Spec Matrix Network Optimizers PureSpec Repr NumQ NumR RSum OptSpec OptProofs OptFacts OptFail OptReal OptMore.
Import ListNotations.
Open Scope Z_scope.

Lemma C40_exact_proof lr decay eps b1 b2 (s : state RNum) o oref w b rw rb k c (W B : rpm) gs Gs :
  (0 <= b1 < 1)%R -> (0 <= b2 <= 1)%R -> (0 < eps)%R ->
  NewAdamOptimizer (K := RNum) lr decay eps b1 b2 s = (Ret o, s) ->
  nth_error (h_opts s) oref = Some o -> params s w b rw rb k c W B -> grads s rw rb k c gs Gs ->
  let step g t :=
    (let m := (1 - b1) * rsum (S t) (fun u => b1 ^ (t - u) * nth u g 0) in
     let v := (1 - b2) * rsum (S t) (fun u => b2 ^ (t - u) * nth u g 0 ^ 2) in
     lr / (1 + decay * INR t) * (m / (1 - b1 ^ (t + 1))) / (sqrt (v / (1 - b1 ^ (t + 1))) + eps))%R in
  returns (updates oref w b gs) s (fun _ s' =>
    own s' w rw k c (mk (K := RNum) k c (fun i j => entry W i j - rsum (length Gs) (step (wgrad Gs i j)))%R) /\
    own s' b rb 1 c (mk (K := RNum) 1 c (fun i j => entry B i j - rsum (length Gs) (step (bgrad Gs i j)))%R) /\
    only_params oref s s' rw rb).
Proof. intros _ _ _. exact (adam_exact lr decay eps b1 b2 s o oref w b rw rb k c W B gs Gs). Qed.
