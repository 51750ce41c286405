(** * C80: how far one optimizer step moves a parameter. *)
From Coq Require Import String ZArith List Bool Arith Lia Reals Lra.
From Verif Require Import Num NumR Heap Spec Matrix Network Optimizers PureSpec Repr RSum OptSpec OptFacts OptMore AdamBound.
Import ListNotations.
Open Scope R_scope.

(** C80: with beta1^2 < beta2, no Adam step, after any history of gradients of any size, moves a
    parameter by more than the current rate times sqrt(1-b1) / sqrt((1-b2)(1-b1^2/b2)). *)
Theorem C80_adam_step_bounded lr decay eps b1 b2 (s : state RNum) o oref w b rw rb k c (W B : rpm) gs Gs dw db dW dB :
  0 <= b1 < 1 -> 0 < b2 < 1 -> b1 ^ 2 < b2 -> 0 < eps ->
  NewAdamOptimizer (K := RNum) lr decay eps b1 b2 s = (Ret o, s) ->
  nth_error (h_opts s) oref = Some o -> params s w b rw rb k c W B -> grads s rw rb k c (gs ++ [(dw, db)]) (Gs ++ [(dW, dB)]) ->
  let bound := lr / (1 + decay * INR (length Gs)) * (sqrt (1 - b1) / sqrt ((1 - b2) * (1 - b1 ^ 2 / b2))) in
  exists s1 W1 B1 s2 W2 B2, updates oref w b gs s = (Ret tt, s1) /\ own s1 w rw k c W1 /\ own s1 b rb 1 c B1 /\
    Opt_Update oref w b dw db s1 = (Ret tt, s2) /\ own s2 w rw k c W2 /\ own s2 b rb 1 c B2 /\
    (forall i j, (i < k)%nat -> (j < c)%nat -> Rabs (entry W2 i j - entry W1 i j) <= bound) /\
    (forall j, (j < c)%nat -> Rabs (entry B2 0 j - entry B1 0 j) <= bound).
Proof. exact (adam_step lr decay eps b1 b2 s o oref w b rw rb k c W B gs Gs dw db dW dB). Qed.
Print Assumptions C80_adam_step_bounded.

(** C80: the first Adam step, exactly. *)
Theorem C80_adam_first_step lr decay eps b1 b2 (s : state RNum) o oref w b rw rb k c (W B : rpm) dw db dW dB :
  0 <= b1 < 1 -> 0 <= b2 < 1 -> 0 < eps ->
  NewAdamOptimizer (K := RNum) lr decay eps b1 b2 s = (Ret o, s) ->
  nth_error (h_opts s) oref = Some o -> params s w b rw rb k c W B -> grads s rw rb k c [(dw, db)] [(dW, dB)] ->
  let step g := lr * g / (sqrt ((1 - b2) / (1 - b1)) * Rabs g + eps) in
  returns (Opt_Update oref w b dw db) s (fun _ s' =>
    own s' w rw k c (mk (K := RNum) k c (fun i j => entry W i j - step (entry dW i j))) /\
    own s' b rb 1 c (mk (K := RNum) 1 c (fun i j => entry B i j - step (entry dB i j)))).
Proof. exact (adam_first lr decay eps b1 b2 s o oref w b rw rb k c W B dw db dW dB). Qed.
Print Assumptions C80_adam_first_step.

(** C80: "an Adam step never exceeds the learning rate" is false: with b1 = 9/10 and b2 = 999/1000
    the first step is five times the learning rate.  The witness also meets the hypotheses of the two
    theorems above. *)
Theorem C80_at_most_rate_refuted : exists (s : state RNum) o oref w b rw rb (W B : rpm) dw db dW dB lr eps b1 b2,
  NewAdamOptimizer (K := RNum) lr 0 eps b1 b2 s = (Ret o, s) /\ nth_error (h_opts s) oref = Some o /\
  0 < b1 < 1 /\ 0 < b2 < 1 /\ b1 ^ 2 < b2 /\ 0 < eps /\
  params s w b rw rb 1 1 W B /\ grads s rw rb 1 1 [(dw, db)] [(dW, dB)] /\
  returns (Opt_Update oref w b dw db) s (fun _ s' => exists W', own s' w rw 1 1 W' /\ Rabs (entry W' 0 0 - entry W 0 0) = 5 * lr).
Proof. exact adam_exceeds. Qed.
Print Assumptions C80_at_most_rate_refuted.

(** C80: with momentum mu < 1 and gradients bounded by G, no SGD step moves a parameter by more than
    lr G / (1 - mu). *)
Theorem C80_momentum_step_bounded lr decay mu G (s : state RNum) o oref w b rw rb k c (W B : rpm) gs Gs dw db dW dB :
  0 < mu < 1 -> NewSGDOptimizer (K := RNum) lr decay mu s = (Ret o, s) ->
  nth_error (h_opts s) oref = Some o -> params s w b rw rb k c W B -> grads s rw rb k c (gs ++ [(dw, db)]) (Gs ++ [(dW, dB)]) ->
  (forall H, In H (Gs ++ [(dW, dB)]) -> (forall i j, Rabs (entry (fst H) i j) <= G) /\ (forall j, Rabs (entry (snd H) 0 j) <= G)) ->
  let bound := lr * G / (1 - mu) in
  exists s1 W1 B1 s2 W2 B2, updates oref w b gs s = (Ret tt, s1) /\ own s1 w rw k c W1 /\ own s1 b rb 1 c B1 /\
    Opt_Update oref w b dw db s1 = (Ret tt, s2) /\ own s2 w rw k c W2 /\ own s2 b rb 1 c B2 /\
    (forall i j, (i < k)%nat -> (j < c)%nat -> Rabs (entry W2 i j - entry W1 i j) <= bound) /\
    (forall j, (j < c)%nat -> Rabs (entry B2 0 j - entry B1 0 j) <= bound).
Proof. exact (momentum_step lr decay mu G s o oref w b rw rb k c W B gs Gs dw db dW dB). Qed.
Print Assumptions C80_momentum_step_bounded.
Example C80_momentum_ex : exists (s : state RNum) o, NewSGDOptimizer (K := RNum) 1 0 (1/2) s = (Ret o, s) /\ nth_error (h_opts s) 0 = Some o /\
  params s oc_w oc_b [1]%nat [2]%nat 1 1 [[0]] [[0]] /\ grads s [1]%nat [2]%nat 1 1 ([(oc_dw, oc_db)] ++ [(oc_dw, oc_db)]) ([([[1]], [[1]])] ++ [([[1]], [[1]])]) /\
  forall H, In H [([[1]], [[1]]); ([[1]], [[1]])] -> forall i j, Rabs (entry (K := RNum) (fst H) i j) <= 1.
Proof. exact momentum_case. Qed.
