(** * PropOpt: the optimizers (C20 constructors, C38-C41). *)
From Coq Require Import String ZArith List Bool Arith Lia QArith Reals Lra.
From Verif Require Import Num Heap Spec Matrix Network Optimizers PureSpec Repr NumQ NumR RSum OptSpec OptProofs OptFacts OptFail OptReal OptMore OptGlue ErrorValues.
Import ListNotations.
Open Scope Z_scope.

(** C20: NewSGDOptimizer and NewAdamOptimizer. *)
Theorem C20_new_sgd (K : Num) (s : state K) lr decay mu :
  ((fle lr f0 || flt decay f0 || flt mu f0)%bool = true -> exists e, NewSGDOptimizer lr decay mu s = (Fail e, s)) /\
  ((fle lr f0 || flt decay f0 || flt mu f0)%bool = false -> exists o, NewSGDOptimizer lr decay mu s = (Ret o, s) /\
     o_kind o = SGD /\ o_lr o = lr /\ o_decay o = decay /\ o_momentum o = mu /\ o_rate o = lr /\ o_iter o = 0 /\
     o_wm o = matrix0 /\ o_bm o = matrix0 /\ o_usedecay o = negb (feq decay f0) /\ o_usemom o = negb (feq mu f0)).
Proof. exact (new_sgd_spec K s lr decay mu). Qed.

Theorem C20_new_adam (K : Num) (s : state K) lr decay eps b1 b2 :
  ((fle lr f0 || flt decay f0)%bool = true -> exists e, NewAdamOptimizer lr decay eps b1 b2 s = (Fail e, s)) /\
  ((fle lr f0 || flt decay f0)%bool = false -> exists o, NewAdamOptimizer lr decay eps b1 b2 s = (Ret o, s) /\
     o_kind o = Adam /\ o_lr o = lr /\ o_decay o = decay /\ o_eps o = eps /\ o_beta1 o = b1 /\ o_beta2 o = b2 /\ o_rate o = lr /\
     o_iter o = 0 /\ o_wm o = matrix0 /\ o_bm o = matrix0 /\ o_wc o = matrix0 /\ o_bc o = matrix0 /\
     o_usedecay o = negb (feq decay f0)).
Proof. exact (new_adam_spec K s lr decay eps b1 b2). Qed.

(** NewOptimizerFromType, which Finalize and LoadModel use: the two known types and any other ([mget key v] is the Go map lookup, zero if absent). *)
Theorem C20_optimizer_type (K : Num) (s : state K) t (v : gomap K) :
  (t = 0 -> exists o, NewOptimizerFromType t v s = (Ret o, s) /\ o_kind o = SGD /\ o_lr o = mget "learningRate" v /\ o_decay o = mget "decay" v /\
     o_momentum o = mget "momentum" v /\ o_rate o = mget "learningRate" v /\ o_iter o = 0 /\ o_wm o = matrix0 /\ o_bm o = matrix0 /\
     o_usedecay o = negb (feq (mget "decay" v) f0) /\ o_usemom o = negb (feq (mget "momentum" v) f0)) /\
  (t = 1 -> exists o, NewOptimizerFromType t v s = (Ret o, s) /\ o_kind o = Adam /\ o_lr o = mget "learningRate" v /\ o_decay o = mget "decay" v /\
     o_eps o = mget "epsilon" v /\ o_beta1 o = mget "beta1" v /\ o_beta2 o = mget "beta2" v /\ o_rate o = mget "learningRate" v /\ o_iter o = 0 /\
     o_wm o = matrix0 /\ o_bm o = matrix0 /\ o_wc o = matrix0 /\ o_bc o = matrix0 /\ o_usedecay o = negb (feq (mget "decay" v) f0)) /\
  (t <> 0 -> t <> 1 -> NewOptimizerFromType t v s = (Fail (EMsg "nn.Optimizer: Invalid optimizer type."), s)).
Proof. exact (optimizer_of_type s t v). Qed.
Print Assumptions C20_optimizer_type.

(** C38: SGD without momentum, for every history of gradients and every number semantics. *)
Theorem C38_sgd (K : Num) (lr decay mu : K) o (s : state K) oref w b rw rb k c W B gs Gs :
  NewSGDOptimizer lr decay mu s = (Ret o, s) -> feq mu f0 = true ->
  nth_error (h_opts s) oref = Some o -> params s w b rw rb k c W B -> grads s rw rb k c gs Gs ->
  returns (updates oref w b gs) s (fun _ s' =>
    own s' w rw k c (mk k c (fun i j => sgd_run (schedule lr decay) 0 (entry W i j) (wgrad Gs i j))) /\
    own s' b rb 1 c (mk 1 c (fun i j => sgd_run (schedule lr decay) 0 (entry B i j) (bgrad Gs i j))) /\
    only_params oref s s' rw rb).
Proof. exact (sgd_history lr decay mu o s oref w b rw rb k c W B gs Gs). Qed.

Theorem C38_exact lr decay (s : state RNum) o oref w b rw rb k c (W B : rpm) gs Gs :
  NewSGDOptimizer (K := RNum) lr decay 0%R s = (Ret o, s) ->
  nth_error (h_opts s) oref = Some o -> params s w b rw rb k c W B -> grads s rw rb k c gs Gs ->
  let n := length Gs in
  returns (updates oref w b gs) s (fun _ s' =>
    own s' w rw k c (mk (K := RNum) k c (fun i j => entry W i j - rsum n (fun t => lr / (1 + decay * INR t) * nth t (wgrad Gs i j) 0))%R) /\
    own s' b rb 1 c (mk (K := RNum) 1 c (fun i j => entry B i j - rsum n (fun t => lr / (1 + decay * INR t) * nth t (bgrad Gs i j) 0))%R) /\
    only_params oref s s' rw rb).
Proof. exact (sgd_exact lr decay s o oref w b rw rb k c W B gs Gs). Qed.

(** C39: SGD with momentum. *)
Theorem C39_momentum (K : Num) (lr decay mu : K) o (s : state K) oref w b rw rb k c W B gs Gs :
  NewSGDOptimizer lr decay mu s = (Ret o, s) -> feq mu f0 = false ->
  nth_error (h_opts s) oref = Some o -> params s w b rw rb k c W B -> grads s rw rb k c gs Gs ->
  returns (updates oref w b gs) s (fun _ s' =>
    own s' w rw k c (mk k c (fun i j => fst (mom_run mu (schedule lr decay) 0 (entry W i j) f0 (wgrad Gs i j)))) /\
    own s' b rb 1 c (mk 1 c (fun i j => fst (mom_run mu (schedule lr decay) 0 (entry B i j) f0 (bgrad Gs i j)))) /\
    only_params oref s s' rw rb).
Proof. exact (mom_history lr decay mu o s oref w b rw rb k c W B gs Gs). Qed.

Theorem C39_exact lr decay mu (s : state RNum) o oref w b rw rb k c (W B : rpm) gs Gs :
  NewSGDOptimizer (K := RNum) lr decay mu s = (Ret o, s) -> mu <> 0%R ->
  nth_error (h_opts s) oref = Some o -> params s w b rw rb k c W B -> grads s rw rb k c gs Gs ->
  let n := length Gs in
  let total g := rsum n (fun t => - rsum (S t) (fun u => mu ^ (t - u) * (lr / (1 + decay * INR u)) * nth u g 0))%R in
  returns (updates oref w b gs) s (fun _ s' =>
    own s' w rw k c (mk (K := RNum) k c (fun i j => entry W i j + total (wgrad Gs i j))%R) /\
    own s' b rb 1 c (mk (K := RNum) 1 c (fun i j => entry B i j + total (bgrad Gs i j))%R) /\
    only_params oref s s' rw rb).
Proof. exact (momentum_exact lr decay mu s o oref w b rw rb k c W B gs Gs). Qed.

(** C40: Adam as implemented. *)
Theorem C40_adam (K : Num) (lr decay eps b1 b2 : K) o (s : state K) oref w b rw rb k c W B gs Gs :
  NewAdamOptimizer lr decay eps b1 b2 s = (Ret o, s) ->
  nth_error (h_opts s) oref = Some o -> params s w b rw rb k c W B -> grads s rw rb k c gs Gs ->
  returns (updates oref w b gs) s (fun _ s' =>
    own s' w rw k c (mk k c (fun i j => fst (fst (adam_run b1 b2 eps (schedule lr decay) 0 (entry W i j) f0 f0 (wgrad Gs i j))))) /\
    own s' b rb 1 c (mk 1 c (fun i j => fst (fst (adam_run b1 b2 eps (schedule lr decay) 0 (entry B i j) f0 f0 (bgrad Gs i j))))) /\
    only_params oref s s' rw rb).
Proof. exact (adam_history lr decay eps b1 b2 o s oref w b rw rb k c W B gs Gs). Qed.

(** In exact arithmetic (the hypotheses on the coefficients keep every divisor positive). *)
Theorem C40_exact lr decay eps b1 b2 (s : state RNum) o oref w b rw rb k c (W B : rpm) gs Gs :
  (0 <= b1 < 1)%R -> (0 <= b2 <= 1)%R -> (0 < eps)%R ->
  NewAdamOptimizer (K := RNum) lr decay eps b1 b2 s = (Ret o, s) ->
  nth_error (h_opts s) oref = Some o -> params s w b rw rb k c W B -> grads s rw rb k c gs Gs ->
  let step g t :=
    (let m := (1 - b1) * rsum (S t) (fun u => b1 ^ (t - u) * nth u g 0) in
     let v := (1 - b2) * rsum (S t) (fun u => b2 ^ (t - u) * nth u g 0 ^ 2) in
     lr / (1 + decay * INR t) * (m / (1 - b1 ^ (t + 1))) / (sqrt (v / (1 - b1 ^ (t + 1))) + eps))%R in
  returns (updates oref w b gs) s (fun _ s' =>
    own s' w rw k c (mk (K := RNum) k c (fun i j => entry W i j - rsum (length Gs) (step (wgrad Gs i j)))%R) /\
    own s' b rb 1 c (mk (K := RNum) 1 c (fun i j => entry B i j - rsum (length Gs) (step (bgrad Gs i j)))%R) /\
    only_params oref s s' rw rb).
Proof. exact (@C40_exact_proof _ _ _ _ _ _ _ _ _ _ _ _ _ _ _ _ _ _). Qed.

(** Standard Adam divides the second moment by 1 - b2^(t+1).  With equal coefficients the code is standard Adam. *)
Theorem C40_standard_if_equal lr decay eps beta (s : state RNum) o oref w b rw rb k c (W B : rpm) gs Gs :
  (0 <= beta < 1)%R -> (0 < eps)%R ->
  NewAdamOptimizer (K := RNum) lr decay eps beta beta s = (Ret o, s) ->
  nth_error (h_opts s) oref = Some o -> params s w b rw rb k c W B -> grads s rw rb k c gs Gs ->
  returns (updates oref w b gs) s (fun _ s' =>
    own s' w rw k c (mk (K := RNum) k c (fun i j => entry W i j - standard_adam lr decay eps beta beta (length Gs) (wgrad Gs i j))%R) /\
    own s' b rb 1 c (mk (K := RNum) 1 c (fun i j => entry B i j - standard_adam lr decay eps beta beta (length Gs) (bgrad Gs i j))%R)).
Proof. exact (adam_standard_equal lr decay eps beta s o oref w b rw rb k c W B gs Gs). Qed.

(** With beta1 = 9/10, beta2 = 999/1000 and gradient 1, the first step is 5 instead of 10/11. *)
Theorem C40_standard_refuted : exists (s : state RNum) o oref w b rw rb (W B : rpm) gs Gs lr eps b1 b2,
  NewAdamOptimizer (K := RNum) lr 0%R eps b1 b2 s = (Ret o, s) /\ nth_error (h_opts s) oref = Some o /\
  (0 < b1 < 1)%R /\ (0 < b2 < 1)%R /\ (0 < eps)%R /\
  params s w b rw rb 1 1 W B /\ grads s rw rb 1 1 gs Gs /\ length Gs = 1%nat /\
  standard_adam lr 0 eps b1 b2 1 (wgrad Gs 0 0) = (10 / 11)%R /\
  returns (updates oref w b gs) s (fun _ s' => exists W', own s' w rw 1 1 W' /\ entry W' 0 0 = (entry W 0 0 - 5)%R).
Proof. exact adam_not_standard. Qed.

(** C41: an Update with a wrongly shaped gradient (SGD with momentum, or Adam) returns an error and leaves
    the parameters alone.  If the weight gradient is wrong, the optimizer forgets its moments. *)
Theorem C41_weight_error_forgets (K : Num) (s : state K) oref o ro po w b dw db rw rb rdw rdb k c r1 c1 r2 c2 W B dW dB gs Gs :
  nth_error (h_opts s) oref = Some o -> moments o -> oown s o ro k c po -> params s w b rw rb k c W B ->
  own s dw rdw r1 c1 dW -> own s db rdb r2 c2 dB -> (1 <= r1)%nat -> (1 <= c1)%nat -> (1 <= r2)%nat -> (1 <= c2)%nat -> (r1, c1) <> (k, c) ->
  grads s rw rb k c gs Gs ->
  returns (catch (Opt_Update oref w b dw db)) s (fun r s1 => r = inr (EMatDims (Z.of_nat r1) (Z.of_nat c1)) /\ frame nothing s s1 /\
    returns (updates oref w b gs) s1 (fun _ s' =>
      own s' w rw k c (mk k c (fun i j => match po_kind po with
        | SGD => fst (mom_run (po_mom po) (po_sched po) (po_iter po) (entry W i j) f0 (wgrad Gs i j))
        | Adam => fst (fst (adam_run (po_b1 po) (po_b2 po) (po_eps po) (po_sched po) (po_iter po) (entry W i j) f0 f0 (wgrad Gs i j))) end)) /\
      own s' b rb 1 c (mk 1 c (fun i j => match po_kind po with
        | SGD => fst (mom_run (po_mom po) (po_sched po) (po_iter po) (entry B i j) f0 (bgrad Gs i j))
        | Adam => fst (fst (adam_run (po_b1 po) (po_b2 po) (po_eps po) (po_sched po) (po_iter po) (entry B i j) f0 f0 (bgrad Gs i j))) end)))).
Proof. exact (weight_error_forgets s oref o ro po w b dw db rw rb rdw rdb k c r1 c1 r2 c2 W B dW dB gs Gs). Qed.

(** If only the bias gradient is wrong, every later well-shaped Update fails too. *)
Theorem C41_bias_error_wedges (K : Num) (s : state K) oref o ro po w b dw db rw rb rdw rdb k c r2 c2 W B dW dB gs Gs :
  nth_error (h_opts s) oref = Some o -> moments o -> oown s o ro k c po -> params s w b rw rb k c W B ->
  own s dw rdw k c dW -> own s db rdb r2 c2 dB -> (1 <= r2)%nat -> (1 <= c2)%nat -> (r2, c2) <> (1%nat, c) ->
  grads s rw rb k c gs Gs ->
  returns (attempts oref w b ((dw, db) :: gs)) s (fun l s' => l = repeat false (S (length gs)) /\ frame nothing s s' /\
    own s' w rw k c W /\ own s' b rb 1 c B).
Proof. exact (bias_error_wedges s oref o ro po w b dw db rw rb rdw rdb k c r2 c2 W B dW dB gs Gs). Qed.

Theorem C41_atomic_refuted : exists (s : state QNum) oref w b dw db bad rw rb,
  returns (attempts oref w b [(dw, db); (dw, db)]) s (fun l s' => l = [true; true] /\ own s' w rw 1 1 [[(-8)%Q]] /\ own s' b rb 1 1 [[(-4)%Q]]) /\
  returns (attempts oref w b [(dw, db); (bad, db); (dw, db)]) s (fun l s' => l = [true; false; true] /\ own s' w rw 1 1 [[(-5)%Q]]) /\
  (forall n, returns (attempts oref w b ((dw, bad) :: repeat (dw, db) n)) s (fun l _ => l = false :: repeat false n)).
Proof. exact failed_update_not_atomic. Qed.

Print Assumptions C20_new_sgd.
Print Assumptions C20_new_adam.
Print Assumptions C38_sgd.
Print Assumptions C38_exact.
Print Assumptions C39_momentum.
Print Assumptions C39_exact.
Print Assumptions C40_adam.
Print Assumptions C40_exact.
Print Assumptions C40_standard_if_equal.
Print Assumptions C40_standard_refuted.
Print Assumptions C41_weight_error_forgets.
Print Assumptions C41_bias_error_wedges.
Print Assumptions C41_atomic_refuted.

(** The hypotheses hold together: 1x1 parameters, an arbitrarily long history of 1x1 gradients, and a 2x1 matrix of the wrong shape. *)
Example C38_ex n : NewSGDOptimizer (K := QNum) (1#2)%Q 0%Q 1%Q oq_state = (Ret oq_sgd, oq_state) /\ nth_error (h_opts oq_state) 0 = Some oq_sgd /\
  params oq_state oc_w oc_b [1]%nat [2]%nat 1 1 [[1%Q]] [[2%Q]] /\
  grads oq_state [1]%nat [2]%nat 1 1 (repeat (oc_dw, oc_db) n) (repeat ([[6%Q]], [[4%Q]]) n) /\
  moments oq_sgd /\ oown oq_state oq_sgd [] 1 1 (new_po oq_sgd 1 1) /\ own oq_state oc_bad [5;6]%nat 2 1 [[3%Q];[3%Q]].
Proof.
  split; [reflexivity|]. split; [reflexivity|]. split; [apply oc_params|]. split; [apply oc_grads|]. split; [right; reflexivity|].
  split; [apply new_oown; reflexivity|apply oc_own_bad].
Qed.
(** Three momentum steps computed: v = -3, -6, -9. *)
Example C39_ex : match updates 0 oc_w oc_b (repeat (oc_dw, oc_db) 3) oq_state with
  (Ret _, s') => row_at s' 1 = Some [(-17)%Q] /\ row_at s' 2 = Some [(-10)%Q] | _ => False end.
Proof. vm_compute. repeat split; reflexivity. Qed.
