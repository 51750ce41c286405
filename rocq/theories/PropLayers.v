(** * Properties C20 (layers), C21, C23, C29, C30, C32: network.go.

    [lown s l rw rb p]: layer object [l] is well formed and stands for the plain layer [p];
    its parameter rows are [rw], [rb].  [pforward], [ptrain], [pback] are in PureSpec.v. *)
From Coq Require Import String ZArith List Bool Arith Lia Reals Lra QArith.
From Coquelicot Require Import Coquelicot.
From Verif Require Import Num NumR NumB64 NumQ Heap Spec PureSpec Repr Matrix Activation Network
  HeapLemmas LoopLemmas LayerProofs MatrixFacts RSum LayerFacts LayerReal Ex LayerGlue ErrorValues.
Import ListNotations.
Open Scope Z_scope.
Open Scope go_scope.

(** ** C20: layer constructors *)
Theorem C20_bad_size (K : Num) (s : state K) inp out (t : K) : inp < 1 \/ out < 1 ->
  NewLayer inp out s = (Fail (ELayerDims inp out), s) /\ NewLinearLayer inp out s = (Fail (ELayerDims inp out), s) /\
  NewSigmoidLayer inp out s = (Fail (ELayerDims inp out), s) /\ NewLeakyLayer inp out t s = (Fail (ELayerDims inp out), s) /\
  NewSoftmaxLayer inp out s = (Fail (ELayerDims inp out), s) /\ NewDropoutLayer inp out t s = (Fail (ELayerDims inp out), s).
Proof. exact (@C20_bad_size_proof _ _ _ _ _). Qed.
Theorem C20_bad_slope (K : Num) (s : state K) inp out (slope : K) : 1 <= inp -> 1 <= out -> flt slope f0 = true ->
  NewLeakyLayer inp out slope s = (Fail (EMsg "nn.LeakyLayer: Invalid LeakyRELU slope."), s).
Proof. exact (@C20_bad_slope_proof _ _ _ _ _). Qed.
Theorem C20_bad_dropout (K : Num) (s : state K) inp out (d : K) : 1 <= inp -> 1 <= out ->
  flt f1 d = true \/ flt d f0 = true -> NewDropoutLayer inp out d s = (Fail (EMsg "Invalid dropout value."), s).
Proof. exact (@C20_bad_dropout_proof _ _ _ _ _). Qed.
Theorem C20_new_layer (K : Num) (s : state K) (i o : nat) : (1 <= i)%nat -> (1 <= o)%nat ->
  let inp := Z.of_nat i in let out := Z.of_nat o in
  returns (NewLayer inp out) s (new_layer s Hidden i o f0 f0) /\
  returns (NewLinearLayer inp out) s (new_layer s Linear i o f0 f0) /\
  returns (NewSigmoidLayer inp out) s (new_layer s SigmoidK i o f0 f0) /\
  (forall slope, flt slope f0 = false -> returns (NewLeakyLayer inp out slope) s (new_layer s Leaky i o slope f0)) /\
  returns (NewSoftmaxLayer inp out) s (new_layer s SoftmaxK i o f0 f0) /\
  (forall d, flt f1 d = false -> flt d f0 = false -> returns (NewDropoutLayer inp out d) s (new_layer s Dropout i o f0 d)).
Proof. exact (@C20_new_layer_proof _ _ _ _). Qed.
Print Assumptions C20_bad_size.
Print Assumptions C20_bad_slope.
Print Assumptions C20_bad_dropout.
Print Assumptions C20_new_layer.
Example C20_ex : match NewLeakyLayer 2 3 (1#10)%Q exs with (Ret l, s') => mcols (l_w l) = 3 /\ fst (Get (l_w l) 1 2 s') = Ret (q 0) | _ => False end /\
  fst (NewDropoutLayer 2 3 (3#2)%Q exs) = Fail (EMsg "Invalid dropout value.") /\ fst (NewLayer 0 3 exs) = Fail (ELayerDims 0 3).
Proof. vm_compute. repeat split; reflexivity. Qed.

(** ** C21 *)
Theorem C21_width_error (K : Num) (s : state K) lref l x :
  nth_error (h_layers s) lref = Some l -> mcols x <> l_in l ->
  Layer_Forward lref x s = (Fail (EMatDims (mrows x) (mcols x)), s) /\
  Dropout_ForwardNoDropout lref x s = (Fail (EMatDims (mrows x) (mcols x)), s).
Proof. exact (fun H1 H2 => conj (Layer_Forward_err s lref l x H1 H2) (NoDropout_err s lref l x H1 H2)). Qed.
(** [training = false] calls ForwardNoDropout on dropout layers (as Model.Forward does); all
    other kinds have the single method Forward. *)
Theorem C21_forward (K : Num) (s : state K) lref l rw rb p x rsx r X (training : bool) :
  nth_error (h_layers s) lref = Some l -> lown s l rw rb p -> own s x rsx r (p_in p) X -> (1 <= r)%nat ->
  (training = false \/ p_kind p <> Dropout) ->
  returns (match l_kind l, training with Dropout, false => Dropout_ForwardNoDropout lref x | _, _ => Layer_Forward lref x end) s
    (fun out s' =>
      (exists rs, fresh_mat s s' out rs r (p_out p)
        (let z := fun i j => fadd (fsum (p_in p) (fun n => fmul (entry X i n) (entry (p_w p) n j))) (entry (p_b p) 0 j) in
         mk r (p_out p) (fun i j =>
           match p_kind p with
           | Hidden | Dropout => fmax (z i j) f0
           | Leaky => if flt (z i j) f0 then fmul (z i j) (p_slope p) else z i j
           | SigmoidK => fdiv f1 (fadd f1 (fexp (fneg (z i j))))
           | Linear => z i j
           | SoftmaxK => fdiv (fexp (z i j)) (fsum (p_out p) (fun k => fexp (z i k)))
           end))) /\
      frame nothing s s' /\ own s' x rsx r (p_in p) X /\ h_rng s' = h_rng s /\
      exists l', nth_error (h_layers s') lref = Some l' /\ lown s' l' rw rb p).
Proof. exact (forward_formula s lref l rw rb p x rsx r X training). Qed.
Print Assumptions C21_width_error.
Print Assumptions C21_forward.
Example C21_ex : own exs mX [10;11]%nat 2 2 pX /\
  (forall k l, nth_error [Hidden; Linear; SigmoidK; Leaky; SoftmaxK; Dropout] k = Some l ->
     nth_error (h_layers exs) k = Some (ex_layer l) /\ lown exs (ex_layer l) [5;6]%nat [7]%nat (ex_player l)) /\
  match Layer_Forward 0 mX exs with (Ret m, s') => fst (Get m 0 0 s') = Ret (q 2) /\ fst (Get m 1 1 s') = Ret (q 0) | _ => False end.
Proof.
  split; [exact own_mX|]. split.
  - intros k l H. split; [|apply lown_ex]. do 6 (destruct k as [|k]; [injection H as <-; reflexivity|]). destruct k; discriminate.
  - vm_compute. split; reflexivity.
Qed.

(** ** C23 *)
(** Forward(x) followed by Backward(x, dValues): the three gradients are new matrices of the
    shapes of weights, biases and x; x, weights and biases keep their contents; only the rows
    of dValues may change, and they do change (to the gradient at the pre-activations) exactly
    for hidden, leaky and dropout layers. *)
Theorem C23_backward (K : Num) (s : state K) lref l rw rb p x rsx r X dv rsg G :
  nth_error (h_layers s) lref = Some l -> lown s l rw rb p -> p_kind p <> SigmoidK ->
  own s x rsx r (p_in p) X -> (1 <= r)%nat -> own s dv rsg r (p_out p) G -> NoDup rsg ->
  disjoint rsx rsg -> disjoint rw rsg -> disjoint rb rsg ->
  let O := ptrain p r X (uniforms s) in
  let G' := pback p r O (ptrain_mask p r (uniforms s)) G in
  returns (out <- Layer_Forward lref x ;; g <- Layer_Backward lref x dv ;; ret (out, g)) s (fun og s' =>
    (exists rs, fresh_mat s s' (fst og) rs r (p_out p) O) /\
    bwd_result s s' (snd og) (p_in p) (p_out p) r
      (mk (p_in p) (p_out p) (fun i j => fsum r (fun n => fmul (entry X n i) (entry G' n j))))
      (mk 1 (p_out p) (fun _ j => fsum r (fun n => entry G' n j)))
      (mk r (p_in p) (fun i j => fsum (p_out p) (fun n => fmul (entry G' i n) (entry (p_w p) j n)))) /\
    frame (among rsg) s s' /\ own s' x rsx r (p_in p) X /\
    own s' dv rsg r (p_out p) (match p_kind p with Hidden | Leaky | Dropout => G' | _ => G end) /\
    exists l', nth_error (h_layers s') lref = Some l' /\ lown s' l' rw rb p).
Proof. exact (backward_formula s lref l rw rb p x rsx r X dv rsg G). Qed.
Theorem C23_width_error (K : Num) (s : state K) lref l x dv : nth_error (h_layers s) lref = Some l ->
  (mcols x <> l_in l -> Layer_Backward lref x dv s = (Fail (EMatDims (mrows x) (mcols x)), s)) /\
  (l_kind l <> SoftmaxK -> mcols x = l_in l -> mcols dv <> l_out l ->
     Layer_Backward lref x dv s = (Fail (EMatDims (mrows dv) (mcols dv)), s)).
Proof. exact (fun H => conj (Layer_Backward_err s lref l x dv H) (Layer_Backward_err2 s lref l x dv H)). Qed.
Theorem C23_softmax_error (K : Num) (s : state K) lref l x dv : nth_error (h_layers s) lref = Some l -> l_kind l = SoftmaxK -> mcols x = l_in l ->
  let c := l_cache l in
  (mcols c <> l_out l -> Layer_Backward lref x dv s = (Fail (EMatDims (mrows c) (mcols c)), s)) /\
  (mcols c = l_out l -> mcols dv <> l_out l -> Layer_Backward lref x dv s = (Fail (EMatDims (mrows dv) (mcols dv)), s)) /\
  (mcols c = l_out l -> mcols dv = l_out l -> mrows c <> mrows dv -> Layer_Backward lref x dv s = (Fail (EMatDims (mrows c) (mrows dv)), s)).
Proof. exact (softmax_backward_errors s lref l x dv). Qed.
Theorem C23_fused_error (K : Num) (s : state K) lref l x y dv : nth_error (h_layers s) lref = Some l ->
  (mcols y <> l_out l -> BackwardCrossEntropy lref x y dv s = (Fail (EMatDims (mrows y) (mcols y)), s)) /\
  (mcols y = l_out l -> mcols dv <> l_out l -> BackwardCrossEntropy lref x y dv s = (Fail (EMatDims (mrows dv) (mcols dv)), s)) /\
  (mcols y = l_out l -> mcols dv = l_out l -> mrows y <> mrows dv -> BackwardCrossEntropy lref x y dv s = (Fail (EMatDims (mrows y) (mrows dv)), s)).
Proof. exact (fused_backward_errors s lref l x y dv). Qed.
Print Assumptions C23_softmax_error. Print Assumptions C23_fused_error.
Print Assumptions C23_backward.
Print Assumptions C23_width_error.
Example C23_ex : lown exs (ex_layer Hidden) [5;6]%nat [7]%nat (ex_player Hidden) /\ own exs mX [10;11]%nat 2 2 pX /\
  own exs mA [1;2]%nat 2 2 pA /\ NoDup [1;2]%nat /\ disjoint [10;11]%nat [1;2]%nat /\ disjoint [5;6]%nat [1;2]%nat /\ disjoint [7]%nat [1;2]%nat /\
  match (out <- Layer_Forward 0 mX ;; g <- Layer_Backward 0 mX mA ;; ret (out, g)) exs with (Ret (o, g), s') =>
     row_at s' 1 = Some [q 1; q 2] /\ row_at s' 2 = Some [q 0; q 0] /\ fst (Get (g_w g) 0 1 s') = Ret (q (-6)) | _ => False end.
Proof.
  split; [apply lown_ex|]. split; [exact own_mX|]. split; [exact own_mA|]. split; [nodup_tac|].
  split; [disj_tac|]. split; [disj_tac|]. split; [disj_tac|]. vm_compute. repeat split; reflexivity.
Qed.

(** ** C29: SigmoidLayer.Backward *)
Theorem C29_more_inputs_panics (K : Num) (s : state K) lref l rw rb p x rsx r X dv rsg G :
  nth_error (h_layers s) lref = Some l -> lown s l rw rb p -> p_kind p = SigmoidK ->
  (p_out p < p_in p)%nat -> (1 <= r)%nat ->
  own s x rsx r (p_in p) X -> own s dv rsg r (p_out p) G -> NoDup rsx -> disjoint rsg rsx ->
  exists s', Layer_Backward lref x dv s = (Panic PIndex, s').
Proof. exact (Sigmoid_Backward_panics s lref l rw rb p x rsx r X dv rsg G). Qed.
Theorem C29_square (K : Num) (s : state K) lref l rw rb p x rsx r X dv rsg G :
  nth_error (h_layers s) lref = Some l -> lown s l rw rb p -> p_kind p = SigmoidK ->
  p_out p = p_in p -> (1 <= r)%nat ->
  own s x rsx r (p_in p) X -> own s dv rsg r (p_out p) G -> NoDup rsx -> disjoint rsg rsx ->
  disjoint rw rsx -> disjoint rb rsx ->
  let H := mk r (p_in p) (fun i j => sigmoid_prime1 (entry X i j) (entry G i j)) in
  returns (Layer_Backward lref x dv) s (fun g s' =>
    bwd_result s s' g (p_in p) (p_in p) r (pdW r (p_in p) (p_in p) H H) (psum0 r (p_in p) H) (pdX r (p_in p) (p_in p) H (p_w p)) /\
    own s' x rsx r (p_in p) H).
Proof.
  exact (fun h1 h2 h3 h4 h5 h6 h7 h8 h9 h10 h11 => returns_wp _ _ _
    (Sigmoid_Backward_square s lref l rw rb p x rsx r X dv rsg G h1 h2 h3 h4 h5 h6 h7 h8 h9 h10 h11)).
Qed.
Theorem C29_more_outputs (K : Num) (s : state K) lref l rw rb p x rsx r X dv rsg G :
  nth_error (h_layers s) lref = Some l -> lown s l rw rb p -> p_kind p = SigmoidK ->
  (p_in p < p_out p)%nat -> (1 <= r)%nat ->
  own s x rsx r (p_in p) X -> own s dv rsg r (p_out p) G -> NoDup rsx -> disjoint rsg rsx ->
  disjoint rw rsx -> disjoint rb rsx ->
  let H := mk r (p_in p) (fun i j => sigmoid_prime1 (entry X i j) (entry G i j)) in
  returns (Layer_Backward lref x dv) s (fun g s' =>
    mrows (g_w g) = Z.of_nat (p_in p) /\ mcols (g_w g) = Z.of_nat (p_in p) /\
    mrows (g_b g) = 1 /\ mcols (g_b g) = Z.of_nat (p_in p) /\ g_x g = matrix0 /\ own s' x rsx r (p_in p) H).
Proof.
  exact (fun h1 h2 h3 h4 h5 h6 h7 h8 h9 h10 h11 => returns_wp _ _ _
    (Sigmoid_Backward_wide s lref l rw rb p x rsx r X dv rsg G h1 h2 h3 h4 h5 h6 h7 h8 h9 h10 h11)).
Qed.
(** Guarantee "dW is the derivative and x is left alone": false already for one weight 1,
    bias 0, input 1 and upstream gradient 1, where out(w) = sigmoid(w * 1 + 0). *)
Theorem C29_gradient_refuted : exists (s : state RNum) l rw rb p x rsx dv rsg,
  nth_error (h_layers s) 0 = Some l /\ lown s l rw rb p /\ p_kind p = SigmoidK /\ p_in p = 1%nat /\ p_out p = 1%nat /\
  own s x rsx 1 1 [[1%R]] /\ own s dv rsg 1 1 [[1%R]] /\ disjoint rsg rsx /\ disjoint rw rsx /\ disjoint rb rsx /\
  p_w p = [[1%R]] /\ p_b p = [[0%R]] /\
  returns (Layer_Backward 0 x dv) s (fun g s' => exists rsw dW X',
    own s' (g_w g) rsw 1 1 dW /\ ~ is_derive (fun w => 1 / (1 + exp (- (w * 1 + 0))))%R 1%R (entry dW 0 0) /\
    own s' x rsx 1 1 X' /\ X' <> [[1%R]]).
Proof. exact sigmoid_backward_wrong. Qed.
Print Assumptions C29_more_inputs_panics.
Print Assumptions C29_square.
Print Assumptions C29_more_outputs.
Print Assumptions C29_gradient_refuted.
Example C29_ex : nth_error (h_layers exs) 2 = Some (ex_layer SigmoidK) /\ lown exs (ex_layer SigmoidK) [5;6]%nat [7]%nat (ex_player SigmoidK) /\
  own exs mX [10;11]%nat 2 2 pX /\ own exs mA [1;2]%nat 2 2 pA /\ NoDup [10;11]%nat /\ disjoint [1;2]%nat [10;11]%nat /\
  disjoint [5;6]%nat [10;11]%nat /\ disjoint [7]%nat [10;11]%nat.
Proof. split; [reflexivity|]. split; [apply lown_ex|]. split; [exact own_mX|]. split; [exact own_mA|]. split; [nodup_tac|]. repeat split; disj_tac. Qed.
(** A 2 -> 1 layer (panic) and a 1 -> 2 layer (wrong shapes). *)
Example C29_ex_rect :
  let s := MkState (K := QNum) [[q 3]; [q 1; q 2]; [q 1]; [q 2]; [q 0]; [q 1; q 5]; [q 0; q 0]] [[1]; [2]; [3;4]; [5]; [6]; [7]]%nat
    [MkLayer SigmoidK 2 1 (MkMatrix 2 1 (MkSlice 3 0 2)) (MkMatrix 1 1 (MkSlice 4 0 1)) (q 0) (q 0) matrix0 matrix0;
     MkLayer SigmoidK 1 2 (MkMatrix 1 2 (MkSlice 5 0 1)) (MkMatrix 1 2 (MkSlice 6 0 1)) (q 0) (q 0) matrix0 matrix0] [] ex_rng true [] in
  fst (Layer_Backward 0 (MkMatrix 1 2 (MkSlice 2 0 1)) (MkMatrix 1 1 (MkSlice 1 0 1)) s) = Panic PIndex /\
  match Layer_Backward 1 (MkMatrix 1 1 (MkSlice 1 0 1)) (MkMatrix 1 2 (MkSlice 2 0 1)) s with (Ret g, s') => g_x g = matrix0 | _ => False end.
Proof. vm_compute. split; reflexivity. Qed.

(** ** C30: dropout *)
(** One uniform draw per output, in row order. *)
Theorem C30_training (K : Num) (s : state K) lref l rw rb p x rsx r X :
  nth_error (h_layers s) lref = Some l -> lown s l rw rb p -> p_kind p = Dropout ->
  own s x rsx r (p_in p) X -> (1 <= r)%nat ->
  returns (Layer_Forward lref x) s (fun out s' =>
    (exists rs, fresh_mat s s' out rs r (p_out p) (mk r (p_out p) (fun i j =>
      fmul (fmax (entry (paffine p r X) i j) f0)
           (fdiv (mask1 (p_drop p) (uniforms s (i * p_out p + j)%nat)) (fsub f1 (p_drop p)))))) /\
    frame nothing s s' /\ h_rng s' = adv_uni (h_rng s) (r * p_out p)).
Proof. exact (dropout_training s lref l rw rb p x rsx r X). Qed.
(** In exact arithmetic the mask is 1 exactly for draws in an interval of length 1 - dropout,
    and an output is relu(z)/(1-dropout) when the mask is 1 and 0 otherwise. *)
Theorem C30_keep_probability_real (d : R) : (0 <= d <= 1)%R ->
  exists a b : R, (0 <= a)%R /\ (b <= 1)%R /\ (b - a = 1 - d)%R /\
  forall u : R, (0 <= u < 1)%R -> mask1 (K := RNum) d u = (if Rle_dec a u then if Rlt_dec u b then 1 else 0 else 0)%R.
Proof. exact (R_mask_interval d). Qed.
Theorem C30_output_real (p : player RNum) r (X : rpm) (u : nat -> R) i j : (i < r)%nat -> (j < p_out p)%nat -> (0 <= p_drop p < 1)%R ->
  entry (pforward_drop p r X u) i j =
    if Rlt_dec 0 (mask1 (K := RNum) (p_drop p) (u (i * p_out p + j)%nat))
    then (Rmax (entry (paffine p r X) i j) 0 / (1 - p_drop p))%R else 0%R.
Proof. exact (R_drop_entry p r X u i j). Qed.
(** dropout 0: training and inference outputs are equal in exact arithmetic. *)
Theorem C30_zero_dropout_real (s : state RNum) lref l rw rb p x rsx r X :
  nth_error (h_layers s) lref = Some l -> lown s l rw rb p -> p_kind p = Dropout -> p_drop p = 0%R ->
  own s x rsx r (p_in p) X -> (1 <= r)%nat -> (forall n, (0 <= uniforms s n)%R) ->
  exists A, returns (Layer_Forward lref x) s (fun out s' => exists rs, own s' out rs r (p_out p) A) /\
            returns (Dropout_ForwardNoDropout lref x) s (fun out s' => exists rs, own s' out rs r (p_out p) A).
Proof. exact (dropout_zero_agree s lref l rw rb p x rsx r X). Qed.
(** dropout 1 in binary64: every training output is NaN (draws are never negative). *)
Theorem C30_dropout_one_binary64 (L : libm) (s : state (B64 L)) lref l rw rb p x rsx r X :
  nth_error (h_layers s) lref = Some l -> lown s l rw rb p -> p_kind p = Dropout -> p_drop p = f1 ->
  own s x rsx r (p_in p) X -> (1 <= r)%nat -> (forall n, flt (uniforms s n) f0 = false) ->
  returns (Layer_Forward lref x) s (fun out s' => exists rs A, own s' out rs r (p_out p) A /\
    forall i j, (i < r)%nat -> (j < p_out p)%nat -> b64_nan (entry A i j) = true).
Proof. exact (dropout_one_nan L s lref l rw rb p x rsx r X). Qed.
(** Guarantee "a layer built by NewDropoutLayer maps finite inputs to finite outputs": false. *)
Theorem C30_finite_output_refuted (L : libm) : exists (s s' : state (B64 L)) l x rsx (A : pm (B64 L)),
  NewDropoutLayer 1 1 f1 s = (Ret l, s') /\ own s' x rsx 1 1 A /\ b64_finite (entry A 0 0) = true /\
  returns (lref <- alloc_layer l ;; Layer_Forward lref x) s' (fun out s2 => exists rs B,
    own s2 out rs 1 1 B /\ b64_nan (entry B 0 0) = true).
Proof. exact (dropout_one_bad L). Qed.
Print Assumptions C30_training.
Print Assumptions C30_keep_probability_real.
Print Assumptions C30_output_real.
Print Assumptions C30_zero_dropout_real.
Print Assumptions C30_dropout_one_binary64.
Print Assumptions C30_finite_output_refuted.
(** Draws 0.1, 0.9, 0.1, 0.9 with dropout 1/4: drop, keep, drop, keep. *)
Example C30_ex : nth_error (h_layers exs) 5 = Some (ex_layer Dropout) /\ lown exs (ex_layer Dropout) [5;6]%nat [7]%nat (ex_player Dropout) /\
  own exs mX [10;11]%nat 2 2 pX /\
  match Layer_Forward 5 mX exs with (Ret m, s') => fst (Get m 0 0 s') = Ret (q 0) /\ fst (Get m 0 1 s') = Ret (4#3)%Q /\ r_upos (h_rng s') = 4%nat | _ => False end /\
  match Dropout_ForwardNoDropout 5 mX exs with (Ret m, s') => fst (Get m 0 0 s') = Ret (q 2) /\ r_upos (h_rng s') = 0%nat | _ => False end.
Proof. split; [reflexivity|]. split; [apply lown_ex|]. split; [exact own_mX|]. split; vm_compute; repeat split; reflexivity. Qed.

(** ** C32: Init *)
Theorem C32_init (K : Num) (s : state K) lref l rw rb p :
  nth_error (h_layers s) lref = Some l -> lown s l rw rb p -> NoDup rw ->
  returns (Init lref) s (fun _ s' =>
    own s' (l_w l) rw (p_in p) (p_out p) (mk (p_in p) (p_out p) (fun i j =>
      fmul (normals s (i * p_out p + j)%nat) (fsqrt (fdiv (ofZ 2) (ofZ (Z.of_nat (p_in p))))))) /\
    frame (among rw) s s' /\ rest2 s s' /\ h_layers s' = h_layers s /\
    h_rng s' = adv_nrm (h_rng s) (p_in p * p_out p)).
Proof. exact (fun h1 h2 h3 => returns_wp _ _ _ (wp_Init s lref l rw rb p h1 h2 h3)). Qed.
Print Assumptions C32_init.
Example C32_ex : nth_error (h_layers exs) 1 = Some (ex_layer Linear) /\ lown exs (ex_layer Linear) [5;6]%nat [7]%nat (ex_player Linear) /\ NoDup [5;6]%nat /\
  match Init 1 exs with (Ret _, s') => r_npos (h_rng s') = 4%nat /\ row_at s' 7 = row_at exs 7 | _ => False end.
Proof. split; [reflexivity|]. split; [apply lown_ex|]. split; [nodup_tac|]. vm_compute; repeat split; reflexivity. Qed.
