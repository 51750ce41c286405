(** * Properties C24-C28, C31: the gradients of network.go, in exact (real) arithmetic.

    [is_vjp f p r X G dW dB dX] (GradSpec.v): for every differentiable motion of weights,
    biases and input through the point (p, X), the rate of change of <G, f> is
    <dW, weights'> + <dB, biases'> + <dX, input'>.  [pforward] is the function that
    C21_forward shows Forward computes.  [bwd_result] : the three returned matrices are new,
    pairwise disjoint, and hold dW, dB, dX. *)
From Coq Require Import String ZArith List Bool Arith Lia Reals Lra.
From Coquelicot Require Import Coquelicot.
From Verif Require Import Num NumR Heap Spec PureSpec Repr Matrix Loss Network RSum GradSpec Grad GradCode LossCode LossRefute.
Import ListNotations.
Open Scope R_scope.
Open Scope go_scope.

(** What [is_vjp] means entry by entry: partial derivatives of <G, output>. *)
Theorem C24_vjp_partials f p r (X G dW dB dX : rpm) :
  shape (p_in p) (p_out p) (p_w p) -> shape 1 (p_out p) (p_b p) -> shape r (p_in p) X ->
  is_vjp f p r X G dW dB dX ->
  (forall a b, (a < p_in p)%nat -> (b < p_out p)%nat ->
     is_derive (fun t => inner r (p_out p) G (f (with_params p (put (p_in p) (p_out p) (p_w p) a b t) (p_b p)) X)) (entry (p_w p) a b) (entry dW a b)) /\
  (forall b, (b < p_out p)%nat ->
     is_derive (fun t => inner r (p_out p) G (f (with_params p (p_w p) (put 1 (p_out p) (p_b p) 0 b t)) X)) (entry (p_b p) 0 b) (entry dB 0 b)) /\
  (forall a b, (a < r)%nat -> (b < p_in p)%nat ->
     is_derive (fun t => inner r (p_out p) G (f (with_params p (p_w p) (p_b p)) (put r (p_in p) X a b t))) (entry X a b) (entry dX a b)).
Proof. exact (vjp_partials f p r X G dW dB dX). Qed.

(** ** C24 *)
Theorem C24_linear_gradient (s : state RNum) lref l rw rb p x rsx r (X : rpm) dv rsg (G : rpm) :
  nth_error (h_layers s) lref = Some l -> lown s l rw rb p -> p_kind p = Linear ->
  own s x rsx r (p_in p) X -> (1 <= r)%nat -> own s dv rsg r (p_out p) G -> NoDup rsg ->
  disjoint rsx rsg -> disjoint rw rsg -> disjoint rb rsg ->
  returns (out <- Layer_Forward lref x ;; g <- Layer_Backward lref x dv ;; ret (out, g)) s (fun og s' =>
    (exists rs, fresh_mat s s' (fst og) rs r (p_out p) (pforward p r X)) /\
    exists dW dB dX, bwd_result s s' (snd og) (p_in p) (p_out p) r dW dB dX /\
      is_vjp (fun q Y => pforward q r Y) p r X G dW dB dX).
Proof. exact (gradient_linear s lref l rw rb p x rsx r X dv rsg G). Qed.
(** ** C25 *)
Theorem C25_hidden_gradient (s : state RNum) lref l rw rb p x rsx r (X : rpm) dv rsg (G : rpm) :
  nth_error (h_layers s) lref = Some l -> lown s l rw rb p -> p_kind p = Hidden ->
  own s x rsx r (p_in p) X -> (1 <= r)%nat -> own s dv rsg r (p_out p) G -> NoDup rsg ->
  disjoint rsx rsg -> disjoint rw rsg -> disjoint rb rsg ->
  away_from_zero p r X ->
  returns (out <- Layer_Forward lref x ;; g <- Layer_Backward lref x dv ;; ret (out, g)) s (fun og s' =>
    (exists rs, fresh_mat s s' (fst og) rs r (p_out p) (pforward p r X)) /\
    exists dW dB dX, bwd_result s s' (snd og) (p_in p) (p_out p) r dW dB dX /\
      is_vjp (fun q Y => pforward q r Y) p r X G dW dB dX).
Proof. exact (gradient_hidden s lref l rw rb p x rsx r X dv rsg G). Qed.
(** ** C26 *)
Theorem C26_leaky_gradient (s : state RNum) lref l rw rb p x rsx r (X : rpm) dv rsg (G : rpm) :
  nth_error (h_layers s) lref = Some l -> lown s l rw rb p -> p_kind p = Leaky -> 0 < p_slope p ->
  own s x rsx r (p_in p) X -> (1 <= r)%nat -> own s dv rsg r (p_out p) G -> NoDup rsg ->
  disjoint rsx rsg -> disjoint rw rsg -> disjoint rb rsg ->
  away_from_zero p r X ->
  returns (out <- Layer_Forward lref x ;; g <- Layer_Backward lref x dv ;; ret (out, g)) s (fun og s' =>
    (exists rs, fresh_mat s s' (fst og) rs r (p_out p) (pforward p r X)) /\
    exists dW dB dX, bwd_result s s' (snd og) (p_in p) (p_out p) r dW dB dX /\
      is_vjp (fun q Y => pforward q r Y) p r X G dW dB dX).
Proof. exact (gradient_leaky s lref l rw rb p x rsx r X dv rsg G). Qed.
Theorem C26_slope_zero_refuted : exists (s : state RNum) l rw rb p x rsx dv rsg X G,
  (nth_error (h_layers s) 0 = Some l /\ lown s l rw rb p /\ own s x rsx 1 (p_in p) X /\ own s dv rsg 1 (p_out p) G /\
   NoDup rsg /\ disjoint rsx rsg /\ disjoint rw rsg /\ disjoint rb rsg) /\
  p_kind p = Leaky /\ p_slope p = 0 /\ away_from_zero p 1 X /\
  returns (out <- Layer_Forward 0 x ;; g <- Layer_Backward 0 x dv ;; ret (out, g)) s (fun og s' =>
    exists dW dB dX, bwd_result s s' (snd og) (p_in p) (p_out p) 1 dW dB dX /\
     ~ is_vjp (fun q Y => pforward q 1 Y) p 1 X G dW dB dX).
Proof. exact leaky_slope_zero. Qed.
(** ** C27 *)
Theorem C27_softmax_gradient (s : state RNum) lref l rw rb p x rsx r (X : rpm) dv rsg (G : rpm) :
  nth_error (h_layers s) lref = Some l -> lown s l rw rb p -> p_kind p = SoftmaxK ->
  own s x rsx r (p_in p) X -> (1 <= r)%nat -> own s dv rsg r (p_out p) G -> NoDup rsg ->
  disjoint rsx rsg -> disjoint rw rsg -> disjoint rb rsg ->
  returns (out <- Layer_Forward lref x ;; g <- Layer_Backward lref x dv ;; ret (out, g)) s (fun og s' =>
    (exists rs, fresh_mat s s' (fst og) rs r (p_out p) (pforward p r X)) /\
    exists dW dB dX, bwd_result s s' (snd og) (p_in p) (p_out p) r dW dB dX /\
      is_vjp (fun q Y => pforward q r Y) p r X G dW dB dX).
Proof. exact (gradient_softmax s lref l rw rb p x rsx r X dv rsg G). Qed.
(** ** C28 *)
(** [pce r c A Y]: the mean over the r rows of -log (sum_j clip(A_ij) Y_ij), the value
    CrossEntropyLoss.Forward returns (C33_cross_entropy). *)
Theorem C28_fused_gradient (s : state RNum) lref l rw rb p x rsx r (X : rpm) y rsy (Y : rpm) :
  nth_error (h_layers s) lref = Some l -> lown s l rw rb p -> p_kind p = SoftmaxK ->
  own s x rsx r (p_in p) X -> (1 <= r)%nat -> own s y rsy r (p_out p) Y -> one_hot r (p_out p) Y ->
  returns (out <- Layer_Forward lref x ;;
           g1 <- BackwardCrossEntropy lref x y out ;;
           d <- Loss_Backward (MkLoss CE (Z.of_nat (p_out p))) out y ;;
           g2 <- Layer_Backward lref x d ;;
           ret (g1, g2)) s (fun gg s' => exists dW dB dX,
    bwd_result s s' (fst gg) (p_in p) (p_out p) r dW dB dX /\ bwd_result s s' (snd gg) (p_in p) (p_out p) r dW dB dX /\
    is_loss_grad (fun A => pce r (p_out p) A Y) (fun q A => pforward q r A) p r X dW dB dX).
Proof. exact (fused_correct s lref l rw rb p x rsx r X y rsy Y). Qed.
Theorem C28_soft_labels_refuted : exists (s : state RNum) l rw rb p x rsx X y rsy Y,
  nth_error (h_layers s) 0 = Some l /\ lown s l rw rb p /\ p_kind p = SoftmaxK /\ p_out p = 2%nat /\
  own s x rsx 1 (p_in p) X /\ own s y rsy 1 2 Y /\ in01 1 2 Y /\ rsum 2 (fun j => entry Y 0 j) = 1 /\
  returns (out <- Layer_Forward 0 x ;;
           g1 <- BackwardCrossEntropy 0 x y out ;;
           d <- Loss_Backward (MkLoss CE 2) out y ;;
           g2 <- Layer_Backward 0 x d ;;
           ret (g1, g2)) s (fun gg s' => exists dW1 dB1 dX1 dW2 dB2 dX2,
    bwd_result s s' (fst gg) (p_in p) 2 1 dW1 dB1 dX1 /\ bwd_result s s' (snd gg) (p_in p) 2 1 dW2 dB2 dX2 /\
    entry dB1 0 0 <> entry dB2 0 0 /\
    ~ is_loss_grad (fun A => pce 1 2 A Y) (fun q A => pforward q 1 A) p 1 X dW1 dB1 dX1).
Proof. exact fused_soft_labels. Qed.
(** ** C31 *)
(** [is_vjp_scaled (1 - dropout)]: (1 - dropout) times the vector-Jacobian product of the pass
    that was executed (same uniform draws). *)
Theorem C31_dropout_gradient (s : state RNum) lref l rw rb p x rsx r (X : rpm) dv rsg (G : rpm) :
  nth_error (h_layers s) lref = Some l -> lown s l rw rb p -> p_kind p = Dropout -> 0 <= p_drop p < 1 ->
  own s x rsx r (p_in p) X -> (1 <= r)%nat -> own s dv rsg r (p_out p) G -> NoDup rsg ->
  disjoint rsx rsg -> disjoint rw rsg -> disjoint rb rsg -> away_from_zero p r X ->
  returns (out <- Layer_Forward lref x ;; g <- Layer_Backward lref x dv ;; ret (out, g)) s (fun og s' =>
    (exists rs, fresh_mat s s' (fst og) rs r (p_out p) (pforward_drop p r X (uniforms s))) /\
    exists dW dB dX, bwd_result s s' (snd og) (p_in p) (p_out p) r dW dB dX /\
      is_vjp_scaled (1 - p_drop p) (fun q Y => pforward_drop q r Y (uniforms s)) p r X G dW dB dX).
Proof. exact (gradient_dropout s lref l rw rb p x rsx r X dv rsg G). Qed.
Theorem C31_dropout_gradient_refuted : exists (s : state RNum) l rw rb p x rsx dv rsg X G,
  (nth_error (h_layers s) 0 = Some l /\ lown s l rw rb p /\ own s x rsx 1 (p_in p) X /\ own s dv rsg 1 (p_out p) G /\
   NoDup rsg /\ disjoint rsx rsg /\ disjoint rw rsg /\ disjoint rb rsg) /\
  p_kind p = Dropout /\ (p_drop p = 1/2)%R /\ away_from_zero p 1 X /\
  returns (out <- Layer_Forward 0 x ;; g <- Layer_Backward 0 x dv ;; ret (out, g)) s (fun og s' =>
    exists dW dB dX, bwd_result s s' (snd og) (p_in p) (p_out p) 1 dW dB dX /\
     ~ is_vjp (fun q Y => pforward_drop q 1 Y (uniforms s)) p 1 X G dW dB dX).
Proof. exact dropout_gradient_wrong. Qed.

Print Assumptions C24_vjp_partials.
Print Assumptions C24_linear_gradient.
Print Assumptions C25_hidden_gradient.
Print Assumptions C26_leaky_gradient.
Print Assumptions C26_slope_zero_refuted.
Print Assumptions C27_softmax_gradient.
Print Assumptions C28_fused_gradient.
Print Assumptions C28_soft_labels_refuted.
Print Assumptions C31_dropout_gradient.
Print Assumptions C31_dropout_gradient_refuted.

(** The hypotheses of C24-C28 and C31 hold together on a 2-row batch through 2x2 layers with
    pre-activations of both signs. *)
Example C24_ex :
  (forall k l, nth_error [Hidden; Linear; Leaky; SoftmaxK; Dropout] k = Some l ->
     nth_error (h_layers er_state) k = Some (er_layer l) /\ lown er_state (er_layer l) [1;2]%nat [3]%nat (er_player l) /\
     p_kind (er_player l) = l /\ away_from_zero (er_player l) 2 erX /\
     0 < p_slope (er_player l) /\ 0 <= p_drop (er_player l) < 1 /\
     own er_state er_x [4;5]%nat 2 (p_in (er_player l)) erX /\ own er_state er_g [6;7]%nat 2 (p_out (er_player l)) erG /\
     own er_state er_y [8;9]%nat 2 (p_out (er_player l)) erY) /\
  one_hot 2 2 erY /\ NoDup [6;7]%nat /\ disjoint [4;5]%nat [6;7]%nat /\ disjoint [1;2]%nat [6;7]%nat /\ disjoint [3]%nat [6;7]%nat.
Proof.
  split.
  - intros k l H. split; [|split; [apply er_lown|split; [reflexivity|split; [apply er_away|]]]].
    + do 5 (destruct k as [|k]; [injection H as <-; reflexivity|]). destruct k; discriminate.
    + split; [simpl; lra|]. split; [simpl; lra|]. split; [exact er_own_x|split; [exact er_own_g|exact er_own_y]].
  - split; [exact er_onehot|]. split; [nd|]. split; [dj|]. split; dj.
Qed.
