(** * PropRange: sign and range of float64 results (C96). *)
From Coq Require Import String ZArith List Bool Arith Reals.
From Flocq Require Import IEEE754.Bits IEEE754.BinarySingleNaN.
From Verif Require Import Num NumB64 Heap Spec Matrix Network Loss Optimizers ModelGo PureSpec OptSpec ModelSpec Repr LossMore FloatRange FloatGlue FloatEx.
Import ListNotations.
Open Scope Z_scope.

(** C96: in float64 every output of a softmax or sigmoid layer is a NaN or in [0,1], every output of a ReLU layer, with or
    without dropout, is a NaN or not negative. *)
Theorem C96_layers (L : libm) (s : state (B64 L)) lref l rw rb (p : player (B64 L)) x rsx r X :
  (forall v, b64_lt (l_exp L v) (b64_ofZ 0) = false) -> (p_kind p = Dropout -> b64_finite (p_drop p) = true /\ (0 <= b64_R (p_drop p) <= 1)%R) ->
  nth_error (h_layers s) lref = Some l -> lown s l rw rb p -> own s x rsx r (p_in p) X -> (1 <= r)%nat ->
  returns (Layer_Forward lref x) s (fun out s' => exists rs O, own s' out rs r (p_out p) O /\
    forall i j, (i < r)%nat -> (j < p_out p)%nat ->
      match p_kind p with
      | SoftmaxK | SigmoidK => b64_nan (entry O i j) = true \/ b64_finite (entry O i j) = true /\ (0 <= b64_R (entry O i j) <= 1)%R
      | Hidden | Dropout => b64_lt (entry O i j) (b64_ofZ 0) = false
      | Linear | Leaky => True
      end).
Proof. exact (layer_range L s lref l rw rb p x rsx r X). Qed.
Print Assumptions C96_layers.

(** C96: no loss is negative in float64: the absolute error always, the squared error if math.Pow(x,2) is not negative, the
    cross-entropies if math.Log is not positive on [0,1] and the labels are one-hot, respectively in [0,1]. *)
Theorem C96_loss (L : libm) (s : state (B64 L)) k yhat rs y rsy r c (Yh Y : pm (B64 L)) : loss_args s yhat rs y rsy r c Yh Y ->
  match k with
  | MSE => forall v, b64_lt (l_pow L v (b64_ofZ 2)) (b64_ofZ 0) = false
  | MAE => True
  | CE => (forall v, b64_nan v = true \/ b64_finite v = true /\ (0 <= b64_R v <= 1)%R -> b64_lt (b64_ofZ 0) (l_log L v) = false) /\
      (forall i, (i < r)%nat -> exists h, (h < c)%nat /\ forall j, (j < c)%nat -> entry Y i j = if (j =? h)%nat then f1 else f0)
  | BCE => (forall v, b64_nan v = true \/ b64_finite v = true /\ (0 <= b64_R v <= 1)%R -> b64_lt (b64_ofZ 0) (l_log L v) = false) /\
      (forall i j, (i < r)%nat -> (j < c)%nat -> b64_finite (entry Y i j) = true /\ (0 <= b64_R (entry Y i j) <= 1)%R)
  end ->
  returns (Loss_Forward (MkLoss k (Z.of_nat c)) yhat y) s (fun v _ => b64_lt v (b64_ofZ 0) = false).
Proof. exact (loss_range L s k yhat rs y rsy r c Yh Y). Qed.
Print Assumptions C96_loss.
Theorem C96_model_loss (L : libm) (s : state (B64 L)) m es i o k x rsx y rsy r X Y :
  consistent s m es i o -> (1 <= length es)%nat -> m_loss m = Some (MkLoss k (Z.of_nat o)) -> own s x rsx r i X -> own s y rsy r o Y -> (1 <= r)%nat -> loss_ok L k r o Y ->
  returns (CalculateLoss m x y) s (fun v _ => b64_lt v (b64_ofZ 0) = false).
Proof. exact (model_loss_range L s m es i o k x rsx y rsy r X Y). Qed.
Print Assumptions C96_model_loss.

(** C96: during Fit Adam's second-moment estimates never become negative ... *)
Theorem C96_adam (L : libm) (s : state (B64 L)) m es xs i o k x rsx y rsy n X Y epochs bs xv yv :
  (forall v, b64_lt (l_pow L v (b64_ofZ 2)) (b64_ofZ 0) = false) -> 0 <= bs -> Z.of_nat n + bs <= 2 ^ 52 -> (1 <= n)%nat ->
  trainable s m es xs i o k -> data_ok s es x rsx y rsy n i o X Y -> Forall (adam_ok L) (trainer es xs) ->
  returns (Fit m x y epochs bs xv yv 0) s (fun _ s' => exists es' xs', trainable s' m es' xs' i o k /\ Forall (adam_ok L) (trainer es' xs')).
Proof. exact (fit_adam L s m es xs i o k x rsx y rsy n X Y epochs bs xv yv). Qed.
Print Assumptions C96_adam.
(** ... and the number Adam divides by is a NaN or at least epsilon. *)
Theorem C96_denominator (L : libm) (c corr eps : B64 L) : b64_lt eps (b64_ofZ 0) = false -> let D := fadd (fsqrt (fmul c corr)) eps in
  b64_nan D = true \/ D = b64_inf false \/ (b64_finite eps = true /\ b64_finite D = true /\ (b64_R eps <= b64_R D)%R).
Proof. exact (adam_denominator L c corr eps). Qed.
Print Assumptions C96_denominator.

Example C96_ex : SoftFloat.exp_nonneg fx_lib /\ log_nonpos fx_lib /\ square_nonneg fx_lib /\ hot fx_lib 2 3 fx_y /\
  b64_lt (b64_ofZ 0) (pce 2 3 fx_p fx_y) = true /\ b64_lt (b64_ofZ 0) (pmse 3 fx_p fx_y) = true /\ b64_lt (b64_ofZ 0) (pmae 3 fx_p fx_y) = true.
Proof. exact (conj (proj1 fx_ok) (conj (proj1 (proj2 fx_ok)) (conj (proj2 (proj2 fx_ok)) (conj fx_hot fx_values)))). Qed.
Example C96_adam_ex : adam_ok fx_lib (PL Hidden 3 2 [] [] f0 f0, PO Adam f1 f0 f0 lit_1em7 lit_half lit_half f1 0 false false [] [] (zmat 3 2) (zmat 1 2)).
Proof. exact (fx_adam 3 2 0). Qed.
