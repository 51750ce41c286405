(** * network.go and the part of binomial.go it uses *)
From Coq Require Import String ZArith List Bool.
From Verif Require Import Num Heap Matrix Activation.
Import ListNotations.
Open Scope Z_scope.
Open Scope go_scope.

Section WithNum.
Context {K : Num}.

(** LayerType codes, layer_data.go:18-25. *)
Definition lkind_code (k : lkind) : Z :=
  match k with Hidden => 0 | Linear => 1 | SigmoidK => 2 | Leaky => 3 | SoftmaxK => 4 | Dropout => 5 end.

(** The common part of the six constructors after their checks: zero weights and biases. *)
Definition fresh_layer (k : lkind) (inp out : Z) (slope drop : K) : M K (layer K) :=
  weights <- NewMatrix_ inp out ;;
  biases <- NewMatrix_ 1 out ;;
  ret (MkLayer k inp out weights biases slope drop matrix0 matrix0).

(** NewLayer, network.go:41-58. *)
Definition NewLayer (inp out : Z) : M K (layer K) :=
  if (inp <? 1) || (out <? 1) then fail (ELayerDims inp out) else fresh_layer Hidden inp out f0 f0.
(** NewLinearLayer, network.go:158-175. *)
Definition NewLinearLayer (inp out : Z) : M K (layer K) :=
  if (inp <? 1) || (out <? 1) then fail (ELayerDims inp out) else fresh_layer Linear inp out f0 f0.
(** NewSigmoidLayer, network.go:266-283. *)
Definition NewSigmoidLayer (inp out : Z) : M K (layer K) :=
  if (inp <? 1) || (out <? 1) then fail (ELayerDims inp out) else fresh_layer SigmoidK inp out f0 f0.
(** NewLeakyLayer, network.go:382-405. *)
Definition NewLeakyLayer (inp out : Z) (slope : K) : M K (layer K) :=
  if (inp <? 1) || (out <? 1) then fail (ELayerDims inp out)
  else if flt slope f0 then fail (EMsg "nn.LeakyLayer: Invalid LeakyRELU slope.")
  else fresh_layer Leaky inp out slope f0.
(** NewSoftmaxLayer, network.go:507-524. *)
Definition NewSoftmaxLayer (inp out : Z) : M K (layer K) :=
  if (inp <? 1) || (out <? 1) then fail (ELayerDims inp out) else fresh_layer SoftmaxK inp out f0 f0.
(** NewDropoutLayer, network.go:704-727. *)
Definition NewDropoutLayer (inp out : Z) (dropout : K) : M K (layer K) :=
  if (inp <? 1) || (out <? 1) then fail (ELayerDims inp out)
  else if flt f1 dropout || flt dropout f0 then fail (EMsg "Invalid dropout value.")
  else fresh_layer Dropout inp out f0 dropout.

(** Init of all six kinds (network.go:75-89, 192-206, 300-314, 423-437, 541-555, 745-759):
    identical code. *)
Definition Init (lref : nat) : M K unit :=
  l <- get_layer lref ;;
  let std := fsqrt (fdiv (ofZ 2) (ofZ (l_in l))) in
  for_ (l_in l) (fun i =>
    for_ (l_out l) (fun j =>
      z <- draw_normal ;;
      setc (l_w l) i j (fmul z std))).

(** The affine part of every Forward (network.go:94-108, 211-225, 319-333, 442-456, 560-574,
    764-778, 804-818): width check, x.Dot( *l.Weights), then add the bias row. *)
Definition affine (l : layer K) (x : matrix) : M K matrix :=
  if negb (mcols x =? l_in l) then fail (EMatDims (mrows x) (mcols x))
  else
    out <- Dot x (l_w l) ;;
    each_cell (mrows out) (mcols out) (fun i j =>
      v <- getc out i j ;;
      b <- getc (l_b l) 0 j ;;
      setc out i j (fadd v b)) ;;
    ret out.

Definition set_cache (l : layer K) (c : matrix) : layer K :=
  MkLayer (l_kind l) (l_in l) (l_out l) (l_w l) (l_b l) (l_slope l) (l_drop l) c (l_mask l).
Definition set_mask (l : layer K) (c : matrix) : layer K :=
  MkLayer (l_kind l) (l_in l) (l_out l) (l_w l) (l_b l) (l_slope l) (l_drop l) (l_cache l) c.

(** HiddenLayer.Forward, network.go:92-118.  [l.reluInputs = out] stores the header, so the
    in-place RELU also changes the saved inputs. *)
Definition Hidden_Forward (lref : nat) (x : matrix) : M K matrix :=
  l <- get_layer lref ;;
  out <- affine l x ;;
  put_layer lref (set_cache l out) ;;
  RELU out.

(** LinearLayer.Forward, network.go:209-229. *)
Definition Linear_Forward (lref : nat) (x : matrix) : M K matrix :=
  l <- get_layer lref ;;
  affine l x.

(** SigmoidLayer.Forward, network.go:317-340. *)
Definition Sigmoid_Forward (lref : nat) (x : matrix) : M K matrix :=
  l <- get_layer lref ;;
  out <- affine l x ;;
  Sigmoid out.

(** LeakyLayer.Forward, network.go:440-466. *)
Definition Leaky_Forward (lref : nat) (x : matrix) : M K matrix :=
  l <- get_layer lref ;;
  out <- affine l x ;;
  put_layer lref (set_cache l out) ;;
  LeakyRELU out (l_slope l).

(** SoftmaxLayer.Forward, network.go:558-584. *)
Definition Softmax_Forward (lref : nat) (x : matrix) : M K matrix :=
  l <- get_layer lref ;;
  out <- affine l x ;;
  out <- Softmax out ;;
  put_layer lref (set_cache l out) ;;
  ret out.

(** binomial.Rand for N = 1 (binomial.go:37-68, the "direct method" branch, the only one the
    library can reach): one uniform draw. *)
Definition binomial1_Rand (P : K) : M K K :=
  let p := if flt lit_half P then fsub f1 P else P in
  u <- draw_uniform ;;
  let bnl := if flt u p then fadd f0 f1 else f0 in
  ret (if negb (feq p P) then fsub f1 bnl else bnl).

(** DropoutLayer.Forward, network.go:762-799. *)
Definition Dropout_Forward (lref : nat) (x : matrix) : M K matrix :=
  l <- get_layer lref ;;
  out <- affine l x ;;
  put_layer lref (set_cache l out) ;;
  out <- RELU out ;;
  mask <- NewMatrix_ (mrows out) (mcols out) ;;
  put_layer lref (set_mask (set_cache l out) mask) ;;
  each_cell (mrows out) (mcols out) (fun i j =>
    b <- binomial1_Rand (fsub f1 (l_drop l)) ;;
    setc mask i j b ;;
    v <- getc out i j ;;
    b' <- getc mask i j ;;
    setc out i j (fmul v (fdiv b' (fsub f1 (l_drop l))))) ;;
  ret out.

(** DropoutLayer.ForwardNoDropout, network.go:802-828. *)
Definition Dropout_ForwardNoDropout (lref : nat) (x : matrix) : M K matrix :=
  l <- get_layer lref ;;
  out <- affine l x ;;
  put_layer lref (set_cache l out) ;;
  RELU out.

(** Dynamic dispatch of Layer.Forward (network.go:18). *)
Definition Layer_Forward (lref : nat) (x : matrix) : M K matrix :=
  l <- get_layer lref ;;
  match l_kind l with
  | Hidden => Hidden_Forward lref x
  | Linear => Linear_Forward lref x
  | SigmoidK => Sigmoid_Forward lref x
  | Leaky => Leaky_Forward lref x
  | SoftmaxK => Softmax_Forward lref x
  | Dropout => Dropout_Forward lref x
  end.

(** The three results of a backward pass: dWeights, dBiases, dInputs. *)
Record grads3 : Type := MkGrads3 { g_w : matrix; g_b : matrix; g_x : matrix }.

(** The tail of every Backward (network.go:134-145, 242-253, 356-367, 482-493, 638-649,
    677-688, 851-862).  The error of the last Dot is overwritten by nil in the return. *)
Definition dense_backward (l : layer K) (x dValues : matrix) : M K grads3 :=
  it <- T x ;;
  wt <- T (l_w l) ;;
  dWeights <- Dot it dValues ;;
  dBiases <- Sum dValues 0 ;;
  dInputs <- ignore_err matrix0 (Dot dValues wt) ;;
  ret (MkGrads3 dWeights dBiases dInputs).

(** The two width checks (network.go:123-128 and copies). *)
Definition check_backward (l : layer K) (x dValues : matrix) : M K unit :=
  if negb (mcols x =? l_in l) then fail (EMatDims (mrows x) (mcols x))
  else if negb (mcols dValues =? l_out l) then fail (EMatDims (mrows dValues) (mcols dValues))
  else ret tt.

(** HiddenLayer.Backward, network.go:121-146. *)
Definition Hidden_Backward (lref : nat) (x dValues : matrix) : M K grads3 :=
  l <- get_layer lref ;;
  check_backward l x dValues ;;
  dValues <- RELUPrime dValues (l_cache l) ;;
  dense_backward l x dValues.

(** LinearLayer.Backward, network.go:232-254. *)
Definition Linear_Backward (lref : nat) (x dValues : matrix) : M K grads3 :=
  l <- get_layer lref ;;
  check_backward l x dValues ;;
  dense_backward l x dValues.

(** SigmoidLayer.Backward, network.go:343-368: SigmoidPrime is applied to the layer INPUT x
    (overwriting it) and its result replaces dValues. *)
Definition Sigmoid_Backward (lref : nat) (x dValues : matrix) : M K grads3 :=
  l <- get_layer lref ;;
  check_backward l x dValues ;;
  dValues <- SigmoidPrime x dValues ;;
  dense_backward l x dValues.

(** LeakyLayer.Backward, network.go:469-494. *)
Definition Leaky_Backward (lref : nat) (x dValues : matrix) : M K grads3 :=
  l <- get_layer lref ;;
  check_backward l x dValues ;;
  dValues <- LeakyRELUPrime dValues (l_cache l) (l_slope l) ;;
  dense_backward l x dValues.

(** One iteration of the row loop of SoftmaxLayer.Backward, network.go:606-635. *)
Definition softmax_row (outputs dPrev dNew : matrix) (i : Z) : M K unit :=
  diag <- NewMatrix_ (mcols outputs) (mcols outputs) ;;
  for_ (mcols outputs) (fun j =>
    v <- getc outputs i j ;;
    setc diag j j v) ;;
  (* NewMatrixFromSlice([][]float64{l.outputs.M[i]}) *)
  orow <- idx_out (mdata outputs) i ;;
  osl <- alloc_out [orow] ;;
  outputRow <- ignore_err matrix0 (NewMatrixFromSlice osl) ;;
  outputRow <- T outputRow ;;
  outputRowT <- T outputRow ;;
  outputDot <- Dot outputRow outputRowT ;;
  jacobian <- Sub diag outputDot ;;
  drow <- idx_out (mdata dPrev) i ;;
  dsl <- alloc_out [drow] ;;
  dValuesRow <- ignore_err matrix0 (NewMatrixFromSlice dsl) ;;
  dValuesRowT <- T dValuesRow ;;
  row <- Dot jacobian dValuesRowT ;;
  rowT <- T row ;;
  r <- idx_out (mdata rowT) 0 ;;
  ignore_err tt (SetRow dNew i r).

(** SoftmaxLayer.Backward, network.go:587-650. *)
Definition Softmax_Backward (lref : nat) (x dValues : matrix) : M K grads3 :=
  l <- get_layer lref ;;
  let outputs := l_cache l in
  if negb (mcols x =? l_in l) then fail (EMatDims (mrows x) (mcols x))
  else if negb (mcols outputs =? l_out l) then fail (EMatDims (mrows outputs) (mcols outputs))
  else if negb (mcols dValues =? l_out l) then fail (EMatDims (mrows dValues) (mcols dValues))
  else if negb (mrows outputs =? mrows dValues) then fail (EMatDims (mrows outputs) (mrows dValues))
  else
    dNew <- NewMatrix_ (mrows dValues) (mcols dValues) ;;
    for_ (mrows dNew) (fun i => softmax_row outputs dValues dNew i) ;;
    dense_backward l x dNew.

(** SoftmaxLayer.BackwardCrossEntropy, network.go:653-689. *)
Definition BackwardCrossEntropy (lref : nat) (x y dValues : matrix) : M K grads3 :=
  l <- get_layer lref ;;
  if negb (mcols y =? l_out l) then fail (EMatDims (mrows y) (mcols y))
  else if negb (mcols dValues =? l_out l) then fail (EMatDims (mrows dValues) (mcols dValues))
  else if negb (mrows y =? mrows dValues) then fail (EMatDims (mrows y) (mrows dValues))
  else
    newValues <- NewMatrix_ (mrows dValues) (mcols dValues) ;;
    each_cell (mrows dValues) (mcols dValues) (fun i j =>
      t <- getc y i j ;;
      d <- getc dValues i j ;;
      if feq t f1 then
        setc newValues i j (fdiv (fsub d f1) (ofZ (mrows dValues)))
      else
        setc newValues i j (fdiv d (ofZ (mrows dValues)))) ;;
    dense_backward l x newValues.

(** DropoutLayer.Backward, network.go:831-863. *)
Definition Dropout_Backward (lref : nat) (x dValues : matrix) : M K grads3 :=
  l <- get_layer lref ;;
  check_backward l x dValues ;;
  each_cell (mrows dValues) (mcols dValues) (fun i j =>
    d <- getc dValues i j ;;
    b <- getc (l_mask l) i j ;;
    setc dValues i j (fmul d b)) ;;
  dValues <- RELUPrime dValues (l_cache l) ;;
  dense_backward l x dValues.

(** Dynamic dispatch of Layer.Backward (network.go:19). *)
Definition Layer_Backward (lref : nat) (x dValues : matrix) : M K grads3 :=
  l <- get_layer lref ;;
  match l_kind l with
  | Hidden => Hidden_Backward lref x dValues
  | Linear => Linear_Backward lref x dValues
  | SigmoidK => Sigmoid_Backward lref x dValues
  | Leaky => Leaky_Backward lref x dValues
  | SoftmaxK => Softmax_Backward lref x dValues
  | Dropout => Dropout_Backward lref x dValues
  end.

End WithNum.
