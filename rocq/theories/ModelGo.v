(** * model.go, and InitLogger of nn.go *)
From Coq Require Import String ZArith List Bool.
From Verif Require Import Num Heap Matrix Activation Misc Accuracy Loss Network Optimizers.
Import ListNotations.
Open Scope Z_scope.
Open Scope go_scope.

Section WithNum.
Context {K : Num}.

(** model.go:53-65.  Layers and optimizers are references (interface values holding
    pointers); the loss object is immutable, so it is stored by value ([None] is the nil
    interface).  The Model struct itself is passed by value here: methods with a pointer
    receiver that assign fields return the new struct. *)
Record model : Type := MkModel {
  m_size : Z;                 (* ModelSize *)
  m_in : Z; m_out : Z;        (* InputSize, OutputSize *)
  m_losstype : Z;             (* LossType *)
  m_loss : option loss;       (* Loss *)
  m_acctype : Z;              (* AccuracyType *)
  m_prec : K;                 (* AccuracyPercision *)
  m_opttype : Z;              (* OptimizerType *)
  m_optvals : gomap K;        (* OptimizerValues *)
  m_layers : list nat;        (* Layers *)
  m_opts : list nat           (* Optimizers *)
}.

(** model.go:68-72. *)
Definition NewModel : model := MkModel 0 0 0 0 None 0 f0 0 [] [] [].

(** The integers AddLayer reads from getValues (network.go:61-64 and the five copies):
    int(float64(l.InputSize)) and int(float64(l.OutputSize)). *)
Definition layer_inputs (l : layer K) : Z := toZ (ofZ (n := K) (l_in l)).
Definition layer_outputs (l : layer K) : Z := toZ (ofZ (n := K) (l_out l)).

(** model.go:75-97.  Returns the new struct and the error (nil = None). *)
Definition AddLayer (m : model) (lref : nat) : M K (model * option err) :=
  l <- get_layer lref ;;
  if (m_size m =? 0) || (m_out m =? layer_inputs l) then
    ret (MkModel (m_size m + 1)
                 (if m_size m =? 0 then layer_inputs l else m_in m)
                 (layer_outputs l)
                 (m_losstype m) (m_loss m) (m_acctype m) (m_prec m) (m_opttype m) (m_optvals m)
                 (m_layers m ++ [lref]) (m_opts m), None)
  else ret (m, Some (EMsg "nn.Model: Layer's input size does not match up with previous layer's input size.")).

(** Conversions float64 -> int8 (LossType(values["type"]), OptimizerType(values["type"])):
    only applied to float64 of small codes. *)
Definition wrap8 (z : Z) : Z := (z + 128) mod 256 - 128.
Definition wrap32 (z : Z) : Z := (z + 2147483648) mod 4294967296 - 2147483648.

(** model.go:100-133.  [values] of the loss: loss.go:31-34 and copies.  [optimizer] is only
    read.  Returns the struct as it is when the call returns, and the error. *)
Definition Finalize (m : model) (l : loss) (o : optimizer K) (acctype : Z) (prec : K)
    : M K (model * option err) :=
  if negb (m_out m =? toZ (ofZ (n := K) (ls_size l))) then
    ret (m, Some (EMsg "nn.Model: Loss size does not match up with output size."))
  else
    let losstype := wrap8 (toZ (ofZ (n := K) (losskind_code (ls_kind l)))) in
    let values := opt_getValues o in
    let opttype := wrap8 (toZ (mget "type" values)) in
    let values := map_del "type" values in
    opts <- for_acc (m_size m) (fun _ opts =>
      o <- NewOptimizerFromType opttype values ;;
      oref <- alloc_opt o ;;
      ret (opts ++ [oref])) [] ;;
    if flt prec f0 then
      ret (MkModel (m_size m) (m_in m) (m_out m) losstype (Some l) acctype (m_prec m)
                   opttype values (m_layers m) opts,
           Some (EMsg "nn.Model: Accuracy percision cannot be less than zero."))
    else
      ret (MkModel (m_size m) (m_in m) (m_out m) losstype (Some l) acctype prec
                   opttype values (m_layers m) opts, None).

(** Slice indexing of []Layer, []Optimizer, []Matrix, []Gradients. *)
Definition go_nth {A} (l : list A) (i : Z) : M K A :=
  if (0 <=? i) && (i <? Z.of_nat (length l)) then
    match nth_error l (Z.to_nat i) with
    | Some x => ret x
    | None => panic PIndex
    end
  else panic PIndex.

(** model.go:136-140. *)
Definition InitLayers (m : model) : M K unit :=
  for_ (m_size m) (fun i =>
    lref <- go_nth (m_layers m) i ;;
    Init lref).

(** One step of Model.Forward's loop body, model.go:149-164. *)
Definition forward_layer (training : bool) (lref : nat) (x : matrix) : M K matrix :=
  l <- get_layer lref ;;
  match l_kind l, training with
  | Dropout, false => Dropout_ForwardNoDropout lref x
  | _, _ => Layer_Forward lref x
  end.

(** model.go:143-169. *)
Definition Forward (m : model) (X : matrix) (training : bool) : M K (list matrix) :=
  r <- for_acc (m_size m) (fun i (acc : list matrix * matrix) =>
    lref <- go_nth (m_layers m) i ;;
    out <- forward_layer training lref (snd acc) ;;
    ret (fst acc ++ [out], out)) ([X], X) ;;
  ret (fst r).

(** model.go:46-49. *)
Record gradients : Type := MkGrad { g_dw : matrix; g_db : matrix }.

(** [_, ok := m.Layers[i].( *SoftmaxLayer)] *)
Definition is_softmax (lref : nat) : M K bool :=
  l <- get_layer lref ;;
  ret (match l_kind l with SoftmaxK => true | _ => false end).

(** The loop model.go:197-207, from i = k-1 down to 0. *)
Fixpoint backward_loop (m : model) (outputs : list matrix) (k : nat)
    (dValues : matrix) (grads : list gradients) : M K (list gradients) :=
  match k with
  | O => ret grads
  | S k' =>
      let i := Z.of_nat k' in
      lref <- go_nth (m_layers m) i ;;
      sm <- is_softmax lref ;;
      if sm && (m_losstype m =? 2) && (i =? m_size m - 1) then
        backward_loop m outputs k' dValues grads
      else
        x <- go_nth outputs i ;;
        g <- Layer_Backward lref x dValues ;;
        backward_loop m outputs k' (g_x g) (grads ++ [MkGrad (g_w g) (g_b g)])
  end.

(** model.go:172-211. *)
Definition Backward (m : model) (outputs : list matrix) (Y : matrix) : M K (list gradients) :=
  last <- go_nth (m_layers m) (m_size m - 1) ;;
  sm <- is_softmax last ;;
  if sm && (m_losstype m =? 2) then
    x <- go_nth outputs (m_size m - 1) ;;
    out <- go_nth outputs (m_size m) ;;
    g <- BackwardCrossEntropy last x Y out ;;
    backward_loop m outputs (Z.to_nat (m_size m)) (g_x g) [MkGrad (g_w g) (g_b g)]
  else
    match m_loss m with
    | None => panic PNil
    | Some l =>
        out <- go_nth outputs (m_size m) ;;
        dValues <- Loss_Backward l out Y ;;
        backward_loop m outputs (Z.to_nat (m_size m)) dValues []
    end.

(** model.go:304-318. *)
Definition CalculateLoss (m : model) (X Y : matrix) : M K K :=
  outputs <- Forward m X false ;;
  out <- go_nth outputs (m_size m) ;;
  match m_loss m with
  | None => panic PNil
  | Some l => Loss_Forward l out Y
  end.

(** model.go:321-337. *)
Definition CalculateAccuracy (m : model) (X Y : matrix) : M K K :=
  outputs <- Forward m X false ;;
  if m_acctype m =? 0 then
    out <- go_nth outputs (m_size m) ;; RegressionAccuracy out Y (m_prec m)
  else if m_acctype m =? 1 then
    out <- go_nth outputs (m_size m) ;; CategoricalAccuracy out Y
  else if m_acctype m =? 2 then
    out <- go_nth outputs (m_size m) ;; BinaryCategoricalAccuracy out Y
  else fail (EMsg "nn.Model: Invalid accuracy type.").

(** model.go:340-356. *)
Definition Predict (m : model) (X : matrix) : M K matrix :=
  outputs <- Forward m X false ;;
  if m_acctype m =? 0 then go_nth outputs (m_size m)
  else if m_acctype m =? 1 then
    out <- go_nth outputs (m_size m) ;; RowMax out
  else if m_acctype m =? 2 then
    out <- go_nth outputs (m_size m) ;; OutputBinaryValues out
  else fail (EMsg "nn.Model: Invalid accuracy type.").

(** [if err != nil { ErrorLogger.Printf(what + "%s", err.Error()); return err }]. *)
Definition or_log {A} (what : string) (m : M K A) : M K A :=
  r <- catch m ;;
  match r with
  | inl a => ret a
  | inr e => log_print (LError what e) ;; fail e
  end.

(** One batch: model.go:235-260. *)
Definition fit_batch (m : model) (X Y : matrix) (batchSize batchStep : Z) : M K unit :=
  let lo := batchStep * batchSize in
  let hi := toZ (fmin (ofZ (n := K) ((batchStep + 1) * batchSize)) (ofZ (mrows Y))) in
  bx <- reslice (mdata X) lo hi ;;
  batchX <- ignore_err matrix0 (NewMatrixFromSlice bx) ;;
  by_ <- reslice (mdata Y) lo hi ;;
  batchY <- ignore_err matrix0 (NewMatrixFromSlice by_) ;;
  outputs <- or_log "Failed to perform forward pass: " (Forward m batchX true) ;;
  grads <- or_log "Failed to perform forward pass: " (Backward m outputs batchY) ;;
  for_ (m_size m) (fun layer =>
    lref <- go_nth (m_layers m) layer ;;
    l <- get_layer lref ;;
    oref <- go_nth (m_opts m) layer ;;
    g <- go_nth grads (m_size m - layer - 1) ;;
    or_log "Failed to update using optimizer: " (Opt_Update oref (l_w l) (l_b l) (g_dw g) (g_db g))).

(** Loss and accuracy of one data set, logged: model.go:264-279 and 282-297. *)
Definition fit_log (m : model) (X Y : matrix) (what : string) (line : K -> K -> logline K) : M K unit :=
  loss <- or_log ("Failed to calculate " ++ what ++ "loss: ") (CalculateLoss m X Y) ;;
  acc <- or_log ("Failed to calculate " ++ what ++ "accuracy: ") (CalculateAccuracy m X Y) ;;
  log_print (line loss acc).

(** model.go:214-301.  [/] and [%] on int truncate ([Z.quot], [Z.rem]); both divisors are
    non-zero where they are evaluated. *)
Definition Fit (m : model) (X Y : matrix) (epochs batchSize : Z) (xVal yVal : matrix)
    (logEvery : Z) : M K unit :=
  let useValidation := negb (mrows yVal =? 0) in
  let useBatching := negb (batchSize =? 0) in
  let batchSteps :=
    if useBatching then
      let q := Z.quot (mrows Y) batchSize in
      if q * batchSize <? mrows Y then q + 1 else q
    else 1 in
  let batchSize := if useBatching then batchSize else mrows Y in
  for_ epochs (fun epoch =>
    for_ batchSteps (fun batchStep => fit_batch m X Y batchSize batchStep) ;;
    (if negb (logEvery =? 0) && (Z.rem epoch logEvery =? 0)
     then fit_log m X Y "" (LInfo epoch) else ret tt) ;;
    (if useValidation && negb (logEvery =? 0) && (Z.rem epoch logEvery =? 0)
     then fit_log m xVal yVal "validation " (LValInfo epoch) else ret tt)).

(** InitLogger, nn.go:28-55.  [open_ok] tells whether os.OpenFile succeeds; its error value
    is not modelled further. *)
Definition InitLogger (verbose useFile open_ok : bool) : M K unit :=
  if useFile && negb open_ok then fail (EMsg "open")
  else fun s => (Ret tt, with_logger s true).

End WithNum.
Arguments model K : clear implicits.
