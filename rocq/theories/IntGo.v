(** * IntGo: the integer arithmetic of Fit with 64-bit wrap-around.

    [Fit] of ModelGo.v computes with unbounded integers.  Here every integer operation of
    model.go:218-260 wraps like Go's int on 64-bit platforms. *)
From Coq Require Import String ZArith List Bool.
From Verif Require Import Num Heap Matrix Loss Network Optimizers ModelGo.
Import ListNotations.
Open Scope Z_scope.
Open Scope go_scope.

Definition int64 (z : Z) : Prop := - 2 ^ 63 <= z < 2 ^ 63.
Definition wrap64 (z : Z) : Z := (z + 2 ^ 63) mod 2 ^ 64 - 2 ^ 63.

Section WithNum.
Context {K : Num}.
(** model.go:235-260 *)
Definition fit_batch64 (m : model K) (X Y : matrix) (batchSize batchStep : Z) : M K unit :=
  let lo := wrap64 (batchStep * batchSize) in
  let hi := toZ (fmin (ofZ (n := K) (wrap64 (wrap64 (batchStep + 1) * batchSize))) (ofZ (mrows Y))) in
  bx <- reslice (mdata X) lo hi ;;
  batchX <- ignore_err matrix0 (NewMatrixFromSlice bx) ;;
  by_ <- reslice (mdata Y) lo hi ;;
  batchY <- ignore_err matrix0 (NewMatrixFromSlice by_) ;;
  outputs <- or_log "Failed to perform forward pass: " (Forward m batchX true) ;;
  grads <- or_log "Failed to perform forward pass: " (Backward m outputs batchY) ;;
  for_ (m_size m) (fun layer =>
    lref <- go_nth (m_layers m) layer ;;
    l <- get_layer lref ;;
    oref <- go_nth (m_opts m) layer ;;
    g <- go_nth grads (wrap64 (wrap64 (m_size m - layer) - 1)) ;;
    or_log "Failed to update using optimizer: " (Opt_Update oref (l_w l) (l_b l) (g_dw g) (g_db g))).
(** model.go:214-301 *)
Definition Fit64 (m : model K) (X Y : matrix) (epochs batchSize : Z) (xVal yVal : matrix) (logEvery : Z) : M K unit :=
  let useValidation := negb (mrows yVal =? 0) in
  let useBatching := negb (batchSize =? 0) in
  let batchSteps :=
    if useBatching then
      let q := wrap64 (Z.quot (mrows Y) batchSize) in
      if wrap64 (q * batchSize) <? mrows Y then wrap64 (q + 1) else q
    else 1 in
  let batchSize := if useBatching then batchSize else mrows Y in
  for_ epochs (fun epoch =>
    for_ batchSteps (fun batchStep => fit_batch64 m X Y batchSize batchStep) ;;
    (if negb (logEvery =? 0) && (Z.rem epoch logEvery =? 0)
     then fit_log m X Y "" (LInfo epoch) else ret tt) ;;
    (if useValidation && negb (logEvery =? 0) && (Z.rem epoch logEvery =? 0)
     then fit_log m xVal yVal "validation " (LValInfo epoch) else ret tt)).
End WithNum.
