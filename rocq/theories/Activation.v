(** * activation.go *)
From Coq Require Import String ZArith List Bool.
From Verif Require Import Num Heap Matrix.
Import ListNotations.
Open Scope Z_scope.
Open Scope go_scope.

Section WithNum.
Context {K : Num}.

(** activation.go:12-22.  All functions of this file overwrite their argument's data and
    return the same header. *)
Definition RELU (m : matrix) : M K matrix :=
  each_cell (mrows m) (mcols m) (fun i j =>
    v <- getc m i j ;;
    setc m i j (fmax v f0)) ;;
  ret m.

(** activation.go:25-37. *)
Definition RELUPrime (m x : matrix) : M K matrix :=
  each_cell (mrows m) (mcols m) (fun i j =>
    v <- getc x i j ;;
    if fle v f0 then setc m i j f0 else ret tt) ;;
  ret m.

(** activation.go:41-51. *)
Definition Sigmoid (m : matrix) : M K matrix :=
  each_cell (mrows m) (mcols m) (fun i j =>
    v <- getc m i j ;;
    setc m i j (fdiv f1 (fadd f1 (fexp (fneg v))))) ;;
  ret m.

(** activation.go:54-66. *)
Definition SigmoidPrime (m dValues : matrix) : M K matrix :=
  m <- Sigmoid m ;;
  each_cell (mrows m) (mcols m) (fun i j =>
    d <- getc dValues i j ;;
    v <- getc m i j ;;
    setc m i j (fmul (fmul d v) (fsub f1 v))) ;;
  ret m.

(** activation.go:69-81. *)
Definition LeakyRELU (m : matrix) (slope : K) : M K matrix :=
  each_cell (mrows m) (mcols m) (fun i j =>
    v <- getc m i j ;;
    if flt v f0 then setc m i j (fmul v slope) else ret tt) ;;
  ret m.

(** activation.go:85-97. *)
Definition LeakyRELUPrime (m x : matrix) (slope : K) : M K matrix :=
  each_cell (mrows m) (mcols m) (fun i j =>
    v <- getc x i j ;;
    if flt v f0 then
      d <- getc m i j ;;
      setc m i j (fmul d slope)
    else ret tt) ;;
  ret m.

(** activation.go:100-116. *)
Definition Softmax (m : matrix) : M K matrix :=
  for_ (mrows m) (fun i =>
    sum <- for_acc (mcols m) (fun j sum =>
      v <- getc m i j ;;
      let e := fexp v in
      setc m i j e ;;
      e' <- getc m i j ;;
      ret (fadd sum e')) f0 ;;
    for_ (mcols m) (fun j =>
      v <- getc m i j ;;
      setc m i j (fdiv v sum))) ;;
  ret m.

End WithNum.
