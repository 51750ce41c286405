(** * matrix.go *)
From Coq Require Import String ZArith List Bool.
From Verif Require Import Num Heap.
Import ListNotations.
Open Scope Z_scope.
Open Scope go_scope.

Section WithNum.
Context {K : Num}.

(** matrix.go:37-57. *)
Definition NewMatrix (rows cols : Z) : M K matrix :=
  if (rows <? 1) || (cols <? 1) then fail (EMatDims rows cols)
  else
    m <- alloc_out (repeat O (Z.to_nat rows)) ;;
    for_ rows (fun i =>
      r <- alloc_row (repeat f0 (Z.to_nat cols)) ;;
      set_out m i r) ;;
    ret (MkMatrix rows cols m).

(** [m, _ := NewMatrix(rows, cols)]. *)
Definition NewMatrix_ (rows cols : Z) : M K matrix := ignore_err matrix0 (NewMatrix rows cols).

(** matrix.go:60-77.  The slice is used as is. *)
Definition NewMatrixFromSlice (sl : slice) : M K matrix :=
  let rows := Z.of_nat (sl_len sl) in
  if rows <? 1 then fail (EMatDims rows 0)
  else
    r0 <- idx_out sl 0 ;;
    cols <- row_len r0 ;;
    if cols <? 1 then fail (EMatDims rows cols)
    else ret (MkMatrix rows cols sl).

(** matrix.go:80-90. *)
Definition Get (m : matrix) (row col : Z) : M K K :=
  if (row >=? mrows m) || (col >=? mcols m) then fail (EMatIndex row col)
  else getc m row col.

(** matrix.go:93-105. *)
Definition Set_ (m : matrix) (row col : Z) (v : K) : M K unit :=
  if (row >=? mrows m) || (col >=? mcols m) then fail (EMatIndex row col)
  else setc m row col v.

(** matrix.go:108-118.  Returns the row reference itself (aliasing). *)
Definition GetRow (m : matrix) (row : Z) : M K nat :=
  if row >=? mrows m then fail (EMatIndex row (-1))
  else idx_out (mdata m) row.

(** matrix.go:121-137.  Returns a reference to a new array. *)
Definition GetColumn (m : matrix) (col : Z) : M K nat :=
  if col >=? mcols m then fail (EMatIndex (-1) col)
  else
    (* make([]float64, m.Rows) panics on a negative length (reachable only on a
       hand-built header) *)
    if mrows m <? 0 then panic PMake else
    s <- alloc_row (repeat f0 (Z.to_nat (mrows m))) ;;
    for_ (mrows m) (fun i =>
      v <- getc m i col ;;
      set_row s i v) ;;
    ret s.

(** matrix.go:140-157.  Stores the caller's slice (aliasing). *)
Definition SetRow (m : matrix) (row : Z) (values : nat) : M K unit :=
  if row >=? mrows m then fail (EMatIndex row (-1))
  else
    n <- row_len values ;;
    if negb (n =? mcols m) then fail (ESliceDims n)
    else set_out (mdata m) row values.

(** matrix.go:160-179. *)
Definition SetColumn (m : matrix) (col : Z) (values : nat) : M K unit :=
  if col >=? mcols m then fail (EMatIndex (-1) col)
  else
    n <- row_len values ;;
    if negb (n =? mrows m) then fail (ESliceDims n)
    else
      for_ (mrows m) (fun i =>
        v <- idx_row values i ;;
        setc m i col v).

(** matrix.go:182-201.  The early [return false] inside the loops is modelled by an
    accumulator that, once false, makes the remaining iterations do nothing. *)
Definition Equals (m b : matrix) : M K bool :=
  if negb (mrows m =? mrows b) || negb (mcols m =? mcols b) then ret false
  else
    for_acc (mrows m) (fun i ok =>
      for_acc (mcols m) (fun j (ok : bool) =>
        if ok then
          x <- getc m i j ;;
          y <- getc b i j ;;
          ret (feq x y)
        else ret false) ok) true.

(** The common body of the element-wise functions: a new matrix of the given size, each
    cell assigned in row-major order. Used by Add, Sub, Neg, AddScalar, MulScalar, PowScalar
    with their own cell expression. *)
Definition tabulate (rows cols : Z) (cell : Z -> Z -> M K K) : M K matrix :=
  ans <- NewMatrix_ rows cols ;;
  for_ rows (fun i =>
    for_ cols (fun j =>
      v <- cell i j ;;
      setc ans i j v)) ;;
  ret ans.

(** matrix.go:205-225. *)
Definition Add (m b : matrix) : M K matrix :=
  if negb (mrows m =? mrows b) || negb (mcols m =? mcols b) then fail (EMatDims (mrows b) (mcols b))
  else tabulate (mrows m) (mcols m) (fun i j =>
    x <- getc m i j ;; y <- getc b i j ;; ret (fadd x y)).

(** matrix.go:227-247. *)
Definition Sub (m b : matrix) : M K matrix :=
  if negb (mrows m =? mrows b) || negb (mcols m =? mcols b) then fail (EMatDims (mrows b) (mcols b))
  else tabulate (mrows m) (mcols m) (fun i j =>
    x <- getc m i j ;; y <- getc b i j ;; ret (fsub x y)).

(** matrix.go:250-265. *)
Definition Neg (m : matrix) : M K matrix :=
  tabulate (mrows m) (mcols m) (fun i j => x <- getc m i j ;; ret (fneg x)).

(** matrix.go:268-281. *)
Definition AddScalar (m : matrix) (a : K) : M K matrix :=
  tabulate (mrows m) (mcols m) (fun i j => x <- getc m i j ;; ret (fadd x a)).

(** matrix.go:283-296. *)
Definition MulScalar (m : matrix) (a : K) : M K matrix :=
  tabulate (mrows m) (mcols m) (fun i j => x <- getc m i j ;; ret (fmul x a)).

(** matrix.go:298-311. *)
Definition PowScalar (m : matrix) (a : K) : M K matrix :=
  tabulate (mrows m) (mcols m) (fun i j => x <- getc m i j ;; ret (fpow x a)).

(** matrix.go:314-341. *)
Definition Dot (m b : matrix) : M K matrix :=
  if negb (mcols m =? mrows b) then fail (EMatDims (mrows b) (mcols b))
  else tabulate (mrows m) (mcols b) (fun i j =>
    for_acc (mcols m) (fun n sum =>
      x <- getc m i n ;;
      y <- getc b n j ;;
      ret (fadd sum (fmul x y))) f0).

(** matrix.go:344-356.  The errors of GetRow and SetColumn are ignored. *)
Definition T (m : matrix) : M K matrix :=
  ans <- NewMatrix_ (mcols m) (mrows m) ;;
  for_ (mrows m) (fun i =>
    col <- ignore_err O (GetRow m i) ;;
    ignore_err tt (SetColumn ans i col)) ;;
  ret ans.

(** matrix.go:359-400. *)
Definition Sum (m : matrix) (axis : Z) : M K matrix :=
  if negb (axis =? 0) && negb (axis =? 1) then panic (PUser "nn.Matrix: Invalid for sum axis"%string)
  else if axis =? 0 then
    ans <- NewMatrix_ 1 (mcols m) ;;
    for_ (mcols m) (fun i =>
      s <- for_acc (mrows m) (fun j s => x <- getc m j i ;; ret (fadd s x)) f0 ;;
      setc ans 0 i s) ;;
    ret ans
  else
    ans <- NewMatrix_ 1 (mrows m) ;;
    for_ (mrows m) (fun i =>
      s <- for_acc (mcols m) (fun j s => x <- getc m i j ;; ret (fadd s x)) f0 ;;
      setc ans 0 i s) ;;
    ret ans.

(** Row-major loop over all cells of a matrix: [for i < rows { for j < cols { body } }]. *)
Definition each_cell (rows cols : Z) (body : Z -> Z -> M K unit) : M K unit :=
  for_ rows (fun i => for_ cols (fun j => body i j)).

(** matrix.go:403-415. *)
Definition Clip (x : matrix) : M K matrix :=
  each_cell (mrows x) (mcols x) (fun i j =>
    v <- getc x i j ;;
    if flt v f0 then setc x i j lit_1em7
    else if flt f1 v then setc x i j lit_1m1em7
    else ret tt) ;;
  ret x.

End WithNum.
