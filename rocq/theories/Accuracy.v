(** * accuracy.go *)
From Coq Require Import String ZArith List Bool.
From Verif Require Import Num Heap Matrix Misc.
Import ListNotations.
Open Scope Z_scope.
Open Scope go_scope.

Section WithNum.
Context {K : Num}.

(** accuracy.go:13-27. *)
Definition RegressionAccuracy (yHat Y : matrix) (precision : K) : M K K :=
  acc <- for_acc (mrows Y) (fun i acc =>
    for_acc (mcols Y) (fun j acc =>
      a <- getc yHat i j ;;
      b <- getc Y i j ;;
      ret (if flt (fabs (fsub a b)) precision then acc + 1 else acc)) acc) 0 ;;
  ret (fdiv (ofZ acc) (ofZ (mrows Y * mcols Y))).

(** accuracy.go:31-46. *)
Definition CategoricalAccuracy (yHat Y : matrix) : M K K :=
  outputs <- RowMax yHat ;;
  acc <- for_acc (mrows Y) (fun i acc =>
    (* Y.M[i][int(outputs.M[i][0])] *)
    o <- getc outputs i 0 ;;
    y <- getc Y i (toZ o) ;;
    ret (if feq y f1 then acc + 1 else acc)) 0 ;;
  ret (fdiv (ofZ acc) (ofZ (mrows Y))).

(** accuracy.go:50-67. *)
Definition BinaryCategoricalAccuracy (yHat Y : matrix) : M K K :=
  outputs <- OutputBinaryValues yHat ;;
  acc <- for_acc (mrows Y) (fun i acc =>
    for_acc (mcols Y) (fun j acc =>
      a <- getc outputs i j ;;
      b <- getc Y i j ;;
      ret (if feq a b then acc + 1 else acc)) acc) 0 ;;
  ret (fdiv (ofZ acc) (ofZ (mrows Y * mcols Y))).

End WithNum.
