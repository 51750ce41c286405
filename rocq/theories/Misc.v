(** * misc.go *)
From Coq Require Import String ZArith List Bool.
From Verif Require Import Num Heap Matrix.
Import ListNotations.
Open Scope Z_scope.
Open Scope go_scope.

Section WithNum.
Context {K : Num}.

(** misc.go:15-31. *)
Definition SparseToOneHot (X : matrix) (size : Z) : M K matrix :=
  if size <=? 0 then fail (EMsg "nn.SparseToOneHot: Invalid size attribute.")
  else
    ans <- NewMatrix_ (mrows X) size ;;
    for_ (mrows X) (fun i =>
      v <- getc X i 0 ;;
      setc ans i (toZ v) f1) ;;
    ret ans.

(** misc.go:35-56.  [largest], [largestValue] start at their zero values. *)
Definition RowMax (X : matrix) : M K matrix :=
  ans <- NewMatrix_ (mrows X) 1 ;;
  for_ (mrows X) (fun i =>
    best <- for_acc (mcols X) (fun j (best : Z * K) =>
      v <- getc X i j ;;
      if flt (snd best) v then
        v' <- getc X i j ;; ret (j, v')
      else ret best) (0, f0) ;;
    setc ans i 0 (ofZ (fst best))) ;;
  ret ans.

(** misc.go:60-73. *)
Definition OutputBinaryValues (X : matrix) : M K matrix :=
  each_cell (mrows X) (mcols X) (fun i j =>
    v <- getc X i j ;;
    if flt v lit_half then setc X i j f0 else setc X i j f1) ;;
  ret X.

(** One swap of the Shuffle callback, misc.go:82-85:
    X.M[i], X.M[j] = X.M[j], X.M[i] and the same for Y. *)
Definition swap_rows (m : matrix) (i j : Z) : M K unit :=
  b <- idx_out (mdata m) j ;;
  a <- idx_out (mdata m) i ;;
  set_out (mdata m) i b ;;
  set_out (mdata m) j a.

(** math/rand Rand.Shuffle: panics for n < 0, otherwise for i from n-1 down to 1 draw j in
    [0,i] and swap(i,j).  The draw is [draw mod (i+1)] of an arbitrary integer stream, so
    every j sequence is covered. *)
Fixpoint shuffle_down (k : nat) (swap : Z -> Z -> M K unit) : M K unit :=
  match k with
  | O => ret tt
  | S k' => (* i = k *)
      d <- draw_int ;;
      let i := Z.of_nat k in
      swap i (d mod (i + 1)) ;;
      shuffle_down k' swap
  end.
Definition rand_Shuffle (n : Z) (swap : Z -> Z -> M K unit) : M K unit :=
  if n <? 0 then panic (PUser "invalid argument to Shuffle")
  else shuffle_down (Z.to_nat (n - 1)) swap.

(** misc.go:77-89. *)
Definition ShuffleDataset (X Y : matrix) : M K (matrix * matrix) :=
  rand_Shuffle (mrows X) (fun i j =>
    swap_rows X i j ;;
    swap_rows Y i j) ;;
  ret (X, Y).

End WithNum.
