(** * FmaGo: inference when the compiler fuses multiplications and additions.

    The Go specification lets an implementation compute [x*y + z] with one rounding instead of two, also across
    statements; the compilers for arm64, ppc64, s390x and riscv64 do it, the one for amd64 does not.  In the forward
    pass the only product that is added to something is [sum += m.M[i][n] * b.M[n][j]] in Dot.  [fuse] says which of
    these additions are fused; a theorem for every [fuse] holds for every compiler. *)
From Coq Require Import String ZArith List Bool.
From Flocq Require Import IEEE754.BinarySingleNaN IEEE754.Binary IEEE754.Bits.
From Verif Require Import Num NumB64 Heap Matrix Activation Network Misc ModelGo.
Import ListNotations.
Open Scope Z_scope.
Open Scope go_scope.

Section Fma.
Context (L : libm).
Notation BN := (B64 L).

(** [sum += x * y]. *)
Definition mul_add (fused : bool) (sum x y : binary64) : binary64 :=
  if fused then b64_fma mode_NE x y sum else b64_plus mode_NE sum (b64_mult mode_NE x y).

(** matrix.go:314-341. *)
Definition Dot_fused (fuse : Z -> Z -> Z -> bool) (m b : matrix) : M BN matrix :=
  if negb (mcols m =? mrows b) then fail (EMatDims (mrows b) (mcols b))
  else tabulate (mrows m) (mcols b) (fun i j =>
    for_acc (mcols m) (fun n sum =>
      x <- getc (K := BN) m i n ;;
      y <- getc (K := BN) b n j ;;
      ret (mul_add (fuse i j n) sum x y : BN)) (f0 : BN)).

(** network.go:94-108 and its copies. *)
Definition affine_fused (fuse : Z -> Z -> Z -> bool) (l : layer BN) (x : matrix) : M BN matrix :=
  if negb (mcols x =? l_in l) then fail (EMatDims (mrows x) (mcols x))
  else
    out <- Dot_fused fuse x (l_w l) ;;
    each_cell (mrows out) (mcols out) (fun i j =>
      v <- getc out i j ;;
      b <- getc (l_b l) 0 j ;;
      setc out i j (fadd v b)) ;;
    ret out.

(** Forward of each layer kind (network.go:91-117, 209-229, 317-340, 440-466, 558-584), ForwardNoDropout for dropout
    layers (network.go:802-828). *)
Definition layer_fused (fuse : Z -> Z -> Z -> bool) (lref : nat) (x : matrix) : M BN matrix :=
  l <- get_layer lref ;;
  out <- affine_fused fuse l x ;;
  match l_kind l with
  | Hidden | Dropout => put_layer lref (set_cache l out) ;; RELU out
  | Linear => ret out
  | SigmoidK => Sigmoid out
  | Leaky => put_layer lref (set_cache l out) ;; LeakyRELU out (l_slope l)
  | SoftmaxK => out <- Softmax out ;; put_layer lref (set_cache l out) ;; ret out
  end.

(** Model.Forward with training = false, model.go:143-169; the first argument of [fuse] is the layer. *)
Definition Forward_fused (fuse : Z -> Z -> Z -> Z -> bool) (m : model BN) (X : matrix) : M BN (list matrix) :=
  r <- for_acc (m_size m) (fun i (acc : list matrix * matrix) =>
    lref <- go_nth (m_layers m) i ;;
    out <- layer_fused (fuse i) lref (snd acc) ;;
    ret (fst acc ++ [out], out)) ([X], X) ;;
  ret (fst r).

(** Model.Predict, model.go:340-356. *)
Definition Predict_fused (fuse : Z -> Z -> Z -> Z -> bool) (m : model BN) (X : matrix) : M BN matrix :=
  outputs <- Forward_fused fuse m X ;;
  if m_acctype m =? 0 then go_nth outputs (m_size m)
  else if m_acctype m =? 1 then
    out <- go_nth outputs (m_size m) ;; RowMax out
  else if m_acctype m =? 2 then
    out <- go_nth outputs (m_size m) ;; OutputBinaryValues out
  else fail (EMsg "nn.Model: Invalid accuracy type.").
End Fma.
