(** * PureSpec: what each computation should return, on plain matrices (Spec.v).

    No heap, no sharing, no loops over program state: this file and Repr.v are what one has
    to read to understand the theorems in the Prop files. *)
From Coq Require Import String ZArith List Bool Arith.
From Verif Require Import Num Heap Spec.
Import ListNotations.
Open Scope Z_scope.

Section WithNum.
Context {K : Num}.

(** ** Clip *)
Definition clip1 (x : K) : K := if flt x f0 then lit_1em7 else if flt f1 x then lit_1m1em7 else x.
(** ** Activations *)
Definition relu1 (x : K) : K := fmax x f0.
Definition sigmoid1 (x : K) : K := fdiv f1 (fadd f1 (fexp (fneg x))).
Definition leaky1 (slope x : K) : K := if flt x f0 then fmul x slope else x.
Definition binary1 (x : K) : K := if flt x lit_half then f0 else f1.
Definition psoftmax (r c : nat) (A : pm K) : pm K :=
  mk r c (fun i j => fdiv (fexp (entry A i j)) (fsum c (fun k => fexp (entry A i k)))).
Definition relu_prime1 (d x : K) : K := if fle x f0 then f0 else d.
Definition leaky_prime1 (slope d x : K) : K := if flt x f0 then fmul d slope else d.
Definition sigmoid_prime1 (x d : K) : K := fmul (fmul d (sigmoid1 x)) (fsub f1 (sigmoid1 x)).
(** ** One-hot, row maximum *)
Definition onehot (r size : nat) (lab : nat -> nat) : pm K :=
  mk r size (fun i j => if (j =? lab i)%nat then f1 else f0).
Definition scan_max (n : nat) (g : nat -> K) : nat * K :=
  fold_left (fun best j => if flt (snd best) (g j) then (j, g j) else best) (seq 0 n) (O, f0).
Definition row_max (r c : nat) (A : pm K) : pm K :=
  mk r 1 (fun i _ => ofZ (Z.of_nat (fst (scan_max c (entry A i))))).
(** ** Accuracies *)
Definition count_cells (r c : nat) (p : nat -> nat -> bool) : nat :=
  length (filter (fun ij => p (fst ij) (snd ij)) (list_prod (seq 0 r) (seq 0 c))).
Definition count_rows (r : nat) (p : nat -> bool) : nat := length (filter p (seq 0 r)).
Definition regression_accuracy (r c : nat) (P Y : pm K) (prec : K) : K :=
  fdiv (ofZ (Z.of_nat (count_cells r c (fun i j => flt (fabs (fsub (entry P i j) (entry Y i j))) prec))))
       (ofZ (Z.of_nat (r * c))).
Definition categorical_accuracy (r c : nat) (P Y : pm K) : K :=
  fdiv (ofZ (Z.of_nat (count_rows r (fun i => feq (entry Y i (fst (scan_max c (entry P i)))) f1))))
       (ofZ (Z.of_nat r)).
Definition binary_accuracy (r c : nat) (P Y : pm K) : K :=
  fdiv (ofZ (Z.of_nat (count_cells r c (fun i j => feq (binary1 (entry P i j)) (entry Y i j)))))
       (ofZ (Z.of_nat (r * c))).
(** ** Plain layers *)
Record player : Type := PL {
  p_kind : lkind; p_in : nat; p_out : nat; p_w : pm K; p_b : pm K; p_slope : K; p_drop : K
}.
Definition paff (r k c : nat) (X W b : pm K) : pm K :=
  mk r c (fun i j => fadd (fsum k (fun n => fmul (entry X i n) (entry W n j))) (entry b 0 j)).
Definition act1 (p : player) : K -> K :=
  match p_kind p with
  | Hidden | Dropout => relu1
  | Leaky => leaky1 (p_slope p)
  | SigmoidK => sigmoid1
  | Linear | SoftmaxK => fun x => x
  end.
(** Plain forward pass without dropout. *)
Definition pact (p : player) (r : nat) (Z : pm K) : pm K :=
  match p_kind p with
  | SoftmaxK => psoftmax r (p_out p) Z
  | Linear => Z
  | _ => pmap r (p_out p) (act1 p) Z
  end.
Definition paffine (p : player) (r : nat) (X : pm K) : pm K :=
  paff r (p_in p) (p_out p) X (p_w p) (p_b p).
Definition pforward (p : player) (r : nat) (X : pm K) : pm K := pact p r (paffine p r X).
(** The mask value drawn from uniform number u with keep probability 1 - d. *)
Definition mask1 (d u : K) : K :=
  let P := fsub f1 d in
  let p := if flt lit_half P then fsub f1 P else P in
  let b := if flt u p then fadd f0 f1 else f0 in
  if negb (feq p P) then fsub f1 b else b.
Definition pmask (d : K) (r c : nat) (u : nat -> K) : pm K := mk r c (fun i j => mask1 d (u (i * c + j)%nat)).
Definition pforward_drop (p : player) (r : nat) (X : pm K) (u : nat -> K) : pm K :=
  mk r (p_out p) (fun i j =>
    fmul (relu1 (entry (paffine p r X) i j))
         (fdiv (mask1 (p_drop p) (u (i * p_out p + j)%nat)) (fsub f1 (p_drop p)))).
(** The output of a training forward pass, with [u n] the n-th uniform draw; the saved mask;
    the number of draws. *)
Definition ptrain (p : player) (r : nat) (X : pm K) (u : nat -> K) : pm K :=
  match p_kind p with Dropout => pforward_drop p r X u | _ => pforward p r X end.
Definition ptrain_mask (p : player) (r : nat) (u : nat -> K) : pm K :=
  match p_kind p with Dropout => pmask (p_drop p) r (p_out p) u | _ => [] end.
Definition pdraws (p : player) (r : nat) : nat :=
  match p_kind p with Dropout => (r * p_out p)%nat | _ => O end.
Definition pdW (r k c : nat) (X G : pm K) : pm K := pdot k r c (ptrans r k X) G.
Definition pdX (r k c : nat) (G W : pm K) : pm K := pdot r c k G (ptrans k c W).
(** The plain gradient at the pre-activations, from the saved output [O], mask and upstream
    gradient [G]. *)
Definition psoftmax_back (r c : nat) (O G : pm K) : pm K :=
  mk r c (fun i j => fsum c (fun n =>
    fmul (fsub (if (j =? n)%nat then entry O i j else f0)
               (fadd f0 (fmul (entry O i j) (entry O i n)))) (entry G i n))).
Definition pback (p : player) (r : nat) (O Mask G : pm K) : pm K :=
  match p_kind p with
  | Hidden => pmap2 r (p_out p) relu_prime1 G O
  | Leaky => pmap2 r (p_out p) (leaky_prime1 (p_slope p)) G O
  | SoftmaxK => psoftmax_back r (p_out p) O G
  | Dropout => pmap2 r (p_out p) relu_prime1 (pmap2 r (p_out p) fmul G Mask) O
  | _ => G
  end.
(** ** The fused softmax / cross-entropy backward pass *)
Definition pce_back (r c : nat) (Y O : pm K) : pm K :=
  mk r c (fun i j => fdiv (if feq (entry Y i j) f1 then fsub (entry O i j) f1 else entry O i j) (ofZ (Z.of_nat r))).
(** ** Losses *)
(** The mean squared / absolute error of the first row. *)
Definition pmse (c : nat) (Yh Y : pm K) : K :=
  fdiv (fsum c (fun j => fpow (fsub (entry Yh 0 j) (entry Y 0 j)) (ofZ 2))) (ofZ (Z.of_nat c)).
Definition pmae (c : nat) (Yh Y : pm K) : K :=
  fdiv (fsum c (fun j => fabs (fsub (entry Yh 0 j) (entry Y 0 j)))) (ofZ (Z.of_nat c)).
(** The mean over the rows of -log (sum_j clip(yhat_ij) * y_ij). *)
Definition pce (r c : nat) (Yh Y : pm K) : K :=
  fsum r (fun i => fdiv (fneg (flog (fsum c (fun j => fmul (clip1 (entry Yh i j)) (entry Y i j))))) (ofZ (Z.of_nat r))).
(** Sum over all cells, row by row, in one accumulator. *)
Definition csum (r c : nat) (g : nat -> nat -> K) : K :=
  fold_left (fun s i => fold_left (fun s j => fadd s (g i j)) (seq 0 c) s) (seq 0 r) f0.
(** The mean over the cells of -(y log p + (1-y) log (1-p)), p = clip yhat. *)
Definition bce1 (y p : K) : K := fneg (fadd (fmul y (flog p)) (fmul (fsub f1 y) (flog (fsub f1 p)))).
Definition pbce (r c : nat) (Yh Y : pm K) : K :=
  csum r c (fun i j => fdiv (fdiv (bce1 (entry Y i j) (clip1 (entry Yh i j))) (ofZ (Z.of_nat r))) (ofZ (Z.of_nat c))).
Definition pmse_back (r c : nat) (Yh Y : pm K) : pm K :=
  mk r c (fun i j => fmul (fsub (entry Yh i j) (entry Y i j)) (fdiv (ofZ 2) (ofZ (Z.of_nat c)))).
(** Integer division: the quotient is 0 as soon as c >= 2. *)
Definition pmae_back (r c : nat) (Yh Y : pm K) : pm K :=
  mk r c (fun i j => let d := fsub (entry Yh i j) (entry Y i j) in
    if flt f0 d then ofZ (Z.quot 1 (Z.of_nat c)) else if flt d f0 then ofZ (Z.quot (-1) (Z.of_nat c)) else f0).
Definition pce_loss_back (r c : nat) (Yh Y : pm K) : pm K :=
  mk r c (fun i j => fdiv (fdiv (fneg (entry Y i j)) (entry Yh i j)) (ofZ (Z.of_nat r))).
Definition pbce_back (r c : nat) (Yh Y : pm K) : pm K :=
  mk r c (fun i j => let p := clip1 (entry Yh i j) in let y := entry Y i j in
    fdiv (fdiv (fneg (fsub (fdiv y p) (fdiv (fsub f1 y) (fsub f1 p)))) (ofZ (Z.of_nat c))) (ofZ (Z.of_nat r))).
(** ** Shuffle *)
Definition pick {T} (d : T) (p : list nat) (l : list T) : list T := map (fun k => nth k l d) p.
(** [flt] is a strict weak order on [P] (the numbers that are not NaN). *)
Definition weak_order (P : K -> Prop) : Prop :=
  (forall x, P x -> flt x x = false) /\
  (forall x y z, P x -> P y -> P z -> flt x y = true -> flt y z = true -> flt x z = true) /\
  (forall x y z, P x -> P y -> P z -> flt x z = true -> flt x y = true \/ flt y z = true).

End WithNum.
Arguments player K : clear implicits.
