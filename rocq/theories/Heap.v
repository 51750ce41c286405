(** * Heap: memory, errors and control flow of the modelled Go code.

    Modelled Go features: [][]float64 slices with aliasing, objects behind pointers
    (layers, optimizers), the two-valued (value, error) return convention, panics, random
    number sources, and the package loggers.

    Simplifications (also listed in DESIGN.md):
    - a row ([]float64) is always a whole backing array: the library never re-slices a row;
      two rows may be the same array (full aliasing) but not partially overlapping;
    - Go's int is unbounded [Z]; where the code converts to int8/int32 the wrap is explicit;
    - allocation always succeeds. *)
From Coq Require Import String ZArith List Bool.
From Verif Require Import Num.
Import ListNotations.
Open Scope Z_scope.

(** ** Errors and panics *)

(** Non-nil error values.  matrix.go:14-26, network.go:26-28, loss.go:22-24 and the
    errors.New calls (by message). *)
Inductive err : Type :=
| EMatDims (rows cols : Z)       (* invalidMatrixDimensionsError *)
| EMatIndex (row col : Z)        (* invalidMatrixIndexError *)
| ESliceDims (len : Z)           (* invalidSliceDimensionsError *)
| ELayerDims (inp out : Z)       (* invalidLayerDimensionsError *)
| ELossSize (size : Z)           (* invalidLossSize *)
| EMsg (msg : string)            (* errors.New(msg) *)
| EEOF                           (* io.EOF *)
| EUnexpectedEOF.                (* io.ErrUnexpectedEOF *)

(** Run-time panics. *)
Inductive panic_kind : Type :=
| PIndex                         (* index out of range *)
| PSlice                         (* slice bounds out of range *)
| PMake                          (* makeslice: len out of range *)
| PNil                           (* nil pointer / nil interface dereference *)
| PDivZero                       (* integer divide by zero *)
| PUser (msg : string).          (* panic(msg) *)

(** ** Data *)

(** A [][]float64 slice header: backing array, offset, length.  Its capacity is the length
    of the backing array minus the offset.  Reference 0 is nil. *)
Record slice : Type := MkSlice { sl_loc : nat; sl_off : nat; sl_len : nat }.
Definition nil_slice : slice := MkSlice 0 0 0.

(** matrix.go:30-34. *)
Record matrix : Type := MkMatrix { mrows : Z; mcols : Z; mdata : slice }.
(** The Go zero value [Matrix{}]. *)
Definition matrix0 : matrix := MkMatrix 0 0 nil_slice.

(** The six layer structs (network.go:32-38,150-155,258-263,372-379,498-504,693-701) as one
    record with a kind; fields a kind does not have are zero and unused.
    [l_cache] is reluInputs (hidden, leaky, dropout) or outputs (softmax).
    Weights and Biases are pointers in Go; nothing ever assigns through them to the header,
    so the header is stored here and the data is shared through the heap. *)
Inductive lkind : Type := Hidden | Linear | SigmoidK | Leaky | SoftmaxK | Dropout.

Section WithNum.
Context {K : Num}.

Record layer : Type := MkLayer {
  l_kind : lkind;
  l_in : Z;            (* InputSize *)
  l_out : Z;           (* OutputSize *)
  l_w : matrix;        (* *Weights *)
  l_b : matrix;        (* *Biases *)
  l_slope : K;         (* Slope (leaky) *)
  l_drop : K;          (* Dropout (dropout) *)
  l_cache : matrix;    (* reluInputs / outputs *)
  l_mask : matrix      (* binaryMask (dropout) *)
}.

(** optimizers.go:41-51 and 164-178, as one record with a kind. For SGD [o_eps], [o_beta1],
    [o_beta2] and the caches are unused; for Adam [o_momentum] is unused. *)
Inductive okind : Type := SGD | Adam.
Record optimizer : Type := MkOpt {
  o_kind : okind;
  o_lr : K; o_decay : K; o_momentum : K;
  o_eps : K; o_beta1 : K; o_beta2 : K;
  o_rate : K;          (* currentRate *)
  o_iter : Z;          (* iterations *)
  o_wm : matrix; o_bm : matrix;   (* weightMomentums, biasMomentums *)
  o_wc : matrix; o_bc : matrix;   (* weightCache, biasCache *)
  o_usedecay : bool; o_usemom : bool
}.

(** Random sources: arbitrary streams of uniform, normal and integer draws.  Seeds
    (time.Now) are not modelled; theorems quantify over the streams. *)
Record rng : Type := MkRng {
  r_uni : nat -> K; r_nrm : nat -> K; r_int : nat -> Z;
  r_upos : nat; r_npos : nat; r_ipos : nat
}.

(** Log lines written through the package loggers (nn.go:20-24). *)
Inductive logline : Type :=
| LInfo (epoch : Z) (loss acc : K)
| LValInfo (epoch : Z) (loss acc : K)
| LError (what : string) (e : err)
| LWarning (version : string).

(** The whole program state. *)
Record state : Type := MkState {
  h_rows : list (list K);      (* float arrays; reference S k is position k *)
  h_outs : list (list nat);    (* arrays of row references; reference S k is position k *)
  h_layers : list layer;       (* layer objects; reference = position *)
  h_opts : list optimizer;     (* optimizer objects; reference = position *)
  h_rng : rng;
  h_logger : bool;             (* loggers are non-nil, i.e. InitLogger has been called *)
  h_log : list logline         (* newest last *)
}.

(** ** The monad *)

Inductive outcome (A : Type) : Type :=
| Ret (a : A)
| Fail (e : err)               (* the Go function returned a non-nil error *)
| Panic (p : panic_kind).
Arguments Ret {A} a. Arguments Fail {A} e. Arguments Panic {A} p.

Definition M (A : Type) : Type := state -> outcome A * state.

Definition ret {A} (a : A) : M A := fun s => (Ret a, s).
Definition fail {A} (e : err) : M A := fun s => (Fail e, s).
Definition panic {A} (p : panic_kind) : M A := fun s => (Panic p, s).
Definition bind {A B} (m : M A) (f : A -> M B) : M B := fun s =>
  match m s with
  | (Ret a, s') => f a s'
  | (Fail e, s') => (Fail e, s')
  | (Panic p, s') => (Panic p, s')
  end.

(** [x, _ := f()]: the error is ignored and the zero value returned with it is used. *)
Definition ignore_err {A} (zero : A) (m : M A) : M A := fun s =>
  match m s with
  | (Fail _, s') => (Ret zero, s')
  | r => r
  end.

(** Catch the error as a value. *)
Definition catch {A} (m : M A) : M (A + err) := fun s =>
  match m s with
  | (Ret a, s') => (Ret (inl a), s')
  | (Fail e, s') => (Ret (inr e), s')
  | (Panic p, s') => (Panic p, s')
  end.

(** [for i := i0; i < i0+n; i++ { acc = body(i, acc) }], the general counting loop. *)
Fixpoint loop {A} (n : nat) (i : Z) (body : Z -> A -> M A) (acc : A) : M A :=
  match n with
  | O => ret acc
  | S n' => bind (body i acc) (fun acc' => loop n' (i + 1) body acc')
  end.

(** [for i := 0; i < n; i++] with an accumulator, and without one. *)
Definition for_acc {A} (n : Z) (body : Z -> A -> M A) (acc : A) : M A :=
  loop (Z.to_nat n) 0 body acc.
Definition for_ (n : Z) (body : Z -> M unit) : M unit :=
  for_acc n (fun i _ => body i) tt.

(** ** Memory access *)

Definition row_at (s : state) (r : nat) : option (list K) :=
  match r with O => Some [] | S k => nth_error (h_rows s) k end.
Definition out_at (s : state) (o : nat) : option (list nat) :=
  match o with O => Some [] | S k => nth_error (h_outs s) k end.

Fixpoint upd {A} (k : nat) (x : A) (l : list A) : list A :=
  match l, k with
  | [], _ => []
  | _ :: t, O => x :: t
  | h :: t, S k' => h :: upd k' x t
  end.

Definition with_rows (s : state) (rs : list (list K)) : state :=
  MkState rs (h_outs s) (h_layers s) (h_opts s) (h_rng s) (h_logger s) (h_log s).
Definition with_outs (s : state) (os : list (list nat)) : state :=
  MkState (h_rows s) os (h_layers s) (h_opts s) (h_rng s) (h_logger s) (h_log s).
Definition with_layers (s : state) (ls : list layer) : state :=
  MkState (h_rows s) (h_outs s) ls (h_opts s) (h_rng s) (h_logger s) (h_log s).
Definition with_opts (s : state) (os : list optimizer) : state :=
  MkState (h_rows s) (h_outs s) (h_layers s) os (h_rng s) (h_logger s) (h_log s).
Definition with_rng (s : state) (r : rng) : state :=
  MkState (h_rows s) (h_outs s) (h_layers s) (h_opts s) r (h_logger s) (h_log s).
Definition with_log (s : state) (l : list logline) : state :=
  MkState (h_rows s) (h_outs s) (h_layers s) (h_opts s) (h_rng s) (h_logger s) l.
Definition with_logger (s : state) (b : bool) : state :=
  MkState (h_rows s) (h_outs s) (h_layers s) (h_opts s) (h_rng s) b (h_log s).

(** make([]float64, n) / a slice literal: allocate a float array. *)
Definition alloc_row (l : list K) : M nat := fun s =>
  (Ret (S (length (h_rows s))), with_rows s (h_rows s ++ [l])).
(** make([][]float64, n): allocate an array of row references. *)
Definition alloc_out (l : list nat) : M slice := fun s =>
  (Ret (MkSlice (S (length (h_outs s))) 0 (length l)), with_outs s (h_outs s ++ [l])).

(** sl[i] on a [][]float64: bounds check against the slice length. *)
Definition idx_out (sl : slice) (i : Z) : M nat := fun s =>
  if (0 <=? i) && (i <? Z.of_nat (sl_len sl)) then
    match out_at s (sl_loc sl) with
    | Some arr => match nth_error arr (sl_off sl + Z.to_nat i) with
                  | Some r => (Ret r, s)
                  | None => (Panic PIndex, s)
                  end
    | None => (Panic PNil, s)
    end
  else (Panic PIndex, s).

(** sl[i] = r on a [][]float64. *)
Definition set_out (sl : slice) (i : Z) (r : nat) : M unit := fun s =>
  if (0 <=? i) && (i <? Z.of_nat (sl_len sl)) then
    match sl_loc sl with
    | O => (Panic PIndex, s)
    | S k => match nth_error (h_outs s) k with
             | Some arr => (Ret tt, with_outs s (upd k (upd (sl_off sl + Z.to_nat i)%nat r arr) (h_outs s)))
             | None => (Panic PNil, s)
             end
    end
  else (Panic PIndex, s).

(** len(row), row[j], row[j] = v on a []float64 given by its reference. *)
Definition row_len (r : nat) : M Z := fun s =>
  match row_at s r with
  | Some l => (Ret (Z.of_nat (length l)), s)
  | None => (Panic PNil, s)
  end.
Definition idx_row (r : nat) (j : Z) : M K := fun s =>
  match row_at s r with
  | Some l => if (0 <=? j) && (j <? Z.of_nat (length l)) then
                match nth_error l (Z.to_nat j) with
                | Some v => (Ret v, s)
                | None => (Panic PIndex, s)
                end
              else (Panic PIndex, s)
  | None => (Panic PNil, s)
  end.
Definition set_row (r : nat) (j : Z) (v : K) : M unit := fun s =>
  match r with
  | O => (Panic PIndex, s)
  | S k => match nth_error (h_rows s) k with
           | Some l => if (0 <=? j) && (j <? Z.of_nat (length l)) then
                         (Ret tt, with_rows s (upd k (upd (Z.to_nat j) v l) (h_rows s)))
                       else (Panic PIndex, s)
           | None => (Panic PNil, s)
           end
  end.

(** sl[lo:hi] on a [][]float64: Go requires 0 <= lo <= hi <= cap(sl). *)
Definition reslice (sl : slice) (lo hi : Z) : M slice := fun s =>
  match out_at s (sl_loc sl) with
  | Some arr =>
      if (0 <=? lo) && (lo <=? hi) && (hi <=? Z.of_nat (length arr) - Z.of_nat (sl_off sl)) then
        (Ret (MkSlice (sl_loc sl) (sl_off sl + Z.to_nat lo) (Z.to_nat (hi - lo))), s)
      else (Panic PSlice, s)
  | None => (Panic PNil, s)
  end.

(** m.M[i][j] and m.M[i][j] = v. *)
Definition getc (m : matrix) (i j : Z) : M K :=
  bind (idx_out (mdata m) i) (fun r => idx_row r j).
Definition setc (m : matrix) (i j : Z) (v : K) : M unit :=
  bind (idx_out (mdata m) i) (fun r => set_row r j v).

(** ** Objects *)
Definition get_layer (l : nat) : M layer := fun s =>
  match nth_error (h_layers s) l with Some x => (Ret x, s) | None => (Panic PNil, s) end.
Definition put_layer (l : nat) (x : layer) : M unit := fun s =>
  (Ret tt, with_layers s (upd l x (h_layers s))).
Definition alloc_layer (x : layer) : M nat := fun s =>
  (Ret (length (h_layers s)), with_layers s (h_layers s ++ [x])).
Definition get_opt (o : nat) : M optimizer := fun s =>
  match nth_error (h_opts s) o with Some x => (Ret x, s) | None => (Panic PNil, s) end.
Definition put_opt (o : nat) (x : optimizer) : M unit := fun s =>
  (Ret tt, with_opts s (upd o x (h_opts s))).
Definition alloc_opt (x : optimizer) : M nat := fun s =>
  (Ret (length (h_opts s)), with_opts s (h_opts s ++ [x])).

(** ** Random draws *)
Definition draw_uniform : M K := fun s =>
  let r := h_rng s in
  (Ret (r_uni r (r_upos r)),
   with_rng s (MkRng (r_uni r) (r_nrm r) (r_int r) (S (r_upos r)) (r_npos r) (r_ipos r))).
Definition draw_normal : M K := fun s =>
  let r := h_rng s in
  (Ret (r_nrm r (r_npos r)),
   with_rng s (MkRng (r_uni r) (r_nrm r) (r_int r) (r_upos r) (S (r_npos r)) (r_ipos r))).
Definition draw_int : M Z := fun s =>
  let r := h_rng s in
  (Ret (r_int r (r_ipos r)),
   with_rng s (MkRng (r_uni r) (r_nrm r) (r_int r) (r_upos r) (r_npos r) (S (r_ipos r)))).

(** Logger.Printf on a package logger: a nil logger panics. *)
Definition log_print (l : logline) : M unit := fun s =>
  if h_logger s then (Ret tt, with_log s (h_log s ++ [l])) else (Panic PNil, s).

End WithNum.

Arguments layer K : clear implicits.
Arguments optimizer K : clear implicits.
Arguments rng K : clear implicits.
Arguments logline K : clear implicits.
Arguments state K : clear implicits.
Arguments M K A : clear implicits.
Arguments Ret {A} a. Arguments Fail {A} e. Arguments Panic {A} p.

Declare Scope go_scope.
Delimit Scope go_scope with go.
Notation "x <- m ;; k" := (bind m (fun x => k))
  (at level 61, m at next level, right associativity) : go_scope.
Notation "m ;; k" := (bind m (fun _ => k))
  (at level 61, right associativity) : go_scope.
