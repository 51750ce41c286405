(** * layer_data.go, and the parts of bytes.Buffer and encoding/binary it uses *)
From Coq.Strings Require Import Byte.
From Coq Require Import String Ascii ZArith List Bool.
From Verif Require Import Num Heap Matrix Network ModelGo.
Import ListNotations.
Open Scope Z_scope.
Open Scope go_scope.

(** ** Bytes *)
Definition Z_of_byte (b : byte) : Z := Z.of_N (Byte.to_N b).
Definition byte_of_Z (z : Z) : byte :=
  match Byte.of_N (Z.to_N (z mod 256)) with Some b => b | None => x00 end.

(** binary.LittleEndian: n bytes of z, least significant first; and back. *)
Fixpoint le_bytes (n : nat) (z : Z) : list byte :=
  match n with
  | O => []
  | S n' => byte_of_Z z :: le_bytes n' (z / 256)
  end.
Fixpoint of_le (bs : list byte) : Z :=
  match bs with
  | [] => 0
  | b :: t => Z_of_byte b + 256 * of_le t
  end.

(** math.Float64bits / Float64frombits, supplied with the number system.  No law is assumed
    here; [bits_ok] below is a hypothesis of the theorems that need it and is proved for
    binary64 (NumB64.v). *)
Record FBits (K : Num) : Type := MkFBits { to_bits : K -> Z; of_bits : Z -> K }.
Arguments to_bits {K} _ _. Arguments of_bits {K} _ _.
Definition bits_ok {K} (B : FBits K) : Prop :=
  forall x, 0 <= to_bits B x < 2 ^ 64 /\ of_bits B (to_bits B x) = x.

(** ** Writing: binary.Write on a bytes.Buffer never fails for fixed-size values. *)
Definition put_int8 (z : Z) : list byte := le_bytes 1 z.
Definition put_int32 (z : Z) : list byte := le_bytes 4 z.
Definition put_f64 {K} (B : FBits K) (x : K) : list byte := le_bytes 8 (to_bits B x).
Definition put_string (s : string) : list byte := list_byte_of_string s.

Section WithNum.
Context {K : Num} (B : FBits K).

(** ** Reading.  A reader takes the unread bytes and returns a value and the rest.  The
    position of the buffer after an error is not modelled. *)

(** buf.Read(p) with len(p) = n: io.EOF if the buffer is empty and n > 0, otherwise copies
    min(n, available) bytes; the rest of p keeps its zeros. *)
Definition buf_read (n : nat) (buf : list byte) : M K (list byte * list byte) :=
  match buf with
  | [] => if (n =? 0)%nat then ret ([], []) else fail EEOF
  | _ => ret (firstn n buf ++ repeat x00 (n - length buf), skipn n buf)
  end.

(** binary.Read of a fixed-size value of n bytes (io.ReadFull). *)
Definition read_full (n : nat) (buf : list byte) : M K (list byte * list byte) :=
  if (n <=? length buf)%nat then ret (firstn n buf, skipn n buf)
  else match buf with [] => fail EEOF | _ => fail EUnexpectedEOF end.
Definition get_int8 (buf : list byte) : M K (Z * list byte) :=
  r <- read_full 1 buf ;; ret (wrap8 (of_le (fst r)), snd r).
Definition get_int32 (buf : list byte) : M K (Z * list byte) :=
  r <- read_full 4 buf ;; ret (wrap32 (of_le (fst r)), snd r).
Definition get_f64 (buf : list byte) : M K (K * list byte) :=
  r <- read_full 8 buf ;; ret (of_bits B (of_le (fst r)), snd r).

(** layer_data.go:29-37. *)
Record saved_layer : Type := MkSaved {
  sv_type : Z; sv_in : Z; sv_out : Z; sv_slope : K; sv_drop : K; sv_w : matrix; sv_b : matrix
}.

(** layer_data.go:40-54 with the getValues of network.go:61-64, 178-181, 286-289, 408-411,
    527-530, 730-733: "slope" only exists for leaky layers, "dropout" only for dropout
    layers, a missing key reads as 0. *)
Definition NewSavedLayerData (lref : nat) : M K saved_layer :=
  l <- get_layer lref ;;
  ret (MkSaved (wrap8 (toZ (ofZ (n := K) (lkind_code (l_kind l)))))
               (layer_inputs l) (layer_outputs l)
               (match l_kind l with Leaky => l_slope l | _ => f0 end)
               (match l_kind l with Dropout => l_drop l | _ => f0 end)
               (l_w l) (l_b l)).

(** layer_data.go:57-118.  [buf] is what the buffer holds before, the result what it holds
    after; the contents after an error are not modelled. *)
Definition SerializeLayer (l : saved_layer) (buf : list byte) : M K (list byte) :=
  if negb (mrows (sv_w l) =? sv_in l) || negb (mcols (sv_w l) =? sv_out l) then
    fail (ELayerDims (sv_in l) (sv_out l))
  else if negb (mrows (sv_b l) =? 1) || negb (mcols (sv_b l) =? sv_out l) then
    fail (ELayerDims (sv_in l) (sv_out l))
  else
    let buf := buf ++ put_string "LA" in
    let buf := buf ++ put_int8 (sv_type l) in
    let buf := buf ++ put_int32 (sv_in l) in
    let buf := buf ++ put_int32 (sv_out l) in
    let buf := buf ++ put_f64 B (sv_slope l) in
    let buf := buf ++ put_f64 B (sv_drop l) in
    buf <- for_acc (mrows (sv_w l)) (fun i buf =>
      for_acc (mcols (sv_w l)) (fun j buf =>
        v <- getc (sv_w l) i j ;;
        ret (buf ++ put_f64 B v)) buf) buf ;;
    for_acc (mrows (sv_b l)) (fun i buf =>
      for_acc (mcols (sv_b l)) (fun j buf =>
        v <- getc (sv_b l) i j ;;
        ret (buf ++ put_f64 B v)) buf) buf.

(** layer_data.go:122-202. *)
Definition loadLayerBuffer (buf : list byte) : M K (saved_layer * list byte) :=
  r <- buf_read 2 buf ;;
  let '(magic, buf) := r in
  if negb (String.eqb (string_of_list_byte magic) "LA") then
    fail (EMsg "nn.LoadLayer: Invalid magic bytes. Check that the data is not corrupted.")
  else
    r <- get_int8 buf ;; let '(layerType, buf) := r in
    r <- get_int32 buf ;; let '(inputSize, buf) := r in
    r <- get_int32 buf ;; let '(outputSize, buf) := r in
    r <- get_f64 buf ;; let '(slope, buf) := r in
    r <- get_f64 buf ;; let '(dropout, buf) := r in
    weights <- NewMatrix inputSize outputSize ;;
    buf <- for_acc inputSize (fun i buf =>
      for_acc outputSize (fun j buf =>
        r <- get_f64 buf ;;
        setc weights i j (fst r) ;;
        ret (snd r)) buf) buf ;;
    biases <- NewMatrix 1 outputSize ;;
    buf <- for_acc outputSize (fun j buf =>
      r <- get_f64 buf ;;
      setc biases 0 j (fst r) ;;
      ret (snd r)) buf ;;
    ret (MkSaved layerType inputSize outputSize slope dropout weights biases, buf).

(** layer_data.go:205-261. *)
Definition layer_of_saved (k : lkind) (d : saved_layer) : layer K :=
  MkLayer k (sv_in d) (sv_out d) (sv_w d) (sv_b d)
          (match k with Leaky => sv_slope d | _ => f0 end)
          (match k with Dropout => sv_drop d | _ => f0 end)
          matrix0 matrix0.
Definition LoadLayer (buf : list byte) : M K (nat * list byte) :=
  r <- loadLayerBuffer buf ;;
  let '(d, buf) := r in
  let mk k := lref <- alloc_layer (layer_of_saved k d) ;; ret (lref, buf) in
  if sv_type d =? 0 then mk Hidden
  else if sv_type d =? 1 then mk Linear
  else if sv_type d =? 2 then mk SigmoidK
  else if sv_type d =? 3 then mk Leaky
  else if sv_type d =? 4 then mk SoftmaxK
  else if sv_type d =? 5 then mk Dropout
  else fail (EMsg "nn.LoadLayer: Invalid layer type value.").

End WithNum.
Arguments saved_layer K : clear implicits.
