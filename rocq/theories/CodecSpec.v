(** * CodecSpec: the file format of LayerData.md and ModelData.md, as plain functions.

    Written independently of the serializers and loaders in LayerData.v and ModelData.v:
    encoding concatenates the documented fields, decoding reads them at their offsets. *)
From Coq.Strings Require Import Byte.
From Coq Require Import String Ascii ZArith List Bool Arith.
From Verif Require Import Num Heap Spec Matrix Network Loss Optimizers ModelGo LayerData ModelData PureSpec Repr OptSpec ModelSpec.
Import ListNotations.
Open Scope Z_scope.
Open Scope go_scope.

(** An n-byte little-endian integer: byte k is (z / 256^k) mod 256. *)
Definition enc (n : nat) (z : Z) : list byte := map (fun k => byte_of_Z (z / 256 ^ Z.of_nat k)) (seq 0 n).
Definition sum_bytes (bs : list byte) : Z :=
  fold_right Z.add 0 (map (fun k => Z_of_byte (nth k bs x00) * 256 ^ Z.of_nat k) (seq 0 (length bs))).
(** Two's complement. *)
Definition signed (bits z : Z) : Z := if z <? 2 ^ (bits - 1) then z else z - 2 ^ bits.
(** [n] bytes at offset [a]. *)
Definition field (a n : nat) (buf : list byte) : list byte := firstn n (skipn a buf).
Definition int8_at (a : nat) (buf : list byte) : Z := signed 8 (sum_bytes (field a 1 buf)).
Definition int32_at (a : nat) (buf : list byte) : Z := signed 32 (sum_bytes (field a 4 buf)).
Definition string_at (a n : nat) (buf : list byte) : string := string_of_list_byte (field a n buf).

Definition kind_of_code (z : Z) : option lkind :=
  if z =? 0 then Some Hidden else if z =? 1 then Some Linear else if z =? 2 then Some SigmoidK
  else if z =? 3 then Some Leaky else if z =? 4 then Some SoftmaxK else if z =? 5 then Some Dropout else None.
Definition loss_of_code (z : Z) : option losskind :=
  if z =? 0 then Some MSE else if z =? 1 then Some MAE else if z =? 2 then Some CE else if z =? 3 then Some BCE else None.
Definition opt_of_code (z : Z) : option okind := if z =? 0 then Some SGD else if z =? 1 then Some Adam else None.

(** Loading a byte string: a result, an error, or a panic. *)
Inductive res (A : Type) : Type := Good (a : A) | Bad | Crash.
Arguments Good {A} a. Arguments Bad {A}. Arguments Crash {A}.

Section WithNum.
Context {K : Num} (B : FBits K).
Implicit Types (p : player K) (s : state K).

Definition f64s (l : list K) : list byte := concat (map (fun x => enc 8 (to_bits B x)) l).
Definition f64_at (a : nat) (buf : list byte) : K := of_bits B (sum_bytes (field a 8 buf)).

(** ** Layers *)
(** What is stored of a layer: the slope only of leaky layers, the rate only of dropout layers. *)
Definition stored_slope p : K := match p_kind p with Leaky => p_slope p | _ => f0 end.
Definition stored_drop p : K := match p_kind p with Dropout => p_drop p | _ => f0 end.
Definition stored p : player K :=
  PL (p_kind p) (p_in p) (p_out p) (p_w p) (p_b p) (stored_slope p) (stored_drop p).
(** LayerData.md. *)
Definition layer_bytes p : list byte :=
  list_byte_of_string "LA" ++ enc 1 (lkind_code (p_kind p)) ++ enc 4 (Z.of_nat (p_in p)) ++ enc 4 (Z.of_nat (p_out p)) ++
  f64s [stored_slope p] ++ f64s [stored_drop p] ++ f64s (concat (p_w p)) ++ f64s (concat (p_b p)).
Definition layer_size p : nat := (2 + 1 + 4 + 4 + 8 + 8 + 8 * (p_in p * p_out p) + 8 * p_out p)%nat.
(** The layer a byte string starts with, and the bytes after it. *)
Definition decode_layer (buf : list byte) : option (player K * list byte) :=
  if (27 <=? length buf)%nat && String.eqb (string_at 0 2 buf) "LA" then
    match kind_of_code (int8_at 2 buf) with
    | None => None
    | Some k =>
        let i := int32_at 3 buf in let o := int32_at 7 buf in
        if (1 <=? i) && (1 <=? o) && (27 + 8 * (i * o) + 8 * o <=? Z.of_nat (length buf)) then
          let i := Z.to_nat i in let o := Z.to_nat o in
          Some (PL k i o (mk i o (fun a b => f64_at (27 + 8 * (a * o + b)) buf))
                         (mk 1 o (fun _ b => f64_at (27 + 8 * (i * o + b)) buf))
                   (match k with Leaky => f64_at 11 buf | _ => f0 end)
                   (match k with Dropout => f64_at 19 buf | _ => f0 end),
                skipn (27 + 8 * (i * o) + 8 * o) buf)
        else None
    end
  else None.
Fixpoint decode_layers (n : nat) (buf : list byte) : option (list (player K) * list byte) :=
  match n with
  | O => Some ([], buf)
  | S n' => match decode_layer buf with
            | None => None
            | Some (p, buf) => match decode_layers n' buf with None => None | Some (ps, buf) => Some (p :: ps, buf) end
            end
  end.

(** ** Models *)
(** ModelData.md: the optimizer values [ord] in some order, then the layers [ps]. *)
Definition pair_bytes (kv : string * K) : list byte :=
  enc 1 (Z.of_nat (String.length (fst kv))) ++ list_byte_of_string (fst kv) ++ f64s [snd kv].
Definition model_bytes (m : model K) (ord : gomap K) (ps : list (player K)) : list byte :=
  list_byte_of_string "NNML" ++ list_byte_of_string "1.0.3" ++ enc 1 (m_size m) ++ enc 4 (m_in m) ++ enc 4 (m_out m) ++
  enc 1 (m_losstype m) ++ enc 1 (m_acctype m) ++ f64s [m_prec m] ++ enc 1 (m_opttype m) ++
  enc 1 (Z.of_nat (length (m_optvals m))) ++ concat (map pair_bytes ord) ++ concat (map layer_bytes ps).
Definition list_total (l : list nat) : nat := fold_right Nat.add O l.
Definition model_length (ord : gomap K) (ps : list (player K)) : nat :=
  (4 + 5 + 1 + 4 + 4 + 1 + 1 + 8 + 1 + 1 + list_total (map (fun kv => 1 + String.length (fst kv) + 8) ord) + list_total (map layer_size ps))%nat.

(** The optimizer table. *)
Fixpoint decode_pairs (n : nat) (buf : list byte) : res (gomap K * list byte) :=
  match n with
  | O => Good ([], buf)
  | S n' =>
      match buf with
      | [] => Bad
      | _ =>
          let len := int8_at 0 buf in
          if len <? 0 then Crash
          else if Z.of_nat (length buf) <? 1 + len + 8 then Bad
          else
            let len := Z.to_nat len in
            match decode_pairs n' (skipn (1 + len + 8) buf) with
            | Good (kvs, rest) => Good ((string_at 1 len buf, f64_at (1 + len) buf) :: kvs, rest)
            | Bad => Bad
            | Crash => Crash
            end
      end
  end.
(** The value of a key: of several entries the last counts, a missing one is 0. *)
Definition value_of (k : string) (kvs : gomap K) : K :=
  fold_left (fun v kv => if String.eqb k (fst kv) then snd kv else v) kvs f0.
Definition optimizer_of (k : okind) (kvs : gomap K) : optimizer K :=
  match k with
  | SGD => MkOpt SGD (value_of "learningRate" kvs) (value_of "decay" kvs) (value_of "momentum" kvs) f0 f0 f0 f0 0 matrix0 matrix0 matrix0 matrix0 false false
  | Adam => MkOpt Adam (value_of "learningRate" kvs) (value_of "decay" kvs) f0 (value_of "epsilon" kvs) (value_of "beta1" kvs) (value_of "beta2" kvs) f0 0 matrix0 matrix0 matrix0 matrix0 false false
  end.
(** Does every layer take the outputs of its predecessor? *)
Fixpoint fits (prev : option nat) (ps : list (player K)) : bool :=
  match ps with
  | [] => true
  | p :: t => match prev with None => true | Some o => (o =? p_in p)%nat end && fits (Some (p_out p)) t
  end.
(** The plain model that a file describes. *)
Record plain_model : Type := PMod {
  d_layers : list (player K); d_loss : losskind; d_acc : Z; d_prec : K; d_opt : optimizer K
}.
(** Reading a model: magic bytes, version (a different one costs a log line, or a panic if there
    is no logger), header, optimizer table, layers, and the checks of AddLayer, loadLoss,
    loadOptimizer and Finalize. *)
Definition decode_model (logger : bool) (buf : list byte) : res (plain_model * list byte) :=
  if negb ((5 <=? length buf)%nat && String.eqb (string_at 0 4 buf) "NNML") then Bad
  else if negb (String.eqb (string_at 4 5 buf) VERSION) && negb logger then Crash
  else if (length buf <? 30)%nat then Bad
  else
    match decode_pairs (Z.to_nat (int8_at 29 buf)) (skipn 30 buf) with
    | Crash => Crash
    | Bad => Bad
    | Good (kvs, rest) =>
        match decode_layers (Z.to_nat (int8_at 9 buf)) rest with
        | None => Bad
        | Some (ps, rest) =>
            match loss_of_code (int8_at 18 buf), opt_of_code (int8_at 28 buf) with
            | Some l, Some o =>
                if fits None ps && (int32_at 14 buf =? Z.of_nat (last_out ps)) && negb (flt (f64_at 20 buf) f0)
                then Good (PMod ps l (int8_at 19 buf) (f64_at 20 buf) (optimizer_of o kvs), rest)
                else Bad
            | _, _ => Bad
            end
        end
    end.
(** Log lines of the loader; a version cut short is filled up with zero bytes. *)
Definition version_text (buf : list byte) : string := string_of_list_byte (field 4 5 buf ++ repeat x00 (9 - length buf)).
Definition version_warning (buf : list byte) : list (logline K) :=
  if (5 <=? length buf)%nat && String.eqb (string_at 0 4 buf) "NNML" && negb (String.eqb (string_at 4 5 buf) VERSION) then [LWarning (version_text buf)] else [].

(** ** States *)
(** Only new objects and log lines. *)
Definition grows s s' : Prop :=
  frame nothing s s' /\ (exists ls, h_layers s' = h_layers s ++ ls) /\ (exists os, h_opts s' = h_opts s ++ os) /\
  h_rng s' = h_rng s /\ h_logger s' = h_logger s /\ (exists lg, h_log s' = h_log s ++ lg).
(** A new layer object [l] with contents [p] in new rows, and no other effect. *)
Definition loaded s s' (l : layer K) rw rb (p : player K) : Prop :=
  lown s' l rw rb p /\ fresh s (rw ++ rb) /\ NoDup (rw ++ rb) /\ frame nothing s s' /\ h_layers s' = h_layers s ++ [l] /\
  h_opts s' = h_opts s /\ h_rng s' = h_rng s /\ h_logger s' = h_logger s /\ h_log s' = h_log s.
(** Total number of float64 cells. *)
Definition cells s : nat := list_total (map (@length K) (h_rows s)).
(** A model state that stands for the plain model [d]: its layers are [es] (new, not shared), its
    optimizers [clone]s of the described one. *)
Definition represents s (m : model K) (es : list (lent K)) (n : nat) (d : plain_model) : Prop :=
  consistent s m es (first_in (d_layers d)) (last_out (d_layers d)) /\ net es = d_layers d /\ unshared es /\
  m_loss m = Some (MkLoss (d_loss d) (Z.of_nat (last_out (d_layers d)))) /\ m_losstype m = losskind_code (d_loss d) /\
  m_acctype m = d_acc d /\ m_prec m = d_prec d /\
  m_opttype m = okind_code (o_kind (d_opt d)) /\ m_optvals m = opt_values (d_opt d) /\
  m_opts m = seq n (length es) /\
  forall j, (j < length es)%nat -> nth_error (h_opts s) (n + j) = Some (clone (d_opt d)).
(** ** Saving *)
(** A model written to memory; [ord] is the order of its optimizer values. *)
Definition save (m : model K) (ord : gomap K) : M K (list byte) := d <- NewSavedModelData m ;; Serialize B d ord [].
Definition save_layer (lref : nat) (buf : list byte) : M K (list byte) := d <- NewSavedLayerData lref ;; SerializeLayer B d buf.
(** Sizes that fit the int32 fields. *)
Definition small_player p : Prop := Z.of_nat (p_in p) < 2 ^ 31 /\ Z.of_nat (p_out p) < 2 ^ 31.
(** A model of the layers [es] that was finalized with loss [l] and optimizer [o]. *)
Definition finalized s (m : model K) (es : list (lent K)) (l : losskind) (o : optimizer K) : Prop :=
  consistent s m es (first_in (net es)) (last_out (net es)) /\
  m_loss m = Some (MkLoss l (Z.of_nat (last_out (net es)))) /\ m_losstype m = losskind_code l /\
  m_opttype m = okind_code (o_kind o) /\ m_optvals m = opt_values o /\ flt (m_prec m) f0 = false.
(** Everything fits its field: at most 127 layers, sizes below 2^31, an int8 accuracy type. *)
Definition storable (m : model K) (ps : list (player K)) : Prop :=
  (length ps <= 127)%nat /\ Forall small_player ps /\ -128 <= m_acctype m < 128.
(** The number of layers a file of [n] layers claims to have: [n] as an int8. *)
Definition claimed (n : nat) : nat := Z.to_nat (signed 8 (Z.of_nat n mod 256)).
(** A layer whose last [j] biases were replaced by the float64 with all bits 0. *)
Definition tail_lost (j : nat) p : player K :=
  PL (p_kind p) (p_in p) (p_out p) (p_w p) [firstn (p_out p - j) (nth 0 (p_b p) []) ++ repeat (of_bits B 0) j] (p_slope p) (p_drop p).
(** A layer header without data. *)
Definition bare_header (k : lkind) (r c : nat) : list byte :=
  list_byte_of_string "LA" ++ enc 1 (lkind_code k) ++ enc 4 (Z.of_nat r) ++ enc 4 (Z.of_nat c) ++ repeat x00 16.
(** SGD at rate [lr] without decay and momentum. *)
Definition plain_sgd (lr : K) (po : popt K) : Prop := po_kind po = SGD /\ po_usedecay po = false /\ po_usemom po = false /\ po_rate po = lr.
(** What a file with that model describes. *)
Definition described (m : model K) (ps : list (player K)) (l : losskind) (o : optimizer K) : plain_model :=
  PMod (map stored ps) l (m_acctype m) (m_prec m) o.
End WithNum.
Arguments plain_model K : clear implicits.
