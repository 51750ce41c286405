(** * model_data.go, and the file operations it uses *)
From Coq.Strings Require Import Byte.
From Coq Require Import String Ascii ZArith List Bool.
From Verif Require Import Num Heap Matrix Network Loss Optimizers ModelGo LayerData.
Import ListNotations.
Open Scope Z_scope.
Open Scope go_scope.

(** nn.go:14-16. *)
Definition VERSION : string := "1.0.3".

Section WithNum.
Context {K : Num} (B : FBits K).

(** model_data.go:16-27. *)
Record saved_model : Type := MkSavedModel {
  sm_version : string; sm_size : Z; sm_in : Z; sm_out : Z; sm_losstype : Z;
  sm_acctype : Z; sm_prec : K; sm_opttype : Z; sm_optvals : gomap K;
  sm_layers : list (saved_layer K)
}.

(** model_data.go:30-50. *)
Definition NewSavedModelData (m : model K) : M K saved_model :=
  layers <- for_acc (m_size m) (fun i layers =>
    lref <- go_nth (m_layers m) i ;;
    d <- NewSavedLayerData lref ;;
    ret (layers ++ [d])) [] ;;
  ret (MkSavedModel VERSION (m_size m) (m_in m) (m_out m) (m_losstype m) (m_acctype m)
                    (m_prec m) (m_opttype m) (m_optvals m) layers).

(** One key/value pair, model_data.go:106-119. *)
Definition put_pair (kv : string * K) : list byte :=
  put_int8 (Z.of_nat (String.length (fst kv))) ++ put_string (fst kv) ++ put_f64 B (snd kv).

(** model_data.go:53-131.  [ord] is the order in which the runtime iterates over the map
    OptimizerValues (theorems take an arbitrary permutation). *)
Definition Serialize (m : saved_model) (ord : gomap K) (buf : list byte) : M K (list byte) :=
  let buf := buf ++ put_string "NNML" in
  let buf := buf ++ put_string (sm_version m) in
  let buf := buf ++ put_int8 (sm_size m) in
  let buf := buf ++ put_int32 (sm_in m) in
  let buf := buf ++ put_int32 (sm_out m) in
  let buf := buf ++ put_int8 (sm_losstype m) in
  let buf := buf ++ put_int8 (sm_acctype m) in
  let buf := buf ++ put_f64 B (sm_prec m) in
  let buf := buf ++ put_int8 (sm_opttype m) in
  let buf := buf ++ put_int8 (Z.of_nat (length (sm_optvals m))) in
  let buf := fold_left (fun buf kv => buf ++ put_pair kv) ord buf in
  for_acc (sm_size m) (fun i buf =>
    l <- go_nth (sm_layers m) i ;;
    SerializeLayer B l buf) buf.

(** model_data.go:135-156. *)
Definition loadLoss (t size : Z) : M K loss :=
  if t =? 0 then ret (MkLoss MSE size)
  else if t =? 1 then ret (MkLoss MAE size)
  else if t =? 2 then ret (MkLoss CE size)
  else if t =? 3 then ret (MkLoss BCE size)
  else fail (EMsg "nn.LoadModel: Invalid loss type.").

(** model_data.go:160-173. *)
Definition loadOptimizer (t : Z) (v : gomap K) : M K (optimizer K) :=
  if t =? 0 then ret (opt_setValues (opt_zero SGD) v)
  else if t =? 1 then ret (opt_setValues (opt_zero Adam) v)
  else fail (EMsg "nn.LoadModel: Invalid optimizer type.").

(** model_data.go:177-308. *)
Definition loadModelBuffer (buf : list byte) : M K (saved_model * list nat * list byte) :=
  r <- buf_read 4 buf ;; let '(magic, buf) := r in
  if negb (String.eqb (string_of_list_byte magic) "NNML") then
    fail (EMsg "nn.LoadModel: Invalid magic bytes. Check that the data is not corrupted.")
  else
    r <- buf_read 5 buf ;; let '(version, buf) := r in
    (if negb (String.eqb (string_of_list_byte version) VERSION) then log_print (LWarning (string_of_list_byte version)) else ret tt) ;;
    r <- get_int8 buf ;; let '(modelSize, buf) := r in
    r <- get_int32 buf ;; let '(inputSize, buf) := r in
    r <- get_int32 buf ;; let '(outputSize, buf) := r in
    r <- get_int8 buf ;; let '(lossType, buf) := r in
    r <- get_int8 buf ;; let '(accType, buf) := r in
    r <- get_f64 B buf ;; let '(prec, buf) := r in
    r <- get_int8 buf ;; let '(optType, buf) := r in
    r <- get_int8 buf ;; let '(lenValues, buf) := r in
    r <- for_acc lenValues (fun _ (st : gomap K * list byte) =>
      let '(vals, buf) := st in
      r <- get_int8 buf ;; let '(lenKey, buf) := r in
      (* make([]byte, int(lenKey)) panics on a negative length *)
      if lenKey <? 0 then panic PMake else
      r <- buf_read (Z.to_nat lenKey) buf ;; let '(key, buf) := r in
      r <- get_f64 B buf ;; let '(value, buf) := r in
      ret (map_set (string_of_list_byte key) value vals, buf)) ([], buf) ;;
    let '(vals, buf) := r in
    r <- for_acc modelSize (fun _ (st : list nat * list byte) =>
      let '(layers, buf) := st in
      r <- LoadLayer B buf ;; let '(lref, buf) := r in
      ret (layers ++ [lref], buf)) ([], buf) ;;
    let '(layers, buf) := r in
    ret (MkSavedModel (string_of_list_byte version) modelSize inputSize outputSize lossType accType
                      prec optType vals [], layers, buf).

(** [err := f(); if err != nil { return Model{}, err }] for a method returning struct+error. *)
Definition check_err (m : M K (model K * option err)) : M K (model K) :=
  r <- m ;;
  match snd r with
  | None => ret (fst r)
  | Some e => fail e
  end.

(** model_data.go:311-347.  Also returns the unread bytes. *)
Definition LoadModel (buf : list byte) : M K (model K * list byte) :=
  r <- loadModelBuffer buf ;;
  let '(d, layers, buf) := r in
  m <- for_acc (sm_size d) (fun i m =>
    lref <- go_nth layers i ;;
    check_err (AddLayer m lref)) NewModel ;;
  l <- loadLoss (sm_losstype d) (sm_out d) ;;
  o <- loadOptimizer (sm_opttype d) (sm_optvals d) ;;
  m <- check_err (Finalize m l o (sm_acctype d) (sm_prec d)) ;;
  ret (m, buf).

(** ** Files *)

(** The contents of the file at the given path; [None] = no such file. *)
Definition file := option (list byte).

(** What the operating system does during one SaveFile call. *)
Record save_env : Type := MkSaveEnv {
  se_create_ok : bool;        (* os.Create succeeds *)
  se_written : nat            (* at most this many bytes reach the file; fewer than asked =
                                 file.Write returns an error *)
}.

(** model_data.go:351-376.  os.Create truncates or creates the file; then the model is
    serialized in memory; then one Write.  Result: outcome and the file afterwards. *)
Definition SaveFile (m : model K) (ord : gomap K) (env : save_env) (f : file)
  : M K (option err * file) :=
  data <- NewSavedModelData m ;;
  if negb (se_create_ok env) then ret (Some (EMsg "create"), f)
  else
    r <- catch (Serialize data ord []) ;;
    match r with
    | inr e => ret (Some e, Some [])
    | inl bytes =>
        if (length bytes <=? se_written env)%nat then ret (None, Some bytes)
        else ret (Some (EMsg "write"), Some (firstn (se_written env) bytes))
    end.

(** The file contents a crash (process or machine stops) can leave behind: before os.Create
    the old contents; after it the empty file; during and after the Write some prefix of the
    new data.  (Reordering of disk writes below the file system is not modelled.) *)
Inductive crash_state (old : file) (bytes : list byte) : file -> Prop :=
| crash_before_create : crash_state old bytes old
| crash_writing n : crash_state old bytes (Some (firstn n bytes)).

(** model_data.go:379-403.  [nread] is the count file.Read returns; the code ignores it and
    parses the whole zero-initialised buffer.  file.Read on a non-empty buffer reports
    io.EOF when it reads 0 bytes. *)
Definition LoadFile (f : file) (nread : nat) : M K (model K) :=
  match f with
  | None => fail (EMsg "open")
  | Some content =>
      let n := Nat.min nread (length content) in
      if (n =? 0)%nat && negb (length content =? 0)%nat then fail EEOF
      else
        r <- LoadModel (firstn n content ++ repeat x00 (length content - n)) ;;
        ret (fst r)
  end.

End WithNum.
Arguments saved_model K : clear implicits.
