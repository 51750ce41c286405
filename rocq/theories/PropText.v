(** * PropText: the text of errors and log lines (C104). *)
From Coq Require Import String ZArith Reals Bool List.
From Flocq Require Import Core.Core IEEE754.BinarySingleNaN IEEE754.Bits.
From Verif Require Import Num Heap Spec Loss Network ModelGo PureSpec Repr OptSpec ModelSpec NumB64 NumQ LayerData ModelData TextGo TextSpec TextLog.
Import ListNotations.
Open Scope string_scope.
Open Scope Z_scope.

(** %d can be read back; %f is the number rounded to the nearest millionth, ties to even. *)
Theorem C104_int n : read_int (fmt_d n) = Some (n, "").
Proof. exact (int_text n). Qed.
Theorem C104_float x : b64_finite x = true -> read_float (fmt_f x) = Some (Decimal (IZR (ZnearestE (10 ^ 6 * b64_R x)) / 10 ^ 6), "").
Proof. exact (fixed_text x). Qed.
Theorem C104_float_monotone x y v w : read_float (fmt_f x) = Some (Decimal v, "") -> read_float (fmt_f y) = Some (Decimal w, "") ->
  (b64_R x <= b64_R y)%R -> (v <= w)%R.
Proof. exact (mono_text x y v w). Qed.
Theorem C104_nan x : read_float (fmt_f x) = Some (NotANumber, "") <-> b64_nan x = true.
Proof. exact (special_text x). Qed.
Print Assumptions C104_int.
Print Assumptions C104_float.
Print Assumptions C104_float_monotone.
Print Assumptions C104_nan.
Example C104_ex_numbers : fmt_d (-1203) = "-1203" /\ fmt_f (b64_ofZ 0) = "0.000000" /\ fmt_f (b64_div mode_NE (b64_ofZ (-2)) (b64_ofZ 3)) = "-0.666667" /\
  fmt_f (b64_div mode_NE (b64_ofZ 15625) (b64_ofZ (2 ^ 7))) = "122.070312" /\ fmt_f (b64_ofZ 1000000) = "1000000.000000" /\ fmt_f (b64_inf true) = "-Inf".
Proof. vm_compute. repeat split; reflexivity. Qed.

(** The message of an error determines the error, and an error line what failed and with which error. *)
Theorem C104_errors e e' : known_error e -> known_error e' -> err_text e = err_text e' -> e = e'.
Proof. exact (err_text_inj e e'). Qed.
Theorem C104_error_lines (L : libm) what what' e e' : In what fit_messages -> In what' fit_messages -> known_error e -> known_error e' ->
  line_text (L := L) (LError what e) = line_text (L := L) (LError what' e') -> what = what' /\ e = e'.
Proof. exact (error_line_inj L what what' e e'). Qed.
(** The messages name the dimensions, the row before the column. *)
Theorem C104_error_numbers a b : read_two "nn.Matrix: Invalid matrix dimensions: " (err_text (EMatDims a b)) = Some (a, b) /\
  read_two "nn.Matrix: Invalid index for matrix: " (err_text (EMatIndex a b)) = Some (a, b) /\
  read_two "nn.Layer: Invalid layer dimensions: " (err_text (ELayerDims a b)) = Some (a, b) /\
  read_one "nn.Matrix: Invalid slice dimensions: " (err_text (ESliceDims a)) = Some a /\ read_one "nn.Loss: Invalid loss input size: " (err_text (ELossSize a)) = Some a.
Proof. exact (error_numbers a b). Qed.
(** Every entry of the log file starts with its level, and the warning names both versions. *)
Theorem C104_level (L : libm) (l : logline (B64 L)) stamp : exists rest, entry_text stamp l = (match l with
  | LInfo _ _ _ | LValInfo _ _ _ => "[info]: " | LError _ _ => "[error]: " | LWarning _ => "[warning]: " end) ++ stamp ++ " " ++ rest.
Proof. exact (level_text L l stamp). Qed.
Theorem C104_warning (L : libm) v : line_text (LWarning (K := B64 L) v) = "Model version " ++ v ++ " may be incompatable with nn version 1.0.3.".
Proof. exact (warning_text L v). Qed.
(** The errors of Fit are known, and the last line of the log gives them. *)
Theorem C104_fit_errors (L : libm) (s : state (B64 L)) m x y ep bs xv yv every e s' : Fit m x y ep bs xv yv every s = (Fail e, s') ->
  plain_error e /\ exists ls what, In what fit_messages /\ h_log s' = (ls ++ [LError what e])%list /\
    line_text (L := L) (LError what e) = what ++ err_text e /\ one_line (what ++ err_text e).
Proof. exact (fit_error_text s m x y ep bs xv yv every e s'). Qed.
Theorem C104_which_pass_refuted : exists (s : state QNum) m x y e,
  (exists outs s1, Forward m x true s = (Ret outs, s1) /\ fst (Backward m outs y s1) = Fail e) /\
  fst (Fit m x y 1 0 matrix0 matrix0 0 s) = Fail e /\ h_log s = [] /\
  h_log (snd (Fit m x y 1 0 matrix0 matrix0 0 s)) = [LError "Failed to perform forward pass: " e].
Proof. exact misnamed_pass. Qed.
Print Assumptions C104_errors.
Print Assumptions C104_error_lines.
Print Assumptions C104_error_numbers.
Print Assumptions C104_level.
Print Assumptions C104_warning.
Print Assumptions C104_fit_errors.
Print Assumptions C104_which_pass_refuted.
Example C104_ex_errors : known_error (EMatDims 3 (-1)) /\ err_text (EMatDims 3 (-1)) = "nn.Matrix: Invalid matrix dimensions: 3, -1" /\
  known_error (EMsg "nn.LoadModel: Invalid loss type.") /\ In "Failed to calculate loss: " fit_messages.
Proof. split; [left; exact I|]. split; [vm_compute; reflexivity|]. split; [|simpl; tauto]. right. right. right. eexists. split; [reflexivity|]. simpl. tauto. Qed.

(** An information line gives the epoch, and the loss and the accuracy to within half a millionth. *)
Theorem C104_info (L : libm) (val : bool) ep (loss acc : B64 L) :
  exists rl ra, read_info (line_text (L := L) (if val then LValInfo ep loss acc else LInfo ep loss acc)) = Some (val, ep, rl, ra) /\ tells rl loss /\ tells ra acc.
Proof. exact (info_text L val ep loss acc). Qed.
(** The lines of a training run: one for each reported epoch and data set, in order. *)
Theorem C104_training (L : libm) (s : state (B64 L)) m es xs i o k x rsx y rsy n X Y epochs bs xv yv val every :
  min_faithful (B64 L) -> 0 <= bs -> Z.of_nat n + bs <= 2 ^ 52 -> (1 <= n)%nat ->
  trainable s m es xs i o k -> data_ok s es x rsx y rsy n i o X Y -> log_ok s m es xv yv i o val every ->
  returns (Fit m x y epochs bs xv yv every) s (fun _ s' => exists ls, h_log s' = (h_log s ++ ls)%list /\
    map shown (map (line_text (L := L)) ls) = map Some (reported (match val with Some _ => true | None => false end) every (Z.to_nat epochs))).
Proof. exact (fit_log_text s m es xs i o k x rsx y rsy n X Y epochs bs xv yv val every). Qed.
(** The log file has one line for each entry, *)
Theorem C104_file (L : libm) (ls : list (string * logline (B64 L))) : List.Forall (fun e => one_line (fst e) /\ one_line (line_text (snd e))) ls ->
  file_lines (log_text ls) = map (fun e => level (snd e) ++ fst e ++ " " ++ line_text (snd e)) ls.
Proof. exact (file_of_entries ls). Qed.
Theorem C104_one_line (L : libm) (l : logline (B64 L)) :
  match l with LError what e => In what fit_messages /\ known_error e | LWarning v => one_line v | _ => True end -> one_line (line_text l).
Proof. exact (line_one_line l). Qed.
(** but a model file can put a second one into it. *)
Theorem C104_warning_line_refuted (L : libm) (B : FBits (B64 L)) : exists (s s' : state (B64 L)) buf e l, h_log s = [] /\ LoadModel B buf s = (Fail e, s') /\ h_log s' = [l] /\
  forall stamp, one_line stamp -> length (file_lines (log_text [(stamp, l)])) = 2%nat.
Proof. exact (two_lines B). Qed.
Print Assumptions C104_info.
Print Assumptions C104_training.
Print Assumptions C104_file.
Print Assumptions C104_one_line.
Print Assumptions C104_warning_line_refuted.
Example C104_ex_lines (L : libm) : line_text (L := L) (LValInfo (K := B64 L) 20 (fdiv (ofZ 1) (ofZ 3)) (ofZ 1)) = "Epoch: 20, Validation Loss: 0.333333, Validation Accuracy: 1.000000" /\
  reported true 2 5 = [(false, 0); (true, 0); (false, 2); (true, 2); (false, 4); (true, 4)].
Proof. split; vm_compute; reflexivity. Qed.

(** The printed accuracy of up to 999999 samples tells how many were right; *)
Theorem C104_accuracy (L : libm) (a b n : Z) : 0 <= a <= n -> 0 <= b <= n -> 1 <= n < 10 ^ 6 ->
  fmt_f (fdiv (n := B64 L) (ofZ a) (ofZ n)) = fmt_f (fdiv (n := B64 L) (ofZ b) (ofZ n)) -> a = b.
Proof. exact (accuracy_text (L := L) a b n). Qed.
(** with four million of them, 1.000000 need not mean all, *)
Theorem C104_accuracy_large_refuted (L : libm) : exists a n : Z, 0 <= a < n /\ n = 4000000 /\ fmt_f (fdiv (n := B64 L) (ofZ a) (ofZ n)) = "1.000000".
Proof. exact accuracy_text_large. Qed.
(** and a loss of 0.000000 need not be zero. *)
Theorem C104_zero_loss_refuted (L : libm) : exists (s s' : state (B64 L)) yhat y rs1 rs2 P Y v, own s yhat rs1 1 1 P /\ own s y rs2 1 1 Y /\ P <> Y /\
  Loss_Forward (MkLoss MAE 1) yhat y s = (Ret v, s') /\ flt f0 v = true /\ fmt_f v = "0.000000".
Proof. exact zero_loss_text. Qed.
Print Assumptions C104_accuracy.
Print Assumptions C104_accuracy_large_refuted.
Print Assumptions C104_zero_loss_refuted.
Example C104_ex_accuracy (L : libm) : fmt_f (fdiv (n := B64 L) (ofZ 149) (ofZ 150)) = "0.993333" /\ fmt_f (fdiv (n := B64 L) (ofZ 999998) (ofZ 999999)) = "0.999999".
Proof. vm_compute. split; reflexivity. Qed.
