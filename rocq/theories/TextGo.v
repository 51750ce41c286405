(** * TextGo: the text of error messages and log lines.

    The formatting verbs of package fmt are modelled from their documentation: [%d] writes an int in base ten, [%s] the
    bytes of a string and [%f] a float64 with six digits after the point, correctly rounded (ties to even), infinities as
    +Inf and -Inf, NaN without a sign, and a minus sign before negative numbers and minus zero.  Package log is modelled
    from its documentation too: an entry is the logger's prefix, the date and time (log.Ldate|log.Ltime; a parameter
    here), a space, the message, and a line feed unless the message ends with one. *)
From Coq Require Import ZArith Bool Ascii String List.
From Flocq Require Import IEEE754.Binary IEEE754.Bits.
From Verif Require Import Num Heap NumB64 LayerData ModelData.
Import ListNotations.
Open Scope string_scope.
Open Scope Z_scope.

(** ** Verbs *)
Definition digit (d : Z) : ascii := ascii_of_nat (48 + Z.to_nat d).
(** The digits of [n >= 0], without leading zeros, before [acc]. *)
Fixpoint digits (fuel : nat) (n : Z) (acc : string) : string :=
  match fuel with
  | O => acc
  | S fuel => let acc := String (digit (n mod 10)) acc in if n <? 10 then acc else digits fuel (n / 10) acc
  end.
Definition fmt_nat (n : Z) : string := digits (S (Z.to_nat (Z.log2 n))) n "".
(** Exactly [w] digits, before [acc]. *)
Fixpoint fmt_pad (w : nat) (n : Z) (acc : string) : string :=
  match w with O => acc | S w => fmt_pad w (n / 10) (String (digit (n mod 10)) acc) end.
(** %d *)
Definition fmt_d (n : Z) : string := if n <? 0 then "-" ++ fmt_nat (- n) else fmt_nat n.

(** [m * 2^e] in millionths, to nearest, ties to even. *)
Definition micro (m : positive) (e : Z) : Z :=
  let num := Z.pos m * 10 ^ 6 * 2 ^ Z.max e 0 in
  let den := 2 ^ Z.max (- e) 0 in
  let q := num / den in
  let r := num mod den in
  if 2 * r <? den then q else if den <? 2 * r then q + 1 else if Z.even q then q else q + 1.
Definition fmt_micro (n : Z) : string := fmt_nat (n / 10 ^ 6) ++ "." ++ fmt_pad 6 (n mod 10 ^ 6) "".
Definition sign_text (s : bool) : string := if s then "-" else "".
(** %f *)
Definition fmt_f (x : binary64) : string :=
  match x with
  | B754_nan _ _ _ _ _ => "NaN"
  | B754_infinity _ _ true => "-Inf"
  | B754_infinity _ _ false => "+Inf"
  | B754_zero _ _ s => sign_text s ++ fmt_micro 0
  | B754_finite _ _ s m e _ => sign_text s ++ fmt_micro (micro m e)
  end.

(** ** Errors *)
(** invalidMatrixDimensionsError, invalidMatrixIndexError and invalidSliceDimensionsError (matrix.go:14-26),
    invalidLayerDimensionsError (network.go:26-28), invalidLossSize (loss.go:22-24); io.EOF and io.ErrUnexpectedEOF. *)
Definition err_text (e : err) : string :=
  match e with
  | EMatDims r c => "nn.Matrix: Invalid matrix dimensions: " ++ fmt_d r ++ ", " ++ fmt_d c
  | EMatIndex r c => "nn.Matrix: Invalid index for matrix: " ++ fmt_d r ++ ", " ++ fmt_d c
  | ESliceDims n => "nn.Matrix: Invalid slice dimensions: " ++ fmt_d n
  | ELayerDims i o => "nn.Layer: Invalid layer dimensions: " ++ fmt_d i ++ ", " ++ fmt_d o
  | ELossSize n => "nn.Loss: Invalid loss input size: " ++ fmt_d n
  | EMsg msg => msg
  | EEOF => "EOF"
  | EUnexpectedEOF => "unexpected EOF"
  end.

(** ** Log lines *)
Section WithLibm.
Context {L : libm}.
(** model.go:241, 248, 257, 268, 273, 278, 286, 291, 296; model_data.go:197. *)
Definition line_text (l : logline (B64 L)) : string :=
  match l with
  | LInfo ep loss acc => "Epoch: " ++ fmt_d ep ++ ", Loss: " ++ fmt_f loss ++ ", Accuracy: " ++ fmt_f acc
  | LValInfo ep loss acc => "Epoch: " ++ fmt_d ep ++ ", Validation Loss: " ++ fmt_f loss ++ ", Validation Accuracy: " ++ fmt_f acc
  | LError what e => what ++ err_text e
  | LWarning version => "Model version " ++ version ++ " may be incompatable with nn version " ++ VERSION ++ "."
  end.
(** The three loggers, nn.go:37-39 and 49-51. *)
Definition level (l : logline (B64 L)) : string :=
  match l with LInfo _ _ _ | LValInfo _ _ _ => "[info]: " | LError _ _ => "[error]: " | LWarning _ => "[warning]: " end.
Definition newline : ascii := ascii_of_nat 10.
Fixpoint ends_line (t : string) : bool :=
  match t with EmptyString => false | String c EmptyString => Ascii.eqb c newline | String _ t => ends_line t end.
(** What log.Logger.Printf writes at the given date and time. *)
Definition entry_text (stamp : string) (l : logline (B64 L)) : string :=
  let t := line_text l in level l ++ stamp ++ " " ++ t ++ (if ends_line t then "" else String newline "").
(** What a sequence of log lines adds to the log file. *)
Definition log_text (ls : list (string * logline (B64 L))) : string :=
  fold_right (fun '(stamp, l) t => entry_text stamp l ++ t) "" ls.
End WithLibm.
