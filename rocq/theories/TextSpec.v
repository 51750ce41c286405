(** * TextSpec: reading numbers, error messages and log lines.

    Nothing here mentions how the texts are written: these are the conventions a reader of the log goes by. *)
From Coq Require Import ZArith Reals Bool Ascii String List.
From Verif Require Import Heap.
Import ListNotations.
Open Scope Z_scope.
Open Scope string_scope.

Definition digit_value (c : ascii) : option Z :=
  let n := nat_of_ascii c in if ((48 <=? n) && (n <=? 57))%nat then Some (Z.of_nat n - 48) else None.
(** As many digits as there are, most significant first: the number, how many, and the rest of the text. *)
Fixpoint read_digits (v : Z) (k : nat) (t : string) : Z * nat * string :=
  match t with
  | EmptyString => (v, k, t)
  | String c t' => match digit_value c with Some d => read_digits (10 * v + d) (S k) t' | None => (v, k, t) end
  end.
Definition read_sign (t : string) : bool * string :=
  match t with String "-" t' => (true, t') | _ => (false, t) end.
(** A whole number. *)
Definition read_int (t : string) : option (Z * string) :=
  let '(neg, t) := read_sign t in
  let '(v, k, t) := read_digits 0 0 t in
  if (k =? 0)%nat then None else Some (if neg then - v else v, t).
(** The text must go on with [p]. *)
Fixpoint expect (p t : string) : option string :=
  match p, t with
  | EmptyString, _ => Some t
  | String a p, String b t => if Ascii.eqb a b then expect p t else None
  | _, _ => None
  end.
(** A message that ends in one number, and one that ends in two with a comma between them. *)
Definition read_one (p t : string) : option Z :=
  match expect p t with None => None | Some t => match read_int t with Some (a, EmptyString) => Some a | _ => None end end.
Definition read_two (p t : string) : option (Z * Z) :=
  match expect p t with None => None | Some t =>
  match read_int t with None => None | Some (a, t) =>
  match expect ", " t with None => None | Some t =>
  match read_int t with Some (b, EmptyString) => Some (a, b) | _ => None end end end end.
(** A number with a decimal point, an infinity, or NaN. *)
Inductive reading : Type :=
| Decimal (v : R) | Infinite (neg : bool) | NotANumber.
Definition read_decimal (t : string) : option (reading * string) :=
  let '(neg, t) := read_sign t in
  let '(v, k, t) := read_digits 0 0 t in
  if (k =? 0)%nat then None else
  match expect "." t with
  | None => None
  | Some t =>
      let '(v, f, t) := read_digits v 0 t in
      if (f =? 0)%nat then None else
      Some (Decimal (IZR (if neg then - v else v) / 10 ^ f), t)
  end.
Definition read_float (t : string) : option (reading * string) :=
  match expect "NaN" t with
  | Some t => Some (NotANumber, t)
  | None => match expect "+Inf" t with
  | Some t => Some (Infinite false, t)
  | None => match expect "-Inf" t with
  | Some t => Some (Infinite true, t)
  | None => read_decimal t
  end end end.

(** An information line: does it report validation, and which epoch, loss and accuracy does it give? *)
Definition read_info (t : string) : option (bool * Z * reading * reading) :=
  match expect "Epoch: " t with None => None | Some t =>
  match read_int t with None => None | Some (ep, t) =>
  let '(val, a, b) := match expect ", Validation" t with
                      | Some _ => (true, ", Validation Loss: ", ", Validation Accuracy: ")
                      | None => (false, ", Loss: ", ", Accuracy: ") end in
  match expect a t with None => None | Some t =>
  match read_float t with None => None | Some (loss, t) =>
  match expect b t with None => None | Some t =>
  match read_float t with
  | Some (acc, EmptyString) => Some (val, ep, loss, acc)
  | _ => None
  end end end end end end.

(** The lines of a file. *)
Fixpoint split_lines (cur t : string) : list string :=
  match t with
  | EmptyString => match cur with EmptyString => [] | _ => [cur] end
  | String c t => if (nat_of_ascii c =? 10)%nat then cur :: split_lines "" t else split_lines (cur ++ String c "") t
  end.
Definition file_lines (t : string) : list string := split_lines "" t.
Definition one_line (t : string) : Prop := forall i, String.get i t <> Some (ascii_of_nat 10).
