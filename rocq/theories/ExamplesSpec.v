(** * ExamplesSpec: what the example programs are said to compute. *)
From Coq Require Import String Ascii ZArith List Bool.
From Verif Require Import Num Heap Spec PureSpec OptSpec ModelSpec Session ExamplesGo.
Import ListNotations.

Section AnyNum.
Context {K : Num}.
(** The i-th of n evenly spaced numbers from [a] to [b]. *)
Definition spaced (a b : K) (n i : nat) : K := fadd a (fmul (ofZ (Z.of_nat i)) (fdiv (fsub b a) (ofZ (Z.of_nat n - 1)))).
(** Point number [i] of arm number [c]: its radius and, with the normal number [z], its angle. *)
Definition spiral_radius (points i : nat) : K := spaced f0 f1 points i.
Definition spiral_angle (points c i : nat) (z : K) : K :=
  fmul (fadd (spaced (ofZ (Z.of_nat c * 4)) (ofZ ((Z.of_nat c + 1) * 4)) points i) (fmul lit_02 z)) lit_25.
(** Row [a] is point [a mod points] of arm [a / points]. *)
Definition spiral_X (fsin fcos : K -> K) (z : nat -> K) (points classes : nat) : pm K :=
  mk (points * classes) 2 (fun a j =>
    fmul (spiral_radius points (a mod points))
      ((if j =? 0 then fsin else fcos) (spiral_angle points (a / points) (a mod points) (z a))))%nat.
Definition spiral_Y (points classes : nat) : pm K :=
  mk (points * classes) classes (fun a j => if (a / points =? j)%nat then f1 else f0).

(** A table of text: fields separated by commas, every record ended by a newline.  A field contains neither; a record of one empty field is a blank line. *)
Fixpoint separated (c : ascii) (l : list string) : string :=
  match l with [] => EmptyString | [w] => w | w :: l => (w ++ String c (separated c l))%string end.
Definition table_text (records : list (list string)) : string :=
  fold_right (fun r t => (separated ","%char r ++ String (ascii_of_nat 10) t)%string) EmptyString records.
Definition free_of (c : ascii) (w : string) : Prop := forall i, String.get i w <> Some c.
Definition is_table (records : list (list string)) : Prop :=
  forall r, In r records -> r <> [] /\ forall w, In w r -> free_of ","%char w /\ free_of (ascii_of_nat 10) w.
Definition blank (r : list string) : bool := match r with [EmptyString] => true | _ => false end.
(** The features and the class of a record. *)
Definition iris_class (r : list string) : nat :=
  if String.eqb (nth 4 r EmptyString) "Iris-setosa" then 0
  else if String.eqb (nth 4 r EmptyString) "Iris-versicolor" then 1 else 2.
Definition iris_X (other : string -> K) (records : list (list string)) : pm K :=
  map (fun r => map (fun j => ParseFloat other (nth j r EmptyString)) (seq 0 4)) records.
Definition iris_Y (records : list (list string)) : pm K :=
  map (fun r => map (fun j => if (iris_class r =? j)%nat then f1 else f0) (seq 0 3)) records.

Definition sine_X (n : nat) : pm K := mk n 1 (fun i _ => fdiv (ofZ (Z.of_nat i)) (ofZ (Z.of_nat n))).
Definition sine_Y (fsin : K -> K) (n : nat) : pm K := mk n 1 (fun i _ => fsin (fdiv (ofZ (Z.of_nat i)) (ofZ (Z.of_nat n)))).
End AnyNum.
