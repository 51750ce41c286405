(** * RotateSpec: inputs written in other coordinates (C125). *)
From Coq Require Import ZArith List Bool Arith Lia Reals.
From Verif Require Import Num NumR Heap Spec PureSpec Repr RSum OptSpec ModelSpec.
Import ListNotations.
Open Scope R_scope.

(** [Q] has [i] orthonormal rows of length [j]: a rotation or reflection if [i = j], otherwise an embedding that keeps lengths and angles. *)
Definition isometry (i j : nat) (Q : nat -> nat -> R) : Prop :=
  forall a b, (a < i)%nat -> (b < i)%nat -> rsum j (fun l => Q a l * Q b l) = if (a =? b)%nat then 1 else 0.
(** The inputs in the new coordinates: every row times [Q]. *)
Definition recoded (i j : nat) (Q : nat -> nat -> R) (X : pm RNum) : pm RNum :=
  map (fun row : list R => map (fun l => rsum i (fun a => nth a row 0 * Q a l)) (seq 0 j)) X.
(** Weights of [c] units for the new coordinates: [Q] transposed times [W]. *)
Definition recoded_w (i j c : nat) (Q : nat -> nat -> R) (W : pm RNum) : pm RNum :=
  mk (K := RNum) j c (fun l u => rsum i (fun a => Q a l * entry W a u)).
(** The first layer and its optimizer for the new coordinates; all other layers stay as they are. *)
Definition recoded_layer (j : nat) (Q : nat -> nat -> R) (p : player RNum) : player RNum :=
  PL (K := RNum) (p_kind p) j (p_out p) (recoded_w (p_in p) j (p_out p) Q (p_w p)) (p_b p) (p_slope p) (p_drop p).
Definition recoded_opt (i j c : nat) (Q : nat -> nat -> R) (o : popt RNum) : popt RNum :=
  PO (K := RNum) (po_kind o) (po_lr o) (po_decay o) (po_mom o) (po_eps o) (po_b1 o) (po_b2 o) (po_rate o) (po_iter o) (po_usedecay o) (po_usemom o)
    (recoded_w i j c Q (po_wm o)) (po_bm o) (recoded_w i j c Q (po_wc o)) (po_bc o).
Definition recoded_net (j : nat) (Q : nat -> nat -> R) (ps : list (player RNum)) : list (player RNum) :=
  match ps with [] => [] | p :: rest => recoded_layer j Q p :: rest end.
Definition recoded_trainer (j : nat) (Q : nat -> nat -> R) (ts : list (player RNum * popt RNum)) : list (player RNum * popt RNum) :=
  match ts with [] => [] | (p, o) :: rest => (recoded_layer j Q p, recoded_opt (p_in p) j (p_out p) Q o) :: rest end.
(** The first layer is trained by SGD (with or without momentum and decay). *)
Definition first_sgd (ts : list (player RNum * popt RNum)) : Prop := match ts with [] => True | (_, o) :: _ => po_kind o = SGD end.
