(** * SpanSpec: directions that the training inputs do not have (C114). *)
From Coq Require Import ZArith List Bool Arith Lia Reals.
From Verif Require Import Num NumR Heap Spec PureSpec Repr RSum OptSpec ModelSpec.
Import ListNotations.
Open Scope R_scope.

(** Every input is orthogonal to the direction [v]. *)
Definition unseen (i : nat) (v : nat -> R) (X : pm RNum) : Prop := List.Forall (fun row : list R => rsum i (fun j => v j * nth j row 0) = 0) X.
(** How the layer's unit [c] responds to the direction [v]. *)
Definition along (i : nat) (v : nat -> R) (W : pm RNum) (c : nat) : R := rsum i (fun j => v j * entry W j c).
(** SGD whose velocities, if it has any, do not point along [v]. *)
Definition steady (v : nat -> R) (t : player RNum * popt RNum) : Prop :=
  po_kind (snd t) = SGD /\ (po_usemom (snd t) = true -> forall c, (c < p_out (fst t))%nat -> along (p_in (fst t)) v (po_wm (snd t)) c = 0).
(** Feature [j] is zero in every input. *)
Definition blank (j : nat) (X : pm RNum) : Prop := List.Forall (fun row : list R => nth j row 0 = 0) X.
(** An optimizer that has nothing left from earlier steps for the weights of feature [j]. *)
Definition row_rest (j : nat) (t : player RNum * popt RNum) : Prop :=
  match po_kind (snd t) with
  | SGD => po_usemom (snd t) = true -> forall c, (c < p_out (fst t))%nat -> entry (po_wm (snd t)) j c = 0
  | Adam => 0 < po_eps (snd t) /\ forall c, (c < p_out (fst t))%nat -> entry (po_wm (snd t)) j c = 0
  end.
