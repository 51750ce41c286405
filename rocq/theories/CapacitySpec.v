(** * CapacitySpec: networks with one hidden ReLU layer; data they can and cannot fit. *)
From Coq Require Import ZArith List Arith Reals.
From Verif Require Import Num NumR Heap Spec Network PureSpec RSum ModelSpec.
Import ListNotations.
Open Scope R_scope.

(** A hidden (ReLU) layer of width [n] followed by one layer of kind [k2]. *)
Definition one_hidden (es : list (lent RNum)) (n : nat) (k2 : lkind) : Prop :=
  exists e1 e2, es = [e1; e2] /\ p_kind (e_p e1) = Hidden /\ p_out (e_p e1) = n /\ p_kind (e_p e2) = k2.
(** Equal inputs have equal targets. *)
Definition agree (r i o : nat) (X Y : rpm) : Prop :=
  forall a b, (a < r)%nat -> (b < r)%nat -> (forall l, (l < i)%nat -> entry X a l = entry X b l) -> forall j, (j < o)%nat -> entry Y a j = entry Y b j.
(** Every row has one 1 and otherwise zeros. *)
Definition one_hot (r o : nat) (Y : rpm) : Prop :=
  forall a, (a < r)%nat -> exists c, (c < o)%nat /\ forall j, (j < o)%nat -> entry Y a j = if (j =? c)%nat then 1 else 0.
(** The inputs 0, 1, 2, ... with targets 0, 1, 0, 1, ... *)
Definition zigX (r : nat) : rpm := mk (K := RNum) r 1 (fun a _ => INR a).
Definition zigY (r : nat) : rpm := mk (K := RNum) r 1 (fun a _ => if Nat.even a then 0 else 1).
