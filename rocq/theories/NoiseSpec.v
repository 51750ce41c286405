(** * NoiseSpec: equal inputs with different labels (C115). *)
From Coq Require Import ZArith List Bool Arith Lia Reals.
From Verif Require Import Num NumR Heap Spec PureSpec Repr RSum ModelSpec.
Import ListNotations.
Open Scope R_scope.

Definition row_eq (u w : list R) : bool := if list_eq_dec Req_EM_T u w then true else false.
(** The number of samples with the input of sample [a], and of those that also have its label. *)
Definition same_input (n : nat) (X : pm RNum) (a : nat) : R := rsum n (fun b => if row_eq (nth a X []) (nth b X []) then 1 else 0).
Definition same_sample (n : nat) (X Y : pm RNum) (a : nat) : R :=
  rsum n (fun b => if row_eq (nth a X []) (nth b X []) && row_eq (nth a Y []) (nth b Y []) then 1 else 0).
(** The share of the samples with the same input that have the label of sample [a]. *)
Definition share (n : nat) (X Y : pm RNum) (a : nat) : R := same_sample n X Y a / same_input n X a.
