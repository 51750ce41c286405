(** * CopiesSpec: a data set repeated several times. *)
From Coq Require Import List Arith Reals.
From Verif Require Import Num NumR Heap Spec PureSpec Repr LossProofs OptSpec.
Import ListNotations.
(** The rows of [A], [c] times over. *)
Definition copies {T} (c : nat) (A : list T) : list T := concat (repeat A c).
(** The same optimizer with [t] times the learning rate. *)
Definition faster (t : R) (po : popt RNum) : popt RNum :=
  PO (K := RNum) (po_kind po) (t * po_lr po)%R (po_decay po) (po_mom po) (po_eps po) (po_b1 po) (po_b2 po) (t * po_rate po)%R (po_iter po)
    (po_usedecay po) (po_usemom po) (po_wm po) (po_bm po) (po_wc po) (po_bc po).
(** A layer and its optimizer, with [t] times the learning rate. *)
Definition quicker (t : R) (x : player RNum * popt RNum) : player RNum * popt RNum := (fst x, faster t (snd x)).
(** Every entry of an [r] x [c] matrix divided by [t]. *)
Definition over (t : R) (r c : nat) (A : pm RNum) : pm RNum := mk (K := RNum) r c (fun i j => entry A i j / t)%R.
(** The same Adam optimizer with epsilon divided by [t], when every gradient so far was [t] times smaller;
    the layer is [r] x [c]. *)
Definition finer_opt (t : R) (r c : nat) (po : popt RNum) : popt RNum :=
  PO (K := RNum) (po_kind po) (po_lr po) (po_decay po) (po_mom po) (po_eps po / t)%R (po_b1 po) (po_b2 po) (po_rate po) (po_iter po)
    (po_usedecay po) (po_usemom po) (over t r c (po_wm po)) (over t 1 c (po_bm po)) (over (t * t)%R r c (po_wc po)) (over (t * t)%R 1 c (po_bc po)).
Definition finer (t : R) (x : player RNum * popt RNum) : player RNum * popt RNum := (fst x, finer_opt t (p_in (fst x)) (p_out (fst x)) (snd x)).
