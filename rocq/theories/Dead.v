(** * Dead: hidden units that output zero on every sample (C84). *)
From Coq Require Import String ZArith List Bool Arith Lia Reals.
From Verif Require Import Num NumR NumB64 Heap Spec Matrix Network Loss Optimizers ModelGo PureSpec Repr OptSpec ModelSpec CodecSpec.
Import ListNotations.
Open Scope Z_scope.

Section WithNum.
Context {K : Num}.
(** The input of unit [a] on one sample, before the activation. *)
Definition pre_activation (p : player K) (a : nat) (row : list K) : K :=
  fadd (fsum (p_in p) (fun n => fmul (nth n row f0) (entry (p_w p) n a))) (entry (p_b p) 0 a).
(** Incoming weights and bias of unit [a], and weights of input [a], are the same numbers in both layers. *)
Definition kept_unit (p p' : player K) (a : nat) : Prop :=
  (forall i, (i < p_in p)%nat -> entry (p_w p') i a = entry (p_w p) i a) /\ entry (p_b p') 0 a = entry (p_b p) 0 a.
Definition kept_input (p p' : player K) (a : nat) : Prop := forall j, (j < p_out p)%nat -> entry (p_w p') a j = entry (p_w p) a j.
End WithNum.
(** The optimizer's momentum is zero at cell (i, j), or it uses none. *)
Definition still (po : popt RNum) (m : pm RNum) (i j : nat) : Prop :=
  match po_kind po with SGD => po_usemom po = true -> entry m i j = 0%R | Adam => entry m i j = 0%R end.
Definition still_unit (t : player RNum * popt RNum) (a : nat) : Prop :=
  (forall i, (i < p_in (fst t))%nat -> still (snd t) (po_wm (snd t)) i a) /\ still (snd t) (po_bm (snd t)) 0 a.
Definition still_input (t : player RNum * popt RNum) (a : nat) : Prop := forall j, (j < p_out (fst t))%nat -> still (snd t) (po_wm (snd t)) a j.
Section Real.
Open Scope R_scope.
(** Layer [l] and the next; unit [a]. *)
Definition spot (ts : list (player RNum * popt RNum)) (l a : nat) (t1 t2 : player RNum * popt RNum) : Prop :=
  nth_error ts l = Some t1 /\ nth_error ts (S l) = Some t2 /\ p_kind (fst t1) = Hidden /\ p_in (fst t2) = p_out (fst t1) /\ (a < p_out (fst t1))%nat /\
  still_unit t1 a /\ still_input t2 a.
Definition kept_spot (t1 t2 t1' t2' : player RNum * popt RNum) (a : nat) : Prop :=
  kept_unit (fst t1) (fst t1') a /\ kept_input (fst t2) (fst t2') a /\
  p_in (fst t1') = p_in (fst t1) /\ p_out (fst t1') = p_out (fst t1) /\ p_in (fst t2') = p_in (fst t2) /\ p_out (fst t2') = p_out (fst t2).
Definition negative_unit (p : player RNum) (a : nat) : Prop := (forall i, (i < p_in p)%nat -> entry (p_w p) i a <= 0) /\ entry (p_b p) 0 a <= 0.
Definition after_relu (ts : list (player RNum * popt RNum)) (l : nat) (t1 : player RNum * popt RNum) : Prop :=
  exists t0, nth_error ts l = Some t0 /\ p_kind (fst t0) = Hidden /\ p_out (fst t0) = p_in (fst t1).
End Real.
Section Float.
Context (L : libm).
Notation BN := (B64 L).
(** The incoming weights of a unit in the first layer: numbers, and pre-activations at most zero. *)
Definition dead_first (ts : list (player BN * popt BN)) (lr : BN) (a : nat) (t1 : player BN * popt BN) : Prop :=
  exists t2 rest, ts = t1 :: t2 :: rest /\ p_kind (fst t1) = Hidden /\ p_in (fst t2) = p_out (fst t1) /\ (a < p_out (fst t1))%nat /\ plain_sgd lr (snd t1) /\
    (forall i, (i < p_in (fst t1))%nat -> b64_nan (entry (p_w (fst t1)) i a) = false) /\ b64_nan (entry (p_b (fst t1)) 0 a) = false.
Definition dead_row (p : player BN) (a : nat) (row : list BN) : Prop :=
  fle (pre_activation p a row) f0 = true /\ List.Forall (fun x => b64_finite x = true) row.
End Float.
