(** * PropRegions: property C130. *)
From Coq Require Import ZArith List Bool Arith Reals.
From Verif Require Import Num NumR Heap Spec Matrix Loss Network Optimizers ModelGo PureSpec Repr RSum OptSpec ModelSpec LinearSpec Regions RegionsEx.
Import ListNotations.
Open Scope R_scope.

(** C130: take a model whose layers before the last are linear.  If two samples are put in the
    same class, then so is every sample on the line segment between them: for a softmax or
    sigmoid last layer every class, for the other kinds every class but class 0. *)
Theorem C130_classes (s : state RNum) m es i o x rsx r X a b c t : consistent s m es i o -> linear_before (net es) -> List.Forall slope_ok (net es) -> m_acctype m = 1%Z ->
  own s x rsx r i X -> (a < r)%nat -> (b < r)%nat -> (c < r)%nat -> between i X a b c t ->
  returns (Predict m x) s (fun out s' => exists rs P, own s' out rs r 1 P /\
    (entry P a 0 = entry P b 0 -> positive_last (net es) \/ entry P a 0 <> 0 -> entry P c 0 = entry P a 0)).
Proof. exact (classes_convex s m es i o x rsx r X a b c t). Qed.
(** The same for each output of a model with binary predictions. *)
Theorem C130_bits (s : state RNum) m es i o x rsx r X a b c t : consistent s m es i o -> linear_before (net es) -> List.Forall slope_ok (net es) -> m_acctype m = 2%Z ->
  (forall ps q, net es = ps ++ [q] -> p_kind q <> SoftmaxK) ->
  own s x rsx r i X -> (a < r)%nat -> (b < r)%nat -> (c < r)%nat -> between i X a b c t ->
  returns (Predict m x) s (fun out s' => exists rs P, own s' out rs r o P /\
    forall j, (j < o)%nat -> entry P a j = entry P b j -> entry P c j = entry P a j).
Proof. exact (bits_convex s m es i o x rsx r X a b c t). Qed.
(** Class 0 is an exception: RowMax starts from 0, so a single linear layer puts 0 and 1 in
    class 0 and 1/2 in class 1. *)
Theorem C130_class_zero_refuted : exists s m es x rsx X out s' rs P, consistent s m es 1 2 /\ map (@p_kind RNum) (net es) = [Linear] /\ m_acctype m = 1%Z /\
  own s x rsx 3 1 X /\ between 1 X 0 1 2 (1 / 2) /\ Predict m x s = (Ret out, s') /\ own s' out rs 3 1 P /\ P = [[0];[0];[1]].
Proof. exact class_zero_not_convex. Qed.
(** One ReLU layer is enough to separate a point from both of its neighbours. *)
Theorem C130_hidden_refuted : exists s m es x rsx X out s' rs P, consistent s m es 1 1 /\ map (@p_kind RNum) (net es) = [Hidden; Linear] /\ m_acctype m = 2%Z /\
  own s x rsx 3 1 X /\ between 1 X 0 1 2 (1 / 2) /\ Predict m x s = (Ret out, s') /\ own s' out rs 3 1 P /\ P = [[0];[0];[1]].
Proof. exact hidden_not_convex. Qed.
Print Assumptions C130_classes.
Print Assumptions C130_bits.
Print Assumptions C130_class_zero_refuted.
Print Assumptions C130_hidden_refuted.

(** A linear layer 1 -> 2 and a softmax layer, on the samples 0, 1 and 1/2. *)
Example C130_ex : consistent rg_state rg_ms rg_s 1 2 /\ linear_before (net rg_s) /\ List.Forall slope_ok (net rg_s) /\ m_acctype rg_ms = 1%Z /\
  own rg_state rg_x [8;9;10]%nat 3 1 [[0];[1];[1/2]] /\ between 1 [[0];[1];[1/2]] 0 1 2 (1 / 2) /\ positive_last (net rg_s).
Proof.
  split; [apply rg_consistent|]. split; [split; [discriminate|repeat constructor]|]. split; [repeat constructor; discriminate|]. split; [reflexivity|].
  split; [apply rg_data|]. split; [apply rg_between|]. eexists [_], _. split; [reflexivity|now left].
Qed.
(** A linear layer alone, with binary predictions. *)
Example C130_ex_bits : let m := MkModel (K := RNum) 1 1 2 0 None 2 0 0 [] [0]%nat [] in
  consistent rg_state m rg_l 1 2 /\ linear_before (net rg_l) /\ List.Forall slope_ok (net rg_l) /\ m_acctype m = 2%Z /\
  (forall ps q, net rg_l = ps ++ [q] -> p_kind q <> SoftmaxK).
Proof.
  split; [exact (proj1 rg_consistent)|]. split; [split; [discriminate|constructor]|]. split; [repeat constructor; discriminate|]. split; [reflexivity|].
  intros [|p ps] q H; [injection H as <-; discriminate|]. destruct ps; discriminate.
Qed.
