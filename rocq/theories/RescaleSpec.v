(** * RescaleSpec: units whose incoming weights are multiplied and whose outgoing weights are divided by a number (C109). *)
From Coq Require Import List Arith Reals.
From Verif Require Import Num NumR Heap Spec PureSpec.
Import ListNotations.
Open Scope R_scope.

(** Inputs scaled by [c], outputs scaled by [d]. *)
Definition scale_layer (c d : nat -> R) (p : player RNum) : player RNum :=
  PL (K := RNum) (p_kind p) (p_in p) (p_out p) (mk (K := RNum) (p_in p) (p_out p) (fun i j => entry (p_w p) i j * d j / c i))
    (mk (K := RNum) 1 (p_out p) (fun _ j => entry (p_b p) 0 j * d j)) (p_slope p) (p_drop p).
(** One list of scales for each layer. *)
Fixpoint scale_net (c : nat -> R) (ds : list (nat -> R)) (ps : list (player RNum)) : list (player RNum) :=
  match ps, ds with
  | p :: ps', d :: ds' => scale_layer c d p :: scale_net d ds' ps'
  | _, _ => []
  end.
Definition one : nat -> R := fun _ => 1.
(** Positive scales, 1 for sigmoid and softmax layers and for the outputs of the network. *)
Definition scales (ps : list (player RNum)) (ds : list (nat -> R)) : Prop :=
  Forall2 (fun p d => (forall j, 0 < d j) /\ (p_kind p = SigmoidK \/ p_kind p = SoftmaxK -> forall j, d j = 1)) ps ds /\ forall j, last ds one j = 1.
