(** * PiecesSpec: how often a network can bend, and a narrow deep network that bends often (C120). *)
From Coq Require Import ZArith List Arith Reals.
From Verif Require Import Num NumR Heap Spec Network PureSpec RSum ModelSpec.
Import ListNotations.

(** All layers are ReLU, leaky ReLU, dropout or linear layers. *)
Definition bent (es : list (lent RNum)) : Prop := List.Forall (fun e => p_kind (e_p e) <> SigmoidK /\ p_kind (e_p e) <> SoftmaxK) es.
(** The product of (units + 1) over the layers that are not linear. *)
Fixpoint pieces (ps : list (player RNum)) : nat :=
  match ps with [] => 1 | p :: ps' => (match p_kind p with Linear => 1 | _ => p_out p + 1 end) * pieces ps' end.
(** One input, [n + 1] hidden (ReLU) layers of two units each, one linear output. *)
Definition thin (n : nat) : list (lkind * nat * nat) := (Hidden, 1, 2)%nat :: repeat (Hidden, 2, 2)%nat n ++ [(Linear, 2, 1)%nat].
Definition thin_net (es : list (lent RNum)) (n : nat) : Prop := map (fun p => (p_kind p, p_in p, p_out p)) (net es) = thin n.
