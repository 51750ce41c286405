(** * RobustSpec: how strongly a network can react to small changes of its input. *)
From Coq Require Import ZArith List Arith Reals.
From Verif Require Import Num NumR Heap Spec Network PureSpec RSum.
Import ListNotations.
Open Scope R_scope.

(** The largest of the non-negative values [g 0 .. g (n-1)]. *)
Definition rmaxn (n : nat) (g : nat -> R) : R := fold_right Rmax 0 (map g (seq 0 n)).
(** The steepest slope of the activation function of a layer. *)
Definition act_lip (p : player RNum) : R :=
  match p_kind p with
  | Leaky => Rmax 1 (Rabs (p_slope p))
  | SigmoidK => 1 / 4
  | SoftmaxK => 1 / 2
  | _ => 1
  end.
(** The sum of the absolute weights of unit [j]. *)
Definition unit_weight (p : player RNum) (j : nat) : R := rsum (p_in p) (fun n => Rabs (entry (p_w p) n j)).
Definition layer_lip (p : player RNum) : R := act_lip p * rmaxn (p_out p) (unit_weight p).
Definition net_lip (ps : list (player RNum)) : R := fold_right (fun p a => layer_lip p * a) 1 ps.
(** Two matrices differ by at most [d] in every entry. *)
Definition near (r c : nat) (A B : rpm) (d : R) : Prop :=
  forall i j, (i < r)%nat -> (j < c)%nat -> Rabs (entry A i j - entry B i j) <= d.
(** In row [a], class [c] is positive by more than [e] and ahead of all others by more than [2 e]. *)
Definition ahead (o : nat) (P : rpm) (a c : nat) (e : R) : Prop :=
  (c < o)%nat /\ e < entry P a c /\ forall j, (j < o)%nat -> j <> c -> entry P a j + 2 * e < entry P a c.
