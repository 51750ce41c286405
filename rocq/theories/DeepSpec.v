(** * DeepSpec: deep ReLU networks of bounded width, and continuous functions of several variables. *)
From Coq Require Import ZArith List Arith Reals.
From Verif Require Import Num NumR Heap Spec Network PureSpec RSum ModelSpec.
Import ListNotations.
Open Scope R_scope.

(** Kinds and sizes of the layers: [n] pairs of hidden (ReLU) layers of widths [2d+o] and [d+o+1] between an initial hidden layer and a final linear layer.
    No layer is wider than [2d+o+1], however many there are. *)
Definition tower (d o n : nat) : list (lkind * nat * nat) :=
  (Hidden, d, d + o + 1)%nat :: concat (repeat [(Hidden, d + o + 1, d + o + d)%nat; (Hidden, d + o + d, d + o + 1)%nat] n) ++ [(Linear, d + o + 1, o)%nat].
Definition deep (es : list (lent RNum)) (d o n : nat) : Prop := map (fun p => (p_kind p, p_in p, p_out p)) (net es) = tower d o n.
(** The points of the unit cube in [d] dimensions. *)
Definition cube (d : nat) (x : list R) : Prop := length x = d /\ List.Forall (fun t => 0 <= t <= 1) x.
(** Uniform continuity on the unit cube. *)
Definition ucont (d : nat) (f : list R -> R) : Prop := forall eps, 0 < eps -> exists del, 0 < del /\
  forall x y, cube d x -> cube d y -> (forall j, (j < d)%nat -> Rabs (nth j x 0 - nth j y 0) <= del) -> Rabs (f x - f y) <= eps.
(** The distance to the middle of the cube, summed over the coordinates. *)
Definition off_centre (d : nat) (x : list R) : R := rsum d (fun j => Rabs (nth j x 0 - 1 / 2)).
Definition centre (d : nat) : list R := repeat (1 / 2) d.
(** The first layer has fewer units than there are inputs. *)
Definition narrow (es : list (lent RNum)) (d : nat) : Prop := exists e es', es = e :: es' /\ (p_out (e_p e) < d)%nat.
