(** * UnitSpec: networks with their features, hidden units and outputs in another order. *)
From Coq Require Import List Arith Permutation.
From Verif Require Import Num Heap Spec PureSpec Repr OptSpec.
Import ListNotations.

Section WithNum.
Context {K : Num}.
(** [p] lists the numbers 0 .. n-1 in some order; place [j] of the new order holds the old number [ord p j]. *)
Definition order (n : nat) (p : list nat) : Prop := Permutation p (seq 0 n).
Definition ord (p : list nat) (j : nat) : nat := nth j p 0%nat.
(** The columns of a matrix in the order [p]. *)
Definition cols_by (p : list nat) (A : pm K) : pm K := map (pick f0 p) A.
(** Rows in the order [p] and columns in the order [q]. *)
Definition mat_by (r c : nat) (p q : list nat) (A : pm K) : pm K := mk r c (fun i j => entry A (ord p i) (ord q j)).
(** A layer whose inputs come in the order [p] and whose outputs come in the order [q]. *)
Definition layer_by (p q : list nat) (l : player K) : player K :=
  PL (p_kind l) (p_in l) (p_out l) (mat_by (p_in l) (p_out l) p q (p_w l)) (mat_by 1 (p_out l) [0%nat] q (p_b l)) (p_slope l) (p_drop l).
(** Its optimizer. *)
Definition opt_by (p q : list nat) (k c : nat) (po : popt K) : popt K :=
  PO (po_kind po) (po_lr po) (po_decay po) (po_mom po) (po_eps po) (po_b1 po) (po_b2 po) (po_rate po) (po_iter po) (po_usedecay po) (po_usemom po)
    (mat_by k c p q (po_wm po)) (mat_by 1 c [0%nat] q (po_bm po)) (mat_by k c p q (po_wc po)) (mat_by 1 c [0%nat] q (po_bc po)).
Definition unit_by (p q : list nat) (t : player K * popt K) : player K * popt K :=
  (layer_by p q (fst t), opt_by p q (p_in (fst t)) (p_out (fst t)) (snd t)).
(** A network with the features in the order [p] and the units of each layer in the orders [qs]. *)
Fixpoint net_by (p : list nat) (qs : list (list nat)) (ts : list (player K * popt K)) : list (player K * popt K) :=
  match ts, qs with
  | t :: ts', q :: qs' => unit_by p q t :: net_by q qs' ts'
  | _, _ => []
  end.
(** The layers alone. *)
Fixpoint layers_by (p : list nat) (qs : list (list nat)) (ps : list (player K)) : list (player K) :=
  match ps, qs with
  | l :: ps', q :: qs' => layer_by p q l :: layers_by q qs' ps'
  | _, _ => []
  end.
(** One order for the units of each layer. *)
Definition orders (ps : list (player K)) (qs : list (list nat)) : Prop := Forall2 (fun l q => order (p_out l) q) ps qs.
End WithNum.
