(** * HandSpec: what the hand-written training loop of optimizers_test.go is said to compute. *)
From Coq Require Import ZArith List Bool.
From Verif Require Import Num Heap Spec PureSpec OptSpec ModelSpec.
Import ListNotations.

Section AnyNum.
Context {K : Num}.
(** Backpropagation of the cross-entropy through a network that ends in softmax, where the last layer's
    outputs have been clipped by the loss before they are read. *)
Fixpoint hand_backprop (Y : pm K) (ps : list (player K)) (r : nat) (X : pm K) (U : nat -> K) (q : nat) : pm K * list (pm K * pm K) :=
  match ps with
  | [] => ([], [])
  | p :: t =>
      let O := ptrain p r X (from U q) in
      let '(G, gs) := hand_backprop Y t r O U (q + pdraws p r) in
      let G' := match t with
                | [] => pce_back r (p_out p) Y (pmap r (p_out p) clip1 O)
                | _ => pback p r O (ptrain_mask p r (from U q)) G
                end in
      (pdX r (p_in p) (p_out p) G' (p_w p), (pdW r (p_in p) (p_out p) X G', psum0 r (p_out p) G') :: gs)
  end.
(** [n] epochs, each on all of the data. *)
Fixpoint hand_train (n : nat) (ts : list (player K * popt K)) (X Y : pm K) (U : nat -> K) (q : nat) : list (player K * popt K) :=
  match n with
  | O => ts
  | S n' =>
      hand_train n' (map (fun tg => tstep (fst tg) (snd tg)) (combine ts (snd (hand_backprop Y (map fst ts) (length X) X U q))))
        X Y U (q + net_draws true (map fst ts) (length X))
  end.
End AnyNum.
