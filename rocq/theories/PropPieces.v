(** * PropPieces: what depth buys (C120). *)
From Coq Require Import ZArith List Bool Arith Lia Reals.
From Verif Require Import Num NumR Heap Spec Matrix Loss Network Optimizers ModelGo PureSpec Repr RSum OptSpec ModelSpec FitFacts CapacitySpec CapacityEx PiecesSpec Pieces PiecesEx.
Import ListNotations.
Open Scope R_scope.

(** C120: in exact arithmetic, a model with n+1 hidden layers of two units each can be given parameters that predict the alternating targets
    0, 1, 0, 1, ... of the inputs 0, 1, 2, ..., 2^(n+1) exactly ... *)
Theorem C120_deep s m es xs k n : trainable s m es xs 1 1 k -> thin_net es n -> m_acctype m = 0%Z ->
  exists s' es', Forall2 same_place es es' /\ frame (among (prows es)) s s' /\ rest s s' /\ trainable s' m es' xs 1 1 k /\
    forall s2 x rsx r, (1 <= r <= 2 ^ (n + 1) + 1)%nat -> consistent s2 m es' 1 1 -> own s2 x rsx r 1 (zigX r) ->
      returns (Predict m x) s2 (fun out s3 => exists rs P, own s3 out rs r 1 P /\ forall a, (a < r)%nat -> entry P a 0 = entry (zigY r) a 0).
Proof. exact (thin_fits s m es xs k n). Qed.
Print Assumptions C120_deep.

(** C120: ... but a model of ReLU, leaky ReLU, dropout and linear layers misses one of these targets by at least 1/2, whatever its parameters,
    if its layers have at most w units and (w+1)^layers is at most 2^n ... *)
Theorem C120_shallow s m es n w r x rsx : consistent s m es 1 1 -> (1 <= length es)%nat -> bent es -> List.Forall (fun e => (p_out (e_p e) <= w)%nat) es -> ((w + 1) ^ length es <= 2 ^ n)%nat -> r = (2 ^ (n + 1) + 1)%nat ->
  m_acctype m = 0%Z -> own s x rsx r 1 (zigX r) ->
  returns (Predict m x) s (fun out s' => exists rs P, own s' out rs r 1 P /\ exists a, (a < r)%nat /\ 1 / 2 <= Rabs (entry P a 0 - entry (zigY r) a 0)).
Proof. exact (shallow_fails s m es n w r x rsx). Qed.
Print Assumptions C120_shallow.

(** C120: ... and more precisely if there are more than twice as many points as the product of (units + 1) over the layers that are not linear ... *)
Theorem C120_pieces s m es r x rsx : consistent s m es 1 1 -> (1 <= length es)%nat -> bent es -> (2 * pieces (net es) + 1 <= r)%nat -> m_acctype m = 0%Z -> own s x rsx r 1 (zigX r) ->
  returns (Predict m x) s (fun out s' => exists rs P, own s' out rs r 1 P /\ exists a, (a < r)%nat /\ 1 / 2 <= Rabs (entry P a 0 - entry (zigY r) a 0)).
Proof. exact (bent_fails s m es r x rsx). Qed.
Print Assumptions C120_pieces.

(** C120: ... after any training on these points. *)
Theorem C120_trained s m es xs k r x rsx y rsy epochs bs xv yv : (0 <= bs)%Z -> (Z.of_nat r + bs <= 2 ^ 52)%Z ->
  trainable s m es xs 1 1 k -> bent es -> (2 * pieces (net es) + 1 <= r)%nat -> m_acctype m = 0%Z -> data_ok s es x rsx y rsy r 1 1 (zigX r) (zigY r) ->
  exists s' out s'' rs P, Fit m x y epochs bs xv yv 0 s = (Ret tt, s') /\ Predict m x s' = (Ret out, s'') /\ own s'' out rs r 1 P /\
    exists a, (a < r)%nat /\ 1 / 2 <= Rabs (entry P a 0 - entry (zigY r) a 0).
Proof. exact (bent_trained s m es xs k r x rsx y rsy epochs bs xv yv). Qed.
Print Assumptions C120_trained.

(** The code builds thin models of every depth. *)
Example C120_ex n : exists s m es xs, trainable s m es xs 1 1 MSE /\ thin_net es n /\ m_acctype m = 0%Z.
Proof. exact (thin_exists n). Qed.
(** Three hidden units and nine points. *)
Example C120_ex_shallow : trainable (cx_state 1 3 1 9 Linear (zigX 9) (zigY 9)) (cx_m 1 1 0) (cx_es 1 3 1 9 Linear) (cx_xs 1 3 1) 1 1 MSE /\ bent (cx_es 1 3 1 9 Linear) /\ pieces (net (cx_es 1 3 1 9 Linear)) = 4%nat /\
  data_ok (cx_state 1 3 1 9 Linear (zigX 9) (zigY 9)) (cx_es 1 3 1 9 Linear) (cx_x 1 9) (blk 1 3 1 9 4 9) (cx_y 1 9) (blk 1 3 1 9 5 9) 9 1 1 (zigX 9) (zigY 9) /\ m_acctype (cx_m 1 1 0) = 0%Z.
Proof. exact ex_bent. Qed.
