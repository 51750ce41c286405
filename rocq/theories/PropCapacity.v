(** What networks with one hidden layer can represent. *)
From Coq Require Import ZArith List Bool Arith Lia Reals.
From Verif Require Import Num NumR Heap Spec Matrix Loss Network Optimizers ModelGo PureSpec Repr RSum OptSpec ModelSpec FitFacts LinearSpec CapacitySpec Capacity CapacityFit Approx CapacityEx.
Import ListNotations.
Open Scope R_scope.

(** C105: in exact arithmetic, the parameters of a model with a hidden ReLU layer and a linear layer can be overwritten so that
    it predicts any given targets exactly, if there are at most as many samples as hidden units and equal inputs have equal targets ... *)
Theorem C105_memorise s m es xs i o k n x rsx y rsy r X Y : trainable s m es xs i o k -> one_hidden es n Linear -> data_ok s es x rsx y rsy r i o X Y ->
  (1 <= r <= n)%nat -> agree r i o X Y -> m_acctype m = 0%Z ->
  exists s' es', Forall2 same_place es es' /\ frame (among (prows es)) s s' /\ rest s s' /\ trainable s' m es' xs i o k /\
    returns (Predict m x) s' (fun out s'' => exists rs, own s'' out rs r o Y).
Proof. exact (memorise s m es xs i o k n x rsx y rsy r X Y). Qed.
Print Assumptions C105_memorise.

(** C105: ... and with a softmax layer, so that every sample gets the right class. *)
Theorem C105_classes s m es xs i o k n x rsx y rsy r X Y : trainable s m es xs i o k -> one_hidden es n SoftmaxK -> data_ok s es x rsx y rsy r i o X Y ->
  (1 <= r <= n)%nat -> (Z.of_nat o <= 2 ^ 53)%Z -> agree r i o X Y -> one_hot r o Y -> m_acctype m = 1%Z ->
  exists s' es', Forall2 same_place es es' /\ frame (among (prows es)) s s' /\ rest s s' /\ trainable s' m es' xs i o k /\
    returns (CalculateAccuracy m x y) s' (fun v _ => v = 1).
Proof. exact (memorise_classes s m es xs i o k n x rsx y rsy r X Y). Qed.
Print Assumptions C105_classes.

(** C105: the width matters: with one input and n hidden units no parameters fit 2n+3 alternating targets, some prediction is off by at least 1/2 ... *)
Theorem C105_width (s : state RNum) m es n r x rsx : consistent s m es 1 1 -> one_hidden es n Linear -> (2 * n + 3 <= r)%nat -> m_acctype m = 0%Z -> own s x rsx r 1 (zigX r) ->
  returns (Predict m x) s (fun out s' => exists rs P, own s' out rs r 1 P /\ exists a, (a < r)%nat /\ 1 / 2 <= Rabs (entry P a 0 - entry (zigY r) a 0)).
Proof. exact (zig_fails s m es n r x rsx). Qed.
Print Assumptions C105_width.

(** C105: ... however long the model is trained on them. *)
Theorem C105_trained s m es xs k n r x rsx y rsy epochs bs xv yv : (0 <= bs)%Z -> (Z.of_nat r + bs <= 2 ^ 52)%Z ->
  trainable s m es xs 1 1 k -> one_hidden es n Linear -> (2 * n + 3 <= r)%nat -> m_acctype m = 0%Z -> data_ok s es x rsx y rsy r 1 1 (zigX r) (zigY r) ->
  exists s' out s'' rs P, Fit m x y epochs bs xv yv 0 s = (Ret tt, s') /\ Predict m x s' = (Ret out, s'') /\ own s'' out rs r 1 P /\
    exists a, (a < r)%nat /\ 1 / 2 <= Rabs (entry P a 0 - entry (zigY r) a 0).
Proof. exact (zig_trained s m es xs k n r x rsx y rsy epochs bs xv yv). Qed.
Print Assumptions C105_trained.

(** Four hidden units and the exclusive-or data; one output, and two classes. *)
Example C105_ex : trainable (cx_state 2 4 1 4 Linear xorX xorY) (cx_m 2 1 0) (cx_es 2 4 1 4 Linear) (cx_xs 2 4 1) 2 1 MSE /\ one_hidden (cx_es 2 4 1 4 Linear) 4 Linear /\
  data_ok (cx_state 2 4 1 4 Linear xorX xorY) (cx_es 2 4 1 4 Linear) (cx_x 2 4) (blk 2 4 1 4 4 4) (cx_y 1 4) (blk 2 4 1 4 5 4) 4 2 1 xorX xorY /\ agree 4 2 1 xorX xorY /\ m_acctype (cx_m 2 1 0) = 0%Z.
Proof. exact ex_memorise. Qed.
Example C105_ex_classes : trainable (cx_state 2 4 2 4 SoftmaxK xorX xorY2) (cx_m 2 2 1) (cx_es 2 4 2 4 SoftmaxK) (cx_xs 2 4 2) 2 2 MSE /\ one_hidden (cx_es 2 4 2 4 SoftmaxK) 4 SoftmaxK /\
  data_ok (cx_state 2 4 2 4 SoftmaxK xorX xorY2) (cx_es 2 4 2 4 SoftmaxK) (cx_x 2 4) (blk 2 4 2 4 4 4) (cx_y 2 4) (blk 2 4 2 4 5 4) 4 2 2 xorX xorY2 /\
  agree 4 2 2 xorX xorY2 /\ one_hot 4 2 xorY2 /\ m_acctype (cx_m 2 2 1) = 1%Z.
Proof. exact ex_classes. Qed.
Example C105_ex_width n r : (1 <= n)%nat -> (2 * n + 3 <= r)%nat -> trainable (cx_state 1 n 1 r Linear (zigX r) (zigY r)) (cx_m 1 1 0) (cx_es 1 n 1 r Linear) (cx_xs 1 n 1) 1 1 MSE /\ one_hidden (cx_es 1 n 1 r Linear) n Linear /\
  data_ok (cx_state 1 n 1 r Linear (zigX r) (zigY r)) (cx_es 1 n 1 r Linear) (cx_x 1 r) (blk 1 n 1 r 4 r) (cx_y 1 r) (blk 1 n 1 r 5 r) r 1 1 (zigX r) (zigY r) /\ m_acctype (cx_m 1 1 0) = 0%Z.
Proof. exact (ex_zig n r). Qed.

(** C106: for every continuous function of one variable with values in o dimensions, and every error bound, there is a width
    such that the parameters of every model of at least that width can be overwritten to predict the function within the bound on the whole interval. *)
Theorem C106_approximate (f : nat -> R -> R) (a b eps : R) (o : nat) : a < b -> (forall j, (j < o)%nat -> continuous_on a b (f j)) -> 0 < eps ->
  exists N, forall s m es xs k n, (N <= n)%nat -> trainable s m es xs 1 o k -> one_hidden es n Linear -> m_acctype m = 0%Z ->
  exists s' es', Forall2 same_place es es' /\ frame (among (prows es)) s s' /\ rest s s' /\ trainable s' m es' xs 1 o k /\
    forall s2 x rsx r X, consistent s2 m es' 1 o -> own s2 x rsx r 1 X -> (1 <= r)%nat -> (forall c, (c < r)%nat -> a <= entry X c 0 <= b) ->
      returns (Predict m x) s2 (fun out s3 => exists rs P, own s3 out rs r o P /\
        forall c j, (c < r)%nat -> (j < o)%nat -> Rabs (entry P c j - f j (entry X c 0%nat)) <= eps).
Proof. exact (approximate f a b eps o). Qed.
Print Assumptions C106_approximate.

(** The absolute value; there are models of every width. *)
Example C106_ex : continuous_on (-1) 1 Rabs /\
  forall n, (1 <= n)%nat -> exists s m es xs, trainable s m es xs 1 1 MSE /\ one_hidden es n Linear /\ m_acctype m = 0%Z.
Proof.
  split; [exact ex_cont|]. intros n Hn. destruct (ex_zig n (2 * n + 3) Hn ltac:(lia)) as (A & B & _ & C). eexists _, _, _, _. eauto.
Qed.
