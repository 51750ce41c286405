(** * PropDeep: deep networks of bounded width (C116). *)
From Coq Require Import ZArith List Bool Arith Lia Reals.
From Verif Require Import Num NumR Heap Spec Matrix Loss Network Optimizers ModelGo PureSpec Repr RSum OptSpec ModelSpec FitFacts LinearSpec CapacitySpec CapacityEx DeepSpec Deep DeepEx.
Import ListNotations.
Open Scope R_scope.

(** C116: in exact arithmetic, for every function from the unit cube in d dimensions to o dimensions whose coordinates are uniformly continuous, and every
    error bound, there is a depth such that the parameters of every model of at least that depth, with hidden layers of widths d+o+1 and 2d+o in turn,
    can be overwritten to predict the function within the bound on the whole cube. *)
Theorem C116_depth (f : nat -> list R -> R) (d o : nat) (eps : R) : (forall j, (j < o)%nat -> ucont d (f j)) -> 0 < eps ->
  exists N, forall s m es xs k n, (N <= n)%nat -> trainable s m es xs d o k -> deep es d o n -> m_acctype m = 0%Z ->
  exists s' es', Forall2 same_place es es' /\ frame (among (prows es)) s s' /\ rest s s' /\ trainable s' m es' xs d o k /\
    forall s2 x rsx r X, consistent s2 m es' d o -> own s2 x rsx r d X -> (1 <= r)%nat -> (forall c, (c < r)%nat -> cube d (nth c X [])) ->
      returns (Predict m x) s2 (fun out s3 => exists rs P, own s3 out rs r o P /\
        forall c j, (c < r)%nat -> (j < o)%nat -> Rabs (entry P c j - f j (nth c X [])) <= eps).
Proof. exact (deep_approximate f d o eps). Qed.
Print Assumptions C116_depth.

(** C116: depth does not help a first layer with fewer units than inputs: whatever its layers and parameters, such a model is off by at least 1/4
    for one of two points of the cube when it should predict their distance to the centre ... *)
Theorem C116_narrow (s : state RNum) m es d : consistent s m es d 1 -> narrow es d -> m_acctype m = 0%Z ->
  exists z, cube d z /\ forall s2 x rsx, consistent s2 m es d 1 -> own s2 x rsx 2 d [centre d; z] ->
    returns (Predict m x) s2 (fun out s3 => exists rs P, own s3 out rs 2 1 P /\
      (1 / 4 <= Rabs (entry P 0 0 - off_centre d (centre d)) \/ 1 / 4 <= Rabs (entry P 1 0 - off_centre d z))).
Proof. exact (narrow_fails s m es d). Qed.
Print Assumptions C116_narrow.

(** C116: ... after any training on any data. *)
Theorem C116_narrow_trained s m es xs d k x rsx y rsy r X Y epochs bs xv yv : (0 <= bs)%Z -> (Z.of_nat r + bs <= 2 ^ 52)%Z -> (1 <= r)%nat -> trainable s m es xs d 1 k -> narrow es d -> m_acctype m = 0%Z ->
  data_ok s es x rsx y rsy r d 1 X Y ->
  returns (Fit m x y epochs bs xv yv 0) s (fun _ s' => exists es' z, Forall2 same_place es es' /\ consistent s' m es' d 1 /\ cube d z /\ forall s2 x rsx, consistent s2 m es' d 1 -> own s2 x rsx 2 d [centre d; z] ->
    returns (Predict m x) s2 (fun out s3 => exists rs P, own s3 out rs 2 1 P /\
      (1 / 4 <= Rabs (entry P 0 0 - off_centre d (centre d)) \/ 1 / 4 <= Rabs (entry P 1 0 - off_centre d z)))).
Proof. exact (narrow_trained s m es xs d k x rsx y rsy r X Y epochs bs xv yv). Qed.
Print Assumptions C116_narrow_trained.

(** The distance to the centre is such a function, and the code builds models of every depth. *)
Example C116_ex d o n : (1 <= d)%nat -> (1 <= o)%nat -> (Z.of_nat (d + o + d + 1) < 2 ^ 31)%Z ->
  ucont d (off_centre d) /\ exists s m es xs, trainable s m es xs d o MSE /\ deep es d o n /\ m_acctype m = 0%Z.
Proof. intros H1 H2 H3. exact (conj (off_centre_ucont d) (deep_exists d o n H1 H2 H3)). Qed.
(** Two inputs, one hidden unit, the exclusive-or data. *)
Example C116_ex_narrow : trainable (cx_state 2 1 1 4 Linear xorX xorY) (cx_m 2 1 0) (cx_es 2 1 1 4 Linear) (cx_xs 2 1 1) 2 1 MSE /\ narrow (cx_es 2 1 1 4 Linear) 2 /\
  data_ok (cx_state 2 1 1 4 Linear xorX xorY) (cx_es 2 1 1 4 Linear) (cx_x 2 4) (blk 2 1 1 4 4 4) (cx_y 1 4) (blk 2 1 1 4 5 4) 4 2 1 xorX xorY /\ m_acctype (cx_m 2 1 0) = 0%Z.
Proof. exact ex_narrow. Qed.
