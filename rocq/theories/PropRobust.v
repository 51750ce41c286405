(** Small changes of the input. *)
From Coq Require Import String ZArith List Bool Arith Lia Reals.
From Verif Require Import Num NumR Heap Spec Matrix Network Optimizers ModelGo PureSpec Repr RSum LayerReal OptSpec ModelSpec RobustSpec Robust RobustEx.
Import ListNotations.
Open Scope R_scope.

(** C101: in exact arithmetic, for any network and any two inputs that differ by at most [d] in every entry, the
    predictions differ by at most [d] times the product, over the layers, of the largest sum of absolute weights
    of a unit and the steepest slope of the activation (1; leaky: at least 1; sigmoid 1/4; softmax 1/2).  The two
    predictions may be made in different states and by different models, as long as they hold the same network. *)
Theorem C101_predict s1 m1 es1 x1 rs1 s2 m2 es2 x2 rs2 i o r (X1 X2 : rpm) d :
  consistent s1 m1 es1 i o -> consistent s2 m2 es2 i o -> net es2 = net es1 -> (1 <= length es1)%nat -> m_acctype m1 = 0%Z -> m_acctype m2 = 0%Z -> (1 <= r)%nat ->
  own s1 x1 rs1 r i X1 -> own s2 x2 rs2 r i X2 -> 0 <= d -> near r i X1 X2 d ->
  exists o1 o2 s1' s2' q1 q2 P1 P2, Predict m1 x1 s1 = (Ret o1, s1') /\ Predict m2 x2 s2 = (Ret o2, s2') /\ own s1' o1 q1 r o P1 /\ own s2' o2 q2 r o P2 /\
    near r o P1 P2 (net_lip (net es1) * d).
Proof. exact (predict_robust s1 m1 es1 x1 rs1 s2 m2 es2 x2 rs2 i o r X1 X2 d). Qed.
Print Assumptions C101_predict.

(** C101: a sample whose class is ahead by more than twice that bound (and positive by more than the bound) keeps its class. *)
Theorem C101_class s1 m1 es1 x1 rs1 s2 m2 es2 x2 rs2 i o r (X1 X2 : rpm) d :
  consistent s1 m1 es1 i o -> consistent s2 m2 es2 i o -> net es2 = net es1 -> (1 <= length es1)%nat -> m_acctype m1 = 1%Z -> m_acctype m2 = 1%Z -> (1 <= r)%nat ->
  own s1 x1 rs1 r i X1 -> own s2 x2 rs2 r i X2 -> 0 <= d -> near r i X1 X2 d ->
  exists o1 o2 s1' s2' q1 q2 P1 P2, Predict m1 x1 s1 = (Ret o1, s1') /\ Predict m2 x2 s2 = (Ret o2, s2') /\ own s1' o1 q1 r 1 P1 /\ own s2' o2 q2 r 1 P2 /\
    forall a c, (a < r)%nat -> ahead o (pnet (net es1) r X1) a c (net_lip (net es1) * d) -> entry P1 a 0 = INR c /\ entry P2 a 0 = INR c.
Proof. exact (class_robust s1 m1 es1 x1 rs1 s2 m2 es2 x2 rs2 i o r X1 X2 d). Qed.
Print Assumptions C101_class.

(** C101: a binary output further than that bound from 1/2 keeps its value. *)
Theorem C101_binary s1 m1 es1 x1 rs1 s2 m2 es2 x2 rs2 i o r (X1 X2 : rpm) d :
  consistent s1 m1 es1 i o -> consistent s2 m2 es2 i o -> net es2 = net es1 -> (1 <= length es1)%nat -> m_acctype m1 = 2%Z -> m_acctype m2 = 2%Z -> (1 <= r)%nat ->
  own s1 x1 rs1 r i X1 -> own s2 x2 rs2 r i X2 -> 0 <= d -> near r i X1 X2 d ->
  exists o1 o2 s1' s2' q1 q2 P1 P2, Predict m1 x1 s1 = (Ret o1, s1') /\ Predict m2 x2 s2 = (Ret o2, s2') /\ own s1' o1 q1 r o P1 /\ own s2' o2 q2 r o P2 /\
    forall a j, (a < r)%nat -> (j < o)%nat -> net_lip (net es1) * d < Rabs (entry (pnet (net es1) r X1) a j - 1 / 2) -> entry P1 a j = entry P2 a j.
Proof. exact (binary_robust s1 m1 es1 x1 rs1 s2 m2 es2 x2 rs2 i o r X1 X2 d). Qed.
Print Assumptions C101_binary.

(** C101: for a linear layer the bound is reached. *)
Theorem C101_sharp (p : player RNum) d : p_kind p = Linear -> (1 <= p_out p)%nat -> 0 <= d ->
  exists (X1 X2 : rpm) j, shape 1 (p_in p) X1 /\ shape 1 (p_in p) X2 /\ near 1 (p_in p) X1 X2 d /\ (j < p_out p)%nat /\
    Rabs (entry (pforward p 1 X1) 0 j - entry (pforward p 1 X2) 0 j) = net_lip [p] * d.
Proof. exact (linear_sharp p d). Qed.
Print Assumptions C101_sharp.

(** ReLU 2 -> 2 and linear 2 -> 2: the constant is 3 * 2; the inputs differ by 1/10, the first class scores 7, the second -6. *)
Example C101_ex : (forall acc, consistent ro_state (ro_m acc) ro_es 2 2) /\ own ro_state ro_x1 [7]%nat 1 2 roX1 /\ own ro_state ro_x2 [8]%nat 1 2 roX2 /\
  near 1 2 roX1 roX2 (1 / 10) /\ net_lip (net ro_es) = 6 /\ pnet (net ro_es) 1 roX1 = [[7;-6]] /\
  ahead 2 (pnet (net ro_es) 1 roX1) 0 0 (net_lip (net ro_es) * (1 / 10)) /\
  (forall j, (j < 2)%nat -> net_lip (net ro_es) * (1 / 10) < Rabs (entry (pnet (net ro_es) 1 roX1) 0 j - 1 / 2)).
Proof. exact (conj ro_consistent (conj (proj1 ro_own) (conj (proj2 ro_own) (conj ro_near (conj ro_lip (conj ro_out (conj ro_ahead ro_clear))))))). Qed.
