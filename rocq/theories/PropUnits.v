(** The order of features, hidden units and outputs. *)
From Coq Require Import String ZArith List Bool Arith Lia Reals.
From Verif Require Import Num NumR NumB64 Heap Spec Matrix Loss Network Optimizers ModelGo PureSpec Repr RSum LayerReal LossProofs OptSpec ModelSpec FitFacts NetGradSpec NetGradCode CodecEx UnitSpec UnitOrder UnitEx.
Import ListNotations.

(** C97: in exact arithmetic, two models that differ only in the order of features, hidden units and outputs
    ([p] the order of the features, [qs] the orders of the units of each layer), trained on the same data in
    the same orders, still differ only in these orders after any number of epochs, with any loss, optimizers
    and batch size. *)
Theorem C97_train s1 m1 es1 xs1 x1 rsx1 y1 rsy1 xv1 yv1 s2 m2 es2 xs2 x2 rsx2 y2 rsy2 xv2 yv2 i o k n p qs (X Y : rpm) epochs bs :
  (0 <= bs)%Z -> (Z.of_nat n + bs <= 2 ^ 52)%Z -> (1 <= n)%nat -> order i p -> orders (net es1) qs ->
  trainable s1 m1 es1 xs1 i o k -> data_ok s1 es1 x1 rsx1 y1 rsy1 n i o X Y ->
  trainable s2 m2 es2 xs2 i o k -> data_ok s2 es2 x2 rsx2 y2 rsy2 n i o (cols_by p X) (cols_by (last qs p) Y) ->
  List.Forall (fun e => p_kind (e_p e) <> Dropout) es1 -> trainer es2 xs2 = net_by p qs (trainer es1 xs1) ->
  exists s1' s2' es1' xs1' es2' xs2',
    Fit m1 x1 y1 epochs bs xv1 yv1 0 s1 = (Ret tt, s1') /\ Fit m2 x2 y2 epochs bs xv2 yv2 0 s2 = (Ret tt, s2') /\
    trainable s1' m1 es1' xs1' i o k /\ Forall2 same_place es1 es1' /\
    trainable s2' m2 es2' xs2' i o k /\ Forall2 same_place es2 es2' /\
    trainer es2' xs2' = net_by p qs (trainer es1' xs1').
Proof. exact (fit_unit_order s1 m1 es1 xs1 x1 rsx1 y1 rsy1 xv1 yv1 s2 m2 es2 xs2 x2 rsx2 y2 rsy2 xv2 yv2 i o k n p qs X Y epochs bs). Qed.
Print Assumptions C97_train.

(** C97: such models predict the same outputs, in the order of the output units (dropout layers included). *)
Theorem C97_predict s1 m1 es1 x1 rsx1 s2 m2 es2 x2 rsx2 i o p qs r (X : rpm) :
  consistent s1 m1 es1 i o -> consistent s2 m2 es2 i o -> (1 <= length es1)%nat -> order i p -> orders (net es1) qs -> net es2 = layers_by p qs (net es1) ->
  m_acctype m1 = 0%Z -> m_acctype m2 = 0%Z -> (1 <= r)%nat -> own s1 x1 rsx1 r i X -> own s2 x2 rsx2 r i (cols_by p X) ->
  exists P1 P2 s1' s2' rs1 rs2 P, Predict m1 x1 s1 = (Ret P1, s1') /\ Predict m2 x2 s2 = (Ret P2, s2') /\
    own s1' P1 rs1 r o P /\ own s2' P2 rs2 r o (cols_by (last qs p) P).
Proof. exact (predict_by s1 m1 es1 x1 rsx1 s2 m2 es2 x2 rsx2 i o p qs r X). Qed.
Print Assumptions C97_predict.

(** C97: such models have the same loss. *)
Theorem C97_loss s1 m1 es1 x1 rsx1 y1 rsy1 s2 m2 es2 x2 rsx2 y2 rsy2 i o k p qs r (X Y : rpm) :
  consistent s1 m1 es1 i o -> consistent s2 m2 es2 i o -> (1 <= length es1)%nat -> order i p -> orders (net es1) qs -> net es2 = layers_by p qs (net es1) ->
  m_loss m1 = Some (MkLoss k (Z.of_nat o)) -> m_loss m2 = Some (MkLoss k (Z.of_nat o)) -> (1 <= r)%nat -> own s1 x1 rsx1 r i X -> own s2 x2 rsx2 r i (cols_by p X) ->
  own s1 y1 rsy1 r o Y -> own s2 y2 rsy2 r o (cols_by (last qs p) Y) ->
  exists v s1' s2', CalculateLoss m1 x1 y1 s1 = (Ret v, s1') /\ CalculateLoss m2 x2 y2 s2 = (Ret v, s2').
Proof. exact (loss_by s1 m1 es1 x1 rsx1 y1 rsy1 s2 m2 es2 x2 rsx2 y2 rsy2 i o k p qs r X Y). Qed.
Print Assumptions C97_loss.

(** Hidden 2 -> 2 and linear 2 -> 1, with both features and both hidden units swapped. *)
Example C97_ex : order 2 [1;0]%nat /\ orders (net nr_es) [[1;0];[0]]%nat /\
  trainable (nr_state 1) (nr_m 1) nr_es (nr_xs 1) 2 1 MSE /\ data_ok (nr_state 1) nr_es nr_x [7;8]%nat nr_y [9;10]%nat 2 2 1 nrX nrY /\
  trainable (un_state 1) (nr_m 1) un_es (nr_xs 1) 2 1 MSE /\
  data_ok (un_state 1) un_es nr_x [7;8]%nat nr_y [9;10]%nat 2 2 1 (cols_by [1;0]%nat nrX) (cols_by (last [[1;0];[0]]%nat [1;0]%nat) nrY) /\
  trainer un_es (nr_xs 1) = net_by [1;0]%nat [[1;0];[0]]%nat (trainer nr_es (nr_xs 1)) /\ net un_es = layers_by [1;0]%nat [[1;0];[0]]%nat (net nr_es).
Proof. exact (conj (proj1 un_orders) (conj (proj2 un_orders) (conj (nr_trainable 1) (conj (nr_data 1) (conj (un_trainable 1) (conj (un_data 1) (conj (un_net 1) eq_refl))))))). Qed.

(** C97: in float64 even the order of the features matters: a linear layer with three weights of 1 predicts
    2^53 for the sample 2^53, 1, 1 and 2^53 + 2 for 1, 1, 2^53. *)
Theorem C97_float_refuted L : exists (s : state (B64 L)) m es i o x1 x2 rs1 rs2 p (X : pm (B64 L)) P1 P2 s1' s2' r1 r2 a b,
  consistent s m es i o /\ m_acctype m = 0%Z /\ order i p /\ net es = layers_by p [[0%nat]] (net es) /\
  own s x1 rs1 1 i X /\ own s x2 rs2 1 i (cols_by p X) /\ Predict m x1 s = (Ret P1, s1') /\ Predict m x2 s = (Ret P2, s2') /\
  own s1' P1 r1 1 1 [[a]] /\ own s2' P2 r2 1 1 [[b]] /\ a = bz (2 ^ 53) /\ b = bz (2 ^ 53 + 2) /\ a <> b.
Proof. exact (uf_differs L). Qed.
Print Assumptions C97_float_refuted.
