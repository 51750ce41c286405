(** * Property C134: overflow during float64 training.

    [all_finite L p]: every weight and bias of the layer is a finite number (OverSpec.v).  [all_nan L p]: every one is NaN (Nan.v). *)
From Coq Require Import String ZArith List Bool Arith Lia.
From Flocq Require Import IEEE754.BinarySingleNaN IEEE754.Binary IEEE754.Bits.
From Verif Require Import Num NumB64 Heap Spec Matrix Loss Network Optimizers ModelGo PureSpec Repr OptSpec ModelSpec Nan OverSpec NanEx Over.
Import ListNotations.
Open Scope Z_scope.

(** Looking at the parameters after training is enough: if they are finite, they were finite after every smaller number of epochs too; and once they are
    all NaN, they are all NaN after every larger number.  For all layers, losses, optimizers and batch sizes. *)
Theorem C134_check (L : libm) s (m : model (B64 L)) es xs i o k x rsx y rsy n X Y e e' bs xv yv xv' yv' :
  0 <= bs -> Z.of_nat n + bs <= 2 ^ 52 -> (1 <= n)%nat -> trainable s m es xs i o k -> data_ok s es x rsx y rsy n i o X Y -> e' <= e ->
  exists s1 s2 es1 xs1 es2 xs2, Fit m x y e' bs xv' yv' 0 s = (Ret tt, s1) /\ Fit m x y e bs xv yv 0 s = (Ret tt, s2) /\
    trainable s1 m es1 xs1 i o k /\ Forall2 same_place es es1 /\ trainable s2 m es2 xs2 i o k /\ Forall2 same_place es es2 /\
    (Forall (all_finite L) (net es2) -> Forall (all_finite L) (net es1)) /\ (Forall (all_nan L) (net es1) -> Forall (all_nan L) (net es2)).
Proof. exact (fit_check L s m es xs i o k x rsx y rsy n X Y e e' bs xv yv xv' yv'). Qed.
(** Finite data and parameters do not keep training finite: one linear unit, the sample 2 with target 1, learning rate 1/2.  Up to 511 epochs the
    parameters are finite, from 514 on they are NaN, and Fit reports no error. *)
Theorem C134_finite_refuted (L : libm) : exists s (m : model (B64 L)) es xs x rsx y rsy X Y, trainable s m es xs 1 1 MSE /\ data_ok s es x rsx y rsy 1 1 1 X Y /\
  Forall (all_finite L) (net es) /\ finite_rows L X /\ finite_rows L Y /\
  forall e xv yv, returns (Fit m x y e 0 xv yv 0) s (fun _ s' => exists es' xs', trainable s' m es' xs' 1 1 MSE /\ Forall2 same_place es es' /\
    (e <= 511 -> Forall (all_finite L) (net es')) /\ (514 <= e -> Forall (all_nan L) (net es'))).
Proof. exact (overflows L). Qed.
Print Assumptions C134_check. Print Assumptions C134_finite_refuted.
(** The model of the refutation meets the hypotheses of C134_check. *)
Example C134_ex : trainable (ov_state nx_lib) (ov_m nx_lib) (ov_es nx_lib) (ov_xs nx_lib) 1 1 MSE /\
  data_ok (ov_state nx_lib) (ov_es nx_lib) ov_x [3]%nat ov_y [4]%nat 1 1 1 (ovX nx_lib) (ovY nx_lib).
Proof. split; [apply ov_trainable|apply ov_data]. Qed.
