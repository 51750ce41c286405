(** * AdamCycle: with a constant rate Adam can jump across the optimum for ever. *)
From Coq Require Import String ZArith List Bool Arith Lia Reals Lra Psatz.
From Verif Require Import Num NumR Heap Spec Matrix Loss Network Optimizers ModelGo PureSpec Repr HeapLemmas LoopLemmas MatrixFacts MiscFacts RSum LayerFacts LayerReal GradSpec Grad LossProofs LossReal LossCode OptSpec OptReal ModelSpec ModelProofs FitProofs FitFacts NetGradSpec NetGrad NetGradCode LossRefute Converge ConvergeFit Momentum RateSpec MomentumFit MomentumEx.
Import ListNotations.
Open Scope R_scope.

Section Cycle.
Variables lr eps : R.
(** Weight and bias: u = (lr - eps/2) / 2, so the prediction for x = 1 is lr - eps/2 while the label is 0. *)
Definition ac_u : R := (lr - eps / 2) / 2.
Definition ac_o : optimizer RNum := MkOpt (K := RNum) Adam lr 0 0 eps 0 0 lr 0 matrix0 matrix0 matrix0 matrix0 false false.
Definition ac_state : state RNum :=
  MkState (K := RNum) [[ac_u]; [ac_u]; [1]; [0]] [[1]; [2]; [3]; [4]]%nat
    [MkLayer (K := RNum) Linear 1 1 (MkMatrix 1 1 (MkSlice 1 0 1)) (MkMatrix 1 1 (MkSlice 2 0 1)) 0 0 matrix0 matrix0]
    [ac_o] nr_rng true [].
Definition ac_layer (u : R) : player RNum := PL (K := RNum) Linear 1 1 [[u]] [[u]] 0 0.
Definition ac_po (t : nat) (a b c d : R) : popt RNum := PO (K := RNum) Adam lr 0 0 eps 0 0 lr (Z.of_nat t) false false [[a]] [[b]] [[c]] [[d]].
Definition ac_e : lent RNum := LE (K := RNum) 0 [1]%nat [2]%nat (ac_layer ac_u).
Definition ac_xo : oent RNum := OE (K := RNum) 0 [] (ac_po 0 0 0 0 0).
Lemma ac_trainable : trainable ac_state mt_m [ac_e] [ac_xo] 1 1 MSE.
Proof.
  unfold trainable. split; [|split; [|split; [|split; [|split; [|split; [|split; [|split; [|split]]]]]]]].
  - unfold consistent. do 4 (split; [reflexivity|]). split; [simpl; auto|].
    repeat constructor; eexists; (split; [reflexivity|]); unfold lown; simpl; repeat (split; [first [reflexivity|lia]|]); split; own_tac'.
  - split; nd.
  - simpl; lia.
  - reflexivity.
  - nd.
  - repeat constructor; eexists; (split; [reflexivity|]); unfold oown, oscal; simpl; repeat split; left; auto 20.
  - dj.
  - reflexivity.
  - reflexivity.
  - repeat constructor; discriminate.
Qed.
Lemma ac_data : data_ok ac_state [ac_e] mt_x [3]%nat mt_y [4]%nat 1 1 1 mtX mtY.
Proof. split; [own_tac'|]. split; [own_tac'|]. split; dj. Qed.
Lemma ac_move (t : nat) u m c : 0 < eps < 2 * lr -> u = ac_u \/ u = - ac_u ->
  adam_p1 (K := RNum) lr eps (adam_corr (K := RNum) 0 (Z.of_nat t)) u (adam_m1 (K := RNum) 0 m (4 * u)) (adam_c1 (K := RNum) 0 c (4 * u)) = - u.
Proof.
  intros HE HU. unfold adam_p1, adam_m1, adam_c1. rewrite adam_corr_R by lia. cbn [fadd fmul fsub fdiv fneg fsqrt fpow f1 ofZ RNum]. rewrite r_pow_Z.
  rewrite pow_ne_zero by lia. rewrite Rminus_0_r, Rinv_1. change (powerRZ (4 * u) 2) with ((4 * u) ^ 2).
  replace (sqrt ((c * 0 + (4 * u) ^ 2 * 1) * 1)) with (4 * ac_u).
  - unfold ac_u in *. destruct HU as [->| ->]; toR; field; lra.
  - replace ((c * 0 + (4 * u) ^ 2 * 1) * 1) with ((4 * ac_u) ^ 2).
    + rewrite sqrt_pow2; [reflexivity|]. unfold ac_u. lra.
    + destruct HU as [->| ->]; ring.
Qed.
Lemma ac_grad u : one_grad MSE 1 1 mtX mtY (ac_layer u) = ([[4 * u]], [[4 * u]]).
Proof.
  unfold one_grad, grad, dw, db, one_gr, mseGr, wb. cbn. 
  repeat (f_equal; try lra).
Qed.
Lemma ac_step t u a b c d : 0 < eps < 2 * lr -> u = ac_u \/ u = - ac_u ->
  exists a' b' c' d', opt_step MSE 1 1 mtX mtY (ac_layer u, ac_po t a b c d) = (ac_layer (- u), ac_po (S t) a' b' c' d').
Proof.
  intros HE HU. unfold opt_step. cbn [fst]. rewrite ac_grad. unfold tstep, pupdate, pupd1, ac_po. cbn [po_kind po_iter po_b1 po_b2 po_eps fst snd].
  do 4 eexists. unfold po_after, next_rate. cbn [po_usedecay po_rate fst snd p_in p_out p_w p_b ac_layer po_wm po_wc po_bm po_bc].
  cbn -[adam_p1 adam_m1 adam_c1 adam_corr Z.of_nat]. rewrite !(ac_move t) by assumption. unfold reparam. cbn [p_kind p_in p_out p_slope p_drop ac_layer].
  f_equal. f_equal. lia.
Qed.
Lemma ac_iter n : 0 < eps < 2 * lr -> exists u a b c d, (u = ac_u \/ u = - ac_u) /\
  Nat.iter n (opt_step MSE 1 1 mtX mtY) (ac_layer ac_u, ac_po 0 0 0 0 0) = (ac_layer u, ac_po n a b c d).
Proof.
  intros HE. induction n as [|n (u & a & b & c & d & HU & IH)].
  - exists ac_u, 0, 0, 0, 0. split; [now left|reflexivity].
  - cbn [Nat.iter nat_rect]. change (nat_rect _ ?p (fun _ => ?f) n) with (Nat.iter n f p). rewrite IH.
    destruct (ac_step n u a b c d HE HU) as (a' & b' & c' & d' & E). exists (- u), a', b', c', d'. split; [|exact E].
    destruct HU as [->| ->]; [now right|left; ring].
Qed.
Lemma ac_objective u : objective MSE 1 1 mtY (pnet [ac_layer u] 1 mtX) = 4 * u ^ 2.
Proof. unfold objective. rewrite !rsum_1. cbv -[Rplus Rmult Rminus Rdiv Ropp Rinv IZR Rlt Rle R0 R1]. field. Qed.
Lemma adam_cycles : 0 < eps < 2 * lr -> exists s m e x i o mx rsx y rsy n (X Y : rpm),
  trainable s m [e] [x] i o MSE /\ data_ok s [e] mx rsx y rsy n i o X Y /\ convex_problem MSE (p_kind (e_p e)) n o Y (2 / INR o) /\ fresh_adam lr eps 0 0 i o (x_po x) /\
  (exists W B, objective MSE n o Y (pnet [with_params (e_p e) W B] n X) = 0) /\ 0 < objective MSE n o Y (pnet [e_p e] n X) /\
  forall epochs, (1 <= epochs)%Z -> exists s' e' x', Fit m mx y epochs 0 matrix0 matrix0 0 s = (Ret tt, s') /\ trainable s' m [e'] [x'] i o MSE /\ same_place e e' /\
    objective MSE n o Y (pnet [e_p e'] n X) = objective MSE n o Y (pnet [e_p e] n X).
Proof.
  intros HE. exists ac_state, mt_m, ac_e, ac_xo, 1%nat, 1%nat, mt_x, [3]%nat, mt_y, [4]%nat, 1%nat, mtX, mtY.
  split; [exact ac_trainable|]. split; [exact ac_data|]. split; [left; auto|]. split; [repeat split|].
  split. { exists [[0]], [[0]]. change (with_params (e_p ac_e) [[0]] [[0]]) with (ac_layer 0). rewrite ac_objective. ring. }
  split. { cbn [e_p ac_e]. rewrite ac_objective. unfold ac_u. nra. }
  intros epochs Hep.
  destruct (fit_iterates ac_state mt_m ac_e ac_xo 1 1 MSE mt_x _ mt_y _ 1 mtX mtY epochs 0 matrix0 matrix0 ltac:(lia) ltac:(lia) ltac:(lia) ltac:(lia) Hep ac_trainable ac_data (or_introl (conj eq_refl eq_refl)))
    as ([] & s2 & E2 & e2 & x2 & HT2 & HP2 & _ & _ & _ & H2).
  exists s2, e2, x2. split; [exact E2|]. split; [exact HT2|]. split; [exact HP2|].
  destruct (ac_iter (Z.to_nat epochs) HE) as (u & a & b & c & d & HU & EI). cbn [e_p ac_e x_po ac_xo] in H2. rewrite EI in H2.
  apply (f_equal fst) in H2. cbn [fst] in H2. rewrite H2. cbn [e_p ac_e]. rewrite !ac_objective. destruct HU as [->| ->]; ring.
Qed.
End Cycle.
