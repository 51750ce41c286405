(** * MiniEx: concrete models for the mini-batch theorems. *)
From Coq Require Import String ZArith List Bool Arith Lia Reals Lra.
From Coquelicot Require Import Coquelicot.
From Verif Require Import Num NumR Heap Spec Matrix Loss Network Optimizers ModelGo PureSpec Repr HeapLemmas LoopLemmas MatrixFacts MiscFacts RSum LayerFacts LayerReal GradSpec Grad LossProofs LossReal LossCode OptSpec ModelSpec ModelProofs FitProofs FitFacts NetGradSpec NetGrad NetGradCode LossRefute Converge ConvergeFit ConvergeEx ConserveProofs MiniBatch MiniFit.
Import ListNotations.
Open Scope R_scope.

(** The data of [ConvergeEx] is fitted exactly by weights 0, 2 and bias 1. *)
Lemma cv_solvable : solves 2 2 1 cvX cvY1 [[0];[2]] [[1]].
Proof.
  intros a j Ha Hj. destruct j; [|lia]. destruct a as [|[|]]; [| |lia]; rewrite paff_entry by lia; rewrite !rsum_S, rsum_0; unfold entry, cvX, cvY1; simpl; ring.
Qed.

(** One input, one output, two samples with the same input and different labels. *)
Definition mb_state : state RNum :=
  MkState (K := RNum) [[0]; [2/3]; [0]; [0]; [0]; [1]] [[1]; [2]; [3;4]; [5;6]]%nat
    [MkLayer (K := RNum) Linear 1 1 (MkMatrix 1 1 (MkSlice 1 0 1)) (MkMatrix 1 1 (MkSlice 2 0 1)) 0 0 matrix0 matrix0]
    [nr_o (1/4)] nr_rng true [].
Definition mbX : rpm := [[0];[0]].
Definition mbY : rpm := [[0];[1]].
Definition mb_x : matrix := MkMatrix 2 1 (MkSlice 3 0 2).
Definition mb_y : matrix := MkMatrix 2 1 (MkSlice 4 0 2).
Definition mb_e : lent RNum := LE (K := RNum) 0 [1]%nat [2]%nat (PL (K := RNum) Linear 1 1 [[0]] [[2/3]] 0 0).
Definition mb_m : model RNum := MkModel (K := RNum) 1 1 1 0 (Some (MkLoss MSE 1)) 0 0 0 [] [0]%nat [0]%nat.
Lemma mb_trainable : trainable mb_state mb_m [mb_e] [cv_xo (1/4) 1] 1 1 MSE.
Proof.
  unfold trainable. split; [|split; [|split; [|split; [|split; [|split; [|split; [|split; [|split]]]]]]]].
  - unfold consistent. do 4 (split; [reflexivity|]). split; [simpl; auto|].
    constructor; [|constructor]. eexists; (split; [reflexivity|]); unfold lown; simpl; repeat (split; [first [reflexivity|lia]|]). split; own_tac'.
  - split; nd.
  - simpl; lia.
  - reflexivity.
  - nd.
  - repeat constructor; eexists; (split; [reflexivity|]); unfold oown, oscal; simpl; auto 20.
  - dj.
  - reflexivity.
  - reflexivity.
  - repeat constructor; discriminate.
Qed.
Lemma mb_data : data_ok mb_state [mb_e] mb_x [3;4]%nat mb_y [5;6]%nat 2 1 1 mbX mbY.
Proof. split; [own_tac'|]. split; [own_tac'|]. split; dj. Qed.
Lemma mb_norm : sqnorm 2 1 mbX = 0.
Proof. unfold sqnorm. rewrite !rsum_S, !rsum_0. unfold entry, mbX. simpl. ring. Qed.
Notation mb_bt := (combine (chunks (batch_rows 2 1) mbX) (chunks (batch_rows 2 1) mbY)).
Lemma pair11 (a b c d : R) : a = c -> b = d -> (([[a]], [[b]]) : rpm * rpm) = ([[c]], [[d]]).
Proof. now intros -> ->. Qed.
Lemma mb_fixed n : after 1 1 (1/4) mb_bt (wb (e_p mb_e)) n = ([[0]], [[2/3]]).
Proof.
  unfold after. induction n as [|n IH]; [reflexivity|].
  change (run 1 1 (1/4) mb_bt (Nat.iter n (run 1 1 (1 / 4) mb_bt) (wb (e_p mb_e))) = ([[0]], [[2/3]])). rewrite IH.
  change (gb 1 1 (1/4) ([[0]], [[1]]) (gb 1 1 (1/4) ([[0]], [[0]]) ([[0]], [[2/3]])) = ([[0]], [[2/3]])).
  assert (E1 : gb 1 1 (1/4) ([[0]], [[0]]) ([[0]], [[2/3]]) = ([[0]], [[1/3]])).
  { cbv -[Rplus Rmult Rminus Rdiv Ropp Rinv IZR]. apply pair11; field. }
  rewrite E1. cbv -[Rplus Rmult Rminus Rdiv Ropp Rinv IZR]. apply pair11; field.
Qed.
(** The linear layer with weight 0 and bias 1/2 has objective 1/2, but training with batches of one sample stays at 5/9 for ever. *)
Lemma mb_stuck : exists s m e x i o mx rsx y rsy n (X Y : rpm) lr bs,
  (0 <= bs)%Z /\ (1 <= n)%nat /\ trainable s m [e] [x] i o MSE /\ data_ok s [e] mx rsx y rsy n i o X Y /\ p_kind (e_p e) = Linear /\ plain_sgd lr (x_po x) /\
  0 < lr /\ lr * (2 / INR o) * (sqnorm n i X + INR n) <= 1 /\
  (exists W B, objective MSE n o Y (pnet [with_params (e_p e) W B] n X) = 1 / 2) /\
  forall epochs xv yv, returns (Fit m mx y epochs bs xv yv 0) s (fun _ s' => exists e' x', trainable s' m [e'] [x'] i o MSE /\ same_place e e' /\
    objective MSE n o Y (pnet [e_p e'] n X) = 5 / 9).
Proof.
  exists mb_state, mb_m, mb_e, (cv_xo (1/4) 1), 1%nat, 1%nat, mb_x, [3;4]%nat, mb_y, [5;6]%nat, 2%nat, mbX, mbY, (1/4), 1%Z.
  split; [lia|]. split; [lia|]. split; [exact mb_trainable|]. split; [exact mb_data|]. split; [reflexivity|]. split; [repeat split|]. split; [lra|].
  split; [rewrite mb_norm; simpl; lra|]. split.
  - exists [[0]], [[1/2]]. unfold objective. rewrite !rsum_S, !rsum_0. cbv -[Rplus Rmult Rminus Rdiv Ropp Rinv IZR R0 R1]. field.
  - intros epochs xv yv.
    destruct (fit_run mb_state mb_m mb_e (cv_xo (1/4) 1) 1 1 mb_x [3;4]%nat mb_y [5;6]%nat 2 mbX mbY 1 xv yv (1/4) epochs ltac:(lia) ltac:(lia) ltac:(lia) mb_trainable mb_data eq_refl ltac:(repeat split)) as (a & s' & E & e' & x' & H1 & H2 & H3 & H4).
    exists a, s'. split; [exact E|]. exists e', x'. split; [exact H1|]. split; [exact H2|]. rewrite H4, mb_fixed.
    change mb_bt with [(([[0]], [[0]]) : rpm * rpm); ([[0]], [[1]])]. cbn [total fold_right]. unfold fb, obj, msePhi. cbn [fst snd length]. rewrite !rsum_S, !rsum_0.
    cbv -[Rplus Rmult Rminus Rdiv Ropp Rinv IZR R0 R1]. field.
Qed.
