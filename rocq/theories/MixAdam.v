(** * MixAdam: training by Adam is not linear in the targets. *)
From Coq Require Import String ZArith List Bool Arith Lia Reals Lra.
From Verif Require Import Num NumR Heap Spec Matrix Loss Network Optimizers ModelGo PureSpec Repr HeapLemmas RSum MiscFacts OptSpec OptFacts ModelSpec FitFacts LossRefute FitProofs LossProofs ModelProofs LayerReal NetGradCode MatrixFacts Params Span SpanEx Rotate RotateEx MixSpec Mix MixEx.
Import ListNotations.
Open Scope R_scope.

(** Linear 2 -> 1 with zero parameters; the sample (1, 0) with target [y]; Adam with betas 1/2, epsilon 1 and rate 1. *)
Definition ad_state (y : R) : state RNum :=
  MkState (K := RNum) [[0]; [0]; [0]; [1;0]; [y]] [[1;2]; [3]; [4]; [5]]%nat
    [MkLayer (K := RNum) Linear 2 1 (MkMatrix 2 1 (MkSlice 1 0 2)) (MkMatrix 1 1 (MkSlice 2 0 1)) 0 0 matrix0 matrix0] [sp_adam] nr_rng true [].
Lemma ad_trainable y : trainable (ad_state y) sp_m (sp_es 0) (sp_xs sp_apo) 2 1 MSE.
Proof.
  unfold trainable. split; [|split; [|split; [|split; [|split; [|split; [|split; [|split; [|split]]]]]]]].
  - unfold consistent. do 4 (split; [reflexivity|]). split; [simpl; auto|].
    repeat constructor; eexists; (split; [reflexivity|]); unfold lown; simpl; repeat (split; [first [reflexivity|lia]|]); split; own_tac'.
  - split; nd.
  - simpl; lia.
  - reflexivity.
  - nd.
  - repeat constructor; eexists; (split; [reflexivity|]); unfold oown, oscal; simpl; auto 20.
  - dj.
  - reflexivity.
  - reflexivity.
  - repeat constructor; discriminate.
Qed.
Lemma ad_data y : data_ok (ad_state y) (sp_es 0) ra_x [4]%nat ra_y [5]%nat 1 2 1 [[1;0]] [[y]].
Proof. split; [own_tac'|]. split; [own_tac'|]. split; dj. Qed.
Lemma ad_grad y (U : nat -> R) q : exists G, snd (pbackprop (K := RNum) MSE [[y]] 1 [sp_p 0] 1 [[1;0]] U q) = [([[-2*y];[0]], G)].
Proof.
  eexists. unfold pbackprop, ptrain, pforward, pact, paffine, paff, pre_grad, fused, pback, sp_p, clipped, bwd_clips, ploss_back, pmse_back, pdW, psum0, pdot, ptrans, mk, entry, fsum. cbn.
  do 2 f_equal. repeat (f_equal; try field).
Qed.
Lemma ad_step (D G : rpm) g : entry D 0 0 = g -> entry (p_w (fst (tstep (K := RNum) (sp_p 0, sp_apo) (D, G)))) 0 0 = - (g / (Rabs g + 1)).
Proof.
  intros E. pose proof (ra_step D 0 g ltac:(lia) E) as H. exact H.
Qed.
Lemma ad_fit y : 0 < y -> returns (Fit sp_m ra_x ra_y 1 0 matrix0 matrix0 0) (ad_state y) (fun _ s' => exists es' xs' p, trainable s' sp_m es' xs' 2 1 MSE /\ Forall2 same_place (sp_es 0) es' /\
  net es' = [p] /\ p_in p = 2%nat /\ p_out p = 1%nat /\ entry (p_w p) 0 0 = 2 * y / (2 * y + 1)).
Proof.
  intros Hy.
  destruct (fit_trains (K := RNum) (ad_state y) sp_m (sp_es 0) (sp_xs sp_apo) 2 1 MSE ra_x [4]%nat ra_y [5]%nat 1 [[1;0]] [[y]] 1 0 matrix0 matrix0 RNum_min_faithful) as ([] & s' & E & nn & _ & (es' & xs' & A1 & A2 & _ & A3 & _) & _);
    try lia; [apply ad_trainable|apply ad_data|].
  exists tt, s'. split; [exact E|].
  change (epochs_of (K := RNum) (Z.to_nat 1) (batch_rows 1 0) [[1;0]] [[y]]) with [([[1;0]] : rpm, [[y]] : rpm)] in A3. cbn [ptrain_on fst] in A3. unfold pbatch in A3.
  change (map fst (trainer (sp_es 0) (sp_xs sp_apo))) with [sp_p 0] in A3. change (length [[1;0]]) with 1%nat in A3. change (trainer (sp_es 0) (sp_xs sp_apo)) with [(sp_p 0, sp_apo)] in A3.
  match type of A3 with context [pbackprop MSE [[y]] 1 [sp_p 0] 1 [[1;0]] ?U ?q] => destruct (ad_grad y U q) as (G & EG) end. setoid_rewrite EG in A3. cbn [combine map fst snd] in A3.
  exists es', xs'. eexists. split; [exact A1|]. split; [exact A2|]. split; [rewrite <- (trainer_net' es' xs' A1), A3; reflexivity|]. split; [reflexivity|]. split; [reflexivity|].
  refine (eq_trans (ad_step [[-2*y];[0]] G (-2*y) eq_refl) _). rewrite Rabs_left by lra. change (F RNum) with R in *. field. lra.
Qed.
(** Twice the target does not give twice the weights: 2/3 and 4/5. *)
Lemma adam_not_linear : exists (s1 s2 : state RNum) m es xs p x rsx y rsy X Y1 Y2, trainable s1 m es xs 2 1 MSE /\ trainable s2 m es xs 2 1 MSE /\
  data_ok s1 es x rsx y rsy 1 2 1 X Y1 /\ data_ok s2 es x rsx y rsy 1 2 1 X Y2 /\ mixed 2 0 1 1 Y1 Y1 Y2 /\ List.Forall (fun t => po_kind (snd t) = Adam) (trainer es xs) /\ net es = [p] /\ mixed_layer 2 0 p p p /\
  returns (Fit m x y 1 0 matrix0 matrix0 0) s1 (fun _ s1' => returns (Fit m x y 1 0 matrix0 matrix0 0) s2 (fun _ s2' => exists es1' xs1' p1 es2' xs2' p2,
    trainable s1' m es1' xs1' 2 1 MSE /\ Forall2 same_place es es1' /\ trainable s2' m es2' xs2' 2 1 MSE /\ Forall2 same_place es es2' /\
    net es1' = [p1] /\ net es2' = [p2] /\ ~ mixed_layer 2 0 p1 p1 p2)).
Proof.
  exists (ad_state 1), (ad_state 2), sp_m, (sp_es 0), (sp_xs sp_apo), (sp_p 0), ra_x, [4]%nat, ra_y, [5]%nat, [[1;0]], [[1]], [[2]].
  split; [apply ad_trainable|]. split; [apply ad_trainable|]. split; [apply ad_data|]. split; [apply ad_data|].
  split. { intros n j Hn Hj. assert (n = 0)%nat as -> by lia. assert (j = 0)%nat as -> by lia. cbn. lra. }
  split; [repeat constructor|]. split; [reflexivity|]. split.
  { unfold mixed_layer. cbn [sp_p p_kind p_in p_out p_w p_b]. do 7 (split; [reflexivity|]). split; intros n j Hn Hj; assert (j = 0)%nat as -> by lia; (destruct n as [|[|n]]; [| |lia]); try lia; cbn; lra. }
  destruct (ad_fit 1 ltac:(lra)) as (u1 & s1' & E1 & es1' & xs1' & p1 & T1 & L1 & N1 & I1 & O1 & W1). destruct (ad_fit 2 ltac:(lra)) as (u2 & s2' & E2 & es2' & xs2' & p2 & T2 & L2 & N2 & I2 & O2 & W2).
  exists u1, s1'. split; [exact E1|]. exists u2, s2'. split; [exact E2|]. exists es1', xs1', p1, es2', xs2', p2. do 6 (split; [assumption|]).
  intros (_ & _ & _ & _ & _ & _ & _ & HW & _). specialize (HW 0%nat 0%nat ltac:(lia) ltac:(lia)). rewrite W1, W2 in HW. lra.
Qed.
