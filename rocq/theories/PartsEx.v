(** * PartsEx: a linear unit and two samples. *)
From Coq Require Import String ZArith List Bool Arith Lia Reals Lra.
From Verif Require Import Num NumR Heap Spec Matrix Loss Network Optimizers ModelGo PureSpec Repr HeapLemmas RSum MiscFacts OptSpec OptFacts ModelSpec FitFacts LossRefute FitProofs LossProofs ModelProofs LayerReal NetGradCode MatrixFacts Params ModelRefute ConvergeEx CopiesSpec CopiesEx Still StillSpec PartsSpec Parts BalanceEx.
Import ListNotations.
Open Scope R_scope.

(** Linear 1 -> 1 with weight and bias 0; the samples (1, -1) and (2, 0). *)
Definition pt_state (o : optimizer RNum) : state RNum :=
  MkState (K := RNum) [[0]; [0]; [1]; [-1]; [2]; [0]] [[1]; [2]; [3;5]; [4;6]; [3]; [4]; [3;3]; [4;4]]%nat
    [MkLayer (K := RNum) Linear 1 1 (MkMatrix 1 1 (MkSlice 1 0 1)) (MkMatrix 1 1 (MkSlice 2 0 1)) 0 0 matrix0 matrix0] [o] nr_rng true [].
Definition pt_m : model RNum := MkModel (K := RNum) 1 1 1 0 (Some (MkLoss MSE 1)) 0 0 0 [] [0]%nat [0]%nat.
Definition pt_p : player RNum := PL (K := RNum) Linear 1 1 [[0]] [[0]] 0 0.
Definition pt_es : list (lent RNum) := [LE (K := RNum) 0 [1]%nat [2]%nat pt_p].
Definition pt_xs (po : popt RNum) : list (oent RNum) := [OE (K := RNum) 0 [] po].
Definition pt_x : matrix := MkMatrix 2 1 (MkSlice 3 0 2).
Definition pt_y : matrix := MkMatrix 2 1 (MkSlice 4 0 2).
Definition pt_x1 : matrix := MkMatrix 1 1 (MkSlice 5 0 1).
Definition pt_y1 : matrix := MkMatrix 1 1 (MkSlice 6 0 1).
Definition pt_x2 : matrix := MkMatrix 2 1 (MkSlice 7 0 2).
Definition pt_y2 : matrix := MkMatrix 2 1 (MkSlice 8 0 2).
Lemma pt_trainable o po : oown (pt_state o) o [] 1 1 po -> trainable (pt_state o) pt_m pt_es (pt_xs po) 1 1 MSE.
Proof.
  intros HO. unfold trainable. split; [|split; [|split; [|split; [|split; [|split; [|split; [|split; [|split]]]]]]]].
  - unfold consistent. do 4 (split; [reflexivity|]). split; [simpl; auto|].
    repeat constructor; eexists; (split; [reflexivity|]); unfold lown; simpl; repeat (split; [first [reflexivity|lia]|]); split; own_tac'.
  - split; nd.
  - simpl; lia.
  - reflexivity.
  - nd.
  - constructor; [exists o; split; [reflexivity|exact HO]|constructor].
  - dj.
  - reflexivity.
  - reflexivity.
  - repeat constructor; discriminate.
Qed.
Lemma pt_data o : data_ok (pt_state o) pt_es pt_x [3;5]%nat pt_y [4;6]%nat 2 1 1 ([[1]] ++ [[2]]) ([[-1]] ++ [[0]]).
Proof. split; [own_tac'|]. split; [own_tac'|]. split; dj. Qed.
Lemma pt_data1 o : data_ok (pt_state o) pt_es pt_x1 [3]%nat pt_y1 [4]%nat 1 1 1 [[1]] [[-1]].
Proof. split; [own_tac'|]. split; [own_tac'|]. split; dj. Qed.
Lemma pt_data2 o : data_ok (pt_state o) pt_es pt_x2 [3;3]%nat pt_y2 [4;4]%nat 2 1 1 ([[1]] ++ [[1]]) ([[-1]] ++ [[-1]]).
Proof. split; [own_tac'|]. split; [own_tac'|]. split; dj. Qed.
Lemma pt_sgd_ok : oown (pt_state bl_sgd) bl_sgd [] 1 1 bl_spo.
Proof. unfold oown, oscal; simpl; auto 20. Qed.
Lemma pt_adam_ok : oown (pt_state bl_adam) bl_adam [] 1 1 bl_apo.
Proof. unfold oown, oscal; simpl; auto 20. Qed.
Lemma pt_fits : pnet (net pt_es) 1 [[2]] = [[0]].
Proof. unfold pnet, net, pt_es, pforward, pact, paffine, paff, pt_p, mk, entry, fsum. cbn. do 2 f_equal. ring. Qed.
Lemma pt_grad1 (U : nat -> R) q : snd (pbackprop (K := RNum) MSE [[-1]] 1 [pt_p] 1 [[1]] U q) = [([[2]], [[2]])].
Proof.
  unfold pbackprop, ptrain, pforward, pact, paffine, paff, pre_grad, fused, pback, pt_p, clipped, bwd_clips, ploss_back, pmse_back, pdW, psum0, pdot, ptrans, mk, entry, fsum. cbn.
  repeat (f_equal; try field).
Qed.
Lemma pt_grad2 (U : nat -> R) q : snd (pbackprop (K := RNum) MSE [[-1]; [-1]] 1 [pt_p] 2 [[1]; [1]] U q) = [([[4]], [[4]])].
Proof.
  unfold pbackprop, ptrain, pforward, pact, paffine, paff, pre_grad, fused, pback, pt_p, clipped, bwd_clips, ploss_back, pmse_back, pdW, psum0, pdot, ptrans, mk, entry, fsum. cbn.
  repeat (f_equal; try field).
Qed.
Lemma pt_step g : 0 < g -> entry (p_w (fst (tstep (K := RNum) (pt_p, bl_apo) ([[g]], [[g]])))) 0 0 = - (g / (g + 1)).
Proof.
  intros Hg. unfold tstep, pupdate, pupd1. cbn [fst snd bl_apo po_kind pt_p p_kind p_in p_out p_w p_b reparam].
  rewrite !entry_mk by lia. unfold pmap2. rewrite !entry_mk by lia. cbn [bl_apo po_bm po_bc po_wm po_wc]. unfold zmat. rewrite !entry_mk by lia.
  unfold adam_p1, adam_m1, adam_c1, adam_corr, next_rate, entry. cbn [po_b1 po_b2 po_iter po_usedecay po_rate po_eps bl_apo nth].
  unfold f0, f1. cbn [fadd fsub fmul fdiv fneg fsqrt fpow ofZ RNum].
  replace (0 + 1)%Z with 1%Z by reflexivity. rewrite !r_pow_Z. unfold powerRZ. change (Pos.to_nat 1) with 1%nat. change (Pos.to_nat 2) with 2%nat. cbn [pow].
  replace ((0 * (1 / 2) + g * (g * 1) * (1 - 1 / 2)) * (1 / (1 - 1 / 2 * 1))) with (g * g) by field.
  rewrite !sqrt_square by lra. change (F RNum) with R in *. field. lra.
Qed.
(** Adam's step on a sample that occurs twice is not the sum of its steps on the sample. *)
Lemma adam_parts : exists (s : state RNum) m es xs x rsx y rsy x1 rsx1 y1 rsy1 X1 Y1 s' s1' p p1 p' es' xs' es1' xs1',
  trainable s m es xs 1 1 MSE /\ data_ok s es x rsx y rsy 2 1 1 (X1 ++ X1) (Y1 ++ Y1) /\ data_ok s es x1 rsx1 y1 rsy1 1 1 1 X1 Y1 /\ List.Forall (fun t => po_kind (snd t) = Adam) (trainer es xs) /\
  Fit m x y 1 0 matrix0 matrix0 0 s = (Ret tt, s') /\ Fit m x1 y1 1 0 matrix0 matrix0 0 s = (Ret tt, s1') /\
  trainable s' m es' xs' 1 1 MSE /\ Forall2 same_place es es' /\ trainable s1' m es1' xs1' 1 1 MSE /\ Forall2 same_place es es1' /\ net es = [p] /\ net es1' = [p1] /\ net es' = [p'] /\
  ~ mixed (weight MSE 1 1) (weight MSE 1 1) p p1 p1 p'.
Proof.
  destruct (fit_trains (K := RNum) (pt_state bl_adam) pt_m pt_es (pt_xs bl_apo) 1 1 MSE pt_x2 [3;3]%nat pt_y2 [4;4]%nat 2 ([[1]] ++ [[1]]) ([[-1]] ++ [[-1]]) 1 0 matrix0 matrix0 RNum_min_faithful) as ([] & s' & E & nn & _ & (es' & xs' & A1 & A2 & _ & A3 & _) & _);
    try lia; [apply pt_trainable, pt_adam_ok|apply pt_data2|].
  destruct (fit_trains (K := RNum) (pt_state bl_adam) pt_m pt_es (pt_xs bl_apo) 1 1 MSE pt_x1 [3]%nat pt_y1 [4]%nat 1 [[1]] [[-1]] 1 0 matrix0 matrix0 RNum_min_faithful) as ([] & s1' & E1 & nn1 & _ & (es1' & xs1' & B1 & B2 & _ & B3 & _) & _);
    try lia; [apply pt_trainable, pt_adam_ok|apply pt_data1|].
  exists (pt_state bl_adam), pt_m, pt_es, (pt_xs bl_apo), pt_x2, [3;3]%nat, pt_y2, [4;4]%nat, pt_x1, [3]%nat, pt_y1, [4]%nat, [[1]], [[-1]], s', s1', pt_p,
    (fst (tstep (K := RNum) (pt_p, bl_apo) ([[2]], [[2]]))), (fst (tstep (K := RNum) (pt_p, bl_apo) ([[4]], [[4]]))), es', xs', es1', xs1'.
  split; [apply pt_trainable, pt_adam_ok|]. split; [apply pt_data2|]. split; [apply pt_data1|]. split; [repeat constructor|]. do 6 (split; [assumption|]). split; [reflexivity|].
  split; [|split].
  - rewrite <- (FitProofs.trainer_net es1' xs1' (eq_sym (f2len _ _ _ (proj1 (proj2 (proj2 (proj2 (proj2 (proj2 B1))))))))), B3.
    change (epochs_of (K := RNum) (Z.to_nat 1) (batch_rows 1 0) [[1]] [[-1]]) with [([[1]] : rpm, [[-1]] : rpm)]. cbn [ptrain_on fst]. unfold pbatch.
    change (map fst (trainer pt_es (pt_xs bl_apo))) with [pt_p]. change (length [[1]]) with 1%nat. setoid_rewrite pt_grad1. reflexivity.
  - rewrite <- (FitProofs.trainer_net es' xs' (eq_sym (f2len _ _ _ (proj1 (proj2 (proj2 (proj2 (proj2 (proj2 A1))))))))), A3.
    change (epochs_of (K := RNum) (Z.to_nat 1) (batch_rows 2 0) ([[1]] ++ [[1]]) ([[-1]] ++ [[-1]])) with [([[1]; [1]] : rpm, [[-1]; [-1]] : rpm)]. cbn [ptrain_on fst]. unfold pbatch.
    change (map fst (trainer pt_es (pt_xs bl_apo))) with [pt_p]. change (length [[1]; [1]]) with 2%nat. setoid_rewrite pt_grad2. reflexivity.
  - intros (H & _). specialize (H 0%nat 0%nat ltac:(simpl; lia) ltac:(simpl; lia)). rewrite !pt_step in H by lra. unfold weight, pt_p, entry in H. cbn [p_w nth] in H. lra.
Qed.
Lemma pt_ce :
  trainable (cp_state 1) cv_m2 [cv_e2] [cv_xo 1 2] 2 2 CE /\ data_ok (cp_state 1) [cv_e2] cp_x [4;5;4;5]%nat cp_y2 [11;12;11;12]%nat (2 + 2) 2 2 (cvX ++ cvX) (cvY2 ++ cvY2) /\
  trainable (cv_state 1) cv_m2 [cv_e2] [cv_xo 1 2] 2 2 CE /\ data_ok (cv_state 1) [cv_e2] cv_x [4;5]%nat cv_y2 [11;12]%nat 2 2 2 cvX cvY2 /\
  List.Forall (fun e => p_kind (e_p e) <> Dropout) [cv_e2] /\ List.Forall simple_sgd (trainer [cv_e2] [cv_xo 1 2]).
Proof.
  split; [apply cp_trainable2|]. split.
  - pose proof (cp_data2 1) as H. unfold copies in H. cbn [repeat concat] in H. rewrite !app_nil_r in H. change (2 + 2)%nat with (2 * 2)%nat. exact H.
  - split; [apply cv_trainable2|]. split; [apply cv_data2|]. split; [repeat constructor; discriminate|repeat constructor].
Qed.
Lemma pt_spare :
  trainable (pt_state bl_adam) pt_m pt_es (pt_xs bl_apo) 1 1 MSE /\ data_ok (pt_state bl_adam) pt_es pt_x [3;5]%nat pt_y [4;6]%nat (1 + 1) 1 1 ([[1]] ++ [[2]]) ([[-1]] ++ [[0]]) /\
  data_ok (pt_state bl_adam) pt_es pt_x1 [3]%nat pt_y1 [4]%nat 1 1 1 [[1]] [[-1]] /\ List.Forall (fun e => p_kind (e_p e) <> Dropout) pt_es /\ pnet (net pt_es) 1 [[2]] = [[0]].
Proof.
  split; [apply pt_trainable, pt_adam_ok|]. split; [apply pt_data|]. split; [apply pt_data1|]. split; [repeat constructor; discriminate|apply pt_fits].
Qed.
