(** * SpanEx: a linear unit with two inputs and one sample. *)
From Coq Require Import String ZArith List Bool Arith Lia Reals Lra.
From Verif Require Import Num NumR Heap Spec Matrix Loss Network Optimizers ModelGo PureSpec Repr HeapLemmas RSum MiscFacts OptSpec OptFacts ModelSpec FitFacts LossRefute FitProofs LossProofs ModelProofs LayerReal NetGradCode MatrixFacts Params SpanSpec Span.
Import ListNotations.
Open Scope R_scope.

(** Linear 2 -> 1 with weights 0 and 3 and bias 0; the samples ((1, 0), -1) and ((1, 2), -1). *)
Definition sp_state (w : R) (o : optimizer RNum) : state RNum :=
  MkState (K := RNum) [[0]; [w]; [0]; [1;0]; [1;2]; [-1]] [[1;2]; [3]; [4]; [5]; [6]]%nat
    [MkLayer (K := RNum) Linear 2 1 (MkMatrix 2 1 (MkSlice 1 0 2)) (MkMatrix 1 1 (MkSlice 2 0 1)) 0 0 matrix0 matrix0] [o] nr_rng true [].
Definition sp_m : model RNum := MkModel (K := RNum) 1 2 1 0 (Some (MkLoss MSE 1)) 0 0 0 [] [0]%nat [0]%nat.
Definition sp_p (w : R) : player RNum := PL (K := RNum) Linear 2 1 [[0];[w]] [[0]] 0 0.
Definition sp_es (w : R) : list (lent RNum) := [LE (K := RNum) 0 [1;2]%nat [3]%nat (sp_p w)].
Definition sp_xs (po : popt RNum) : list (oent RNum) := [OE (K := RNum) 0 [] po].
Definition sp_x0 : matrix := MkMatrix 1 2 (MkSlice 3 0 1).
Definition sp_x : matrix := MkMatrix 1 2 (MkSlice 4 0 1).
Definition sp_y : matrix := MkMatrix 1 1 (MkSlice 5 0 1).
(** SGD with momentum, and Adam. *)
Definition sp_sgd : optimizer RNum := MkOpt (K := RNum) SGD (1/10) 0 (1/2) 0 0 0 (1/10) 0 matrix0 matrix0 matrix0 matrix0 false true.
Definition sp_spo : popt RNum := PO (K := RNum) SGD (1/10) 0 (1/2) 0 0 0 (1/10) 0 false true (zmat 2 1) (zmat 1 1) (zmat 2 1) (zmat 1 1).
Definition sp_adam : optimizer RNum := MkOpt (K := RNum) Adam 1 0 0 1 (1/2) (1/2) 1 0 matrix0 matrix0 matrix0 matrix0 false false.
Definition sp_apo : popt RNum := PO (K := RNum) Adam 1 0 0 1 (1/2) (1/2) 1 0 false false (zmat 2 1) (zmat 1 1) (zmat 2 1) (zmat 1 1).
Definition sp_v (j : nat) : R := match j with 0%nat => 2 | 1%nat => -1 | _ => 0 end.
Lemma sp_trainable w o po : oown (sp_state w o) o [] 2 1 po -> trainable (sp_state w o) sp_m (sp_es w) (sp_xs po) 2 1 MSE.
Proof.
  intros HO. unfold trainable. split; [|split; [|split; [|split; [|split; [|split; [|split; [|split; [|split]]]]]]]].
  - unfold consistent. do 4 (split; [reflexivity|]). split; [simpl; auto|].
    repeat constructor; eexists; (split; [reflexivity|]); unfold lown; simpl; repeat (split; [first [reflexivity|lia]|]); split; own_tac'.
  - split; nd.
  - simpl; lia.
  - reflexivity.
  - nd.
  - constructor; [exists o; split; [reflexivity|exact HO]|constructor].
  - dj.
  - reflexivity.
  - reflexivity.
  - repeat constructor; discriminate.
Qed.
Lemma sp_data w o : data_ok (sp_state w o) (sp_es w) sp_x [5]%nat sp_y [6]%nat 1 2 1 [[1;2]] [[-1]].
Proof. split; [own_tac'|]. split; [own_tac'|]. split; dj. Qed.
Lemma sp_data0 w o : data_ok (sp_state w o) (sp_es w) sp_x0 [4]%nat sp_y [6]%nat 1 2 1 [[1;0]] [[-1]].
Proof. split; [own_tac'|]. split; [own_tac'|]. split; dj. Qed.
Lemma sp_sgd_ok w : oown (sp_state w sp_sgd) sp_sgd [] 2 1 sp_spo.
Proof. unfold oown, oscal; simpl; auto 20. Qed.
Lemma sp_adam_ok w : oown (sp_state w sp_adam) sp_adam [] 2 1 sp_apo.
Proof. unfold oown, oscal; simpl; auto 20. Qed.
Lemma sp_unseen : unseen 2 sp_v [[1;2]].
Proof. repeat constructor. rewrite (rsum_S 1), rsum_1. unfold sp_v. cbn [nth]. ring. Qed.
Lemma sp_steady w : steady sp_v (sp_p w, sp_spo) /\ row_rest 1 (sp_p w, sp_spo) /\ row_rest 1 (sp_p w, sp_apo).
Proof.
  split; [|split].
  - split; [reflexivity|]. intros _ c Hc. unfold along. cbn [fst snd sp_p p_in p_out sp_spo po_wm] in *. rewrite (rsum_S 1), rsum_1. unfold zmat. rewrite !entry_mk by lia. unfold f0. cbn [ofZ RNum]. ring.
  - intros _ c Hc. cbn [fst snd sp_p p_in p_out sp_spo po_wm] in *. unfold zmat. rewrite !entry_mk by lia. reflexivity.
  - split; [simpl; lra|]. intros c Hc. cbn [fst snd sp_p p_in p_out sp_apo po_wm] in *. unfold zmat. rewrite !entry_mk by lia. reflexivity.
Qed.
Lemma sp_blank : blank 1 [[1;0]]. Proof. repeat constructor. Qed.
Lemma sp_grad (U : nat -> R) q : snd (pbackprop (K := RNum) MSE [[-1]] 1 [sp_p 0] 1 [[1;2]] U q) = [([[2];[4]], [[2]])].
Proof.
  unfold pbackprop, ptrain, pforward, pact, paffine, paff, pre_grad, fused, pback, sp_p, clipped, bwd_clips, ploss_back, pmse_back, pdW, psum0, pdot, ptrans, mk, entry, fsum. cbn.
  repeat (f_equal; try field).
Qed.
Lemma sp_step b g : (b < 2)%nat -> 0 < g -> entry (K := RNum) [[2];[4]] b 0 = g -> entry (p_w (fst (tstep (K := RNum) (sp_p 0, sp_apo) ([[2];[4]], [[2]])))) b 0 = - (g / (g + 1)).
Proof.
  intros Hb Hg E. unfold tstep, pupdate, pupd1. cbn [fst snd sp_apo po_kind sp_p p_kind p_in p_out p_w p_b reparam].
  rewrite !entry_mk by lia. unfold pmap2. rewrite !entry_mk by lia. cbn [sp_apo po_bm po_bc po_wm po_wc]. unfold zmat. rewrite !entry_mk by lia.
  rewrite !E. assert (E0 : entry (K := RNum) [[0];[0]] b 0 = 0) by (destruct b as [|[|]]; [reflexivity|reflexivity|lia]). rewrite E0.
  unfold adam_p1, adam_m1, adam_c1, adam_corr, next_rate. cbn [po_b1 po_b2 po_iter po_usedecay po_rate po_eps sp_apo].
  unfold f0, f1. cbn [fadd fsub fmul fdiv fneg fsqrt fpow ofZ RNum].
  replace (0 + 1)%Z with 1%Z by reflexivity. rewrite !r_pow_Z. unfold powerRZ. change (Pos.to_nat 1) with 1%nat. change (Pos.to_nat 2) with 2%nat. cbn [pow].
  replace ((0 * (1 / 2) + g * (g * 1) * (1 - 1 / 2)) * (1 / (1 - 1 / 2 * 1))) with (g * g) by field.
  rewrite !sqrt_square by lra. change (F RNum) with R in *. field. lra.
Qed.
(** Adam leaves the span: its step does not have the direction of the gradient. *)
Lemma adam_span : exists (s : state RNum) m es xs x rsx y rsy X Y t v, trainable s m es xs 2 1 MSE /\ data_ok s es x rsx y rsy 1 2 1 X Y /\ nth_error (trainer es xs) 0 = Some t /\
  po_kind (snd t) = Adam /\ row_rest 0 t /\ row_rest 1 t /\ unseen 2 v X /\
  returns (Fit m x y 1 0 matrix0 matrix0 0) s (fun _ s' => exists es' xs' t', trainable s' m es' xs' 2 1 MSE /\ Forall2 same_place es es' /\ nth_error (trainer es' xs') 0 = Some t' /\
    along 2 v (p_w (fst t')) 0 <> along 2 v (p_w (fst t)) 0).
Proof.
  exists (sp_state 0 sp_adam), sp_m, (sp_es 0), (sp_xs sp_apo), sp_x, [5]%nat, sp_y, [6]%nat, [[1;2]], [[-1]], (sp_p 0, sp_apo), sp_v.
  split; [apply sp_trainable, sp_adam_ok|]. split; [apply sp_data|]. split; [reflexivity|]. split; [reflexivity|].
  split. { split; [simpl; lra|]. intros c Hc. cbn [fst snd sp_p p_in p_out sp_apo po_wm] in *. unfold zmat. rewrite !entry_mk by lia. reflexivity. }
  split; [apply sp_steady|]. split; [apply sp_unseen|].
  destruct (fit_trains (K := RNum) (sp_state 0 sp_adam) sp_m (sp_es 0) (sp_xs sp_apo) 2 1 MSE sp_x [5]%nat sp_y [6]%nat 1 [[1;2]] [[-1]] 1 0 matrix0 matrix0 RNum_min_faithful) as ([] & s' & E & nn & _ & (es' & xs' & A1 & A2 & _ & A3 & _) & _);
    try lia; [apply sp_trainable, sp_adam_ok|apply sp_data|].
  exists tt, s'. split; [exact E|]. exists es', xs', (tstep (K := RNum) (sp_p 0, sp_apo) ([[2];[4]], [[2]])). split; [exact A1|]. split; [exact A2|]. split.
  - rewrite A3. change (epochs_of (K := RNum) (Z.to_nat 1) (batch_rows 1 0) [[1;2]] [[-1]]) with [([[1;2]] : rpm, [[-1]] : rpm)]. cbn [ptrain_on fst]. unfold pbatch.
    change (map fst (trainer (sp_es 0) (sp_xs sp_apo))) with [sp_p 0]. change (length [[1;2]]) with 1%nat. setoid_rewrite sp_grad. reflexivity.
  - unfold along. rewrite !(rsum_S 1), !rsum_1. rewrite (sp_step 0 2 ltac:(lia) ltac:(lra) eq_refl), (sp_step 1 4 ltac:(lia) ltac:(lra) eq_refl). unfold sp_v, sp_p, entry. cbn [fst p_w nth]. lra.
Qed.
