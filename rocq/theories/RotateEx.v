(** * RotateEx: a network and its rotated copy; Adam tells them apart. *)
From Coq Require Import String ZArith List Bool Arith Lia Reals Lra.
From Verif Require Import Num NumR Heap Spec Matrix Loss Network Optimizers ModelGo PureSpec Repr HeapLemmas RSum MiscFacts OptSpec OptFacts ModelSpec FitFacts LossRefute FitProofs LossProofs ModelProofs LayerReal NetGradCode MatrixFacts Params RotateSpec Span SpanEx Rotate.
Import ListNotations.
Open Scope R_scope.

(** The rotation by the angle of the 3-4-5 triangle, and an embedding of one feature as two. *)
Definition rt_Q (a l : nat) : R := match a, l with 0%nat, 0%nat => 3/5 | 0%nat, 1%nat => 4/5 | 1%nat, 0%nat => -(4/5) | 1%nat, 1%nat => 3/5 | _, _ => 0 end.
Lemma rt_iso : isometry 2 2 rt_Q /\ isometry 1 2 rt_Q.
Proof.
  split; intros a b Ha Hb; rewrite (rsum_S 1), rsum_1.
  - destruct a as [|[|]]; [| |lia]; (destruct b as [|[|]]; [| |lia]); cbn [rt_Q Nat.eqb]; field.
  - destruct a as [|]; [|lia]; (destruct b as [|]; [|lia]); cbn [rt_Q Nat.eqb]; field.
Qed.
(** ReLU 2 -> 2 with the weights [w0], [w1], linear 2 -> 1, two samples; SGD with rate 1/10 and momentum 1/2. *)
Definition rt_o : optimizer RNum := sp_sgd.
Definition rt_po (i c : nat) : popt RNum := PO (K := RNum) SGD (1/10) 0 (1/2) 0 0 0 (1/10) 0 false true (zmat i c) (zmat 1 c) (zmat i c) (zmat 1 c).
Definition rt_state (w0 w1 x0 x1 : list R) : state RNum :=
  MkState (K := RNum) [w0; w1; [1;-1]; [1]; [-1]; [1/2]; x0; x1; [1]; [0]] [[1;2]; [3]; [4;5]; [6]; [7;8]; [9;10]]%nat
    [MkLayer (K := RNum) Hidden 2 2 (MkMatrix 2 2 (MkSlice 1 0 2)) (MkMatrix 1 2 (MkSlice 2 0 1)) 0 0 matrix0 matrix0;
     MkLayer (K := RNum) Linear 2 1 (MkMatrix 2 1 (MkSlice 3 0 2)) (MkMatrix 1 1 (MkSlice 4 0 1)) 0 0 matrix0 matrix0] [rt_o; rt_o] nr_rng true [].
Definition rt_m : model RNum := MkModel (K := RNum) 2 2 1 0 (Some (MkLoss MSE 1)) 0 0 0 [] [0;1]%nat [0;1]%nat.
Definition rt_es (w0 w1 : list R) : list (lent RNum) :=
  [LE (K := RNum) 0 [1;2]%nat [3]%nat (PL (K := RNum) Hidden 2 2 [w0;w1] [[1;-1]] 0 0); LE (K := RNum) 1 [4;5]%nat [6]%nat (PL (K := RNum) Linear 2 1 [[1];[-1]] [[1/2]] 0 0)].
Definition rt_xs : list (oent RNum) := [OE (K := RNum) 0 [] (rt_po 2 2); OE (K := RNum) 1 [] (rt_po 2 1)].
Definition rt_x : matrix := MkMatrix 2 2 (MkSlice 5 0 2).
Definition rt_y : matrix := MkMatrix 2 1 (MkSlice 6 0 2).
Lemma rt_trainable a b c d x0 x1 : trainable (rt_state [a;b] [c;d] x0 x1) rt_m (rt_es [a;b] [c;d]) rt_xs 2 1 MSE.
Proof.
  unfold trainable. split; [|split; [|split; [|split; [|split; [|split; [|split; [|split; [|split]]]]]]]].
  - unfold consistent. do 4 (split; [reflexivity|]). split; [simpl; auto|].
    repeat constructor; eexists; (split; [reflexivity|]); unfold lown; simpl; repeat (split; [first [reflexivity|lia]|]); split; own_tac'.
  - split; nd.
  - simpl; lia.
  - reflexivity.
  - nd.
  - repeat constructor; eexists; (split; [reflexivity|]); unfold oown, oscal; simpl; auto 20.
  - dj.
  - reflexivity.
  - reflexivity.
  - repeat constructor; discriminate.
Qed.
Lemma rt_data w0 w1 a b c d : data_ok (rt_state w0 w1 [a;b] [c;d]) (rt_es w0 w1) rt_x [7;8]%nat rt_y [9;10]%nat 2 2 1 [[a;b];[c;d]] [[1];[0]].
Proof. split; [own_tac'|]. split; [own_tac'|]. split; dj. Qed.
Lemma rt_X : recoded 2 2 rt_Q [[5;0];[5;10]] = [[3;4];[-5;10]].
Proof. unfold recoded. cbn [map seq]. rewrite !(rsum_S 1), !rsum_1. cbn [nth rt_Q]. repeat (f_equal; try field). Qed.
Lemma rt_W a b c d : recoded_w 2 2 2 rt_Q [[a;b];[c;d]] = [[3/5*a-4/5*c; 3/5*b-4/5*d];[4/5*a+3/5*c; 4/5*b+3/5*d]].
Proof. unfold recoded_w, mk. cbn [map seq]. rewrite !(rsum_S 1), !rsum_1. unfold entry. cbn [nth rt_Q]. repeat (f_equal; try field). Qed.
Lemma zmat_recoded i j c Q : recoded_w i j c Q (zmat (K := RNum) i c) = zmat (K := RNum) j c.
Proof. unfold recoded_w, zmat at 2. apply mk_ext. intros l u Hl Hu. rewrite (rsum_ext i _ (fun _ => 0)); [apply rsum_zero|]. intros a Ha. unfold zmat. rewrite entry_mk by auto. apply Rmult_0_r. Qed.
Lemma rt_net : trainer (rt_es [3;-4] [4;3]) rt_xs = recoded_trainer 2 rt_Q (trainer (rt_es [5;0] [0;5]) rt_xs).
Proof.
  unfold trainer, rt_es, rt_xs, net. cbn [map combine e_p x_po recoded_trainer]. unfold recoded_layer, recoded_opt, rt_po. cbn [p_kind p_in p_out p_w p_b p_slope p_drop po_kind po_lr po_decay po_mom po_eps po_b1 po_b2 po_rate po_iter po_usedecay po_usemom po_wm po_bm po_wc po_bc].
  rewrite !zmat_recoded, rt_W. replace (3/5*5-4/5*0) with 3 by field. replace (3/5*0-4/5*5) with (-4) by field. replace (4/5*5+3/5*0) with 4 by field. replace (4/5*0+3/5*5) with 3 by field. reflexivity.
Qed.

(** ** Adam: linear 2 -> 1 with weights 0 on one sample *)
Definition ra_state (x : list R) : state RNum :=
  MkState (K := RNum) [[0]; [0]; [0]; x; [-1]] [[1;2]; [3]; [4]; [5]]%nat
    [MkLayer (K := RNum) Linear 2 1 (MkMatrix 2 1 (MkSlice 1 0 2)) (MkMatrix 1 1 (MkSlice 2 0 1)) 0 0 matrix0 matrix0] [sp_adam] nr_rng true [].
Definition ra_x : matrix := MkMatrix 1 2 (MkSlice 3 0 1).
Definition ra_y : matrix := MkMatrix 1 1 (MkSlice 4 0 1).
Lemma ra_trainable x : trainable (ra_state x) sp_m (sp_es 0) (sp_xs sp_apo) 2 1 MSE.
Proof.
  unfold trainable. split; [|split; [|split; [|split; [|split; [|split; [|split; [|split; [|split]]]]]]]].
  - unfold consistent. do 4 (split; [reflexivity|]). split; [simpl; auto|].
    repeat constructor; eexists; (split; [reflexivity|]); unfold lown; simpl; repeat (split; [first [reflexivity|lia]|]); split; own_tac'.
  - split; nd.
  - simpl; lia.
  - reflexivity.
  - nd.
  - repeat constructor; eexists; (split; [reflexivity|]); unfold oown, oscal; simpl; auto 20.
  - dj.
  - reflexivity.
  - reflexivity.
  - repeat constructor; discriminate.
Qed.
Lemma ra_data a b : data_ok (ra_state [a;b]) (sp_es 0) ra_x [4]%nat ra_y [5]%nat 1 2 1 [[a;b]] [[-1]].
Proof. split; [own_tac'|]. split; [own_tac'|]. split; dj. Qed.
Lemma ra_net : trainer (sp_es 0) (sp_xs sp_apo) = recoded_trainer 2 rt_Q (trainer (sp_es 0) (sp_xs sp_apo)).
Proof.
  unfold trainer, sp_es, sp_xs, net. cbn [map combine e_p x_po recoded_trainer]. unfold recoded_layer, recoded_opt, sp_p, sp_apo. cbn [p_kind p_in p_out p_w p_b p_slope p_drop po_kind po_lr po_decay po_mom po_eps po_b1 po_b2 po_rate po_iter po_usedecay po_usemom po_wm po_bm po_wc po_bc].
  rewrite !zmat_recoded. replace (recoded_w 2 2 1 rt_Q [[0];[0]]) with ([[0];[0]] : rpm); [reflexivity|]. exact (eq_sym (zmat_recoded 2 2 1 rt_Q)).
Qed.
Lemma ra_grad a b (U : nat -> R) q : snd (pbackprop (K := RNum) MSE [[-1]] 1 [sp_p 0] 1 [[a;b]] U q) = [([[2*a];[2*b]], [[2]])].
Proof.
  unfold pbackprop, ptrain, pforward, pact, paffine, paff, pre_grad, fused, pback, sp_p, clipped, bwd_clips, ploss_back, pmse_back, pdW, psum0, pdot, ptrans, mk, entry, fsum. cbn.
  repeat (f_equal; try field).
Qed.
Lemma ra_step (D : rpm) b g : (b < 2)%nat -> entry D b 0 = g -> entry (p_w (fst (tstep (K := RNum) (sp_p 0, sp_apo) (D, [[2]])))) b 0 = - (g / (Rabs g + 1)).
Proof.
  intros Hb E. unfold tstep, pupdate, pupd1. cbn [fst snd sp_apo po_kind sp_p p_kind p_in p_out p_w p_b reparam].
  rewrite !entry_mk by lia. unfold pmap2. rewrite !entry_mk by lia. cbn [sp_apo po_bm po_bc po_wm po_wc]. unfold zmat. rewrite !entry_mk by lia.
  rewrite !E. assert (E0 : entry (K := RNum) [[0];[0]] b 0 = 0) by (destruct b as [|[|]]; [reflexivity|reflexivity|lia]). rewrite E0.
  unfold adam_p1, adam_m1, adam_c1, adam_corr, next_rate. cbn [po_b1 po_b2 po_iter po_usedecay po_rate po_eps sp_apo].
  unfold f0, f1. cbn [fadd fsub fmul fdiv fneg fsqrt fpow ofZ RNum].
  replace (0 + 1)%Z with 1%Z by reflexivity. rewrite !r_pow_Z. unfold powerRZ. change (Pos.to_nat 1) with 1%nat. change (Pos.to_nat 2) with 2%nat. cbn [pow].
  replace ((0 * (1 / 2) + g * (g * 1) * (1 - 1 / 2)) * (1 / (1 - 1 / 2 * 1))) with (Rsqr g) by (unfold Rsqr; field).
  rewrite !sqrt_Rsqr_abs. change (F RNum) with R in *. field. pose proof (Rabs_pos g). lra.
Qed.
Lemma ra_out (D : rpm) g0 g1 a b : entry D 0 0 = g0 -> entry D 1 0 = g1 ->
  entry (pnet (K := RNum) [fst (tstep (K := RNum) (sp_p 0, sp_apo) (D, [[2]]))] 1 [[a;b]]) 0 0 =
  - (a * (g0 / (Rabs g0 + 1)) + b * (g1 / (Rabs g1 + 1))) + entry (p_b (fst (tstep (K := RNum) (sp_p 0, sp_apo) ([[0];[0]], [[2]])))) 0 0.
Proof.
  intros E0 E1. pose proof (ra_step D 0 g0 ltac:(lia) E0) as S0. pose proof (ra_step D 1 g1 ltac:(lia) E1) as S1.
  change (p_b (fst (tstep (K := RNum) (sp_p 0, sp_apo) ([[0];[0]], [[2]])))) with (p_b (fst (tstep (K := RNum) (sp_p 0, sp_apo) (D, [[2]])))).
  unfold pnet. cbn [fold_left]. unfold pforward. change (pact (fst (tstep (K := RNum) (sp_p 0, sp_apo) (D, [[2]]))) 1) with (fun Z : rpm => Z). cbv beta.
  unfold paffine. change (p_in (fst (tstep (K := RNum) (sp_p 0, sp_apo) (D, [[2]])))) with 2%nat. change (p_out (fst (tstep (K := RNum) (sp_p 0, sp_apo) (D, [[2]])))) with 1%nat.
  unfold paff. rewrite entry_mk by lia. change (fsum (K := RNum) 2) with (rsum 2). rewrite (rsum_S 1), rsum_1, S0, S1.
  change (entry (K := RNum) [[a;b]] 0 0) with a. change (entry (K := RNum) [[a;b]] 0 1) with b. cbn [fadd fmul RNum]. change (F RNum) with R in *. ring.
Qed.
Lemma ra_fit a b : returns (Fit sp_m ra_x ra_y 1 0 matrix0 matrix0 0) (ra_state [a;b]) (fun _ s' => exists es' xs', trainable s' sp_m es' xs' 2 1 MSE /\ Forall2 same_place (sp_es 0) es' /\
  net es' = [fst (tstep (K := RNum) (sp_p 0, sp_apo) ([[2*a];[2*b]], [[2]]))]).
Proof.
  destruct (fit_trains (K := RNum) (ra_state [a;b]) sp_m (sp_es 0) (sp_xs sp_apo) 2 1 MSE ra_x [4]%nat ra_y [5]%nat 1 [[a;b]] [[-1]] 1 0 matrix0 matrix0 RNum_min_faithful) as ([] & s' & E & nn & _ & (es' & xs' & A1 & A2 & _ & A3 & _) & _);
    try lia; [apply ra_trainable|apply ra_data|].
  exists tt, s'. split; [exact E|]. exists es', xs'. split; [exact A1|]. split; [exact A2|]. rewrite <- (trainer_net' es' xs' A1), A3.
  change (epochs_of (K := RNum) (Z.to_nat 1) (batch_rows 1 0) [[a;b]] [[-1]]) with [([[a;b]] : rpm, [[-1]] : rpm)]. cbn [ptrain_on fst]. unfold pbatch.
  change (map fst (trainer (sp_es 0) (sp_xs sp_apo))) with [sp_p 0]. change (length [[a;b]]) with 1%nat. setoid_rewrite ra_grad. reflexivity.
Qed.
Lemma adam_rotated : exists (s1 s2 : state RNum) m es xs Q x rsx y rsy X Y, isometry 2 2 Q /\ trainable s1 m es xs 2 1 MSE /\ trainable s2 m es xs 2 1 MSE /\
  data_ok s1 es x rsx y rsy 1 2 1 X Y /\ data_ok s2 es x rsx y rsy 1 2 1 (recoded 2 2 Q X) Y /\ trainer es xs = recoded_trainer 2 Q (trainer es xs) /\
  List.Forall (fun t => po_kind (snd t) = Adam) (trainer es xs) /\ h_rng s2 = h_rng s1 /\
  returns (Fit m x y 1 0 matrix0 matrix0 0) s1 (fun _ s1' => returns (Fit m x y 1 0 matrix0 matrix0 0) s2 (fun _ s2' => exists es1' xs1' es2' xs2',
    trainable s1' m es1' xs1' 2 1 MSE /\ Forall2 same_place es es1' /\ trainable s2' m es2' xs2' 2 1 MSE /\ Forall2 same_place es es2' /\
    pnet (net es2') 1 (recoded 2 2 Q [[1;0]]) <> pnet (net es1') 1 [[1;0]])).
Proof.
  assert (EX : recoded 2 2 rt_Q [[1;2]] = [[-1;2]]) by (unfold recoded; cbn [map seq]; rewrite !(rsum_S 1), !rsum_1; cbn [nth rt_Q]; repeat (f_equal; try field)).
  exists (ra_state [1;2]), (ra_state [-1;2]), sp_m, (sp_es 0), (sp_xs sp_apo), rt_Q, ra_x, [4]%nat, ra_y, [5]%nat, [[1;2]], [[-1]].
  split; [exact (proj1 rt_iso)|]. split; [apply ra_trainable|]. split; [apply ra_trainable|]. split; [apply ra_data|]. split; [rewrite EX; apply ra_data|]. split; [exact ra_net|].
  split; [repeat constructor|]. split; [reflexivity|].
  destruct (ra_fit 1 2) as (u1 & s1' & E1 & es1' & xs1' & T1 & P1 & N1). destruct (ra_fit (-1) 2) as (u2 & s2' & E2 & es2' & xs2' & T2 & P2 & N2).
  exists u1, s1'. split; [exact E1|]. exists u2, s2'. split; [exact E2|]. exists es1', xs1', es2', xs2'. do 4 (split; [assumption|]).
  assert (EZ : recoded 2 2 rt_Q [[1;0]] = [[3/5;4/5]]) by (unfold recoded; cbn [map seq]; rewrite !(rsum_S 1), !rsum_1; cbn [nth rt_Q]; repeat (f_equal; try field)).
  rewrite EZ, N1, N2. intros E. apply (f_equal (fun M => entry (K := RNum) M 0 0)) in E.
  pose proof (eq_trans (eq_sym (ra_out [[2 * -1];[2 * 2]] (2 * -1) (2 * 2) (3/5) (4/5) eq_refl eq_refl)) (eq_trans E (ra_out [[2 * 1];[2 * 2]] (2 * 1) (2 * 2) 1 0 eq_refl eq_refl))) as E'. clear E.
  rewrite (Rabs_left (2 * -1)), !Rabs_right in E' by lra.
  replace (2 * -1 / (- (2 * -1) + 1)) with (- (2/3)) in E' by field. replace (2 * 2 / (2 * 2 + 1)) with (4/5) in E' by field. replace (2 * 1 / (2 * 1 + 1)) with (2/3) in E' by field.
  apply Rplus_eq_reg_r in E'. lra.
Qed.
Lemma rt_all : (isometry 2 2 rt_Q /\ isometry 1 2 rt_Q) /\ first_sgd (trainer (rt_es [5;0] [0;5]) rt_xs) /\
  trainable (rt_state [5;0] [0;5] [5;0] [5;10]) rt_m (rt_es [5;0] [0;5]) rt_xs 2 1 MSE /\ data_ok (rt_state [5;0] [0;5] [5;0] [5;10]) (rt_es [5;0] [0;5]) rt_x [7;8]%nat rt_y [9;10]%nat 2 2 1 [[5;0];[5;10]] [[1];[0]] /\
  trainable (rt_state [3;-4] [4;3] [3;4] [-5;10]) rt_m (rt_es [3;-4] [4;3]) rt_xs 2 1 MSE /\
  data_ok (rt_state [3;-4] [4;3] [3;4] [-5;10]) (rt_es [3;-4] [4;3]) rt_x [7;8]%nat rt_y [9;10]%nat 2 2 1 (recoded 2 2 rt_Q [[5;0];[5;10]]) [[1];[0]] /\
  trainer (rt_es [3;-4] [4;3]) rt_xs = recoded_trainer 2 rt_Q (trainer (rt_es [5;0] [0;5]) rt_xs) /\ po_usemom (rt_po 2 2) = true.
Proof. rewrite rt_X. exact (conj rt_iso (conj eq_refl (conj (rt_trainable _ _ _ _ _ _) (conj (rt_data _ _ _ _ _ _) (conj (rt_trainable _ _ _ _ _ _) (conj (rt_data _ _ _ _ _ _) (conj rt_net eq_refl))))))). Qed.
