(** * BalanceEx: small networks with one hidden unit. *)
From Coq Require Import String ZArith List Bool Arith Lia Reals Lra.
From Verif Require Import Num NumR Heap Spec Matrix Loss Network Optimizers ModelGo PureSpec Repr HeapLemmas RSum MiscFacts OptSpec OptFacts ModelSpec FitFacts LossRefute FitProofs LossProofs ModelProofs LayerReal NetGradCode MatrixFacts ModelRefute BalanceSpec BalanceProofs RescaleSpec Rescale.
Import ListNotations.
Open Scope R_scope.

(** ReLU 1 -> 1 with weight [a], linear 1 -> 1 with weight [b], one sample: input 1, target 0. *)
Definition bl_state (a b : R) (o : optimizer RNum) : state RNum :=
  MkState (K := RNum) [[a]; [0]; [b]; [0]; [1]; [0]] [[1]; [2]; [3]; [4]; [5]; [6]]%nat
    [MkLayer (K := RNum) Hidden 1 1 (MkMatrix 1 1 (MkSlice 1 0 1)) (MkMatrix 1 1 (MkSlice 2 0 1)) 0 0 matrix0 matrix0;
     MkLayer (K := RNum) Linear 1 1 (MkMatrix 1 1 (MkSlice 3 0 1)) (MkMatrix 1 1 (MkSlice 4 0 1)) 0 0 matrix0 matrix0] [o; o] nr_rng true [].
Definition bl_m : model RNum := MkModel (K := RNum) 2 1 1 0 (Some (MkLoss MSE 1)) 0 0 0 [] [0; 1]%nat [0; 1]%nat.
Definition bl_p0 (a : R) : player RNum := PL (K := RNum) Hidden 1 1 [[a]] [[0]] 0 0.
Definition bl_p1 (b : R) : player RNum := PL (K := RNum) Linear 1 1 [[b]] [[0]] 0 0.
Definition bl_es (a b : R) : list (lent RNum) := [LE (K := RNum) 0 [1]%nat [2]%nat (bl_p0 a); LE (K := RNum) 1 [3]%nat [4]%nat (bl_p1 b)].
Definition bl_x : matrix := MkMatrix 1 1 (MkSlice 5 0 1).
Definition bl_y : matrix := MkMatrix 1 1 (MkSlice 6 0 1).
Definition bl_xs (po : popt RNum) : list (oent RNum) := [OE (K := RNum) 0 [] po; OE (K := RNum) 1 [] po].
Definition bl_sgd : optimizer RNum := MkOpt (K := RNum) SGD (1/10) 0 0 0 0 0 (1/10) 0 matrix0 matrix0 matrix0 matrix0 false false.
Definition bl_spo : popt RNum := PO (K := RNum) SGD (1/10) 0 0 0 0 0 (1/10) 0 false false (zmat 1 1) (zmat 1 1) (zmat 1 1) (zmat 1 1).
Definition bl_adam : optimizer RNum := MkOpt (K := RNum) Adam 1 0 0 1 (1/2) (1/2) 1 0 matrix0 matrix0 matrix0 matrix0 false false.
Definition bl_apo : popt RNum := PO (K := RNum) Adam 1 0 0 1 (1/2) (1/2) 1 0 false false (zmat 1 1) (zmat 1 1) (zmat 1 1) (zmat 1 1).
Lemma bl_trainable a b o po : oown (bl_state a b o) o [] 1 1 po -> trainable (bl_state a b o) bl_m (bl_es a b) (bl_xs po) 1 1 MSE.
Proof.
  intros HO. unfold trainable. split; [|split; [|split; [|split; [|split; [|split; [|split; [|split; [|split]]]]]]]].
  - unfold consistent. do 4 (split; [reflexivity|]). split; [simpl; auto|].
    repeat constructor; eexists; (split; [reflexivity|]); unfold lown; simpl; repeat (split; [first [reflexivity|lia]|]); split; own_tac'.
  - split; nd.
  - simpl; lia.
  - reflexivity.
  - nd.
  - constructor; [exists o; split; [reflexivity|exact HO]|]. constructor; [|constructor]. exists o. split; [reflexivity|exact HO].
  - dj.
  - reflexivity.
  - reflexivity.
  - repeat constructor; discriminate.
Qed.
Lemma bl_data a b o : data_ok (bl_state a b o) (bl_es a b) bl_x [5]%nat bl_y [6]%nat 1 1 1 [[1]] [[0]].
Proof. split; [own_tac'|]. split; [own_tac'|]. split; dj. Qed.
Lemma bl_sgd_ok a b : oown (bl_state a b bl_sgd) bl_sgd [] 1 1 bl_spo.
Proof. unfold oown, oscal; simpl; auto 20. Qed.
Lemma bl_adam_ok a b : oown (bl_state a b bl_adam) bl_adam [] 1 1 bl_apo.
Proof. unfold oown, oscal; simpl; auto 20. Qed.
Lemma bl_grads a b (U : nat -> R) q : 0 < a ->
  snd (pbackprop (K := RNum) MSE [[0]] 1 [bl_p0 a; bl_p1 b] 1 [[1]] U q) = [([[2 * a * b * b]], [[2 * a * b * b]]); ([[2 * a * b * a]], [[2 * a * b]])].
Proof.
  intros Ha.
  assert (E0 : forall u, ptrain (K := RNum) (bl_p0 a) 1 [[1]] u = [[a]]).
  { intros u. unfold ptrain, pforward, pact, bl_p0, pmap, paffine, paff, mk, act1, relu1, entry, fsum. cbn. rewrite Rmax_left by lra. do 2 f_equal. ring. }
  assert (E1 : forall u, ptrain (K := RNum) (bl_p1 b) 1 [[a]] u = [[a * b]]).
  { intros u. unfold ptrain, pforward, pact, bl_p1, paffine, paff, mk, entry, fsum. cbn. do 2 f_equal. ring. }
  cbn [pbackprop]. rewrite E0, E1. cbn [pbackprop].
  assert (ED : ploss_back MSE 1 1 ([[a * b]] : rpm) ([[0]] : rpm) = [[2 * a * b]]).
  { unfold ploss_back, pmse_back, mk, entry. cbn. do 2 f_equal. field. }
  rewrite ED. unfold pre_grad, fused, bl_p0, bl_p1, pback. cbn [p_kind p_out p_in p_w p_b snd clipped bwd_clips].
  unfold pdX, pdW, psum0, pdot, ptrans, pmap2, mk, entry, fsum, relu_prime1. cbn. unfold r_leb. destruct (Rle_dec a 0); [lra|].
  repeat (f_equal; try ring).
Qed.
Lemma bl_epochs : epochs_of (K := RNum) (Z.to_nat 1) (batch_rows 1 0) [[1]] [[0]] = [([[1]], [[0]])].
Proof. reflexivity. Qed.
Lemma bl_fit a b o po : 0 < a -> oown (bl_state a b o) o [] 1 1 po ->
  returns (Fit bl_m bl_x bl_y 1 0 matrix0 matrix0 0) (bl_state a b o) (fun _ s' => exists es' xs', trainable s' bl_m es' xs' 1 1 MSE /\ Forall2 same_place (bl_es a b) es' /\
    trainer es' xs' = [tstep (K := RNum) (bl_p0 a, po) ([[2 * a * b * b]], [[2 * a * b * b]]); tstep (K := RNum) (bl_p1 b, po) ([[2 * a * b * a]], [[2 * a * b]])] /\
    own s' bl_x [5]%nat 1 1 [[1]]).
Proof.
  intros Ha HO.
  destruct (fit_trains (K := RNum) (bl_state a b o) bl_m (bl_es a b) (bl_xs po) 1 1 MSE bl_x [5]%nat bl_y [6]%nat 1 [[1]] [[0]] 1 0 matrix0 matrix0 RNum_min_faithful) as ([] & s' & E & nn & _ & (es' & xs' & A1 & A2 & _ & A3 & _) & OX & _);
    try lia; [apply bl_trainable; exact HO|apply bl_data|].
  exists tt, s'. split; [exact E|]. exists es', xs'. split; [exact A1|]. split; [exact A2|]. split; [|exact OX]. rewrite A3, bl_epochs. cbn [ptrain_on fst]. unfold pbatch.
  change (map fst (trainer (bl_es a b) (bl_xs po))) with [bl_p0 a; bl_p1 b]. change (length [[1]]) with 1%nat. setoid_rewrite bl_grads; [reflexivity|exact Ha].
Qed.
(** Adam does not respect the balance. *)
Lemma adam_balance : exists (s : state RNum) m es xs x rsx y rsy n X Y a b, trainable s m es xs 1 1 MSE /\ data_ok s es x rsx y rsy n 1 1 X Y /\ (1 <= n)%nat /\
  trainer es xs = [a; b] /\ p_kind (fst a) = Hidden /\ p_kind (fst b) = Linear /\ po_kind (snd a) = Adam /\ po_kind (snd b) = Adam /\ p_in (fst b) = p_out (fst a) /\ (0 < p_out (fst a))%nat /\
  returns (Fit m x y 1 0 matrix0 matrix0 0) s (fun _ s' => exists es' xs' a' b', trainable s' m es' xs' 1 1 MSE /\ Forall2 same_place es es' /\ trainer es' xs' = [a'; b'] /\
    ~ balance_law (fst a) (fst b) (fst a') (fst b') 0).
Proof.
  exists (bl_state 1 2 bl_adam), bl_m, (bl_es 1 2), (bl_xs bl_apo), bl_x, [5]%nat, bl_y, [6]%nat, 1%nat, [[1]], [[0]], (bl_p0 1, bl_apo), (bl_p1 2, bl_apo).
  split; [apply bl_trainable, bl_adam_ok|]. split; [apply bl_data|]. split; [lia|]. do 6 (split; [reflexivity|]). split; [simpl; lia|].
  destruct (bl_fit 1 2 bl_adam bl_apo ltac:(lra) (bl_adam_ok 1 2)) as ([] & s' & E & es' & xs' & A1 & A2 & A3 & _).
  exists tt, s'. split; [exact E|]. exists es', xs'. do 2 eexists. split; [exact A1|]. split; [exact A2|]. split; [exact A3|].
  replace (2 * 1 * 2 * 2) with 8 by ring. replace (2 * 1 * 2 * 1) with 4 by ring. replace (2 * 1 * 2) with 4 by ring.
  unfold balance_law, sq_in, sq_out, move_in, move_out, kept, tstep, pupdate, pupd1, sq. cbn [fst snd bl_apo po_kind bl_p0 bl_p1 p_kind p_in p_out p_w p_b reparam].
  rewrite !rsum_1. rewrite !entry_mk by lia. unfold pmap2. rewrite !entry_mk by lia. cbn [bl_apo po_bm po_bc po_wm po_wc]. unfold zmat. rewrite !entry_mk by lia.
  unfold adam_p1, adam_m1, adam_c1, adam_corr, next_rate, entry. cbn [po_b1 po_b2 po_iter po_usedecay po_rate po_eps bl_apo nth].
  unfold f0, f1. cbn [fadd fsub fmul fdiv fneg fsqrt fpow ofZ RNum].
  replace (0 + 1)%Z with 1%Z by reflexivity. rewrite !r_pow_Z. unfold powerRZ. change (Pos.to_nat 1) with 1%nat. change (Pos.to_nat 2) with 2%nat. cbn [pow].
  replace ((0 * (1 / 2) + 8 * (8 * 1) * (1 - 1 / 2)) * (1 / (1 - 1 / 2 * 1))) with (8 * 8) by field.
  replace ((0 * (1 / 2) + 4 * (4 * 1) * (1 - 1 / 2)) * (1 / (1 - 1 / 2 * 1))) with (4 * 4) by field.
  rewrite !sqrt_square by lra. lra.
Qed.
(** Training tells scaled networks apart. *)
Definition bl_ds : list (nat -> R) := [fun _ => 2; one].
Lemma bl_scales : scales (net (bl_es 1 2)) bl_ds /\ net (bl_es 2 1) = scale_net one bl_ds (net (bl_es 1 2)).
Proof.
  split.
  - split; [|reflexivity]. repeat constructor; simpl; intros; try (unfold one; lra); destruct H; discriminate.
  - unfold net, bl_es, scale_net, scale_layer, bl_p0, bl_p1, bl_ds, one, mk, entry. cbn. repeat (f_equal; try field; try ring).
Qed.
Lemma sgd_scaled : exists (s1 s2 : state RNum) m es1 es2 xs x rsx y rsy n X Y ds,
  trainable s1 m es1 xs 1 1 MSE /\ trainable s2 m es2 xs 1 1 MSE /\ data_ok s1 es1 x rsx y rsy n 1 1 X Y /\ data_ok s2 es2 x rsx y rsy n 1 1 X Y /\ (1 <= n)%nat /\
  List.Forall (fun e => po_kind (x_po e) = SGD /\ po_usemom (x_po e) = false) xs /\ scales (net es1) ds /\ net es2 = scale_net one ds (net es1) /\ m_acctype m = 0%Z /\
  exists s1' s2' P1 P2 s1'' s2'' r1 r2 v1 v2, Fit m x y 1 0 matrix0 matrix0 0 s1 = (Ret tt, s1') /\ Fit m x y 1 0 matrix0 matrix0 0 s2 = (Ret tt, s2') /\
    Predict m x s1' = (Ret P1, s1'') /\ Predict m x s2' = (Ret P2, s2'') /\ own s1'' P1 r1 1 1 [[v1]] /\ own s2'' P2 r2 1 1 [[v2]] /\ v1 <> v2.
Proof.
  exists (bl_state 1 2 bl_sgd), (bl_state 2 1 bl_sgd), bl_m, (bl_es 1 2), (bl_es 2 1), (bl_xs bl_spo), bl_x, [5]%nat, bl_y, [6]%nat, 1%nat, [[1]], [[0]], bl_ds.
  split; [apply bl_trainable, bl_sgd_ok|]. split; [apply bl_trainable, bl_sgd_ok|]. split; [apply bl_data|]. split; [apply bl_data|]. split; [lia|].
  split; [repeat constructor|]. split; [apply bl_scales|]. split; [apply bl_scales|]. split; [reflexivity|].
  destruct (bl_fit 1 2 bl_sgd bl_spo ltac:(lra) (bl_sgd_ok 1 2)) as ([] & s1' & E1 & es1' & xs1' & A1 & A2 & A3 & A4).
  destruct (bl_fit 2 1 bl_sgd bl_spo ltac:(lra) (bl_sgd_ok 2 1)) as ([] & s2' & E2 & es2' & xs2' & B1 & B2 & B3 & B4).
  assert (N1 : net es1' = [PL (K := RNum) Hidden 1 1 [[1/5]] [[-4/5]] 0 0; PL (K := RNum) Linear 1 1 [[8/5]] [[-2/5]] 0 0]).
  { rewrite <- (trainer_net es1' xs1'), A3.
    - unfold tstep, pupdate, pupd1, bl_p0, bl_p1, reparam, pmap2, mk, entry, sgd1, next_rate. cbn. repeat (f_equal; try field; try lra).
    - destruct A1 as (_ & _ & _ & _ & _ & HO & _). symmetry. eapply Forall2_length; eauto. }
  assert (N2 : net es2' = [PL (K := RNum) Hidden 1 1 [[8/5]] [[-2/5]] 0 0; PL (K := RNum) Linear 1 1 [[1/5]] [[-2/5]] 0 0]).
  { rewrite <- (trainer_net es2' xs2'), B3.
    - unfold tstep, pupdate, pupd1, bl_p0, bl_p1, reparam, pmap2, mk, entry, sgd1, next_rate. cbn. repeat (f_equal; try field; try lra).
    - destruct B1 as (_ & _ & _ & _ & _ & HO & _). symmetry. eapply Forall2_length; eauto. }
  destruct (ModelRefute.predict_spec s1' bl_m es1' 1 1 bl_x [5]%nat 1 [[1]] 1 (pnet (net es1') 1 [[1]]) (proj1 A1) (proj1 (proj2 (proj2 A1))) eq_refl A4 ltac:(lia)) as (P1 & s1'' & F1 & r1 & O1 & _).
  destruct (ModelRefute.predict_spec s2' bl_m es2' 1 1 bl_x [5]%nat 1 [[1]] 1 (pnet (net es2') 1 [[1]]) (proj1 B1) (proj1 (proj2 (proj2 B1))) eq_refl B4 ltac:(lia)) as (P2 & s2'' & F2 & r2 & O2 & _).
  exists s1', s2', P1, P2, s1'', s2'', r1, r2, (-2/5), (-4/25). do 4 (split; [assumption|]).
  assert (V1 : pnet (net es1') 1 [[1]] = [[-2/5]]).
  { rewrite N1. unfold pnet, pforward, pact, paffine, paff, pmap, mk, entry, fsum, act1, relu1. cbn. rewrite Rmax_right by lra. do 2 f_equal. field. }
  assert (V2 : pnet (net es2') 1 [[1]] = [[-4/25]]).
  { rewrite N2. unfold pnet, pforward, pact, paffine, paff, pmap, mk, entry, fsum, act1, relu1. cbn. rewrite Rmax_left by lra. do 2 f_equal. field. }
  rewrite V1 in O1. rewrite V2 in O2. split; [exact O1|]. split; [exact O2|]. lra.
Qed.
(** The network of [nr_state]: both hidden units lie between SGD layers. *)
Lemma nr_between : between (trainer nr_es (nr_xs 1)) 0 1 (nrP0, nr_po 1 2) (nrP1, nr_po 1 1).
Proof. unfold between, plain_sgd, homogeneous. simpl. auto 20. Qed.
Lemma bl_example : trainable (bl_state 1 2 bl_sgd) bl_m (bl_es 1 2) (bl_xs bl_spo) 1 1 MSE /\ trainable (bl_state 2 1 bl_sgd) bl_m (bl_es 2 1) (bl_xs bl_spo) 1 1 MSE /\
  scales (net (bl_es 1 2)) bl_ds /\ net (bl_es 2 1) = scale_net one bl_ds (net (bl_es 1 2)) /\ net (bl_es 2 1) <> net (bl_es 1 2).
Proof.
  split; [apply bl_trainable, bl_sgd_ok|]. split; [apply bl_trainable, bl_sgd_ok|]. split; [apply bl_scales|]. split; [apply bl_scales|]. intros E. injection E as E _. lra.
Qed.
