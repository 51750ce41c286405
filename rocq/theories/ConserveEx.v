(** * ConserveEx: a network that C89 speaks about, and two that it does not. *)
From Coq Require Import String ZArith List Bool Arith Lia Reals Lra.
From Verif Require Import Num NumR Heap Spec Matrix Loss Network Optimizers ModelGo PureSpec Repr HeapLemmas RSum MiscFacts OptSpec OptFacts ModelSpec FitFacts LossRefute LayerReal NetGradCode ConserveProofs Conserve.
Import ListNotations.
Open Scope R_scope.

(** ** ReLU 1 -> 2, softmax 2 -> 3 with momentum, two samples *)
Definition cv_o : optimizer RNum := MkOpt (K := RNum) SGD (1/10) 0 (9/10) 0 0 0 (1/10) 0 matrix0 matrix0 matrix0 matrix0 false true.
Definition cv_po (k c : nat) : popt RNum := PO (K := RNum) SGD (1/10) 0 (9/10) 0 0 0 (1/10) 0 false true (zmat k c) (zmat 1 c) (zmat k c) (zmat 1 c).
Definition cv_state : state RNum :=
  MkState (K := RNum) [[1;2]; [0;1]; [1;2;3]; [4;5;6]; [1;0;0]; [2]; [3]; [1;0;0]; [0;0;1]]
    [[1]; [2]; [3;4]; [5]; [6;7]; [8;9]]%nat
    [MkLayer (K := RNum) Hidden 1 2 (MkMatrix 1 2 (MkSlice 1 0 1)) (MkMatrix 1 2 (MkSlice 2 0 1)) 0 0 matrix0 matrix0;
     MkLayer (K := RNum) SoftmaxK 2 3 (MkMatrix 2 3 (MkSlice 3 0 2)) (MkMatrix 1 3 (MkSlice 4 0 1)) 0 0 matrix0 matrix0]
    [cv_o; cv_o] nr_rng true [].
Definition cv_m : model RNum := MkModel (K := RNum) 2 1 3 (losskind_code CE) (Some (MkLoss CE 3)) 0 0 1 [] [0;1]%nat [0;1]%nat.
Definition cv_es : list (lent RNum) :=
  [LE (K := RNum) 0 [1]%nat [2]%nat (PL (K := RNum) Hidden 1 2 [[1;2]] [[0;1]] 0 0);
   LE (K := RNum) 1 [3;4]%nat [5]%nat (PL (K := RNum) SoftmaxK 2 3 [[1;2;3];[4;5;6]] [[1;0;0]] 0 0)].
Definition cv_xs : list (oent RNum) := [OE (K := RNum) 0 [] (cv_po 1 2); OE (K := RNum) 1 [] (cv_po 2 3)].
Definition cv_x : matrix := MkMatrix 2 1 (MkSlice 5 0 2).
Definition cv_y : matrix := MkMatrix 2 3 (MkSlice 6 0 2).
Definition cv_Y : pm RNum := [[1;0;0];[0;0;1]].
Definition cv_t : player RNum * popt RNum := (PL (K := RNum) SoftmaxK 2 3 [[1;2;3];[4;5;6]] [[1;0;0]] 0 0, cv_po 2 3).
Lemma cv_trainable : trainable cv_state cv_m cv_es cv_xs 1 3 CE.
Proof.
  unfold trainable. split; [|split; [|split; [|split; [|split; [|split; [|split; [|split; [|split]]]]]]]].
  - unfold consistent. do 4 (split; [reflexivity|]). split; [simpl; auto|].
    repeat constructor; eexists; (split; [reflexivity|]); unfold lown; simpl; repeat (split; [first [reflexivity|lia]|]); split; own_tac'.
  - split; nd.
  - simpl; lia.
  - reflexivity.
  - nd.
  - repeat constructor; eexists; (split; [reflexivity|]); unfold oown, oscal; simpl; auto 20.
  - dj.
  - reflexivity.
  - reflexivity.
  - repeat constructor; discriminate.
Qed.
Lemma cv_data : data_ok cv_state cv_es cv_x [6;7]%nat cv_y [8;9]%nat 2 1 3 [[2];[3]] cv_Y.
Proof. split; [own_tac'|]. split; [own_tac'|]. split; dj. Qed.
Lemma lt3 b : (b < 3)%nat -> b = O \/ b = 1%nat \/ b = 2%nat.
Proof. lia. Qed.
Lemma cv_labels : List.Forall (one_label 3) cv_Y.
Proof.
  apply List.Forall_cons; [|apply List.Forall_cons; [|apply List.Forall_nil]].
  - exists O. split; [lia|]. split; [reflexivity|]. intros b Hb Hn. destruct (lt3 b Hb) as [-> | [-> | ->]]; simpl; [congruence|lra|lra].
  - exists 2%nat. split; [lia|]. split; [reflexivity|]. intros b Hb Hn. destruct (lt3 b Hb) as [-> | [-> | ->]]; simpl; [lra|lra|congruence].
Qed.
Lemma cv_softmax : softmax_at CE cv_Y (trainer cv_es cv_xs) 1 cv_t /\ balanced cv_t.
Proof.
  split.
  - split; [reflexivity|]. split; [reflexivity|]. intros _. split; [discriminate|]. intros _. exact cv_labels.
  - split; [reflexivity|]. intros _. split; [intros i Hi|]; (etransitivity; [|exact (rsum_zero 3)]; apply rsum_ext; intros j Hj; apply entry_mk; auto; simpl; lia).
Qed.

(** ** Softmax 1 -> 3 from zero, one sample *)
Definition cw_state (o : optimizer RNum) (y : list R) : state RNum :=
  MkState (K := RNum) [[0;0;0]; [0;0;0]; [1]; y] [[1]; [2]; [3]; [4]]%nat
    [MkLayer (K := RNum) SoftmaxK 1 3 (MkMatrix 1 3 (MkSlice 1 0 1)) (MkMatrix 1 3 (MkSlice 2 0 1)) 0 0 matrix0 matrix0] [o] nr_rng true [].
Definition cw_m : model RNum := MkModel (K := RNum) 1 1 3 (losskind_code CE) (Some (MkLoss CE 3)) 0 0 1 [] [0]%nat [0]%nat.
Definition cw_p : player RNum := PL (K := RNum) SoftmaxK 1 3 [[0;0;0]] [[0;0;0]] 0 0.
Definition cw_es : list (lent RNum) := [LE (K := RNum) 0 [1]%nat [2]%nat cw_p].
Definition cw_x : matrix := MkMatrix 1 1 (MkSlice 3 0 1).
Definition cw_y : matrix := MkMatrix 1 3 (MkSlice 4 0 1).
Definition cw_adam : optimizer RNum := MkOpt (K := RNum) Adam 1 0 0 1 (1/2) (1/2) 1 0 matrix0 matrix0 matrix0 matrix0 false false.
Definition cw_apo : popt RNum := PO (K := RNum) Adam 1 0 0 1 (1/2) (1/2) 1 0 false false (zmat 1 3) (zmat 1 3) (zmat 1 3) (zmat 1 3).
Definition cw_sgd : optimizer RNum := MkOpt (K := RNum) SGD 1 0 0 0 0 0 1 0 matrix0 matrix0 matrix0 matrix0 false false.
Definition cw_spo : popt RNum := PO (K := RNum) SGD 1 0 0 0 0 0 1 0 false false (zmat 1 3) (zmat 1 3) (zmat 1 3) (zmat 1 3).
Lemma cw_trainable o po y : oown (cw_state o y) o [] 1 3 po -> trainable (cw_state o y) cw_m cw_es [OE (K := RNum) 0 [] po] 1 3 CE.
Proof.
  intros HO. unfold trainable. split; [|split; [|split; [|split; [|split; [|split; [|split; [|split; [|split]]]]]]]].
  - unfold consistent. do 4 (split; [reflexivity|]). split; [simpl; auto|].
    repeat constructor; eexists; (split; [reflexivity|]); unfold lown; simpl; repeat (split; [first [reflexivity|lia]|]); split; own_tac'.
  - split; nd.
  - simpl; lia.
  - reflexivity.
  - nd.
  - constructor; [|constructor]. exists o. split; [reflexivity|exact HO].
  - dj.
  - reflexivity.
  - reflexivity.
  - repeat constructor; discriminate.
Qed.
Lemma cw_data o y : length y = 3%nat -> data_ok (cw_state o y) cw_es cw_x [3]%nat cw_y [4]%nat 1 1 3 [[1]] [y].
Proof.
  intros HL. split; [own_tac'|]. split; [|split; dj].
  unfold own; simpl; repeat (split; [reflexivity|]). split; [split; [reflexivity|constructor; [exact HL|constructor]]|].
  split; [eexists; split; [reflexivity|]; split; [simpl; lia|reflexivity]|repeat constructor].
Qed.
(** The three outputs are equal. *)
Lemma cw_out u j : (j < 3)%nat -> entry (ptrain cw_p 1 [[1]] u) 0 j = 1 / 3.
Proof.
  intros Hj. unfold ptrain, pforward, pact. simpl p_kind. cbv iota. unfold psoftmax. rewrite entry_mk by (simpl; lia).
  assert (E : forall b, (b < 3)%nat -> entry (paffine cw_p 1 [[1]]) 0 b = 0).
  { intros b Hb. unfold paffine, paff. rewrite entry_mk by (simpl; lia). unfold fsum. cbn [p_in cw_p seq fold_left p_w p_b]. unfold entry. cbn [fadd fmul f0 ofZ RNum nth].
    destruct (lt3 b Hb) as [-> | [-> | ->]]; simpl; lra. }
  change (fdiv (fexp (entry (paffine cw_p 1 [[1]]) 0 j)) (rsum 3 (fun k => exp (entry (paffine cw_p 1 [[1]]) 0 k))) = 1 / 3).
  rewrite (rsum_ext 3 _ (fun _ => 1)) by (intros b Hb; rewrite E by exact Hb; apply exp_0). rewrite E by exact Hj. cbn [fdiv fexp RNum]. rewrite exp_0, rsum_const. simpl. lra.
Qed.
Lemma cw_grad y (U : nat -> R) q j : (j < 3)%nat ->
  exists dW dB, snd (pbackprop (K := RNum) CE [y] 3 [cw_p] 1 [[1]] U q) = [(dW, dB)] /\ entry dB 0 j = (if Req_EM_T (nth j y 0) 1 then 1 / 3 - 1 else 1 / 3).
Proof.
  intros Hj. cbn [pbackprop snd]. eexists _, _. split; [reflexivity|]. unfold pre_grad, fused. simpl p_kind. cbv iota. cbn [p_out cw_p].
  unfold psum0. rewrite entry_mk by (lia || exact Hj). etransitivity; [apply rsum_1|]. unfold pce_back. rewrite entry_mk by (lia || exact Hj).
  rewrite cw_out by exact Hj. unfold f1. cbn [feq fsub fdiv ofZ RNum]. unfold r_eqb. change (entry [y] 0 j) with (nth j y (@f0 RNum)). change (@f0 RNum) with 0.
  destruct (Req_EM_T (nth j y 0) 1); simpl; lra.
Qed.
Lemma cw_step o po y : length y = 3%nat -> oown (cw_state o y) o [] 1 3 po -> forall D : R,
  (forall dW dB, (forall j, (j < 3)%nat -> entry dB 0 j = (if Req_EM_T (nth j y 0) 1 then 1 / 3 - 1 else 1 / 3)) ->
     bias_total (fst (tstep (K := RNum) (cw_p, po) (dW, dB))) = D) ->
  returns (Fit cw_m cw_x cw_y 1 0 matrix0 matrix0 0) (cw_state o y) (fun _ s' => exists es' xs' t', trainable s' cw_m es' xs' 1 3 CE /\ Forall2 same_place cw_es es' /\
    nth_error (trainer es' xs') 0 = Some t' /\ bias_total (fst t') = D).
Proof.
  intros HL HO D H.
  destruct (fit_trains (K := RNum) (cw_state o y) cw_m cw_es [OE (K := RNum) 0 [] po] 1 3 CE cw_x [3]%nat cw_y [4]%nat 1 [[1]] [y] 1 0 matrix0 matrix0 RNum_min_faithful) as ([] & s' & E & nn & _ & (es' & xs' & A1 & A2 & _ & A3 & _) & _);
    try lia; [apply cw_trainable; exact HO|apply cw_data; exact HL|].
  exists tt, s'. split; [exact E|]. exists es', xs'. rewrite A3.
  change (epochs_of (Z.to_nat 1) (batch_rows 1 0) [[1]] [y]) with [([[1]], [y])]. cbn [ptrain_on fst]. unfold pbatch.
  change (map fst (trainer cw_es [OE (K := RNum) 0 [] po])) with [cw_p].
  destruct (cw_grad y (r_uni (h_rng (cw_state o y))) (r_upos (h_rng (cw_state o y))) 0) as (dW & dB & EG & _); [lia|].
  change (length [[1]]) with 1%nat. setoid_rewrite EG. eexists. split; [exact A1|]. split; [exact A2|]. split; [reflexivity|]. simpl fst at 1. simpl snd.
  apply H. intros j Hj. destruct (cw_grad y (r_uni (h_rng (cw_state o y))) (r_upos (h_rng (cw_state o y))) j Hj) as (dW' & dB' & EG' & E').
  rewrite EG in EG'. injection EG' as -> ->. exact E'.
Qed.
Lemma adam_total : exists (s : state RNum) m es xs x rsx y rsy n X Y t, trainable s m es xs 1 3 CE /\ data_ok s es x rsx y rsy n 1 3 X Y /\ (1 <= n)%nat /\
  nth_error (trainer es xs) 0 = Some t /\ p_kind (fst t) = SoftmaxK /\ po_kind (snd t) = Adam /\ length es = 1%nat /\ List.Forall (one_label 3) Y /\
  returns (Fit m x y 1 0 matrix0 matrix0 0) s (fun _ s' => exists es' xs' t', trainable s' m es' xs' 1 3 CE /\ Forall2 same_place es es' /\
    nth_error (trainer es' xs') 0 = Some t' /\ bias_total (fst t') <> bias_total (fst t)).
Proof.
  assert (HO : oown (cw_state cw_adam [1;0;0]) cw_adam [] 1 3 cw_apo) by (unfold oown, oscal; simpl; auto 20).
  exists (cw_state cw_adam [1;0;0]), cw_m, cw_es, [OE (K := RNum) 0 [] cw_apo], cw_x, [3]%nat, cw_y, [4]%nat, 1%nat, [[1]], [[1;0;0]], (cw_p, cw_apo).
  split; [apply cw_trainable; exact HO|]. split; [apply cw_data; reflexivity|]. split; [lia|]. do 4 (split; [reflexivity|]).
  split; [apply List.Forall_cons; [pose proof cv_labels as HC; inversion HC; assumption|apply List.Forall_nil]|].
  assert (B0 : bias_total (fst (cw_p, cw_apo)) = 0).
  { unfold bias_total, cw_p. cbn [fst p_out p_b]. rewrite !rsum_S, rsum_0. unfold entry. simpl. lra. }
  destruct (cw_step cw_adam cw_apo [1;0;0] eq_refl HO (-1/10)) as ([] & s' & E & es' & xs' & t' & C1 & C2 & C3 & C4).
  - intros dW dB HB. pose proof (HB 0%nat ltac:(lia)) as H0. pose proof (HB 1%nat ltac:(lia)) as H1. pose proof (HB 2%nat ltac:(lia)) as H2. cbn [nth] in H0, H1, H2.
    destruct (Req_EM_T 1 1); [|lra]. destruct (Req_EM_T 0 1); [lra|].
    unfold bias_total, tstep, pupdate, pupd1. cbn [fst snd cw_apo po_kind cw_p p_in p_out p_b reparam].
    rewrite !rsum_S, rsum_0. rewrite !entry_mk by lia. unfold pmap2. rewrite !entry_mk by lia. cbn [cw_apo po_bm po_bc]. unfold zmat. rewrite !entry_mk by lia. rewrite H0, H1, H2.
    unfold adam_p1, adam_m1, adam_c1, adam_corr, next_rate, entry. cbn [po_b1 po_b2 po_iter po_usedecay po_rate po_eps cw_apo nth].
    unfold f0, f1. cbn [fadd fsub fmul fdiv fneg fsqrt fpow ofZ RNum].
    replace (0 + 1)%Z with 1%Z by reflexivity. rewrite !r_pow_Z. unfold powerRZ. change (Pos.to_nat 1) with 1%nat. change (Pos.to_nat 2) with 2%nat. cbn [pow].
    replace ((0 * (1 / 2) + (1 / 3 - 1) * ((1 / 3 - 1) * 1) * (1 - 1 / 2)) * (1 / (1 - 1 / 2 * 1))) with ((2 / 3) * (2 / 3)) by field.
    replace ((0 * (1 / 2) + 1 / 3 * (1 / 3 * 1) * (1 - 1 / 2)) * (1 / (1 - 1 / 2 * 1))) with ((1 / 3) * (1 / 3)) by field.
    rewrite !sqrt_square by lra. lra.
  - exists tt, s'. split; [exact E|]. exists es', xs', t'. split; [exact C1|]. split; [exact C2|]. split; [exact C3|]. rewrite B0, C4. lra.
Qed.
Lemma soft_total : exists (s : state RNum) m es xs x rsx y rsy n X Y t, trainable s m es xs 1 3 CE /\ data_ok s es x rsx y rsy n 1 3 X Y /\ (1 <= n)%nat /\
  nth_error (trainer es xs) 0 = Some t /\ p_kind (fst t) = SoftmaxK /\ balanced t /\ length es = 1%nat /\
  List.Forall (fun row : list R => rsum 3 (fun j => nth j row 0) = 1 /\ List.Forall (fun v => 0 <= v) row) Y /\
  returns (Fit m x y 1 0 matrix0 matrix0 0) s (fun _ s' => exists es' xs' t', trainable s' m es' xs' 1 3 CE /\ Forall2 same_place es es' /\
    nth_error (trainer es' xs') 0 = Some t' /\ bias_total (fst t') <> bias_total (fst t)).
Proof.
  assert (HO : oown (cw_state cw_sgd [1/2;1/2;0]) cw_sgd [] 1 3 cw_spo) by (unfold oown, oscal; simpl; auto 20).
  exists (cw_state cw_sgd [1/2;1/2;0]), cw_m, cw_es, [OE (K := RNum) 0 [] cw_spo], cw_x, [3]%nat, cw_y, [4]%nat, 1%nat, [[1]], [[1/2;1/2;0]], (cw_p, cw_spo).
  split; [apply cw_trainable; exact HO|]. split; [apply cw_data; reflexivity|]. split; [lia|]. split; [reflexivity|]. split; [reflexivity|].
  split; [split; [reflexivity|discriminate]|]. split; [reflexivity|].
  split. { apply List.Forall_cons; [|apply List.Forall_nil]. split; [rewrite !rsum_S, rsum_0; simpl; lra|]. repeat (apply List.Forall_cons; [lra|]). apply List.Forall_nil. }
  assert (B0 : bias_total (fst (cw_p, cw_spo)) = 0).
  { unfold bias_total, cw_p. cbn [fst p_out p_b]. rewrite !rsum_S, rsum_0. unfold entry. simpl. lra. }
  destruct (cw_step cw_sgd cw_spo [1/2;1/2;0] eq_refl HO (-1)) as ([] & s' & E & es' & xs' & t' & C1 & C2 & C3 & C4).
  - intros dW dB HB. pose proof (HB 0%nat ltac:(lia)) as H0. pose proof (HB 1%nat ltac:(lia)) as H1. pose proof (HB 2%nat ltac:(lia)) as H2. cbn [nth] in H0, H1, H2.
    destruct (Req_EM_T (1/2) 1); [lra|]. destruct (Req_EM_T 0 1); [lra|].
    unfold bias_total, tstep, pupdate, pupd1. cbn [fst snd cw_spo po_kind po_usemom cw_p p_in p_out p_b reparam].
    rewrite !rsum_S, rsum_0. unfold pmap2. rewrite !entry_mk by lia. rewrite H0, H1, H2. unfold sgd1, next_rate, entry. cbn [po_usedecay po_rate cw_spo nth fsub fmul RNum]. lra.
  - exists tt, s'. split; [exact E|]. exists es', xs', t'. split; [exact C1|]. split; [exact C2|]. split; [exact C3|]. rewrite B0, C4. lra.
Qed.
