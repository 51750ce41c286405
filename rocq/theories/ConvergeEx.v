(** * ConvergeEx: concrete single-layer models for the convergence theorems. *)
From Coq Require Import String ZArith List Bool Arith Lia Reals Lra.
From Coquelicot Require Import Coquelicot.
From Verif Require Import Num NumR Heap Spec Matrix Loss Network Optimizers ModelGo PureSpec Repr HeapLemmas LoopLemmas MatrixFacts MiscFacts RSum LayerFacts LayerReal GradSpec Grad LossProofs LossReal LossCode OptSpec ModelSpec ModelProofs FitProofs FitFacts NetGradSpec NetGrad NetGradCode LossRefute Converge ConvergeFit.
Import ListNotations.
Open Scope R_scope.

Definition cv_state (lr : R) : state RNum :=
  MkState (K := RNum) [[1]; [-1]; [3]; [1;0]; [0;2]; [1]; [5]; [1;0]; [0;1]; [0;0]; [1;0]; [0;1]]
    [[1;2]; [3]; [4;5]; [6;7]; [8;9]; [10]; [11;12]]%nat
    [MkLayer (K := RNum) Linear 2 1 (MkMatrix 2 1 (MkSlice 1 0 2)) (MkMatrix 1 1 (MkSlice 2 0 1)) 0 0 matrix0 matrix0;
     MkLayer (K := RNum) SoftmaxK 2 2 (MkMatrix 2 2 (MkSlice 5 0 2)) (MkMatrix 1 2 (MkSlice 6 0 1)) 0 0 matrix0 matrix0]
    [nr_o lr] nr_rng true [].
Definition cvX : rpm := [[1;0];[0;2]].
Definition cvY1 : rpm := [[1];[5]].
Definition cvY2 : rpm := [[1;0];[0;1]].
Definition cv_x : matrix := MkMatrix 2 2 (MkSlice 3 0 2).
Definition cv_y1 : matrix := MkMatrix 2 1 (MkSlice 4 0 2).
Definition cv_y2 : matrix := MkMatrix 2 2 (MkSlice 7 0 2).
Definition cv_e1 : lent RNum := LE (K := RNum) 0 [1;2]%nat [3]%nat (PL (K := RNum) Linear 2 1 [[1];[-1]] [[3]] 0 0).
Definition cv_e2 : lent RNum := LE (K := RNum) 1 [8;9]%nat [10]%nat (PL (K := RNum) SoftmaxK 2 2 [[1;0];[0;1]] [[0;0]] 0 0).
Definition cv_xo (lr : R) (c : nat) : oent RNum := OE (K := RNum) 0 [] (nr_po lr c).
Definition cv_m1 : model RNum := MkModel (K := RNum) 1 2 1 0 (Some (MkLoss MSE 1)) 0 0 0 [] [0]%nat [0]%nat.
Definition cv_m2 : model RNum := MkModel (K := RNum) 1 2 2 2 (Some (MkLoss CE 2)) 0 0 0 [] [1]%nat [0]%nat.
Lemma cv_trainable1 lr : trainable (cv_state lr) cv_m1 [cv_e1] [cv_xo lr 1] 2 1 MSE.
Proof.
  unfold trainable. split; [|split; [|split; [|split; [|split; [|split; [|split; [|split; [|split]]]]]]]].
  - unfold consistent. do 4 (split; [reflexivity|]). split; [simpl; auto|].
    repeat constructor; eexists; (split; [reflexivity|]); unfold lown; simpl; repeat (split; [first [reflexivity|lia]|]); split; own_tac'.
  - split; nd.
  - simpl; lia.
  - reflexivity.
  - nd.
  - repeat constructor; eexists; (split; [reflexivity|]); unfold oown, oscal; simpl; auto 20.
  - dj.
  - reflexivity.
  - reflexivity.
  - repeat constructor; discriminate.
Qed.
Lemma cv_trainable2 lr : trainable (cv_state lr) cv_m2 [cv_e2] [cv_xo lr 2] 2 2 CE.
Proof.
  unfold trainable. split; [|split; [|split; [|split; [|split; [|split; [|split; [|split; [|split]]]]]]]].
  - unfold consistent. do 4 (split; [reflexivity|]). split; [simpl; auto|].
    repeat constructor; eexists; (split; [reflexivity|]); unfold lown; simpl; repeat (split; [first [reflexivity|lia]|]); split; own_tac'.
  - split; nd.
  - simpl; lia.
  - reflexivity.
  - nd.
  - repeat constructor; eexists; (split; [reflexivity|]); unfold oown, oscal; simpl; auto 20.
  - dj.
  - reflexivity.
  - reflexivity.
  - repeat constructor; discriminate.
Qed.
Lemma cv_data1 lr : data_ok (cv_state lr) [cv_e1] cv_x [4;5]%nat cv_y1 [6;7]%nat 2 2 1 cvX cvY1.
Proof. split; [own_tac'|]. split; [own_tac'|]. split; dj. Qed.
Lemma cv_data2 lr : data_ok (cv_state lr) [cv_e2] cv_x [4;5]%nat cv_y2 [11;12]%nat 2 2 2 cvX cvY2.
Proof. split; [own_tac'|]. split; [own_tac'|]. split; dj. Qed.
Lemma cv_onehot : one_hot 2 2 cvY2.
Proof.
  exists (fun i => i). intros i Hi. split; [exact Hi|]. intros j Hj.
  destruct i as [|[|]]; [| |lia]; (destruct j as [|[|]]; [| |lia]); reflexivity.
Qed.
Lemma cv_norm : sqnorm 2 2 cvX = 5.
Proof. unfold sqnorm. rewrite !rsum_S, !rsum_0. unfold entry, cvX. simpl. ring. Qed.
Lemma cv_rate1 : 1 / 14 * (2 / INR 1) * (sqnorm 2 2 cvX + INR 2) <= 1.
Proof. rewrite cv_norm. simpl. lra. Qed.
Lemma cv_rate2 : 2 / 7 * (1 / INR 2) * (sqnorm 2 2 cvX + INR 2) <= 1.
Proof. rewrite cv_norm. simpl. lra. Qed.
Lemma linear_converges s m e x i o mx rsx y rsy n (X Y : rpm) epochs bs xv yv lr :
  (0 <= bs)%Z -> (bs = 0 \/ Z.of_nat n <= bs)%Z -> (Z.of_nat n + bs <= 2 ^ 52)%Z -> (1 <= n)%nat -> (1 <= epochs)%Z ->
  trainable s m [e] [x] i o MSE -> data_ok s [e] mx rsx y rsy n i o X Y -> p_kind (e_p e) = Linear ->
  plain_sgd lr (x_po x) -> 0 < lr -> lr * (2 / INR o) * (sqnorm n i X + INR n) <= 1 ->
  returns (Fit m mx y epochs bs xv yv 0) s (fun _ s' => exists e' x',
    trainable s' m [e'] [x'] i o MSE /\ same_place e e' /\
    objective MSE n o Y (pnet [e_p e'] n X) <= objective MSE n o Y (pnet [e_p e] n X) /\
    forall W B, objective MSE n o Y (pnet [e_p e'] n X) <= objective MSE n o Y (pnet [with_params (e_p e) W B] n X) +
      (sqdist i o (p_w (e_p e)) W + sqdist 1 o (p_b (e_p e)) B) / (2 * lr * IZR epochs)).
Proof. intros. eapply fit_converges; eauto; [now left|discriminate]. Qed.
Lemma softmax_converges s m e x i o mx rsx y rsy n (X Y : rpm) epochs bs xv yv lr :
  (0 <= bs)%Z -> (bs = 0 \/ Z.of_nat n <= bs)%Z -> (Z.of_nat n + bs <= 2 ^ 52)%Z -> (1 <= n)%nat -> (1 <= epochs)%Z ->
  trainable s m [e] [x] i o CE -> data_ok s [e] mx rsx y rsy n i o X Y -> p_kind (e_p e) = SoftmaxK -> one_hot n o Y ->
  plain_sgd lr (x_po x) -> 0 < lr -> lr * (1 / INR n) * (sqnorm n i X + INR n) <= 1 ->
  returns (Fit m mx y epochs bs xv yv 0) s (fun _ s' => exists e' x',
    trainable s' m [e'] [x'] i o CE /\ same_place e e' /\
    objective CE n o Y (pnet [e_p e'] n X) <= objective CE n o Y (pnet [e_p e] n X) /\
    forall W B, objective CE n o Y (pnet [e_p e'] n X) <= objective CE n o Y (pnet [with_params (e_p e) W B] n X) +
      (sqdist i o (p_w (e_p e)) W + sqdist 1 o (p_b (e_p e)) B) / (2 * lr * IZR epochs)).
Proof. intros. eapply fit_converges; eauto. now right. Qed.
(** With learning rate 1 the first epoch takes the objective from 25 to 901. *)
Lemma cv_diverges : exists s m e x i o mx rsx y rsy n (X Y : rpm) lr s' e' x',
  trainable s m [e] [x] i o MSE /\ data_ok s [e] mx rsx y rsy n i o X Y /\ p_kind (e_p e) = Linear /\ plain_sgd lr (x_po x) /\ 0 < lr /\
  Fit m mx y 1 0 matrix0 matrix0 0 s = (Ret tt, s') /\ trainable s' m [e'] [x'] i o MSE /\ same_place e e' /\
  objective MSE n o Y (pnet [e_p e] n X) < objective MSE n o Y (pnet [e_p e'] n X).
Proof.
  destruct (fit_trains (cv_state 1) cv_m1 [cv_e1] [cv_xo 1 1] 2 1 MSE cv_x _ cv_y1 _ 2 cvX cvY1 1 0 matrix0 matrix0 RNum_min_faithful ltac:(lia) ltac:(lia) ltac:(lia) (cv_trainable1 1) (cv_data1 1))
    as ([] & s' & E & nn & _ & (es' & xs' & HT' & HPl & HP2 & Htr & _) & _).
  inversion HPl as [|e0 e' ? l1 He' Hn1]; subst. inversion Hn1; subst. inversion HP2 as [|x0 x' ? l2 Hx' Hn2]; subst. inversion Hn2; subst.
  exists (cv_state 1), cv_m1, cv_e1, (cv_xo 1 1), 2%nat, 1%nat, cv_x, [4;5]%nat, cv_y1, [6;7]%nat, 2%nat, cvX, cvY1, 1, s', e', x'.
  split; [apply cv_trainable1|]. split; [apply cv_data1|]. split; [reflexivity|]. split; [repeat split|]. split; [lra|].
  split; [exact E|]. split; [exact HT'|]. split; [exact He'|].
  destruct (one_epochs MSE 1 cvX cvY1 (r_uni (h_rng (cv_state 1))) 2 1 eq_refl 1 (e_p cv_e1) (x_po (cv_xo 1 1)) (r_upos (h_rng (cv_state 1))) (or_introl (conj eq_refl eq_refl)) eq_refl ltac:(repeat split)) as (po' & E2).
  pose proof (eq_trans Htr E2) as Hep'. injection Hep' as Hep _.
  change (Nat.iter 1 (gd_layer MSE 2 1 cvX cvY1 1) (e_p cv_e1)) with (gd_layer MSE 2 1 cvX cvY1 1 (e_p cv_e1)) in Hep. rewrite Hep.
  unfold objective. rewrite !rsum_S, !rsum_0.
  cbv -[Rplus Rmult Rminus Rdiv Ropp Rinv IZR Rlt Rle R0 R1]. lra.
Qed.
(** The same network and data with the two samples swapped. *)
Definition cv_swapped (lr : R) : state RNum :=
  MkState (K := RNum) (h_rows (cv_state lr)) [[1;2]; [3]; [5;4]; [7;6]; [8;9]; [10]; [11;12]]%nat
    (h_layers (cv_state lr)) (h_opts (cv_state lr)) (h_rng (cv_state lr)) true [].
Lemma cv_trainable_swapped lr : trainable (cv_swapped lr) cv_m1 [cv_e1] [cv_xo lr 1] 2 1 MSE.
Proof.
  unfold trainable. split; [|split; [|split; [|split; [|split; [|split; [|split; [|split; [|split]]]]]]]].
  - unfold consistent. do 4 (split; [reflexivity|]). split; [simpl; auto|].
    repeat constructor; eexists; (split; [reflexivity|]); unfold lown; simpl; repeat (split; [first [reflexivity|lia]|]); split; own_tac'.
  - split; nd.
  - simpl; lia.
  - reflexivity.
  - nd.
  - repeat constructor; eexists; (split; [reflexivity|]); unfold oown, oscal; simpl; auto 20.
  - dj.
  - reflexivity.
  - reflexivity.
  - repeat constructor; discriminate.
Qed.
Lemma cv_data_swapped lr : data_ok (cv_swapped lr) [cv_e1] cv_x [5;4]%nat cv_y1 [7;6]%nat 2 2 1 (pick [] [1;0]%nat cvX) (pick [] [1;0]%nat cvY1).
Proof. split; [own_tac'|]. split; [own_tac'|]. split; dj. Qed.
