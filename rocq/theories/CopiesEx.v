(** * CopiesEx: concrete models trained on data and on copies of it. *)
From Coq Require Import String ZArith List Bool Arith Lia Reals Lra.
From Coquelicot Require Import Coquelicot.
From Verif Require Import Num NumR Heap Spec Matrix Loss Network Optimizers ModelGo PureSpec Repr HeapLemmas LoopLemmas MatrixFacts MiscFacts RSum LayerFacts LayerReal GradSpec Grad LossProofs LossReal LossCode OptSpec ModelSpec ModelProofs FitProofs FitFacts NetGradSpec NetGrad NetGradCode LossRefute Converge ConvergeFit ConvergeEx ConserveProofs MiniBatch MiniFit CopiesSpec Copies.
Import ListNotations.
Open Scope R_scope.

(** The networks and data of [ConvergeEx], with every sample listed twice. *)
Definition cp_state (lr : R) : state RNum :=
  MkState (K := RNum) (h_rows (cv_state lr)) [[1;2]; [3]; [4;5;4;5]; [6;7;6;7]; [8;9]; [10]; [11;12;11;12]]%nat
    (h_layers (cv_state lr)) (h_opts (cv_state lr)) (h_rng (cv_state lr)) true [].
Definition cp_x : matrix := MkMatrix 4 2 (MkSlice 3 0 4).
Definition cp_y1 : matrix := MkMatrix 4 1 (MkSlice 4 0 4).
Definition cp_y2 : matrix := MkMatrix 4 2 (MkSlice 7 0 4).
Ltac cp_tac := unfold trainable; split; [|split; [|split; [|split; [|split; [|split; [|split; [|split; [|split]]]]]]]];
  [unfold consistent; do 4 (split; [reflexivity|]); split; [simpl; auto|];
    repeat constructor; eexists; (split; [reflexivity|]); unfold lown; simpl; repeat (split; [first [reflexivity|lia]|]); split; own_tac'
  |split; nd|simpl; lia|reflexivity|nd
  |repeat constructor; eexists; (split; [reflexivity|]); unfold oown, oscal; simpl; auto 20
  |dj|reflexivity|reflexivity|repeat constructor; discriminate].
Lemma cp_trainable1 lr : trainable (cp_state lr) cv_m1 [cv_e1] [cv_xo lr 1] 2 1 MSE.
Proof. cp_tac. Qed.
Lemma cp_trainable2 lr : trainable (cp_state lr) cv_m2 [cv_e2] [cv_xo lr 2] 2 2 CE.
Proof. cp_tac. Qed.
Lemma cp_data1 lr : data_ok (cp_state lr) [cv_e1] cp_x [4;5;4;5]%nat cp_y1 [6;7;6;7]%nat (2 * 2) 2 1 (copies 2 cvX) (copies 2 cvY1).
Proof. split; [own_tac'|]. split; [own_tac'|]. split; dj. Qed.
Lemma cp_data2 lr : data_ok (cp_state lr) [cv_e2] cp_x [4;5;4;5]%nat cp_y2 [11;12;11;12]%nat (2 * 2) 2 2 (copies 2 cvX) (copies 2 cvY2).
Proof. split; [own_tac'|]. split; [own_tac'|]. split; dj. Qed.
Lemma cp_quicker : trainer [cv_e1] [cv_xo (2 * (1/4)) 1] = map (quicker 2) (trainer [cv_e1] [cv_xo (1/4) 1]).
Proof. reflexivity. Qed.

(** After one epoch of gradient descent with rate 1 on the squared error the bias is 5, or 7 with every sample twice. *)
Lemma cp_differs : exists s1 s2 m es xs i o x1 rsx1 y1 rsy1 x2 rsx2 y2 rsy2 n c (X Y : rpm) s1' s2' es1' xs1' es2' xs2',
  trainable s1 m es xs i o MSE /\ data_ok s1 es x1 rsx1 y1 rsy1 n i o X Y /\
  trainable s2 m es xs i o MSE /\ data_ok s2 es x2 rsx2 y2 rsy2 (c * n) i o (copies c X) (copies c Y) /\
  Fit m x1 y1 1 0 matrix0 matrix0 0 s1 = (Ret tt, s1') /\ Fit m x2 y2 1 0 matrix0 matrix0 0 s2 = (Ret tt, s2') /\
  trainable s1' m es1' xs1' i o MSE /\ Forall2 same_place es es1' /\ trainable s2' m es2' xs2' i o MSE /\ Forall2 same_place es es2' /\
  map (fun e => p_b (e_p e)) es1' = [[[5]]] /\ map (fun e => p_b (e_p e)) es2' = [[[7]]].
Proof.
  destruct (fit_run (cv_state 1) cv_m1 cv_e1 (cv_xo 1 1) 2 1 cv_x [4;5]%nat cv_y1 [6;7]%nat 2 cvX cvY1 0 matrix0 matrix0 1 1 ltac:(lia) ltac:(lia) ltac:(lia) (cv_trainable1 1) (cv_data1 1) eq_refl ltac:(repeat split)) as ([] & s1' & E1 & e1 & x1 & A1 & A2 & A3 & _).
  destruct (fit_run (cp_state 1) cv_m1 cv_e1 (cv_xo 1 1) 2 1 cp_x [4;5;4;5]%nat cp_y1 [6;7;6;7]%nat (2 * 2) (copies 2 cvX) (copies 2 cvY1) 0 matrix0 matrix0 1 1 ltac:(lia) ltac:(lia) ltac:(lia) (cp_trainable1 1) (cp_data1 1) eq_refl ltac:(repeat split)) as ([] & s2' & E2 & e2 & x2 & B1 & B2 & B3 & _).
  exists (cv_state 1), (cp_state 1), cv_m1, [cv_e1], [cv_xo 1 1], 2%nat, 1%nat, cv_x, [4;5]%nat, cv_y1, [6;7]%nat, cp_x, [4;5;4;5]%nat, cp_y1, [6;7;6;7]%nat, 2%nat, 2%nat, cvX, cvY1, s1', s2', [e1], [x1], [e2], [x2].
  split; [apply cv_trainable1|]. split; [apply cv_data1|]. split; [apply cp_trainable1|]. split; [apply cp_data1|]. split; [exact E1|]. split; [exact E2|].
  split; [exact A1|]. split; [now constructor|]. split; [exact B1|]. split; [now constructor|].
  assert (H11 : forall a b : R, a = b -> [[[a]]] = [[[b]]]) by (intros; subst; reflexivity).
  cbn [map]. unfold wb in A3, B3. apply (f_equal snd) in A3, B3. cbn [snd] in A3, B3. rewrite A3, B3.
  split; cbv -[Rplus Rmult Rminus Rdiv Ropp Rinv IZR]; apply H11; field.
Qed.
