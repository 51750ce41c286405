(** * LossAccEx: a classifier that has learnt nothing, and one sample behind the first. *)
From Coq Require Import String ZArith List Bool Arith Lia Reals Lra.
From Verif Require Import Num NumR Heap Spec Matrix Loss Network Optimizers ModelGo PureSpec Repr HeapLemmas RSum MiscFacts MiscProofs OptSpec ModelSpec FitFacts LossRefute LossProofs LossReal ModelProofs LayerReal NetGradCode MatrixFacts EvalSpec EvalParts EvalEx LossAccSpec LossAcc.
Import ListNotations.
Open Scope R_scope.

(** Softmax 1 -> 2 and 1 -> 3 with weights and biases 0, a sigmoid unit 1 -> 1; the sample 1 with targets (0,1), (1,0,0), 1. *)
Definition la_state : state RNum :=
  MkState (K := RNum) [[0;0]; [0;0]; [0;0;0]; [0;0;0]; [0]; [0]; [1]; [0;1]; [1;0;0]; [1]] [[1]; [2]; [3]; [4]; [5]; [6]; [7]; [8]; [9]; [10]]%nat
    [MkLayer (K := RNum) SoftmaxK 1 2 (MkMatrix 1 2 (MkSlice 1 0 1)) (MkMatrix 1 2 (MkSlice 2 0 1)) 0 0 matrix0 matrix0;
     MkLayer (K := RNum) SoftmaxK 1 3 (MkMatrix 1 3 (MkSlice 3 0 1)) (MkMatrix 1 3 (MkSlice 4 0 1)) 0 0 matrix0 matrix0;
     MkLayer (K := RNum) SigmoidK 1 1 (MkMatrix 1 1 (MkSlice 5 0 1)) (MkMatrix 1 1 (MkSlice 6 0 1)) 0 0 matrix0 matrix0] [] nr_rng true [].
Definition la_m (k : losskind) (o acc : Z) (l : nat) : model RNum := MkModel (K := RNum) 1 1 o 0 (Some (MkLoss k o)) acc (1/2) 0 [] [l] [].
Definition la_es2 : list (lent RNum) := [LE (K := RNum) 0 [1]%nat [2]%nat (PL (K := RNum) SoftmaxK 1 2 [[0;0]] [[0;0]] 0 0)].
Definition la_es3 : list (lent RNum) := [LE (K := RNum) 1 [3]%nat [4]%nat (PL (K := RNum) SoftmaxK 1 3 [[0;0;0]] [[0;0;0]] 0 0)].
Definition la_es1 : list (lent RNum) := [LE (K := RNum) 2 [5]%nat [6]%nat (PL (K := RNum) SigmoidK 1 1 [[0]] [[0]] 0 0)].
Definition la_x : matrix := MkMatrix 1 1 (MkSlice 7 0 1).
Definition la_y2 : matrix := MkMatrix 1 2 (MkSlice 8 0 1).
Definition la_y3 : matrix := MkMatrix 1 3 (MkSlice 9 0 1).
Definition la_y1 : matrix := MkMatrix 1 1 (MkSlice 10 0 1).
Lemma la_consistent : consistent la_state (la_m CE 2 1 0) la_es2 1 2 /\ consistent la_state (la_m CE 3 1 1) la_es3 1 3 /\ consistent la_state (la_m BCE 1 2 2) la_es1 1 1.
Proof.
  split; [|split]; unfold consistent; do 4 (split; [reflexivity|]); (split; [simpl; auto|]);
  repeat constructor; eexists; (split; [reflexivity|]); unfold lown; simpl; repeat (split; [first [reflexivity|lia]|]); split; own_tac'.
Qed.
Lemma la_own : own la_state la_x [7]%nat 1 1 [[1]] /\ own la_state la_y2 [8]%nat 1 2 [[0;1]] /\ own la_state la_y3 [9]%nat 1 3 [[1;0;0]] /\ own la_state la_y1 [10]%nat 1 1 [[1]].
Proof. split; [own_tac'|]. split; [own_tac'|]. split; own_tac'. Qed.
Lemma la_targets : classes 1 2 [[0;1]] /\ classes 1 3 [[1;0;0]] /\ yes_no 1 1 [[1]].
Proof.
  split; [|split].
  - intros [|a] Ha; [|lia]. exists 1%nat. split; [lia|]. intros [|[|j]] Hj; try lia; reflexivity.
  - intros [|a] Ha; [|lia]. exists 0%nat. split; [lia|]. intros [|[|[|j]]] Hj; try lia; reflexivity.
  - intros [|a] [|j] Ha Hj; try lia. right. reflexivity.
Qed.
Lemma la_kinds : ends_with SoftmaxK la_es2 /\ ends_with SoftmaxK la_es3 /\ ends_with SigmoidK la_es1.
Proof. split; [|split]; exists []; eexists; (split; reflexivity). Qed.
Lemma la_flat c (Z : rpm) : (1 <= c)%nat -> (forall j, (j < c)%nat -> entry Z 0 j = 0) -> forall j, (j < c)%nat -> entry (psoftmax (K := RNum) 1 c Z) 0 j = / INR c.
Proof.
  intros Hc HZ j Hj. unfold psoftmax. rewrite entry_mk by lia. change (fsum (K := RNum) ?n ?g) with (rsum n g). cbn [fdiv fexp RNum]. rewrite (rsum_ext c _ (fun _ => 1)).
  - rewrite HZ, exp_0, rsum_const by exact Hj. change (F RNum) with R in *. field. pose proof (EvalParts.INR_pos c Hc). lra.
  - intros a Ha. now rewrite HZ, exp_0.
Qed.
Lemma la_out2 : forall j, (j < 2)%nat -> entry (pnet (net la_es2) 1 [[1]]) 0 j = / 2.
Proof. intros j Hj. change (pnet (net la_es2) 1 [[1]]) with (psoftmax (K := RNum) 1 2 (paffine (e_p (nth 0 la_es2 (LE (K := RNum) 0 [] [] (PL (K := RNum) Linear 0 0 [] [] 0 0)))) 1 [[1]])).
  rewrite la_flat; [reflexivity|lia| |exact Hj]. intros [|[|k]] Hk; try lia; cbn; change (F RNum) with R in *; ring. Qed.
Lemma la_out3 : forall j, (j < 3)%nat -> entry (pnet (net la_es3) 1 [[1]]) 0 j = / 3.
Proof. intros j Hj. change (pnet (net la_es3) 1 [[1]]) with (psoftmax (K := RNum) 1 3 (paffine (e_p (nth 0 la_es3 (LE (K := RNum) 0 [] [] (PL (K := RNum) Linear 0 0 [] [] 0 0)))) 1 [[1]])).
  rewrite la_flat; [f_equal; simpl; lra|lia| |exact Hj]. intros [|[|[|k]]] Hk; try lia; cbn; change (F RNum) with R in *; ring. Qed.
Lemma first_of_equal c (g : nat -> R) v : (1 <= c)%nat -> 0 < v -> (forall j, (j < c)%nat -> g j = v) -> fst (scan_max (K := RNum) c g) = 0%nat.
Proof.
  intros Hc Hv Hg. destruct (scan_max_argmax (K := RNum) (fun _ => True) c g RNum_weak_order I (fun _ _ => I)) as (A1 & A2 & A3).
  { exists 0%nat. split; [lia|]. apply r_ltb_true. now rewrite Hg. }
  cbv zeta in *. destruct (fst (scan_max (K := RNum) c g)) as [|a]; [reflexivity|]. exfalso. specialize (A3 0%nat ltac:(lia)). apply r_ltb_true in A3. rewrite !Hg in A3 by lia. lra.
Qed.
Lemma flat_acc c (P Y : rpm) v : (1 <= c)%nat -> 0 < v -> (forall j, (j < c)%nat -> entry P 0 j = v) -> categorical_accuracy (K := RNum) 1 c P Y = tick (feq (n := RNum) (entry Y 0 0) 1).
Proof.
  intros Hc Hv HP. unfold categorical_accuracy. cbn [fdiv RNum]. rewrite !ofZ_INR, count_rows_sum, rsum_1, (first_of_equal c _ v Hc Hv HP). change (INR 1) with 1. unfold Rdiv. rewrite Rinv_1, Rmult_1_r. reflexivity.
Qed.
Lemma flat_loss c (P Y : rpm) v t : (t < c)%nat -> 0 < v <= 1 -> (forall j, (j < c)%nat -> entry P 0 j = v) -> (forall j, (j < c)%nat -> entry Y 0 j = if (t =? j)%nat then 1 else 0) -> pce (K := RNum) 1 c P Y = - ln v.
Proof.
  intros Ht Hv HP HY. rewrite R_pce, rsum_1, (onehot_dot c (fun j => entry Y 0 j) t (fun j => clipR (entry P 0 j)) Ht HY), (HP t Ht), clipR_id by lra. change (INR 1) with 1. unfold Rdiv. now rewrite Rinv_1, Rmult_1_r.
Qed.
(** The bound is reached. *)
Lemma la_sharp : exists (s : state RNum) m es x rx y ry X Y a l s1 s2, consistent s m es 1 2 /\ (1 <= length es)%nat /\ own s x rx 1 1 X /\ own s y ry 1 2 Y /\
  m_loss m = Some (MkLoss CE 2) /\ m_acctype m = 1%Z /\ ends_with SoftmaxK es /\ classes 1 2 Y /\
  CalculateAccuracy m x y s = (Ret a, s1) /\ CalculateLoss m x y s = (Ret l, s2) /\ a = 0 /\ l = ln 2.
Proof.
  destruct la_own as (OX & O2 & _). pose proof (proj1 la_consistent) as HC. pose proof (proj1 la_targets) as HT.
  destruct (both la_state (la_m CE 2 1 0) la_es2 1 2 la_x _ la_y2 _ 1 _ _ HC ltac:(simpl; lia) ltac:(lia) OX O2 ltac:(lia) CE (categorical_accuracy (K := RNum) 1 2 (pnet (net la_es2) 1 [[1]]) [[0;1]]) eq_refl eq_refl) as (s1 & s2 & E1 & E2).
  exists la_state, (la_m CE 2 1 0), la_es2, la_x, [7]%nat, la_y2, [8]%nat, [[1]], [[0;1]]. do 2 eexists. exists s1, s2.
  split; [exact HC|]. split; [simpl; lia|]. split; [exact OX|]. split; [exact O2|]. do 2 (split; [reflexivity|]). split; [apply la_kinds|]. split; [exact HT|]. split; [exact E1|]. split; [exact E2|]. split.
  - rewrite (flat_acc 2 _ _ (/ 2) ltac:(lia) ltac:(lra) la_out2). assert (F : feq (n := RNum) (entry (K := RNum) [[0;1]] 0 0) 1 = false) by (apply r_eqb_false; cbn; lra). now rewrite F.
  - unfold ploss. rewrite (flat_loss 2 _ _ (/ 2) 1 ltac:(lia) ltac:(lra) la_out2); [change (F RNum) with R in *; rewrite ln_Rinv by lra; ring|]. intros [|[|j]] Hj; try lia; reflexivity.
Qed.
(** All predictions right, and still a large loss. *)
Lemma la_converse : exists (s : state RNum) m es x rx y ry X Y a l s1 s2, consistent s m es 1 3 /\ (1 <= length es)%nat /\ own s x rx 1 1 X /\ own s y ry 1 3 Y /\
  m_loss m = Some (MkLoss CE 3) /\ m_acctype m = 1%Z /\ ends_with SoftmaxK es /\ classes 1 3 Y /\
  CalculateAccuracy m x y s = (Ret a, s1) /\ CalculateLoss m x y s = (Ret l, s2) /\ a = 1 /\ ln 2 < l.
Proof.
  destruct la_own as (OX & _ & O3 & _). pose proof (proj1 (proj2 la_consistent)) as HC. pose proof (proj1 (proj2 la_targets)) as HT.
  destruct (both la_state (la_m CE 3 1 1) la_es3 1 3 la_x _ la_y3 _ 1 _ _ HC ltac:(simpl; lia) ltac:(lia) OX O3 ltac:(lia) CE (categorical_accuracy (K := RNum) 1 3 (pnet (net la_es3) 1 [[1]]) [[1;0;0]]) eq_refl eq_refl) as (s1 & s2 & E1 & E2).
  exists la_state, (la_m CE 3 1 1), la_es3, la_x, [7]%nat, la_y3, [9]%nat, [[1]], [[1;0;0]]. do 2 eexists. exists s1, s2.
  split; [exact HC|]. split; [simpl; lia|]. split; [exact OX|]. split; [exact O3|]. do 2 (split; [reflexivity|]). split; [apply la_kinds|]. split; [exact HT|]. split; [exact E1|]. split; [exact E2|]. split.
  - rewrite (flat_acc 3 _ _ (/ 3) ltac:(lia) ltac:(lra) la_out3). assert (F : feq (n := RNum) (entry (K := RNum) [[1;0;0]] 0 0) 1 = true) by (apply r_eqb_true; reflexivity). now rewrite F.
  - unfold ploss. rewrite (flat_loss 3 _ _ (/ 3) 0 ltac:(lia) ltac:(lra) la_out3); [rewrite ln_Rinv, Ropp_involutive by lra; apply ln_increasing; lra|]. intros [|[|[|j]]] Hj; try lia; reflexivity.
Qed.
(** Two samples: the squared error is 0, one prediction in two is wrong. *)
Lemma la_rows : exists (s : state RNum) m es x rx y ry X Y a l s1 s2, consistent s m es 1 1 /\ (1 <= length es)%nat /\ own s x rx 2 1 X /\ own s y ry 2 1 Y /\
  m_loss m = Some (MkLoss MSE 1) /\ m_acctype m = 0%Z /\ m_prec m = 1 / 2 /\
  CalculateAccuracy m x y s = (Ret a, s1) /\ CalculateLoss m x y s = (Ret l, s2) /\ a = 1 / 2 /\ l = 0.
Proof.
  destruct ev_own as (_ & _ & OX & OY). pose proof (ev_consistent MSE) as HC.
  destruct (both ev_state (ev_m MSE) ev_es 1 1 ev_x' _ ev_y' _ 2 _ _ HC ltac:(simpl; lia) ltac:(lia) OX OY ltac:(lia) MSE (regression_accuracy (K := RNum) 2 1 (pnet (net ev_es) 2 [[2]; [1]]) [[0]; [-1]] (1 / 2)) eq_refl eq_refl) as (s1 & s2 & E1 & E2).
  exists ev_state, (ev_m MSE), ev_es, ev_x', [5;3]%nat, ev_y', [6;4]%nat, [[2]; [1]], [[0]; [-1]]. do 2 eexists. exists s1, s2.
  split; [exact HC|]. split; [simpl; lia|]. split; [exact OX|]. split; [exact OY|]. do 3 (split; [reflexivity|]). split; [exact E1|]. split; [exact E2|].
  assert (P0 : entry (pnet (net ev_es) 2 [[2]; [1]]) 0 0 = 0) by (cbn; change (F RNum) with R in *; ring). assert (P1 : entry (pnet (net ev_es) 2 [[2]; [1]]) 1 0 = 0) by (cbn; change (F RNum) with R in *; ring). split.
  - unfold regression_accuracy. cbn [fdiv RNum]. rewrite !ofZ_INR, count_cells_sum. rewrite (rsum_S 1), !rsum_1, P0, P1. cbn [fsub fabs RNum entry nth].
    assert (F0 : flt (n := RNum) (Rabs (0 - 0)) (1 / 2) = true) by (apply r_ltb_true; rewrite Rminus_0_r, Rabs_R0; lra).
    assert (F1 : flt (n := RNum) (Rabs (0 - -1)) (1 / 2) = false) by (apply r_ltb_false; rewrite Rabs_pos_eq; lra).
    unfold entry. cbn [nth]. rewrite F0, F1. cbn [tick]. simpl. lra.
  - unfold ploss. rewrite R_pmse, rsum_1, P0. unfold entry. cbn [nth]. simpl. lra.
Qed.
