(** * NoiseEx: one input with two labels. *)
From Coq Require Import String ZArith List Bool Arith Lia Reals Lra.
From Verif Require Import Num NumR Heap Spec Matrix Loss Network Optimizers ModelGo PureSpec Repr HeapLemmas RSum MiscFacts MiscProofs OptSpec ModelSpec FitFacts LossRefute LossProofs LossReal ModelProofs ModelFacts LayerReal NetGradCode MatrixFacts EvalSpec EvalParts LossAccSpec LossAcc LossAccEx NoiseSpec Noise.
Import ListNotations.
Open Scope R_scope.

(** Softmax 1 -> 2 with weights and biases 0; the input 1 with the targets (1,0) and (0,1). *)
Definition nz_state : state RNum :=
  MkState (K := RNum) [[0;0]; [0;0]; [1]; [1;0]; [0;1]] [[1]; [2]; [3;3]; [4;5]]%nat
    [MkLayer (K := RNum) SoftmaxK 1 2 (MkMatrix 1 2 (MkSlice 1 0 1)) (MkMatrix 1 2 (MkSlice 2 0 1)) 0 0 matrix0 matrix0] [] nr_rng true [].
Definition nz_m : model RNum := la_m CE 2 1 0.
Definition nz_es : list (lent RNum) := la_es2.
Definition nz_x : matrix := MkMatrix 2 1 (MkSlice 3 0 2).
Definition nz_y : matrix := MkMatrix 2 2 (MkSlice 4 0 2).
Definition nzX : pm RNum := [[1];[1]].
Definition nzY : pm RNum := [[1;0];[0;1]].
Lemma nz_consistent : consistent nz_state nz_m nz_es 1 2.
Proof.
  unfold consistent; do 4 (split; [reflexivity|]); (split; [simpl; auto|]).
  repeat constructor; eexists; (split; [reflexivity|]); unfold lown; simpl; repeat (split; [first [reflexivity|lia]|]); split; own_tac'.
Qed.
Lemma nz_own : own nz_state nz_x [3;3]%nat 2 1 nzX /\ own nz_state nz_y [4;5]%nat 2 2 nzY.
Proof. split; own_tac'. Qed.
Lemma nz_classes : classes 2 2 nzY.
Proof. intros [|[|a]] Ha; try lia; [exists 0%nat|exists 1%nat]; (split; [lia|]); intros [|[|j]] Hj; try lia; reflexivity. Qed.
Lemma nz_share a : (a < 2)%nat -> share 2 nzX nzY a = 1 / 2.
Proof.
  intros Ha. assert (T : row_eq [1] [1] = true) by apply row_eq_refl. assert (T0 : row_eq [1;0] [1;0] = true) by apply row_eq_refl. assert (T1 : row_eq [0;1] [0;1] = true) by apply row_eq_refl.
  assert (N : forall u w, u <> w -> row_eq u w = false). { intros u w H. destruct (row_eq u w) eqn:E; [|reflexivity]. apply row_eq_iff in E. contradiction. }
  assert (N0 : row_eq [1;0] [0;1] = false). { apply N. intros E. injection E as E _. lra. }
  assert (N1 : row_eq [0;1] [1;0] = false). { apply N. intros E. injection E as E _. lra. }
  unfold share, same_sample, same_input. rewrite !(rsum_S 1), !rsum_1. destruct a as [|[|a]]; [| |lia]; unfold nzX, nzY; cbn [nth]; change (F RNum) with R; rewrite ?T, ?T0, ?T1, ?N0, ?N1; cbn [andb]; lra.
Qed.
Lemma nz_out a j : (a < 2)%nat -> (j < 2)%nat -> entry (pnet (net nz_es) 2 nzX) a j = / 2.
Proof.
  intros Ha Hj. rewrite <- (la_out2 j Hj). unfold entry. pose proof (pnet_row (net nz_es) 2 nzX a Ha) as E. assert (EX : nth a nzX [] = [1]) by (destruct a as [|[|]]; [reflexivity|reflexivity|lia]).
  rewrite EX in E. unfold nz_es in *. apply (f_equal (fun A : pm RNum => nth j (nth 0 A []) (f0 : F RNum))) in E. symmetry. exact E.
Qed.
(** Both bounds are reached. *)
Lemma nz_sharp : exists (s : state RNum) m es x rx y ry X Y a l s1 s2, consistent s m es 1 2 /\ (1 <= length es)%nat /\ own s x rx 2 1 X /\ own s y ry 2 2 Y /\ classes 2 2 Y /\
  m_loss m = Some (MkLoss CE 2) /\ m_acctype m = 1%Z /\ ends_with SoftmaxK es /\ (forall b, (b < 2)%nat -> share 2 X Y b = 1 / 2) /\
  CalculateAccuracy m x y s = (Ret a, s1) /\ CalculateLoss m x y s = (Ret l, s2) /\ a = 1 / 2 /\ l = ln 2.
Proof.
  destruct nz_own as (OX & OY). pose proof nz_consistent as HC.
  destruct (both nz_state nz_m nz_es 1 2 nz_x _ nz_y _ 2 _ _ HC ltac:(simpl; lia) ltac:(lia) OX OY ltac:(lia) CE (categorical_accuracy (K := RNum) 2 2 (pnet (net nz_es) 2 nzX) nzY) eq_refl eq_refl) as (s1 & s2 & E1 & E2).
  exists nz_state, nz_m, nz_es, nz_x, [3;3]%nat, nz_y, [4;5]%nat, nzX, nzY. do 2 eexists. exists s1, s2.
  split; [exact HC|]. split; [simpl; lia|]. split; [exact OX|]. split; [exact OY|]. split; [exact nz_classes|]. do 2 (split; [reflexivity|]). split; [apply la_kinds|]. split; [exact nz_share|]. split; [exact E1|]. split; [exact E2|]. split.
  - unfold categorical_accuracy. cbn [fdiv RNum]. rewrite !ofZ_INR, count_rows_sum. rewrite (rsum_S 1), rsum_1.
    rewrite !(first_of_equal 2 _ (/ 2) ltac:(lia) ltac:(lra)) by (intros; apply nz_out; lia).
    assert (F1 : feq (n := RNum) (entry nzY 0 0) f1 = true) by (apply r_eqb_true; reflexivity). assert (F0 : feq (n := RNum) (entry nzY 1 0) f1 = false) by (apply r_eqb_false; cbn; lra).
    rewrite F1, F0. cbn [tick]. simpl. lra.
  - unfold ploss. rewrite R_pce. rewrite (rsum_ext 2 _ (fun _ => ln 2 / INR 2)).
    + rewrite rsum_const. change (F RNum) with R. field. simpl. lra.
    + intros a Ha. destruct (nz_classes a Ha) as (t & Ht & HT). rewrite (onehot_dot 2 (fun j => entry nzY a j) t (fun j => clipR (entry (pnet (net nz_es) 2 nzX) a j)) Ht HT), (nz_out a t Ha Ht), clipR_id by lra.
      rewrite ln_Rinv by lra. now rewrite Ropp_involutive.
Qed.
