(** * EvalEx: a linear unit and two samples, in both orders. *)
From Coq Require Import String ZArith List Bool Arith Lia Reals Lra Permutation.
From Verif Require Import Num NumR Heap Spec Matrix Loss Network Optimizers ModelGo PureSpec Repr HeapLemmas RSum MiscFacts OptSpec ModelSpec FitFacts LossRefute LossProofs ModelProofs LayerReal NetGradCode MatrixFacts EvalSpec EvalParts.
Import ListNotations.
Open Scope R_scope.

(** Linear 1 -> 1 with weight and bias 0; the samples (1, -1) and (2, 0). *)
Definition ev_state : state RNum :=
  MkState (K := RNum) [[0]; [0]; [1]; [-1]; [2]; [0]] [[1]; [2]; [3;5]; [4;6]; [5;3]; [6;4]]%nat
    [MkLayer (K := RNum) Linear 1 1 (MkMatrix 1 1 (MkSlice 1 0 1)) (MkMatrix 1 1 (MkSlice 2 0 1)) 0 0 matrix0 matrix0] [] nr_rng true [].
Definition ev_m (k : losskind) : model RNum := MkModel (K := RNum) 1 1 1 0 (Some (MkLoss k 1)) 0 (1/2) 0 [] [0]%nat [].
Definition ev_p : player RNum := PL (K := RNum) Linear 1 1 [[0]] [[0]] 0 0.
Definition ev_es : list (lent RNum) := [LE (K := RNum) 0 [1]%nat [2]%nat ev_p].
Definition ev_x : matrix := MkMatrix 2 1 (MkSlice 3 0 2).
Definition ev_y : matrix := MkMatrix 2 1 (MkSlice 4 0 2).
Definition ev_x' : matrix := MkMatrix 2 1 (MkSlice 5 0 2).
Definition ev_y' : matrix := MkMatrix 2 1 (MkSlice 6 0 2).
(** Views of single rows. *)
Definition ev_xf (a : nat) : matrix := MkMatrix 1 1 (MkSlice 3 a 1).
Definition ev_yf (a : nat) : matrix := MkMatrix 1 1 (MkSlice 4 a 1).
Lemma ev_consistent k : consistent ev_state (ev_m k) ev_es 1 1.
Proof.
  unfold consistent. do 4 (split; [reflexivity|]). split; [simpl; auto|].
  repeat constructor; eexists; (split; [reflexivity|]); unfold lown; simpl; repeat (split; [first [reflexivity|lia]|]); split; own_tac'.
Qed.
Lemma ev_own : own ev_state ev_x [3;5]%nat 2 1 [[1]; [2]] /\ own ev_state ev_y [4;6]%nat 2 1 [[-1]; [0]] /\ own ev_state ev_x' [5;3]%nat 2 1 [[2]; [1]] /\ own ev_state ev_y' [6;4]%nat 2 1 [[0]; [-1]].
Proof. split; [own_tac'|]. split; [own_tac'|]. split; own_tac'. Qed.
Lemma ev_singles : singles ev_state ev_xf (fun a => [3 + 2 * a]%nat) 2 1 [[1]; [2]] /\ singles ev_state ev_yf (fun a => [4 + 2 * a]%nat) 2 1 [[-1]; [0]].
Proof. split; intros [|[|a]] Ha; try lia; own_tac'. Qed.
Lemma ev_loss x y : loss1 (net ev_es) 1 MSE [x] [y] = (0 - y) * (0 - y).
Proof.
  unfold loss1, ploss, pmse, pnet, net, ev_es, pforward, pact, paffine, paff, ev_p, mk, entry, fsum. cbn. rewrite r_pow_Z. unfold powerRZ. change (Pos.to_nat 2) with 2%nat. cbn [pow]. field.
Qed.
(** The mean squared error of the same two samples in two orders. *)
Lemma mse_order : exists (s : state RNum) m es x rx y ry x' rx' y' ry' X Y X' Y' v v' s1 s2, consistent s m es 1 1 /\ (1 <= length es)%nat /\ m_loss m = Some (MkLoss MSE 1) /\
  own s x rx 2 1 X /\ own s y ry 2 1 Y /\ own s x' rx' 2 1 X' /\ own s y' ry' 2 1 Y' /\ Permutation (combine X Y) (combine X' Y') /\
  CalculateLoss m x y s = (Ret v, s1) /\ CalculateLoss m x' y' s = (Ret v', s2) /\ v <> v'.
Proof.
  destruct ev_own as (O1 & O2 & O3 & O4).
  destruct (loss_rows ev_state (ev_m MSE) ev_es 1 1 (ev_consistent MSE) ltac:(simpl; lia) MSE ev_x _ ev_y _ 2 _ _ eq_refl O1 O2 ltac:(lia)) as (s1 & E1).
  destruct (loss_rows ev_state (ev_m MSE) ev_es 1 1 (ev_consistent MSE) ltac:(simpl; lia) MSE ev_x' _ ev_y' _ 2 _ _ eq_refl O3 O4 ltac:(lia)) as (s2 & E2).
  exists ev_state, (ev_m MSE), ev_es, ev_x, [3;5]%nat, ev_y, [4;6]%nat, ev_x', [5;3]%nat, ev_y', [6;4]%nat, [[1]; [2]], [[-1]; [0]], [[2]; [1]], [[0]; [-1]]. do 2 eexists. exists s1, s2.
  split; [apply ev_consistent|]. split; [simpl; lia|]. split; [reflexivity|]. do 4 (split; [assumption|]). split; [cbn [combine]; apply perm_swap|]. split; [exact E1|]. split; [exact E2|].
  cbn [nth]. rewrite !ev_loss. lra.
Qed.
Lemma ev_parts : own ev_state ev_x [3;5]%nat (1 + 1) 1 ([[1]] ++ [[2]]) /\ own ev_state (ev_xf 0) [3]%nat 1 1 [[1]] /\ own ev_state (ev_xf 1) [5]%nat 1 1 [[2]] /\
  own ev_state ev_y [4;6]%nat (1 + 1) 1 ([[-1]] ++ [[0]]) /\ own ev_state (ev_yf 0) [4]%nat 1 1 [[-1]] /\ own ev_state (ev_yf 1) [6]%nat 1 1 [[0]].
Proof. do 5 (split; [own_tac'|]). own_tac'. Qed.
