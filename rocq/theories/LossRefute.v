(** * LossRefute: concrete real-number states on which the losses misbehave, and a real-number
    example state for the theorems about gradients. *)
From Coq Require Import String ZArith List Bool Arith Lia Reals Lra.
From Coquelicot Require Import Coquelicot.
From Verif Require Import Num NumR Heap Matrix Activation Network Loss Spec PureSpec Repr RSum HeapLemmas LoopLemmas
  MatrixProofs LayerProofs MatrixFacts MiscFacts ActFacts LayerFacts LayerReal LossProofs GradSpec Grad GradCode LossReal LossCode.
Import ListNotations.
Open Scope R_scope.
Open Scope go_scope.

Lemma grad_partial r c f (A D : rpm) a b : shape r c A -> is_grad r c f A D -> (a < r)%nat -> (b < c)%nat ->
  is_derive (fun t => f (put r c A a b t)) (entry A a b) (entry D a b).
Proof.
  intros HS HG Ha Hb. apply d_shift. rewrite <- (inner_mk_delta r c D a b Ha Hb).
  apply (HG (fun t => put r c A a b (entry A a b + t))); [now apply put_same|now apply mderiv_put].
Qed.

(** A state holding two 2x1 matrices and two 1x2 matrices. *)
Definition lrng : rng RNum := MkRng (K := RNum) (fun _ => 0) (fun _ => 0) (fun _ => 0%Z) 0 0 0.
Definition ls_state (a b c d : R) : state RNum :=
  MkState (K := RNum) [[a]; [b]; [c]; [d]] [[1; 2]; [3; 4]]%nat [] [] lrng true [].
Definition lm_yhat : matrix := MkMatrix 2 1 (MkSlice 1 0 2).
Definition lm_y : matrix := MkMatrix 2 1 (MkSlice 2 0 2).
Lemma ls_yhat a b c d : own (ls_state a b c d) lm_yhat [1;2]%nat 2 1 [[a];[b]]. Proof. own_tac'. Qed.
Lemma ls_y a b c d : own (ls_state a b c d) lm_y [3;4]%nat 2 1 [[c];[d]]. Proof. own_tac'. Qed.
Definition lw_state (a b c d : R) : state RNum :=
  MkState (K := RNum) [[a; b]; [c; d]] [[1]; [2]]%nat [] [] lrng true [].
Definition lw_yhat : matrix := MkMatrix 1 2 (MkSlice 1 0 1).
Definition lw_y : matrix := MkMatrix 1 2 (MkSlice 2 0 1).
Lemma lw_own_yhat a b c d : own (lw_state a b c d) lw_yhat [1]%nat 1 2 [[a;b]]. Proof. own_tac'. Qed.
Lemma lw_own_y a b c d : own (lw_state a b c d) lw_y [2]%nat 1 2 [[c;d]]. Proof. own_tac'. Qed.
Ltac nd := repeat constructor; simpl; lia.
Ltac dj := unfold disjoint; simpl; lia.

(** The mean over all entries. *)
Definition mean_all (r c : nat) (e : R -> R) (Yh Y : rpm) : R :=
  rsum r (fun i => rsum c (fun j => e (entry Yh i j - entry Y i j))) / (INR r * INR c).
Lemma mean_all_21 e a b c d : mean_all 2 1 e [[a];[b]] [[c];[d]] = (e (a - c) + e (b - d)) / 2.
Proof.
  unfold mean_all. rewrite (rsum_S 1), rsum_1, !rsum_1. change (INR 2) with 2. change (INR 1) with 1.
  change (entry (K := RNum) [[a];[b]] 0 0) with a. change (entry (K := RNum) [[a];[b]] 1 0) with b.
  change (entry (K := RNum) [[c];[d]] 0 0) with c. change (entry (K := RNum) [[c];[d]] 1 0) with d. now rewrite Rmult_1_r.
Qed.

Lemma first_row_only k : k = MSE \/ k = MAE -> exists (s : state RNum) yhat rs Yh y rsy Y,
  own s yhat rs 2 1 Yh /\ own s y rsy 2 1 Y /\ NoDup rs /\ disjoint rs rsy /\
  returns (Loss_Forward (MkLoss k 1) yhat y) s (fun v _ => v = 0) /\
  mean_all 2 1 (match k with MSE => fun e => e ^ 2 | _ => Rabs end) Yh Y = 1/2.
Proof.
  intros Hk. exists (ls_state 0 1 0 0), lm_yhat, [1;2]%nat, [[0];[1]], lm_y, [3;4]%nat, [[0];[0]].
  split; [apply ls_yhat|]. split; [apply ls_y|]. split; [nd|]. split; [dj|]. split.
  - apply returns_wp. eapply wp_conseq; [eapply (wp_Loss_Forward _ k lm_yhat lm_y _ _ 2 1); [apply ls_yhat|apply ls_y|nd|dj|lia|lia]|].
    cbv beta. intros v s' (-> & _). destruct Hk as [-> | ->]; unfold ploss; [rewrite R_pmse|rewrite R_pmae]; rewrite rsum_1; unfold entry; simpl.
    + toR. field.
    + rewrite Rminus_0_r, Rabs_R0. toR. field.
  - rewrite mean_all_21. destruct Hk as [-> | ->]; [field|]. rewrite !Rminus_0_r, Rabs_R0, Rabs_R1. field.
Qed.

(** With two rows MSE.Backward is neither the gradient of MSE.Forward nor of the mean over all
    entries. *)
Lemma mse_backward_scale : exists (s : state RNum) yhat rs Yh y rsy Y,
  own s yhat rs 2 1 Yh /\ own s y rsy 2 1 Y /\ NoDup rs /\ disjoint rs rsy /\
  returns (Loss_Backward (MkLoss MSE 1) yhat y) s (fun m s' => exists rsm D, fresh_mat s s' m rsm 2 1 D /\
    ~ is_grad 2 1 (fun A => pmse 1 A Y) Yh D /\ ~ is_grad 2 1 (fun A => mean_all 2 1 (fun e => e ^ 2) A Y) Yh D).
Proof.
  exists (ls_state 1 1 0 0), lm_yhat, [1;2]%nat, [[1];[1]], lm_y, [3;4]%nat, [[0];[0]].
  split; [apply ls_yhat|]. split; [apply ls_y|]. split; [nd|]. split; [dj|].
  apply returns_wp. eapply wp_conseq; [eapply (wp_Loss_Backward _ MSE lm_yhat lm_y _ _ 2 1); [apply ls_yhat|apply ls_y|nd|dj|lia|lia]|].
  cbv beta. intros v s' ((rsm & HM) & _). exists rsm, (ploss_back MSE 2 1 [[1]; [1]] [[0]; [0]]). split; [exact HM|].
  assert (HS : shape 2 1 ([[1];[1]] : rpm)) by (split; repeat constructor).
  assert (ED : entry (ploss_back MSE 2 1 [[1]; [1]] ([[0]; [0]] : rpm)) 1 0 = 2).
  { unfold ploss_back. unfold pmse_back. rewrite entry_mk by lia. unfold entry. simpl. toR. field. }
  split; intros HG; apply (grad_partial _ _ _ _ _ 1 0 HS) in HG; try lia; rewrite ED in HG.
  - assert (H0 : is_derive (fun t => pmse 1 (put 2 1 ([[1];[1]] : rpm) 1 0 t) [[0]; [0]]) (entry (K := RNum) [[1];[1]] 1 0) 0).
    { apply (d_ext (fun _ => 1)); [|apply d_const]. intros t. rewrite R_pmse, rsum_1. unfold put. rewrite entry_mk by lia. unfold entry. simpl. toR. field. }
    pose proof (d_uniq _ _ _ _ HG H0). lra.
  - assert (H0 : is_derive (fun t => mean_all 2 1 (fun e => e ^ 2) (put 2 1 ([[1];[1]] : rpm) 1 0 t) [[0]; [0]]) (entry (K := RNum) [[1];[1]] 1 0) 1).
    { apply (d_ext (fun t => (1 + t * t) / 2)).
      - intros t. change (put 2 1 ([[1];[1]] : rpm) 1 0 t) with ([[1];[t]] : rpm). rewrite mean_all_21. field.
      - eapply d_eq; [|apply d_div; apply d_plus; [apply d_const|apply d_mult; exact (is_derive_id _)]].
        change (entry (K := RNum) [[1];[1]] 1 0) with 1. unfold one. simpl. field. }
    pose proof (d_uniq _ _ _ _ HG H0). lra.
Qed.

(** Soft labels: CE.Backward is not the gradient of CE.Forward. *)
Lemma ce_soft_labels : exists (s : state RNum) yhat rs Yh y rsy Y,
  own s yhat rs 1 2 Yh /\ own s y rsy 1 2 Y /\ NoDup rs /\ disjoint rs rsy /\ in01 1 2 Yh /\ in01 1 2 Y /\
  rsum 2 (fun j => entry Y 0 j) = 1 /\
  returns (Loss_Backward (MkLoss CE 2) yhat y) s (fun m s' => exists rsm D, fresh_mat s s' m rsm 1 2 D /\
    ~ is_grad 1 2 (fun A => pce 1 2 A Y) Yh D).
Proof.
  exists (lw_state (1/4) (3/4) (1/2) (1/2)), lw_yhat, [1]%nat, [[1/4;3/4]], lw_y, [2]%nat, [[1/2;1/2]].
  split; [apply lw_own_yhat|]. split; [apply lw_own_y|]. split; [nd|]. split; [dj|].
  assert (H01 : in01 1 2 ([[1/4;3/4]] : rpm)).
  { intros i j Hi Hj. assert (i = 0)%nat as -> by lia. destruct j as [|[|]]; [unfold entry; simpl; lra..|lia]. }
  split; [exact H01|]. split.
  { intros i j Hi Hj. assert (i = 0)%nat as -> by lia. destruct j as [|[|]]; [unfold entry; simpl; lra..|lia]. }
  split. { rewrite rsum_S, rsum_1. unfold entry. simpl. field. }
  apply returns_wp. eapply wp_conseq; [eapply (wp_Loss_Backward _ CE lw_yhat lw_y _ _ 1 2); [apply lw_own_yhat|apply lw_own_y|nd|dj|lia|lia]|].
  cbv beta. intros v s' ((rsm & HM) & _). exists rsm, (ploss_back CE 1 2 [[1/4;3/4]] [[1/2;1/2]]). split; [exact HM|].
  intros HG. apply (grad_partial _ _ _ _ _ 0 0) in HG; try lia; [|split; repeat constructor].
  assert (ED : entry (ploss_back CE 1 2 [[1/4;3/4]] ([[1/2;1/2]] : rpm)) 0 0 = -2).
  { unfold ploss_back. unfold pce_loss_back. rewrite entry_mk by lia. unfold entry. simpl. toR. field. }
  rewrite ED in HG. change (entry (K := RNum) [[1 / 4; 3 / 4]] 0 0) with (1/4) in HG.
  assert (H0 : is_derive (fun t => pce 1 2 (put 1 2 ([[1/4;3/4]] : rpm) 0 0 t) [[1/2;1/2]]) (1/4) (-1)).
  { apply (d_ext (fun t => - ln (clipR t * (1/2) + 3/8) / 1)).
    - intros t. rewrite R_pce, rsum_1. rewrite (rsum_S 1), rsum_1. unfold put. rewrite !entry_mk by lia.
      change (INR 1) with 1. simpl. change (entry (K := RNum) [[1 / 2; 1 / 2]] 0 0) with (1/2). change (entry (K := RNum) [[1 / 2; 1 / 2]] 0 1) with (1/2).
      change (entry (K := RNum) [[1 / 4; 3/4]] 0 1) with (3/4). rewrite (clipR_id (3/4)) by lra. replace (3 / 4 * (1 / 2)) with (3/8) by field. reflexivity.
    - eapply d_eq; [|apply d_div, d_opp, (d_ln (fun t => clipR t * (1/2) + 3/8)); [|apply d_plus; [apply d_scal_r; apply d_clip; lra|apply d_const]]].
      + rewrite (clipR_id (1/4)) by lra. field.
      + rewrite (clipR_id (1/4)) by lra. lra. }
  pose proof (d_uniq _ _ _ _ HG H0). lra.
Qed.

(** MAE.Backward with two columns: the gradient of the mean absolute error is not 0. *)
Lemma mae_two_columns : exists (s : state RNum) yhat rs Yh y rsy Y,
  own s yhat rs 1 2 Yh /\ own s y rsy 1 2 Y /\ NoDup rs /\ disjoint rs rsy /\ entry Yh 0 0 - entry Y 0 0 <> 0 /\
  returns (Loss_Backward (MkLoss MAE 2) yhat y) s (fun m s' => exists rsm D, fresh_mat s s' m rsm 1 2 D /\
    ~ is_derive (fun t => pmae 2 (put 1 2 Yh 0 0 t) Y) (entry Yh 0 0) (entry D 0 0) /\
    entry D 0 0 <> sgn (entry Yh 0 0 - entry Y 0 0) / 2).
Proof.
  exists (lw_state 1 1 0 0), lw_yhat, [1]%nat, [[1;1]], lw_y, [2]%nat, [[0;0]].
  split; [apply lw_own_yhat|]. split; [apply lw_own_y|]. split; [nd|]. split; [dj|].
  split. { unfold entry. simpl. lra. }
  apply returns_wp. eapply wp_conseq; [eapply (wp_Loss_Backward _ MAE lw_yhat lw_y _ _ 1 2); [apply lw_own_yhat|apply lw_own_y|nd|dj|lia|lia]|].
  cbv beta. intros v s' ((rsm & HM) & _). exists rsm, (ploss_back MAE 1 2 [[1;1]] [[0;0]]). split; [exact HM|].
  assert (ED : entry (ploss_back MAE 1 2 [[1;1]] ([[0;0]] : rpm)) 0 0 = 0).
  { unfold ploss_back. rewrite mae_back_zero by lia. now rewrite entry_mk by lia. }
  rewrite ED. change (entry (K := RNum) [[1;1]] 0 0) with 1. change (entry (K := RNum) [[0;0]] 0 0) with 0. split.
  - intros HG. assert (H0 : is_derive (fun t => pmae 2 (put 1 2 ([[1;1]] : rpm) 0 0 t) [[0; 0]]) 1 (1/2)).
    { assert (HA : is_derive (fun t => Rabs (t - 0) + 1) 1 1).
      { eapply d_eq; [|apply d_plus; [|apply d_const]]; [|apply (d_comp Rabs (fun t => t - 0)); [apply is_derive_Rabs; [exact (is_derive_id _)|lra]|apply d_minus; [exact (is_derive_id _)|apply d_const]]].
        rewrite Rminus_0_r, sign_eq_1 by lra. unfold one. simpl. ring. }
      apply (d_ext (fun t => (Rabs (t - 0) + 1) / 2)).
      - intros t. rewrite R_pmae, rsum_S, rsum_1. unfold put. rewrite !entry_mk by lia. change (INR 2) with 2. simpl.
        change (entry (K := RNum) [[0;0]] 0 0) with 0. change (entry (K := RNum) [[0;0]] 0 1) with 0. change (entry (K := RNum) [[1;1]] 0 1) with 1.
        rewrite (Rminus_0_r 1), Rabs_R1. reflexivity.
      - apply d_div. exact HA. }
    pose proof (d_uniq _ _ _ _ HG H0). lra.
  - unfold sgn. destruct (Rlt_dec 0 (1 - 0)); lra.
Qed.

(** ** Labels that are not one-hot: the fused pass differs from the two separate passes. *)
Definition fz_layer : layer RNum :=
  MkLayer (K := RNum) SoftmaxK 1 2 (MkMatrix 1 2 (MkSlice 2 0 1)) (MkMatrix 1 2 (MkSlice 3 0 1)) 0 0 matrix0 matrix0.
Definition fz_state : state RNum :=
  MkState (K := RNum) [[1]; [0;0]; [0;0]; [1/2;1/2]] [[1]; [2]; [3]; [4]]%nat [fz_layer] [] lrng true [].
Definition fz_x : matrix := MkMatrix 1 1 (MkSlice 1 0 1).
Definition fz_y : matrix := MkMatrix 1 2 (MkSlice 4 0 1).
Definition fz_p : player RNum := PL (K := RNum) SoftmaxK 1 2 [[0;0]] [[0;0]] 0 0.
Lemma fz_x_own : own fz_state fz_x [1]%nat 1 1 [[1]]. Proof. own_tac'. Qed.
Lemma fz_y_own : own fz_state fz_y [4]%nat 1 2 [[1/2;1/2]]. Proof. own_tac'. Qed.
Lemma fz_lown : lown fz_state fz_layer [2]%nat [3]%nat fz_p.
Proof. unfold lown. simpl. repeat (split; [first [reflexivity|lia]|]). split; own_tac'. Qed.
Lemma fz_affine (b : rpm) j : (j < 2)%nat -> entry (paffine (with_params fz_p [[0;0]] b) 1 [[1]]) 0 j = entry b 0 j.
Proof.
  intros Hj. unfold paffine. simpl p_in. simpl p_out. rewrite paff_entry by lia. rewrite rsum_1.
  destruct j as [|[|]]; [| |lia]; unfold entry; simpl; toR; apply Rminus_diag_uniq; ring.
Qed.
Lemma fz_out : forall j, (j < 2)%nat -> entry (pforward fz_p 1 [[1]]) 0 j = 1/2.
Proof.
  intros j Hj. unfold pforward, pact. change (p_kind fz_p) with SoftmaxK. cbv iota. change (p_out fz_p) with 2%nat.
  rewrite R_softmax_entry by lia. change fz_p with (with_params fz_p [[0;0]] [[0;0]]).
  rewrite rsum_S, rsum_1, !fz_affine by lia.
  assert (E : forall k, (k < 2)%nat -> entry (K := RNum) [[0;0]] 0 k = 0) by (intros [|[|]] H; [reflexivity..|lia]).
  rewrite !E by lia. rewrite exp_0. toR. lra.
Qed.
Lemma fused_soft_labels : exists (s : state RNum) l rw rb p x rsx X y rsy Y,
  nth_error (h_layers s) 0 = Some l /\ lown s l rw rb p /\ p_kind p = SoftmaxK /\ p_out p = 2%nat /\
  own s x rsx 1 (p_in p) X /\ own s y rsy 1 2 Y /\ in01 1 2 Y /\ rsum 2 (fun j => entry Y 0 j) = 1 /\
  returns (fused_prog 0 2 x y) s (fun gg s' => exists dW1 dB1 dX1 dW2 dB2 dX2,
    bwd_result s s' (fst gg) (p_in p) 2 1 dW1 dB1 dX1 /\ bwd_result s s' (snd gg) (p_in p) 2 1 dW2 dB2 dX2 /\
    entry dB1 0 0 <> entry dB2 0 0 /\
    ~ is_loss_grad (fun A => pce 1 2 A Y) (fun q A => pforward q 1 A) p 1 X dW1 dB1 dX1).
Proof.
  exists fz_state, fz_layer, [2]%nat, [3]%nat, fz_p, fz_x, [1]%nat, [[1]], fz_y, [4]%nat, [[1/2;1/2]].
  split; [reflexivity|]. split; [apply fz_lown|]. split; [reflexivity|]. split; [reflexivity|].
  split; [apply fz_x_own|]. split; [apply fz_y_own|].
  assert (EY : forall j, (j < 2)%nat -> entry (K := RNum) [[1/2;1/2]] 0 j = 1/2) by (intros [|[|]] H; [reflexivity..|lia]).
  split. { intros i j Hi Hj. assert (i = 0)%nat as -> by lia. rewrite EY by lia. lra. }
  split. { rewrite rsum_S, rsum_1, !EY by lia. lra. }
  apply returns_wp. eapply wp_conseq.
  { pose proof (wp_fused fz_state 0 fz_layer _ _ fz_p fz_x _ 1 _ fz_y _ _ eq_refl fz_lown eq_refl fz_x_own (le_n 1) fz_y_own) as H.
    cbv zeta in H. exact H. }
  cbv beta. intros gg s' (H1 & H2). change (p_in fz_p) with 1%nat in *. change (p_out fz_p) with 2%nat in *.
  do 6 eexists. split; [exact H1|]. split; [exact H2|]. clear H1 H2.
  assert (E1 : forall j, (j < 2)%nat -> entry (psum0 1 2 (pce_back 1 2 ([[1 / 2; 1 / 2]] : rpm) (pforward fz_p 1 [[1]]))) 0 j = 1/2).
  { intros j Hj. unfold psum0. rewrite entry_mk by lia. fold (rsum 1). rewrite rsum_1. unfold pce_back. rewrite entry_mk by lia.
    rewrite EY, fz_out by lia. unfold f1. cbn [feq ofZ RNum]. replace (r_eqb (1/2) 1) with false.
    - change (1/2/1 = 1/2). field.
    - symmetry. apply r_eqb_false. lra. }
  assert (E2 : entry (psum0 1 2 (psoftmax_back 1 2 (pforward fz_p 1 [[1]]) (pce_loss_back 1 2 (pforward fz_p 1 [[1]]) ([[1 / 2; 1 / 2]] : rpm)))) 0 0 = 0).
  { unfold psum0. rewrite entry_mk by lia. fold (rsum 1). rewrite rsum_1. unfold psoftmax_back. rewrite entry_mk by lia. fold (rsum 2).
    rewrite rsum_S, rsum_1. unfold pce_loss_back. rewrite !entry_mk by lia. rewrite !EY, !fz_out by lia. simpl. toR. field. }
  split. { rewrite E1 by lia. rewrite E2. lra. }
  intros HL.
  set (Bc := fun t : R => put 1 2 ([[0;0]] : rpm) 0 0 (0 + t)).
  assert (HS : shape 1 2 ([[0;0]] : rpm)) by (split; repeat constructor).
  specialize (HL (fun _ => [[0;0]]) Bc (fun _ => [[1]]) _ _ _ eq_refl (put_same 1 2 [[0;0]] 0 0 HS) eq_refl
     (mderiv_const _ _ _) (mderiv_put 1 2 [[0;0]] 0 0 HS ltac:(lia) ltac:(lia)) (mderiv_const _ _ _)).
  change (p_in fz_p) with 1%nat in HL. change (p_out fz_p) with 2%nat in HL.
  rewrite !inner_zero, inner_mk_delta, E1 in HL by lia.
  assert (H0 : is_derive (fun t : R => pce 1 2 (pforward (with_params fz_p [[0; 0]] (Bc t)) 1 [[1]]) [[1 / 2; 1 / 2]]) 0 0).
  { apply (d_ext (fun _ => - ln (1/2) / 1)); [|apply d_const]. intros t.
    unfold pforward, pact. change (p_kind (with_params fz_p [[0; 0]] (Bc t))) with SoftmaxK. cbv iota.
    change (p_out (with_params fz_p [[0; 0]] (Bc t))) with 2%nat. rewrite pce_softmax. unfold uce. rewrite rsum_1.
    rewrite <- (R_softmax_sum 1 2 (paffine (with_params fz_p [[0; 0]] (Bc t)) 1 [[1]]) 0) at 1 by lia.
    rewrite <- rsum_div. change (INR 1) with 1. f_equal. f_equal. f_equal. apply rsum_ext. intros j Hj. rewrite EY by lia. lra. }
  pose proof (d_uniq _ _ _ _ HL H0). lra.
Qed.

(** ** A real-number example state: w = [[1,-1],[2,0]], bias = [[1,-2]], x = [[-3,2],[4,-5]]
    (all pre-activations are non-zero), g = [[1,2],[3,4]], one-hot labels y = [[1,0],[0,1]],
    probabilities h = [[1/4,3/4],[1/2,1/2]]. *)
Definition er_layer (k : lkind) : layer RNum :=
  MkLayer (K := RNum) k 2 2 (MkMatrix 2 2 (MkSlice 1 0 2)) (MkMatrix 1 2 (MkSlice 2 0 1)) (1/10) (1/4) matrix0 matrix0.
Definition er_player (k : lkind) : player RNum := PL (K := RNum) k 2 2 [[1;-1];[2;0]] [[1;-2]] (1/10) (1/4).
Definition er_state : state RNum :=
  MkState (K := RNum) [[1;-1]; [2;0]; [1;-2]; [-3;2]; [4;-5]; [1;2]; [3;4]; [1;0]; [0;1]; [1/4;3/4]; [1/2;1/2]]
    [[1;2]; [3]; [4;5]; [6;7]; [8;9]; [10;11]]%nat (map er_layer [Hidden; Linear; Leaky; SoftmaxK; Dropout]) [] lrng true [].
Definition er_x : matrix := MkMatrix 2 2 (MkSlice 3 0 2).
Definition er_g : matrix := MkMatrix 2 2 (MkSlice 4 0 2).
Definition er_y : matrix := MkMatrix 2 2 (MkSlice 5 0 2).
Definition er_h : matrix := MkMatrix 2 2 (MkSlice 6 0 2).
Definition erX : rpm := [[-3;2];[4;-5]].
Definition erG : rpm := [[1;2];[3;4]].
Definition erY : rpm := [[1;0];[0;1]].
Definition erH : rpm := [[1/4;3/4];[1/2;1/2]].
Lemma er_own_x : own er_state er_x [4;5]%nat 2 2 erX. Proof. own_tac'. Qed.
Lemma er_own_g : own er_state er_g [6;7]%nat 2 2 erG. Proof. own_tac'. Qed.
Lemma er_own_y : own er_state er_y [8;9]%nat 2 2 erY. Proof. own_tac'. Qed.
Lemma er_own_h : own er_state er_h [10;11]%nat 2 2 erH. Proof. own_tac'. Qed.
Lemma er_lown k : lown er_state (er_layer k) [1;2]%nat [3]%nat (er_player k).
Proof. unfold lown. simpl. repeat (split; [first [reflexivity|lia]|]). split; own_tac'. Qed.
Lemma er_away k : away_from_zero (er_player k) 2 erX.
Proof.
  intros i j Hi Hj. unfold paffine. simpl p_in. simpl p_out in *. rewrite paff_entry by lia. rewrite rsum_S, rsum_1.
  destruct i as [|[|]]; [| |lia]; (destruct j as [|[|]]; [| |lia]); unfold entry; simpl; lra.
Qed.
Lemma er_onehot : one_hot 2 2 erY.
Proof.
  exists (fun i => i). intros i Hi. split; [exact Hi|]. intros j Hj.
  destruct i as [|[|]]; [| |lia]; (destruct j as [|[|]]; [| |lia]); reflexivity.
Qed.
Lemma er_in01 : in01 2 2 erH.
Proof. intros i j Hi Hj. destruct i as [|[|]]; [| |lia]; (destruct j as [|[|]]; [| |lia]); unfold entry; simpl; lra. Qed.
