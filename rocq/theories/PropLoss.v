(** * Properties C20 (losses), C33-C37: loss.go.

    [loss_args s yhat rs y rsy r c Yh Y]: yhat and y are r x c matrices with contents Yh and Y,
    r, c >= 1, the rows of yhat are distinct and not shared with y. *)
From Coq Require Import String ZArith List Bool Arith Lia Reals Lra QArith.
From Coquelicot Require Import Coquelicot.
From Verif Require Import Num NumR NumQ Heap Spec PureSpec Repr Matrix Loss RSum GradSpec LossProofs LossFacts LossReal LossMore
  LossRefute Ex LossGlue.
Import ListNotations.
Open Scope Z_scope.

(** ** C20: loss constructors *)
Theorem C20_new_loss (K : Num) (s : state K) k size :
  (size < 1 -> NewLoss k size s = (Fail (ELossSize size), s)) /\
  (1 <= size -> NewLoss k size s = (Ret (MkLoss k size), s)).
Proof. exact (conj (NewLoss_err s k size) (NewLoss_ok s k size)). Qed.
Print Assumptions C20_new_loss.
Example C20_loss_ex : fst (NewLoss BCE 0 exs) = Fail (ELossSize 0) /\ fst (NewLoss BCE 3 exs) = Ret (MkLoss BCE 3).
Proof. vm_compute. split; reflexivity. Qed.

(** ** C33 *)
Theorem C33_mean_squared (K : Num) (s : state K) yhat rs y rsy r c (Yh Y : pm K) : loss_args s yhat rs y rsy r c Yh Y ->
  returns (Loss_Forward (MkLoss MSE (Z.of_nat c)) yhat y) s (fun v _ =>
    v = fdiv (fsum c (fun j => fpow (fsub (entry Yh 0 j) (entry Y 0 j)) (ofZ 2))) (ofZ (Z.of_nat c))).
Proof. exact (loss_value s MSE yhat rs y rsy r c Yh Y). Qed.
Theorem C33_mean_absolute (K : Num) (s : state K) yhat rs y rsy r c (Yh Y : pm K) : loss_args s yhat rs y rsy r c Yh Y ->
  returns (Loss_Forward (MkLoss MAE (Z.of_nat c)) yhat y) s (fun v _ =>
    v = fdiv (fsum c (fun j => fabs (fsub (entry Yh 0 j) (entry Y 0 j)))) (ofZ (Z.of_nat c))).
Proof. exact (loss_value s MAE yhat rs y rsy r c Yh Y). Qed.
Theorem C33_cross_entropy (K : Num) (s : state K) yhat rs y rsy r c (Yh Y : pm K) : loss_args s yhat rs y rsy r c Yh Y ->
  returns (Loss_Forward (MkLoss CE (Z.of_nat c)) yhat y) s (fun v _ =>
    v = fsum r (fun i => fdiv (fneg (flog (fsum c (fun j => fmul (clip1 (entry Yh i j)) (entry Y i j))))) (ofZ (Z.of_nat r)))).
Proof. exact (loss_value s CE yhat rs y rsy r c Yh Y). Qed.
Theorem C33_binary_cross_entropy (K : Num) (s : state K) yhat rs y rsy r c (Yh Y : pm K) : loss_args s yhat rs y rsy r c Yh Y ->
  returns (Loss_Forward (MkLoss BCE (Z.of_nat c)) yhat y) s (fun v _ =>
    v = csum r c (fun i j => let p := clip1 (entry Yh i j) in let t := entry Y i j in
      fdiv (fdiv (fneg (fadd (fmul t (flog p)) (fmul (fsub f1 t) (flog (fsub f1 p))))) (ofZ (Z.of_nat r))) (ofZ (Z.of_nat c)))).
Proof. exact (loss_value s BCE yhat rs y rsy r c Yh Y). Qed.
(** In exact arithmetic, for predictions in [0,1], these are the textbook averages. *)
Theorem C33_exact (s : state RNum) yhat rs y rsy r c (Yh Y : rpm) : loss_args s yhat rs y rsy r c Yh Y ->
  (forall i j, (i < r)%nat -> (j < c)%nat -> (0 <= entry Yh i j <= 1)%R) ->
  returns (Loss_Forward (MkLoss CE (Z.of_nat c)) yhat y) s (fun v _ =>
    v = (rsum r (fun i => - ln (rsum c (fun j => entry Yh i j * entry Y i j))) / INR r)%R) /\
  returns (Loss_Forward (MkLoss BCE (Z.of_nat c)) yhat y) s (fun v _ =>
    v = (rsum r (fun i => rsum c (fun j => - (entry Y i j * ln (entry Yh i j) + (1 - entry Y i j) * ln (1 - entry Yh i j)))) / (INR r * INR c))%R).
Proof. exact (loss_exact s yhat rs y rsy r c Yh Y). Qed.
(** MSE and MAE are not the average over the rows: here both are 0 while the average is 1/2. *)
Theorem C33_first_row_only_refuted : exists (s : state RNum) yhat rs Yh y rsy Y,
  own s yhat rs 2 1 Yh /\ own s y rsy 2 1 Y /\ NoDup rs /\ disjoint rs rsy /\
  returns (Loss_Forward (MkLoss MSE 1) yhat y) s (fun v _ => v = 0%R) /\
  (rsum 2 (fun i => rsum 1 (fun j => (entry Yh i j - entry Y i j) ^ 2)) / (INR 2 * INR 1) = 1 / 2)%R.
Proof. exact (first_row_only MSE (or_introl eq_refl)). Qed.
Theorem C33_first_row_only_mae_refuted : exists (s : state RNum) yhat rs Yh y rsy Y,
  own s yhat rs 2 1 Yh /\ own s y rsy 2 1 Y /\ NoDup rs /\ disjoint rs rsy /\
  returns (Loss_Forward (MkLoss MAE 1) yhat y) s (fun v _ => v = 0%R) /\
  (rsum 2 (fun i => rsum 1 (fun j => Rabs (entry Yh i j - entry Y i j))) / (INR 2 * INR 1) = 1 / 2)%R.
Proof. exact (first_row_only MAE (or_intror eq_refl)). Qed.
Print Assumptions C33_mean_squared.
Print Assumptions C33_mean_absolute.
Print Assumptions C33_cross_entropy.
Print Assumptions C33_binary_cross_entropy.
Print Assumptions C33_exact.
Print Assumptions C33_first_row_only_refuted.
Print Assumptions C33_first_row_only_mae_refuted.
Example C33_ex : loss_args exs mA [1;2]%nat mB [3;4]%nat 2 2 pA pB /\
  match Loss_Forward (MkLoss MSE 2) mA mB exs with (Ret v, _) => v == q 16 | _ => False end /\
  match Loss_Forward (MkLoss MAE 2) mA mB exs with (Ret v, _) => v == q 4 | _ => False end.
Proof.
  split; [|vm_compute; split; reflexivity].
  split; [exact own_mA|]. split; [exact own_mB|]. split; [nodup_tac|]. split; [disj_tac|lia].
Qed.

(** ** C34 *)
Theorem C34_mse_gradient (s : state RNum) yhat rs y rsy r c (Yh Y : rpm) : loss_args s yhat rs y rsy r c Yh Y ->
  returns (Loss_Backward (MkLoss MSE (Z.of_nat c)) yhat y) s (fun m s' => exists rsm D, fresh_mat s s' m rsm r c D /\
    is_grad r c (fun A => rsum r (fun i => rsum c (fun j => (entry A i j - entry Y i j) ^ 2) / INR c))%R Yh D).
Proof. exact (mse_gradient s yhat rs y rsy r c Yh Y). Qed.
Theorem C34_ce_gradient (s : state RNum) yhat rs y rsy r c (Yh Y : rpm) : loss_args s yhat rs y rsy r c Yh Y ->
  one_hot r c Y -> in01 r c Yh ->
  returns (Loss_Backward (MkLoss CE (Z.of_nat c)) yhat y) s (fun m s' => exists rsm D, fresh_mat s s' m rsm r c D /\
    is_grad r c (fun A => pce r c A Y) Yh D).
Proof. exact (ce_gradient s yhat rs y rsy r c Yh Y). Qed.
Theorem C34_bce_gradient (s : state RNum) yhat rs y rsy r c (Yh Y : rpm) : loss_args s yhat rs y rsy r c Yh Y ->
  in01 r c Yh ->
  returns (Loss_Backward (MkLoss BCE (Z.of_nat c)) yhat y) s (fun m s' => exists rsm D, fresh_mat s s' m rsm r c D /\
    is_grad r c (fun A => pbce r c A Y) Yh D).
Proof. exact (bce_gradient s yhat rs y rsy r c Yh Y). Qed.
(** With two rows the MSE gradient is neither that of Forward (first row only) nor that of the
    mean over all entries. *)
Theorem C34_mse_forward_refuted : exists (s : state RNum) yhat rs Yh y rsy Y,
  own s yhat rs 2 1 Yh /\ own s y rsy 2 1 Y /\ NoDup rs /\ disjoint rs rsy /\
  returns (Loss_Backward (MkLoss MSE 1) yhat y) s (fun m s' => exists rsm D, fresh_mat s s' m rsm 2 1 D /\
    ~ is_grad 2 1 (fun A => pmse 1 A Y) Yh D /\
    ~ is_grad 2 1 (fun A => rsum 2 (fun i => rsum 1 (fun j => (entry A i j - entry Y i j) ^ 2)) / (INR 2 * INR 1))%R Yh D).
Proof. exact mse_backward_scale. Qed.
(** Labels that are a probability distribution but not one-hot. *)
Theorem C34_soft_labels_refuted : exists (s : state RNum) yhat rs Yh y rsy Y,
  own s yhat rs 1 2 Yh /\ own s y rsy 1 2 Y /\ NoDup rs /\ disjoint rs rsy /\ in01 1 2 Yh /\ in01 1 2 Y /\
  rsum 2 (fun j => entry Y 0 j) = 1%R /\
  returns (Loss_Backward (MkLoss CE 2) yhat y) s (fun m s' => exists rsm D, fresh_mat s s' m rsm 1 2 D /\
    ~ is_grad 1 2 (fun A => pce 1 2 A Y) Yh D).
Proof. exact ce_soft_labels. Qed.
Print Assumptions C34_mse_gradient.
Print Assumptions C34_ce_gradient.
Print Assumptions C34_bce_gradient.
Print Assumptions C34_mse_forward_refuted.
Print Assumptions C34_soft_labels_refuted.

Example C34_ex : loss_args er_state er_h [10;11]%nat er_y [8;9]%nat 2 2 erH erY /\ one_hot 2 2 erY /\ in01 2 2 erH.
Proof. exact (conj er_args (conj er_onehot er_in01)). Qed.

(** ** C35 *)
Theorem C35_one_column (s : state RNum) yhat rs y rsy r (Yh Y : rpm) : loss_args s yhat rs y rsy r 1 Yh Y ->
  returns (Loss_Backward (MkLoss MAE 1) yhat y) s (fun m s' => exists rsm,
    fresh_mat s s' m rsm r 1 (mk (K := RNum) r 1 (fun i j => let d := (entry Yh i j - entry Y i j)%R in
      if Rlt_dec 0 d then 1%R else if Rlt_dec d 0 then (-1)%R else 0%R))).
Proof. exact (mae_gradient_one s yhat rs y rsy r Yh Y). Qed.
Theorem C35_more_columns (K : Num) (s : state K) yhat rs y rsy r c (Yh Y : pm K) : loss_args s yhat rs y rsy r c Yh Y -> (2 <= c)%nat ->
  returns (Loss_Backward (MkLoss MAE (Z.of_nat c)) yhat y) s (fun m s' => exists rsm, fresh_mat s s' m rsm r c (mk r c (fun _ _ => f0))).
Proof. exact (mae_gradient_many s yhat rs y rsy r c Yh Y). Qed.
Theorem C35_more_columns_refuted : exists (s : state RNum) yhat rs Yh y rsy Y,
  own s yhat rs 1 2 Yh /\ own s y rsy 1 2 Y /\ NoDup rs /\ disjoint rs rsy /\ (entry Yh 0 0 - entry Y 0 0 <> 0)%R /\
  returns (Loss_Backward (MkLoss MAE 2) yhat y) s (fun m s' => exists rsm D, fresh_mat s s' m rsm 1 2 D /\
    ~ is_derive (fun t => pmae 2 (put 1 2 Yh 0 0 t) Y) (entry Yh 0 0) (entry D 0 0) /\
    entry D 0 0 <> (sgn (entry Yh 0 0 - entry Y 0 0) / 2)%R).
Proof. exact mae_two_columns. Qed.
Print Assumptions C35_one_column.
Print Assumptions C35_more_columns.
Print Assumptions C35_more_columns_refuted.
Example C35_ex : loss_args (ls_state 3 (-1) 1 1) lm_yhat [1;2]%nat lm_y [3;4]%nat 2 1 [[3];[-1]]%R [[1];[1]]%R /\
  match Loss_Backward (MkLoss MAE 2) mA mB exs with (Ret m, s') => fst (Get m 1 1 s') = Ret (q 0) | _ => False end.
Proof.
  split; [|vm_compute; reflexivity]. split; [apply ls_yhat|]. split; [apply ls_y|]. split; [nd|]. split; [dj|lia].
Qed.

(** ** C36 *)
Theorem C36_mse_mae (s : state RNum) k yhat rs y rsy r c (Yh Y : rpm) : loss_args s yhat rs y rsy r c Yh Y -> k = MSE \/ k = MAE ->
  returns (Loss_Forward (MkLoss k (Z.of_nat c)) yhat y) s (fun v _ => (0 <= v)%R /\
    (v = 0%R <-> forall j, (j < c)%nat -> entry Yh 0 j = entry Y 0 j)).
Proof. exact (mse_mae_nonneg k s yhat rs y rsy r c Yh Y). Qed.
Theorem C36_cross_entropy (s : state RNum) yhat rs y rsy r c (Yh Y : rpm) : loss_args s yhat rs y rsy r c Yh Y ->
  one_hot r c Y -> (forall i j, (i < r)%nat -> (j < c)%nat -> entry Yh i j <> 0%R) ->
  returns (Loss_Forward (MkLoss CE (Z.of_nat c)) yhat y) s (fun v _ => (0 <= v)%R).
Proof. exact (ce_loss_nonneg s yhat rs y rsy r c Yh Y). Qed.
Theorem C36_binary_cross_entropy (s : state RNum) yhat rs y rsy r c (Yh Y : rpm) : loss_args s yhat rs y rsy r c Yh Y ->
  (forall i j, (i < r)%nat -> (j < c)%nat -> entry Yh i j <> 0%R /\ entry Yh i j <> 1%R) ->
  (forall i j, (i < r)%nat -> (j < c)%nat -> (0 <= entry Y i j <= 1)%R) ->
  returns (Loss_Forward (MkLoss BCE (Z.of_nat c)) yhat y) s (fun v _ => (0 <= v)%R).
Proof. exact (bce_loss_nonneg s yhat rs y rsy r c Yh Y). Qed.
Print Assumptions C36_mse_mae.
Print Assumptions C36_cross_entropy.
Print Assumptions C36_binary_cross_entropy.
Example C36_ex : loss_args er_state er_h [10;11]%nat er_y [8;9]%nat 2 2 erH erY /\ one_hot 2 2 erY /\
  (forall i j, (i < 2)%nat -> (j < 2)%nat -> entry erH i j <> 0%R /\ entry erH i j <> 1%R) /\
  (forall i j, (i < 2)%nat -> (j < 2)%nat -> (0 <= entry erY i j <= 1)%R).
Proof.
  split; [exact er_args|]. split; [exact er_onehot|]. split; intros i j Hi Hj.
  - destruct (er_in01 i j Hi Hj). lra.
  - destruct i as [|[|]]; [| |lia]; (destruct j as [|[|]]; [| |lia]); unfold entry; simpl; lra.
Qed.

(** ** C37 *)
Theorem C37_width_error (K : Num) (s : state K) l yhat y :
  (mcols yhat <> ls_size l ->
     Loss_Forward l yhat y s = (Fail (EMatDims (mrows yhat) (mcols yhat)), s) /\
     Loss_Backward l yhat y s = (Fail (EMatDims (mrows yhat) (mcols yhat)), s)) /\
  (mcols yhat = ls_size l -> mcols y <> ls_size l ->
     Loss_Forward l yhat y s = (Fail (EMatDims (mrows y) (mcols y)), s) /\
     Loss_Backward l yhat y s = (Fail (EMatDims (mrows y) (mcols y)), s)).
Proof. exact (Loss_width_error s l yhat y). Qed.
Theorem C37_rows_error (K : Num) (s : state K) l yhat y : ls_kind l = MSE \/ ls_kind l = MAE ->
  mcols yhat = ls_size l -> mcols y = ls_size l -> mrows yhat <> mrows y ->
  Loss_Forward l yhat y s = (Fail (EMatDims (mrows y) (mcols y)), s) /\
  Loss_Backward l yhat y s = (Fail (EMatDims (mrows y) (mcols y)), s).
Proof. exact (Loss_rows_error s l yhat y). Qed.
Theorem C37_forward_effect (K : Num) (s : state K) k yhat rs y rsy r c (Yh Y : pm K) : loss_args s yhat rs y rsy r c Yh Y ->
  returns (Loss_Forward (MkLoss k (Z.of_nat c)) yhat y) s (fun _ s' =>
    own s' yhat rs r c (match k with MSE | MAE => Yh | CE | BCE => mk r c (fun i j => clip1 (entry Yh i j)) end) /\
    own s' y rsy r c Y /\ frame (match k with MSE | MAE => nothing | CE | BCE => among rs end) s s').
Proof. exact (loss_forward_effect s k yhat rs y rsy r c Yh Y). Qed.
Theorem C37_backward_effect (K : Num) (s : state K) k yhat rs y rsy r c (Yh Y : pm K) : loss_args s yhat rs y rsy r c Yh Y ->
  returns (Loss_Backward (MkLoss k (Z.of_nat c)) yhat y) s (fun _ s' =>
    own s' yhat rs r c (match k with BCE => mk r c (fun i j => clip1 (entry Yh i j)) | _ => Yh end) /\
    own s' y rsy r c Y /\ frame (match k with BCE => among rs | _ => nothing end) s s').
Proof. exact (loss_backward_effect s k yhat rs y rsy r c Yh Y). Qed.
Theorem C37_few_labels_panic (K : Num) (s : state K) k yhat y rs rsy r ry c (Yh Y : pm K) : k = CE \/ k = BCE ->
  own s yhat rs r c Yh -> own s y rsy ry c Y -> NoDup rs -> disjoint rs rsy -> (1 <= r)%nat -> (1 <= c)%nat -> (ry < r)%nat ->
  (exists s', Loss_Forward (MkLoss k (Z.of_nat c)) yhat y s = (Panic PIndex, s')) /\
  (exists s', Loss_Backward (MkLoss k (Z.of_nat c)) yhat y s = (Panic PIndex, s')).
Proof. exact (few_labels_panic s k yhat y rs rsy r ry c Yh Y). Qed.
Print Assumptions C37_width_error.
Print Assumptions C37_rows_error.
Print Assumptions C37_forward_effect.
Print Assumptions C37_backward_effect.
Print Assumptions C37_few_labels_panic.
Example C37_ex : fst (Loss_Forward (MkLoss CE 3) mA mB exs) = Fail (EMatDims 2 2) /\
  fst (Loss_Backward (MkLoss MSE 2) mA mBias exs) = Fail (EMatDims 1 2) /\
  own exs mA [1;2]%nat 2 2 pA /\ own exs mBias [7]%nat 1 2 pBias /\ disjoint [1;2]%nat [7]%nat /\
  fst (Loss_Forward (MkLoss CE 2) mA mBias exs) = Panic PIndex.
Proof.
  split; [vm_compute; reflexivity|]. split; [vm_compute; reflexivity|]. split; [exact own_mA|]. split; [exact own_mBias|].
  split; [disj_tac|vm_compute; reflexivity].
Qed.
