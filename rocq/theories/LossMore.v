(** * LossMore: the loss lemmas in the shape of the property theorems. *)
From Coq Require Import String ZArith List Bool Arith Lia Reals Lra.
From Coquelicot Require Import Coquelicot.
From Verif Require Import Num NumR Heap Matrix Activation Network Loss Spec PureSpec Repr RSum HeapLemmas LoopLemmas
  MatrixProofs LayerProofs MatrixFacts MiscFacts LossProofs LossFacts GradSpec Grad LossReal LossCode.
Import ListNotations.
Open Scope Z_scope.

Section Generic.
Context {K : Num}.
Implicit Types s : state K.
Definition loss_args s yhat rs y rsy (r c : nat) (Yh Y : pm K) : Prop :=
  own s yhat rs r c Yh /\ own s y rsy r c Y /\ NoDup rs /\ disjoint rs rsy /\ (1 <= r)%nat /\ (1 <= c)%nat.
Lemma loss_forward s k yhat rs y rsy r c (Yh Y : pm K) : loss_args s yhat rs y rsy r c Yh Y ->
  returns (Loss_Forward (MkLoss k (Z.of_nat c)) yhat y) s (fun v s' => v = ploss k r c Yh Y /\
    own s' yhat rs r c (clipped (fwd_clips k) r c Yh) /\ own s' y rsy r c Y /\
    frame (clip_rows (fwd_clips k) rs) s s' /\ rest s s').
Proof.
  intros (H1 & H2 & H3 & H4 & H5 & H6). apply returns_wp. eapply wp_conseq; [eapply wp_Loss_Forward; eauto|].
  cbv beta. intros v s' (E & Ho & HF & HR). split; [exact E|]. split; [exact Ho|]. split; [|auto].
  eapply own_frame; [exact H2|exact HF|]. intros x Hx W. destruct (fwd_clips k); simpl in W; [|exact W]. exact (H4 x W Hx).
Qed.
Lemma loss_backward s k yhat rs y rsy r c (Yh Y : pm K) : loss_args s yhat rs y rsy r c Yh Y ->
  returns (Loss_Backward (MkLoss k (Z.of_nat c)) yhat y) s (fun m s' => (exists rsm, fresh_mat s s' m rsm r c (ploss_back k r c Yh Y)) /\
    own s' yhat rs r c (clipped (bwd_clips k) r c Yh) /\ own s' y rsy r c Y /\
    frame (clip_rows (bwd_clips k) rs) s s' /\ rest s s').
Proof.
  intros (H1 & H2 & H3 & H4 & H5 & H6). apply returns_wp. eapply wp_conseq; [eapply wp_Loss_Backward; eauto|].
  cbv beta. intros v s' (E & Ho & HF & HR). split; [exact E|]. split; [exact Ho|]. split; [|auto].
  eapply own_frame; [exact H2|exact HF|]. intros x Hx W. destruct (bwd_clips k); simpl in W; [|exact W]. exact (H4 x W Hx).
Qed.
Lemma loss_value s k yhat rs y rsy r c (Yh Y : pm K) : loss_args s yhat rs y rsy r c Yh Y ->
  returns (Loss_Forward (MkLoss k (Z.of_nat c)) yhat y) s (fun v _ => v = ploss k r c Yh Y).
Proof.
  intros H. destruct (loss_forward s k yhat rs y rsy r c Yh Y H) as (v & s' & E & Hv & _). now exists v, s'.
Qed.
Lemma loss_grad_value s k yhat rs y rsy r c (Yh Y : pm K) : loss_args s yhat rs y rsy r c Yh Y ->
  returns (Loss_Backward (MkLoss k (Z.of_nat c)) yhat y) s (fun m s' => exists rsm, fresh_mat s s' m rsm r c (ploss_back k r c Yh Y)).
Proof.
  intros H. destruct (loss_backward s k yhat rs y rsy r c Yh Y H) as (v & s' & E & Hv & _). now exists v, s'.
Qed.
Lemma loss_forward_effect s k yhat rs y rsy r c (Yh Y : pm K) : loss_args s yhat rs y rsy r c Yh Y ->
  returns (Loss_Forward (MkLoss k (Z.of_nat c)) yhat y) s (fun _ s' =>
    own s' yhat rs r c (match k with MSE | MAE => Yh | CE | BCE => mk r c (fun i j => clip1 (entry Yh i j)) end) /\
    own s' y rsy r c Y /\ frame (match k with MSE | MAE => nothing | CE | BCE => among rs end) s s').
Proof.
  intros H. destruct (loss_forward s k yhat rs y rsy r c Yh Y H) as (v & s' & E & _ & H1 & H2 & H3 & _). exists v, s'. split; [exact E|].
  destruct k; auto.
Qed.
Lemma loss_backward_effect s k yhat rs y rsy r c (Yh Y : pm K) : loss_args s yhat rs y rsy r c Yh Y ->
  returns (Loss_Backward (MkLoss k (Z.of_nat c)) yhat y) s (fun _ s' =>
    own s' yhat rs r c (match k with BCE => mk r c (fun i j => clip1 (entry Yh i j)) | _ => Yh end) /\
    own s' y rsy r c Y /\ frame (match k with BCE => among rs | _ => nothing end) s s').
Proof.
  intros H. destruct (loss_backward s k yhat rs y rsy r c Yh Y H) as (v & s' & E & _ & H1 & H2 & H3 & _). exists v, s'. split; [exact E|].
  destruct k; auto.
Qed.
End Generic.

Open Scope R_scope.
Lemma grad_of (k : losskind) (s : state RNum) yhat rs y rsy r c (Yh Y : rpm) L : loss_args s yhat rs y rsy r c Yh Y ->
  is_grad r c L Yh (ploss_back k r c Yh Y) ->
  returns (Loss_Backward (MkLoss k (Z.of_nat c)) yhat y) s (fun m s' => exists rsm D, fresh_mat s s' m rsm r c D /\ is_grad r c L Yh D).
Proof.
  intros H HG. destruct (loss_grad_value s k yhat rs y rsy r c Yh Y H) as (v & s' & E & rsm & Hv).
  exists v, s'. split; [exact E|]. eauto.
Qed.
Lemma nonneg_of (k : losskind) (s : state RNum) yhat rs y rsy r c (Yh Y : rpm) (P : R -> Prop) : loss_args s yhat rs y rsy r c Yh Y ->
  P (ploss k r c Yh Y) ->
  returns (Loss_Forward (MkLoss k (Z.of_nat c)) yhat y) s (fun v _ => P v).
Proof.
  intros H HP. destruct (loss_value s k yhat rs y rsy r c Yh Y H) as (v & s' & E & Hv).
  exists v, s'. split; [exact E|]. simpl in Hv. now rewrite Hv.
Qed.
Lemma mse_gradient (s : state RNum) yhat rs y rsy r c (Yh Y : rpm) : loss_args s yhat rs y rsy r c Yh Y ->
  returns (Loss_Backward (MkLoss MSE (Z.of_nat c)) yhat y) s (fun m s' => exists rsm D, fresh_mat s s' m rsm r c D /\
    is_grad r c (fun A => rsum r (fun i => rsum c (fun j => (entry A i j - entry Y i j) ^ 2) / INR c)) Yh D).
Proof. intros H. apply (grad_of MSE _ _ _ _ _ _ _ _ _ _ H). apply mse_grad. apply H. Qed.
Lemma ce_gradient (s : state RNum) yhat rs y rsy r c (Yh Y : rpm) : loss_args s yhat rs y rsy r c Yh Y ->
  one_hot r c Y -> in01 r c Yh ->
  returns (Loss_Backward (MkLoss CE (Z.of_nat c)) yhat y) s (fun m s' => exists rsm D, fresh_mat s s' m rsm r c D /\
    is_grad r c (fun A => pce r c A Y) Yh D).
Proof. intros H H1 H2. apply (grad_of CE _ _ _ _ _ _ _ _ _ _ H). apply ce_grad; auto. apply H. Qed.
Lemma bce_gradient (s : state RNum) yhat rs y rsy r c (Yh Y : rpm) : loss_args s yhat rs y rsy r c Yh Y ->
  in01 r c Yh ->
  returns (Loss_Backward (MkLoss BCE (Z.of_nat c)) yhat y) s (fun m s' => exists rsm D, fresh_mat s s' m rsm r c D /\
    is_grad r c (fun A => pbce r c A Y) Yh D).
Proof. intros H H1. apply (grad_of BCE _ _ _ _ _ _ _ _ _ _ H). apply bce_grad; auto; apply H. Qed.
Lemma mae_gradient_one (s : state RNum) yhat rs y rsy r (Yh Y : rpm) : loss_args s yhat rs y rsy r 1 Yh Y ->
  returns (Loss_Backward (MkLoss MAE 1) yhat y) s (fun m s' => exists rsm,
    fresh_mat s s' m rsm r 1 (mk (K := RNum) r 1 (fun i j => sgn (entry Yh i j - entry Y i j)))).
Proof.
  intros H. destruct (loss_grad_value s MAE yhat rs y rsy r 1 Yh Y H) as (v & s' & E & rsm & Hv).
  exists v, s'. split; [exact E|]. exists rsm. unfold ploss_back in Hv. now rewrite mae_back_one in Hv.
Qed.
Lemma mae_gradient_many {K : Num} (s : state K) yhat rs y rsy r c (Yh Y : pm K) : loss_args s yhat rs y rsy r c Yh Y -> (2 <= c)%nat ->
  returns (Loss_Backward (MkLoss MAE (Z.of_nat c)) yhat y) s (fun m s' => exists rsm, fresh_mat s s' m rsm r c (mk r c (fun _ _ => f0))).
Proof.
  intros H Hc. destruct (loss_grad_value s MAE yhat rs y rsy r c Yh Y H) as (v & s' & E & rsm & Hv).
  exists v, s'. split; [exact E|]. exists rsm. unfold ploss_back in Hv. now rewrite mae_back_zero in Hv.
Qed.
Lemma mse_mae_nonneg k (s : state RNum) yhat rs y rsy r c (Yh Y : rpm) : loss_args s yhat rs y rsy r c Yh Y -> k = MSE \/ k = MAE ->
  returns (Loss_Forward (MkLoss k (Z.of_nat c)) yhat y) s (fun v _ => 0 <= v /\ (v = 0 <-> forall j, (j < c)%nat -> entry Yh 0 j = entry Y 0 j)).
Proof.
  intros H Hk. assert (Hc : (1 <= c)%nat) by apply H. apply (nonneg_of k _ _ _ _ _ _ _ _ _ (fun v => 0 <= v /\ (v = 0 <-> forall j, (j < c)%nat -> entry Yh 0 j = entry Y 0 j)) H).
  destruct Hk as [-> | ->]; [apply (mse_nonneg c Yh Y Hc)|apply (mae_nonneg c Yh Y Hc)].
Qed.
Lemma ce_loss_nonneg (s : state RNum) yhat rs y rsy r c (Yh Y : rpm) : loss_args s yhat rs y rsy r c Yh Y ->
  one_hot r c Y -> (forall i j, (i < r)%nat -> (j < c)%nat -> entry Yh i j <> 0) ->
  returns (Loss_Forward (MkLoss CE (Z.of_nat c)) yhat y) s (fun v _ => 0 <= v).
Proof. intros H H1 H2. apply (nonneg_of CE _ _ _ _ _ _ _ _ _ (fun v => 0 <= v) H). apply ce_nonneg; auto. apply H. Qed.
Lemma bce_loss_nonneg (s : state RNum) yhat rs y rsy r c (Yh Y : rpm) : loss_args s yhat rs y rsy r c Yh Y ->
  (forall i j, (i < r)%nat -> (j < c)%nat -> entry Yh i j <> 0 /\ entry Yh i j <> 1) ->
  (forall i j, (i < r)%nat -> (j < c)%nat -> 0 <= entry Y i j <= 1) ->
  returns (Loss_Forward (MkLoss BCE (Z.of_nat c)) yhat y) s (fun v _ => 0 <= v).
Proof. intros H H1 H2. apply (nonneg_of BCE _ _ _ _ _ _ _ _ _ (fun v => 0 <= v) H). apply bce_nonneg; auto; apply H. Qed.
Lemma loss_exact (s : state RNum) yhat rs y rsy r c (Yh Y : rpm) : loss_args s yhat rs y rsy r c Yh Y ->
  (forall i j, (i < r)%nat -> (j < c)%nat -> 0 <= entry Yh i j <= 1) ->
  returns (Loss_Forward (MkLoss CE (Z.of_nat c)) yhat y) s (fun v _ =>
    v = rsum r (fun i => - ln (rsum c (fun j => entry Yh i j * entry Y i j))) / INR r) /\
  returns (Loss_Forward (MkLoss BCE (Z.of_nat c)) yhat y) s (fun v _ =>
    v = rsum r (fun i => rsum c (fun j => - (entry Y i j * ln (entry Yh i j) + (1 - entry Y i j) * ln (1 - entry Yh i j)))) / (INR r * INR c)).
Proof.
  intros H H1. assert (Hr : (1 <= r)%nat) by apply H. assert (Hc : (1 <= c)%nat) by apply H.
  split; [apply (nonneg_of CE _ _ _ _ _ _ _ _ _ (fun v => v = rsum r (fun i => - ln (rsum c (fun j => entry Yh i j * entry Y i j))) / INR r) H)|
    apply (nonneg_of BCE _ _ _ _ _ _ _ _ _ (fun v => v = rsum r (fun i => rsum c (fun j => - (entry Y i j * ln (entry Yh i j) + (1 - entry Y i j) * ln (1 - entry Yh i j)))) / (INR r * INR c)) H)]; unfold ploss.
  - rewrite R_pce, rsum_div. f_equal. apply rsum_ext. intros i Hi. f_equal. f_equal. apply rsum_ext. intros j Hj. now rewrite clipR_id by auto.
  - rewrite R_pbce. pose proof (INR_pos r Hr). pose proof (INR_pos c Hc). rewrite <- rsum_div. apply rsum_ext. intros i Hi.
    rewrite <- rsum_div. apply rsum_ext. intros j Hj. rewrite clipR_id by auto. field. split; lra.
Qed.
