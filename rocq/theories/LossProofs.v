(** * LossProofs: loss.go. *)
From Coq Require Import String ZArith List Bool Arith Lia ZifyBool.
From Verif Require Import Num Heap Matrix Loss Spec PureSpec Repr HeapLemmas LoopLemmas MatrixProofs MatrixFacts.
Import ListNotations.
Open Scope Z_scope.
Open Scope go_scope.

(** The loss object's plain value and gradient. *)
Section WithNum.
Context {K : Num}.
Implicit Types s : state K.

Definition ploss (k : losskind) (r c : nat) (Yh Y : pm K) : K :=
  match k with MSE => pmse c Yh Y | MAE => pmae c Yh Y | CE => pce r c Yh Y | BCE => pbce r c Yh Y end.
Definition ploss_back (k : losskind) (r c : nat) (Yh Y : pm K) : pm K :=
  match k with MSE => pmse_back r c Yh Y | MAE => pmae_back r c Yh Y | CE => pce_loss_back r c Yh Y | BCE => pbce_back r c Yh Y end.
(** Does the forward / backward pass clip the prediction in place? *)
Definition fwd_clips (k : losskind) : bool := match k with CE | BCE => true | _ => false end.
Definition bwd_clips (k : losskind) : bool := match k with BCE => true | _ => false end.
Definition clipped (b : bool) (r c : nat) (Yh : pm K) : pm K := if b then pmap r c clip1 Yh else Yh.
Definition clip_rows (b : bool) (rs : list nat) : nat -> Prop := if b then among rs else nothing.

Lemma NewLoss_ok s k size : 1 <= size -> NewLoss (K := K) k size s = (Ret (MkLoss k size), s).
Proof. intros H. unfold NewLoss. replace (size <? 1) with false by lia. reflexivity. Qed.
Lemma NewLoss_err s k size : size < 1 -> NewLoss (K := K) k size s = (Fail (ELossSize size), s).
Proof. intros H. unfold NewLoss. replace (size <? 1) with true by lia. reflexivity. Qed.

Lemma check_cols_ok s size yhat y : mcols yhat = size -> mcols y = size -> check_cols (K := K) size yhat y s = (Ret tt, s).
Proof. intros H1 H2. unfold check_cols. rewrite H1, H2, Z.eqb_refl. reflexivity. Qed.
Lemma check_cols_err s size yhat y :
  (mcols yhat <> size -> check_cols (K := K) size yhat y s = (Fail (EMatDims (mrows yhat) (mcols yhat)), s)) /\
  (mcols yhat = size -> mcols y <> size -> check_cols (K := K) size yhat y s = (Fail (EMatDims (mrows y) (mcols y)), s)).
Proof.
  unfold check_cols. split.
  - intros H. replace (mcols yhat =? size) with false by lia. reflexivity.
  - intros H1 H2. replace (mcols yhat =? size) with true by lia. replace (mcols y =? size) with false by lia. reflexivity.
Qed.
Lemma Loss_width_error s l yhat y :
  (mcols yhat <> ls_size l ->
     Loss_Forward (K := K) l yhat y s = (Fail (EMatDims (mrows yhat) (mcols yhat)), s) /\
     Loss_Backward (K := K) l yhat y s = (Fail (EMatDims (mrows yhat) (mcols yhat)), s)) /\
  (mcols yhat = ls_size l -> mcols y <> ls_size l ->
     Loss_Forward (K := K) l yhat y s = (Fail (EMatDims (mrows y) (mcols y)), s) /\
     Loss_Backward (K := K) l yhat y s = (Fail (EMatDims (mrows y) (mcols y)), s)).
Proof.
  destruct (check_cols_err s (ls_size l) yhat y) as [H1 H2]. unfold Loss_Forward, Loss_Backward. split.
  - intros H. specialize (H1 H). destruct (ls_kind l); split; unfold MSE_Forward, MSE_Backward, MAE_Forward, MAE_Backward, CE_Forward, CE_Backward, BCE_Forward, BCE_Backward; now apply bind_fail.
  - intros H H'. specialize (H2 H H'). destruct (ls_kind l); split; unfold MSE_Forward, MSE_Backward, MAE_Forward, MAE_Backward, CE_Forward, CE_Backward, BCE_Forward, BCE_Backward; now apply bind_fail.
Qed.
Lemma Loss_rows_error s l yhat y : ls_kind l = MSE \/ ls_kind l = MAE ->
  mcols yhat = ls_size l -> mcols y = ls_size l -> mrows yhat <> mrows y ->
     Loss_Forward (K := K) l yhat y s = (Fail (EMatDims (mrows y) (mcols y)), s) /\
     Loss_Backward (K := K) l yhat y s = (Fail (EMatDims (mrows y) (mcols y)), s).
Proof.
  intros Hk H1 H2 H3. pose proof (check_cols_ok s _ _ _ H1 H2) as E. pose proof (Sub_err s yhat y (or_introl H3)) as E2.
  unfold Loss_Forward, Loss_Backward. destruct Hk as [-> | ->]; split; unfold MSE_Forward, MSE_Backward, MAE_Forward, MAE_Backward;
    rewrite (bind_eq _ _ _ _ _ E); now apply bind_fail.
Qed.

(** Rewriting row 0 of a fresh matrix. *)
Lemma wp_row0 s0 s m rs r c A (f : K -> K) : fresh_mat s0 s m rs r c A -> ext s0 s -> (1 <= r)%nat ->
  wp (for_ (mcols m) (fun i => v <- getc m 0 i ;; setc m 0 i (f v))) s (fun _ s' =>
    fresh_mat s0 s' m rs r c (mk r c (fun i j => if (i =? 0)%nat then f (entry A i j) else entry A i j)) /\ ext s0 s').
Proof.
  intros HM HE Hr. assert (HO : own s m rs r c A) by apply HM. assert (HS := own_shape _ _ _ _ _ _ HO).
  rewrite (own_cols _ _ _ _ _ _ HO).
  apply wp_for with (I := fun n s1 => fresh_mat s0 s1 m rs r c (mk r c (fun i j => if ((i =? 0) && (j <? n))%nat then f (entry A i j) else entry A i j)) /\ ext s0 s1).
  - split; [|exact HE].
    refine (eq_ind A (fun B => fresh_mat s0 s m rs r c B) HM _ _). symmetry. transitivity (mk r c (entry A)); [|now apply mk_entry].
    apply mk_ext. intros i j Hi Hj. destruct (i =? 0)%nat; reflexivity.
  - intros j s1 Hj (HM1 & HE1). assert (HO1 := proj1 HM1).
    pose proof (getc_own _ _ _ _ _ _ 0 j HO1 Hr Hj) as G. rewrite entry_mk in G by auto.
    replace (if ((0 =? 0) && (j <? j))%nat then f (entry A 0 j) else entry A 0 j) with (entry A 0 j) in G by (rewrite Nat.ltb_irrefl; reflexivity).
    unfold wp. rewrite (bind_eq _ _ _ _ _ G).
    pose proof (wp_setc_ext s0 s1 m rs r c _ 0 j (f (entry A 0 j)) HM1 HE1 Hr Hj) as HW.
    eapply wp_conseq; [exact HW|]. cbv beta. intros _ s2 (HM2 & HE2). split; [|exact HE2].
    refine (eq_ind _ (fun B => fresh_mat s0 s2 m rs r c B) HM2 _ _).
    rewrite pset_as_mk with (r := r) (c := c) by (auto using shape_mk).
    apply mk_ext. intros a b Ha Hb. rewrite entry_mk by auto.
    destruct (Nat.eqb_spec a 0) as [->|Ha0]; cbn [andb]; [|reflexivity].
    destruct (Nat.eqb_spec b j) as [->|Hbj].
    + replace (j <? S j)%nat with true by lia. reflexivity.
    + replace (b <? S j)%nat with (b <? j)%nat by lia. reflexivity.
  - intros s1 (HM1 & HE1). split; [|exact HE1].
    refine (eq_ind _ (fun B => fresh_mat s0 s1 m rs r c B) HM1 _ _). apply mk_ext. intros i j Hi Hj.
    replace (j <? c)%nat with true by lia. now rewrite andb_true_r.
Qed.

Lemma wp_first_row s (f : K -> K) size yhat y rs rsy r c (Yh Y : pm K) :
  size = Z.of_nat c -> own s yhat rs r c Yh -> own s y rsy r c Y -> (1 <= r)%nat -> (1 <= c)%nat ->
  wp (check_cols size yhat y ;; sub <- Sub yhat y ;;
      for_ (mcols sub) (fun i => v <- getc sub 0 i ;; setc sub 0 i (f v)) ;;
      sums <- Sum sub 1 ;; t <- getc sums 0 0 ;; ret (fdiv t (ofZ (mcols sub)))) s
    (fun v s' => v = fdiv (fsum c (fun j => f (fsub (entry Yh 0 j) (entry Y 0 j)))) (ofZ (Z.of_nat c)) /\ ext s s').
Proof.
  intros -> HA HB Hr Hc. unfold wp.
  rewrite (bind_eq _ _ _ _ _ (check_cols_ok s _ _ _ (own_cols _ _ _ _ _ _ HA) (own_cols _ _ _ _ _ _ HB))).
  apply wp_bind. eapply wp_conseq; [eapply wp_Sub; eauto|]. cbv beta. intros sub s1 (rss & HM & HE).
  apply wp_bind. eapply wp_conseq; [eapply (wp_row0 s s1); eauto|]. cbv beta. intros _ s2 (HM2 & HE2).
  assert (HO2 := proj1 HM2). apply wp_bind. eapply wp_conseq; [eapply wp_Sum1; eauto|]. cbv beta. intros sums s3 (rs3 & HM3 & HE3).
  unfold wp. pose proof (getc_own _ _ _ _ _ _ 0 0 (proj1 HM3) (le_n 1) Hr) as G.
  rewrite (bind_eq _ _ _ _ _ G). apply (wp_ret _ s3). split; [|eapply ext_trans; eauto].
  rewrite (own_cols _ _ _ _ _ _ HO2). f_equal. unfold psum1. rewrite entry_mk by lia.
  apply fsum_ext. intros j Hj. rewrite entry_mk by auto. simpl. unfold pmap2. now rewrite entry_mk by auto.
Qed.
Lemma wp_MSE_Forward s yhat y rs rsy r c (Yh Y : pm K) :
  own s yhat rs r c Yh -> own s y rsy r c Y -> (1 <= r)%nat -> (1 <= c)%nat ->
  wp (MSE_Forward (Z.of_nat c) yhat y) s (fun v s' => v = pmse c Yh Y /\ ext s s').
Proof. intros. exact (wp_first_row s (fun v => fpow v (ofZ 2)) _ yhat y rs rsy r c Yh Y eq_refl H H0 H1 H2). Qed.
Lemma wp_MAE_Forward s yhat y rs rsy r c (Yh Y : pm K) :
  own s yhat rs r c Yh -> own s y rsy r c Y -> (1 <= r)%nat -> (1 <= c)%nat ->
  wp (MAE_Forward (Z.of_nat c) yhat y) s (fun v s' => v = pmae c Yh Y /\ ext s s').
Proof. intros. exact (wp_first_row s fabs _ yhat y rs rsy r c Yh Y eq_refl H H0 H1 H2). Qed.

Lemma wp_MSE_Backward s yhat y rs rsy r c (Yh Y : pm K) :
  own s yhat rs r c Yh -> own s y rsy r c Y -> (1 <= r)%nat -> (1 <= c)%nat ->
  wp (MSE_Backward (Z.of_nat c) yhat y) s (fresh_result s r c (pmse_back r c Yh Y)).
Proof.
  intros HA HB Hr Hc. unfold MSE_Backward, wp.
  rewrite (bind_eq _ _ _ _ _ (check_cols_ok s _ _ _ (own_cols _ _ _ _ _ _ HA) (own_cols _ _ _ _ _ _ HB))).
  apply wp_bind. eapply wp_conseq; [eapply wp_Sub; eauto|]. cbv beta. intros sub s1 (rss & HM & HE).
  eapply wp_conseq; [eapply wp_MulScalar; [apply HM|auto|auto]|]. cbv beta. intros m s2 H.
  eapply fresh_result_trans; [exact HE|].
  refine (eq_ind _ (fun B => fresh_result s1 r c B m s2) H _ _).
  unfold pmap, pmse_back. apply mk_ext. intros i j Hi Hj. unfold pmap2. now rewrite entry_mk by auto.
Qed.
(** Rewriting every cell of a fresh matrix. *)
Lemma wp_fresh_cells s0 s m rs r c A (f : nat -> nat -> K) body : fresh_mat s0 s m rs r c A -> ext s0 s ->
  (forall i j s1 A1, (i < r)%nat -> (j < c)%nat -> own s1 m rs r c A1 -> ext s0 s1 -> entry A1 i j = entry A i j ->
     exists v, v = f i j /\ body (Z.of_nat i) (Z.of_nat j) s1 = setc m (Z.of_nat i) (Z.of_nat j) v s1) ->
  wp (each_cell (mrows m) (mcols m) body) s (fun _ s' => fresh_mat s0 s' m rs r c (mk r c f) /\ ext s0 s').
Proof.
  intros HM HE Hb. assert (HO : own s m rs r c A) by apply HM.
  rewrite (own_rows _ _ _ _ _ _ HO), (own_cols _ _ _ _ _ _ HO).
  apply wp_each_cell with (I := fun i j s1 => fresh_mat s0 s1 m rs r c (merge r c f A i j) /\ ext s0 s1).
  - rewrite merge_0 by (eapply own_shape; eauto). auto.
  - intros i j s1 Hi Hj (HM1 & HE1). destruct (Hb i j s1 _ Hi Hj (proj1 HM1) HE1 (entry_merge r c f A i j Hi Hj)) as (v & -> & E).
    unfold wp. rewrite E. rewrite <- merge_step by auto. eapply wp_setc_ext; eauto.
  - intros i s1 Hi H. now rewrite <- merge_row.
  - intros s1 [H HE1]. rewrite merge_end in H. auto.
Qed.
Lemma wp_MAE_Backward s yhat y rs rsy r c (Yh Y : pm K) :
  own s yhat rs r c Yh -> own s y rsy r c Y -> (1 <= r)%nat -> (1 <= c)%nat ->
  wp (MAE_Backward (Z.of_nat c) yhat y) s (fresh_result s r c (pmae_back r c Yh Y)).
Proof.
  intros HA HB Hr Hc. unfold MAE_Backward, wp.
  rewrite (bind_eq _ _ _ _ _ (check_cols_ok s _ _ _ (own_cols _ _ _ _ _ _ HA) (own_cols _ _ _ _ _ _ HB))).
  apply wp_bind. eapply wp_conseq; [eapply wp_Sub; eauto|]. cbv beta. intros sub s1 (rss & HM & HE).
  apply wp_bind. eapply wp_conseq.
  { eapply (wp_fresh_cells s s1 sub rss r c _ (fun i j => let d := fsub (entry Yh i j) (entry Y i j) in
    if flt f0 d then ofZ (Z.quot 1 (Z.of_nat c)) else if flt d f0 then ofZ (Z.quot (-1) (Z.of_nat c)) else f0)); [exact HM|exact HE|].
    intros i j s2 A2 Hi Hj HO2 HE2 E2. eexists. split; [reflexivity|].
    pose proof (getc_own _ _ _ _ _ _ i j HO2 Hi Hj) as G. rewrite (bind_eq _ _ _ _ _ G). rewrite E2.
    unfold pmap2. rewrite entry_mk by auto. rewrite (own_cols _ _ _ _ _ _ HO2). cbv zeta.
    destruct (flt f0 (fsub (entry Yh i j) (entry Y i j))); [reflexivity|]. destruct (flt (fsub (entry Yh i j) (entry Y i j)) f0); reflexivity. }
  cbv beta. intros _ s2 (HM2 & HE2). apply wp_ret. exists rss. split; [exact HM2|exact HE2].
Qed.
Lemma wp_CE_Backward s yhat y rs rsy r ry c (Yh Y : pm K) :
  own s yhat rs r c Yh -> own s y rsy ry c Y -> (r <= ry)%nat -> (1 <= r)%nat -> (1 <= c)%nat ->
  wp (CE_Backward (Z.of_nat c) yhat y) s (fresh_result s r c (pce_loss_back r c Yh Y)).
Proof.
  intros HA HB Hry Hr Hc. unfold CE_Backward, wp.
  rewrite (bind_eq _ _ _ _ _ (check_cols_ok s _ _ _ (own_cols _ _ _ _ _ _ HA) (own_cols _ _ _ _ _ _ HB))).
  rewrite (own_rows _ _ _ _ _ _ HA), (own_cols _ _ _ _ _ _ HA).
  apply wp_bind. apply wp_NewMatrix_; auto. intros m rsm s1 HM HE.
  apply wp_bind. eapply wp_conseq.
  { eapply (wp_fresh_cells s s1 m rsm r c _ (fun i j => fdiv (fdiv (fneg (entry Y i j)) (entry Yh i j)) (ofZ (Z.of_nat r)))); [exact HM|exact HE|].
    intros i j s2 A2 Hi Hj HO2 HE2 E2. eexists. split; [reflexivity|].
    rewrite (bind_eq _ _ _ _ _ (getc_own _ _ _ _ _ _ i j (own_ext _ _ _ _ _ _ _ HB HE2) (Nat.lt_le_trans _ _ _ Hi Hry) Hj)).
    rewrite (bind_eq _ _ _ _ _ (getc_own _ _ _ _ _ _ i j (own_ext _ _ _ _ _ _ _ HA HE2) Hi Hj)). reflexivity. }
  cbv beta. intros _ s2 (HM2 & HE2). apply wp_ret. exists rsm. split; [exact HM2|exact HE2].
Qed.

(** Reading after the in-place clip. *)
Lemma clip_then {X} s yhat y rs rsy r ry c (Yh Y : pm K) (k : matrix -> M K X) (Q : X -> state K -> Prop) :
  own s yhat rs r c Yh -> own s y rsy ry c Y -> NoDup rs -> disjoint rs rsy ->
  (forall s1, own s1 yhat rs r c (pmap r c clip1 Yh) -> own s1 y rsy ry c Y -> frame (among rs) s s1 -> rest s s1 -> wp (k yhat) s1 Q) ->
  wp (x <- Clip yhat ;; k x) s Q.
Proof.
  intros HA HB HND HD Hk. apply wp_bind. eapply wp_conseq; [eapply wp_Clip; eauto|].
  cbv beta. intros m s1 (-> & HO & HF & HR). apply Hk; auto.
  eapply own_frame; eauto. intros x Hx Hin. exact (HD x Hin Hx).
Qed.
Lemma frame_ext_after W s s1 s2 : frame W s s1 -> rest s s1 -> ext s1 s2 -> frame W s s2 /\ rest s s2.
Proof.
  intros HF HR (HF2 & HR2). split; [|eapply rest_trans; eauto].
  eapply frame_trans; eauto. intros x _ [H|[]]; exact H.
Qed.
(** Filling a fresh column vector. *)
Lemma wp_fill_col s0 s m rs r A (f : nat -> K) body : fresh_mat s0 s m rs r 1 A -> ext s0 s ->
  (forall i s1, (i < r)%nat -> ext s0 s1 -> body (Z.of_nat i) s1 = setc m (Z.of_nat i) 0 (f i) s1) ->
  wp (for_ (Z.of_nat r) body) s (fun _ s' => fresh_mat s0 s' m rs r 1 (mk r 1 (fun i _ => f i)) /\ ext s0 s').
Proof.
  intros HM HE Hb. assert (HO : own s m rs r 1 A) by apply HM.
  apply wp_for with (I := fun i s1 => fresh_mat s0 s1 m rs r 1 (merge r 1 (fun i _ => f i) A i 0) /\ ext s0 s1).
  - rewrite merge_0 by (eapply own_shape; eauto). auto.
  - intros i s1 Hi (HM1 & HE1). unfold wp. rewrite Hb by auto. rewrite <- merge_row.
    rewrite <- (merge_step r 1 (fun i _ => f i) A i 0) by lia. eapply (wp_setc_ext s0 s1 m rs r 1 _ i 0); eauto.
  - intros s1 [H HE1]. rewrite merge_end in H. auto.
Qed.
Lemma fold_fsum (n : nat) (g : nat -> K) : fold_left (fun a i => fadd a (g i)) (seq 0 n) f0 = fsum n g.
Proof. reflexivity. Qed.
Lemma wp_CE_Forward s yhat y rs rsy r ry c (Yh Y : pm K) :
  own s yhat rs r c Yh -> own s y rsy ry c Y -> NoDup rs -> disjoint rs rsy -> (r <= ry)%nat -> (1 <= r)%nat -> (1 <= c)%nat ->
  wp (CE_Forward (Z.of_nat c) yhat y) s (fun v s' => v = pce r c Yh Y /\
    own s' yhat rs r c (pmap r c clip1 Yh) /\ frame (among rs) s s' /\ rest s s').
Proof.
  intros HA HB HND HD Hry Hr Hc. unfold CE_Forward, wp.
  rewrite (bind_eq _ _ _ _ _ (check_cols_ok s _ _ _ (own_cols _ _ _ _ _ _ HA) (own_cols _ _ _ _ _ _ HB))).
  apply (clip_then s yhat y rs rsy r ry c Yh Y); auto. intros s1 HA1 HB1 HF1 HR1.
  rewrite (own_rows _ _ _ _ _ _ HA), (own_cols _ _ _ _ _ _ HA).
  apply wp_bind. apply (wp_NewMatrix_ s1 r 1); auto. intros m rsm s2 HM HE.
  apply wp_bind. eapply wp_conseq.
  { eapply (wp_fill_col s1 s2 m rsm r _ (fun i => fneg (flog (fsum c (fun j => fmul (clip1 (entry Yh i j)) (entry Y i j)))))); [exact HM|exact HE|].
    intros i s3 Hi HE3. rewrite (bind_eq _ _ _ (fsum c (fun j => fmul (clip1 (entry Yh i j)) (entry Y i j))) s3); [reflexivity|].
    refine (for_acc_read c _ (fun j a => fadd a (fmul (clip1 (entry Yh i j)) (entry Y i j))) s3 f0 _).
    intros j a Hj.
    rewrite (bind_eq _ _ _ _ _ (getc_own _ _ _ _ _ _ i j (own_ext _ _ _ _ _ _ _ HA1 HE3) Hi Hj)).
    rewrite (bind_eq _ _ _ _ _ (getc_own _ _ _ _ _ _ i j (own_ext _ _ _ _ _ _ _ HB1 HE3) (Nat.lt_le_trans _ _ _ Hi Hry) Hj)).
    unfold pmap. rewrite entry_mk by auto. reflexivity. }
  cbv beta. intros _ s3 (HM3 & HE3). rewrite (own_rows _ _ _ _ _ _ (proj1 HM3)).
  set (g := fun i => fneg (flog (fsum c (fun j => fmul (clip1 (entry Yh i j)) (entry Y i j))))) in *.
  assert (E : for_acc (Z.of_nat r) (fun i sum => v <- getc m i 0 ;; ret (fadd sum (fdiv v (ofZ (Z.of_nat r))))) f0 s3 = (Ret (pce r c Yh Y), s3)).
  { refine (for_acc_read r _ (fun i a => fadd a (fdiv (g i) (ofZ (Z.of_nat r)))) s3 f0 _). intros i a Hi.
    pose proof (getc_own _ _ _ _ _ _ i 0 (proj1 HM3) Hi (le_n 1)) as G. rewrite entry_mk in G by auto.
    rewrite (bind_eq _ _ _ _ _ G). reflexivity. }
  unfold wp. rewrite E. split; [reflexivity|]. split; [exact (own_ext _ _ _ _ _ _ _ HA1 HE3)|].
  exact (frame_ext_after _ _ _ _ HF1 HR1 HE3).
Qed.
Lemma wp_BCE_Forward s yhat y rs rsy r ry c (Yh Y : pm K) :
  own s yhat rs r c Yh -> own s y rsy ry c Y -> NoDup rs -> disjoint rs rsy -> (r <= ry)%nat -> (1 <= r)%nat -> (1 <= c)%nat ->
  wp (BCE_Forward (Z.of_nat c) yhat y) s (fun v s' => v = pbce r c Yh Y /\
    own s' yhat rs r c (pmap r c clip1 Yh) /\ frame (among rs) s s' /\ rest s s').
Proof.
  intros HA HB HND HD Hry Hr Hc. unfold BCE_Forward, wp.
  rewrite (bind_eq _ _ _ _ _ (check_cols_ok s _ _ _ (own_cols _ _ _ _ _ _ HA) (own_cols _ _ _ _ _ _ HB))).
  apply (clip_then s yhat y rs rsy r ry c Yh Y); auto. intros s1 HA1 HB1 HF1 HR1.
  rewrite (own_rows _ _ _ _ _ _ HA), (own_cols _ _ _ _ _ _ HA).
  set (g := fun i j => fdiv (fdiv (bce1 (entry Y i j) (clip1 (entry Yh i j))) (ofZ (Z.of_nat r))) (ofZ (Z.of_nat c))).
  match goal with |- wp ?m _ _ => assert (E : m s1 = (Ret (pbce r c Yh Y), s1)) end.
  { refine (for_acc_read r _ (fun i a => fold_left (fun a j => fadd a (g i j)) (seq 0 c) a) s1 f0 _). intros i a Hi.
    refine (for_acc_read c _ (fun j a => fadd a (g i j)) s1 a _). intros j b Hj.
    rewrite (bind_eq _ _ _ _ _ (getc_own _ _ _ _ _ _ i j HB1 (Nat.lt_le_trans _ _ _ Hi Hry) Hj)).
    rewrite (bind_eq _ _ _ _ _ (getc_own _ _ _ _ _ _ i j HA1 Hi Hj)). unfold pmap. rewrite entry_mk by auto. reflexivity. }
  unfold wp. rewrite E. split; [reflexivity|]. split; [exact HA1|]. split; [exact HF1|exact HR1].
Qed.
Lemma wp_BCE_Backward s yhat y rs rsy r ry c (Yh Y : pm K) :
  own s yhat rs r c Yh -> own s y rsy ry c Y -> NoDup rs -> disjoint rs rsy -> (r <= ry)%nat -> (1 <= r)%nat -> (1 <= c)%nat ->
  wp (BCE_Backward (Z.of_nat c) yhat y) s (fun m s' => (exists rsm, fresh_mat s s' m rsm r c (pbce_back r c Yh Y)) /\
    own s' yhat rs r c (pmap r c clip1 Yh) /\ frame (among rs) s s' /\ rest s s').
Proof.
  intros HA HB HND HD Hry Hr Hc. unfold BCE_Backward, wp.
  rewrite (bind_eq _ _ _ _ _ (check_cols_ok s _ _ _ (own_cols _ _ _ _ _ _ HA) (own_cols _ _ _ _ _ _ HB))).
  apply (clip_then s yhat y rs rsy r ry c Yh Y); auto. intros s1 HA1 HB1 HF1 HR1.
  rewrite (own_rows _ _ _ _ _ _ HA), (own_cols _ _ _ _ _ _ HA).
  apply wp_bind. apply (wp_NewMatrix_ s1 r c); auto. intros m rsm s2 HM HE.
  apply wp_bind. eapply wp_conseq.
  { eapply (wp_fresh_cells s1 s2 m rsm r c _ (fun i j => let p := clip1 (entry Yh i j) in let y := entry Y i j in
      fdiv (fdiv (fneg (fsub (fdiv y p) (fdiv (fsub f1 y) (fsub f1 p)))) (ofZ (Z.of_nat c))) (ofZ (Z.of_nat r)))); [exact HM|exact HE|].
    intros i j s3 A2 Hi Hj HO2 HE2 E2. eexists. split; [reflexivity|].
    rewrite (bind_eq _ _ _ _ _ (getc_own _ _ _ _ _ _ i j (own_ext _ _ _ _ _ _ _ HB1 HE2) (Nat.lt_le_trans _ _ _ Hi Hry) Hj)).
    rewrite (bind_eq _ _ _ _ _ (getc_own _ _ _ _ _ _ i j (own_ext _ _ _ _ _ _ _ HA1 HE2) Hi Hj)).
    unfold pmap. rewrite entry_mk by auto. reflexivity. }
  cbv beta. intros _ s3 (HM3 & HE3). apply wp_ret. split; [|split; [exact (own_ext _ _ _ _ _ _ _ HA1 HE3)|exact (frame_ext_after _ _ _ _ HF1 HR1 HE3)]].
  exists rsm. destruct HM3 as (H1 & H2 & H3 & H4). split; [exact H1|]. split; [|split; [exact H3|]].
  - eapply fresh_mono; [|exact H2]. eapply frame_nrows; eauto.
  - pose proof (frame_nouts _ _ _ HF1). lia.
Qed.

(** ** All losses at once *)
Lemma wp_Loss_Forward s k yhat y rs rsy r c (Yh Y : pm K) :
  own s yhat rs r c Yh -> own s y rsy r c Y -> NoDup rs -> disjoint rs rsy -> (1 <= r)%nat -> (1 <= c)%nat ->
  wp (Loss_Forward (MkLoss k (Z.of_nat c)) yhat y) s (fun v s' => v = ploss k r c Yh Y /\
    own s' yhat rs r c (clipped (fwd_clips k) r c Yh) /\ frame (clip_rows (fwd_clips k) rs) s s' /\ rest s s').
Proof.
  intros HA HB HND HD Hr Hc. unfold Loss_Forward. destruct k; simpl.
  - eapply wp_conseq; [eapply wp_MSE_Forward; eauto|]. cbv beta. intros v s' (-> & HE). split; [reflexivity|]. split; [exact (own_ext _ _ _ _ _ _ _ HA HE)|exact HE].
  - eapply wp_conseq; [eapply wp_MAE_Forward; eauto|]. cbv beta. intros v s' (-> & HE). split; [reflexivity|]. split; [exact (own_ext _ _ _ _ _ _ _ HA HE)|exact HE].
  - eapply wp_CE_Forward; eauto.
  - eapply wp_BCE_Forward; eauto.
Qed.
Lemma wp_Loss_Backward s k yhat y rs rsy r c (Yh Y : pm K) :
  own s yhat rs r c Yh -> own s y rsy r c Y -> NoDup rs -> disjoint rs rsy -> (1 <= r)%nat -> (1 <= c)%nat ->
  wp (Loss_Backward (MkLoss k (Z.of_nat c)) yhat y) s (fun m s' => (exists rsm, fresh_mat s s' m rsm r c (ploss_back k r c Yh Y)) /\
    own s' yhat rs r c (clipped (bwd_clips k) r c Yh) /\ frame (clip_rows (bwd_clips k) rs) s s' /\ rest s s').
Proof.
  intros HA HB HND HD Hr Hc. unfold Loss_Backward. destruct k; simpl.
  - eapply wp_conseq; [eapply wp_MSE_Backward; eauto|]. cbv beta. intros v s' (rsm & HM & HE). split; [eauto|]. split; [exact (own_ext _ _ _ _ _ _ _ HA HE)|exact HE].
  - eapply wp_conseq; [eapply wp_MAE_Backward; eauto|]. cbv beta. intros v s' (rsm & HM & HE). split; [eauto|]. split; [exact (own_ext _ _ _ _ _ _ _ HA HE)|exact HE].
  - eapply wp_conseq; [eapply wp_CE_Backward; eauto|]. cbv beta. intros v s' (rsm & HM & HE). split; [eauto|]. split; [exact (own_ext _ _ _ _ _ _ _ HA HE)|exact HE].
  - eapply wp_BCE_Backward; eauto.
Qed.
End WithNum.
