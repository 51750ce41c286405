(** * SgdShape: SGDOptimizer.Update without momentum and gradients of another shape. *)
From Coq Require Import String ZArith List Bool Arith Lia.
From Verif Require Import Num Heap Spec Matrix Network Optimizers PureSpec Repr OptSpec HeapLemmas LoopLemmas MatrixProofs LayerProofs MatrixFacts MiscFacts LossProofs LossCode LossFacts LayerFacts OptProofs.
Import ListNotations.
Open Scope Z_scope.
Open Scope go_scope.

Section WithNum.
Context {K : Num}.
Implicit Types s : state K.

(** The rate used by the next update. *)
Definition rate_of (o : optimizer K) : K :=
  if o_usedecay o then fmul (o_lr o) (fdiv f1 (fadd f1 (fmul (o_decay o) (ofZ (o_iter o))))) else o_rate o.
Lemma decay_rate_of {B} oref s o (k : unit -> M K B) Q : nth_error (h_opts s) oref = Some o ->
  (forall s1, oext oref s s1 (set_rate o (rate_of o)) -> decay_rate oref s = (Ret tt, s1) -> Q (k tt s1)) ->
  Q (bind (decay_rate oref) k s).
Proof.
  intros Hl Hk. pose proof (oext_refl _ _ _ Hl) as H0. unfold decay_rate, bind in *. unfold get_opt in *. rewrite Hl in *. unfold rate_of in Hk.
  destruct (o_usedecay o) eqn:E.
  - unfold put_opt in *. apply Hk; [eapply oext_put; eauto|reflexivity].
  - unfold ret in *. apply Hk; [|reflexivity]. replace (set_rate o (o_rate o)) with o by now destruct o. exact H0.
Qed.

(** Cell-wise update that runs off the second matrix. *)
Lemma cells_stop s w rw k c W u ru k' c' U (f : K -> K -> K) : own s w rw k c W -> NoDup rw -> own s u ru k' c' U -> disjoint ru rw ->
  (1 <= k)%nat -> (1 <= c)%nat -> (1 <= k')%nat -> (k' < k \/ c' < c)%nat ->
  exists s', each_cell (mrows w) (mcols w) (fun i j => a <- getc w i j ;; b <- getc u i j ;; setc w i j (f a b)) s = (Panic PIndex, s') /\
    frame (among rw) s s' /\ rest s s'.
Proof.
  intros Hw HN Hu HD Hk Hc Hk' Hbad. rewrite (own_rows _ _ _ _ _ _ Hw), (own_cols _ _ _ _ _ _ Hw).
  set (Inv := fun st => (exists A, own st w rw k c A) /\ frame (among rw) s st /\ rest s st).
  assert (I0 : Inv s). { split; [eauto|]. split; [apply frame_refl|apply rest_refl]. }
  assert (HU : forall st, Inv st -> own st u ru k' c' U). { intros st (_ & HF & _). eapply own_frame; [exact Hu|exact HF|exact HD]. }
  assert (Hgood : forall i j st, (i < k)%nat -> (j < c)%nat -> (i < k')%nat -> (j < c')%nat -> Inv st ->
    wp (a <- getc w (Z.of_nat i) (Z.of_nat j) ;; b <- getc u (Z.of_nat i) (Z.of_nat j) ;; setc w (Z.of_nat i) (Z.of_nat j) (f a b)) st (fun _ => Inv)).
  { intros i j st Hi Hj Hi' Hj' HI. assert (Ou := HU _ HI). destruct HI as ((A & HA) & HF & HR). unfold wp.
    rewrite (bind_eq _ _ _ _ _ (getc_own _ _ _ _ _ _ i j HA Hi Hj)), (bind_eq _ _ _ _ _ (getc_own _ _ _ _ _ _ i j Ou Hi' Hj')).
    eapply wp_conseq; [exact (wp_setc st w rw k c A i j _ HA HN Hi Hj)|]. cbv beta. intros _ s2 (HA2 & HF2 & HR2).
    split; [eauto|]. split; [eapply frame_trans; [exact HF|exact HF2|]; intros ? _ [H|H]; exact H|].
    unfold rest in *. repeat split; destruct HR as (?&?&?&?&?), HR2 as (?&?&?&?&?); congruence. }
  destruct (Nat.lt_ge_cases c' c) as [Hlt|Hge].
  - apply (each_cell_panic k c c' _ (fun _ => Inv)); auto.
    + intros j s1 Hj HI. apply (Hgood 0%nat j s1); auto; lia.
    + intros s1 HI. exists s1. assert (Ou := HU _ HI). destruct HI as ((A & HA) & HF & HR).
      split; [|auto]. rewrite (bind_eq _ _ _ _ _ (getc_own _ _ _ _ _ _ 0 c' HA ltac:(lia) ltac:(lia))).
      apply bind_panic. apply (getc_bad_col s1 u ru k' c' U 0 c'); auto; lia.
  - assert (Hk2 : (k' < k)%nat) by lia. unfold each_cell.
    apply (for_panic k k' _ (fun _ => Inv)); auto.
    + intros i s1 Hi HI. apply (wp_for c _ s1 (fun _ => Inv)); auto. intros j s2 Hj HI2. apply (Hgood i j s2); auto; lia.
    + intros s1 HI. apply (for_panic c 0 _ (fun _ => Inv)); auto; try (intros; lia).
      intros s2 HI2. exists s2. assert (Ou := HU _ HI2). destruct HI2 as ((A & HA) & HF & HR).
      split; [|auto]. change 0 with (Z.of_nat 0). rewrite (bind_eq _ _ _ _ _ (getc_own _ _ _ _ _ _ k' 0 HA ltac:(lia) ltac:(lia))).
      apply bind_panic. apply (getc_bad_row s2 u ru k' c' U k' _); auto; lia.
Qed.

Section Plain.
Variables (s : state K) (oref : nat) (o : optimizer K) (w b dw db : matrix) (rw rb rdw rdb : list nat) (k c k1 c1 k2 c2 : nat) (W B dW dB : pm K).
Hypothesis Hl : nth_error (h_opts s) oref = Some o.
Hypothesis Hkind : o_kind o = SGD.
Hypothesis Hmom : o_usemom o = false.
Hypothesis Hw : own s w rw k c W.
Hypothesis Hb : own s b rb 1 c B.
Hypothesis HNw : NoDup rw.
Hypothesis HNb : NoDup rb.
Hypothesis HD : disjoint rw rb.
Hypothesis Hdw : own s dw rdw k1 c1 dW.
Hypothesis Hdb : own s db rdb k2 c2 dB.
Hypothesis Hpos : (1 <= k /\ 1 <= c /\ 1 <= k1 /\ 1 <= c1 /\ 1 <= k2 /\ 1 <= c2)%nat.

Definition new_w : pm K := mk k c (fun i j => fsub (entry W i j) (fmul (entry dW i j) (rate_of o))).
Definition new_b : pm K := mk 1 c (fun i j => fsub (entry B i j) (fmul (entry dB i j) (rate_of o))).

(** Up to the loops. *)
Lemma plain_start : exists wu rwu bu rbu s3,
  Opt_Update oref w b dw db s = (
    each_cell (mrows w) (mcols w) (fun i j => a <- getc w i j ;; b <- getc wu i j ;; setc w i j (fsub a b)) ;;
    each_cell (mrows b) (mcols b) (fun i j => a <- getc b i j ;; b0 <- getc bu i j ;; setc b i j (fsub a b0)) ;;
    o <- get_opt oref ;; put_opt oref (set_iter o (o_iter o + 1))) s3 /\
  oext oref s s3 (set_rate o (rate_of o)) /\
  fresh_mat s s3 wu rwu k1 c1 (pmap k1 c1 (fun x => fmul x (rate_of o)) dW) /\
  fresh_mat s s3 bu rbu k2 c2 (pmap k2 c2 (fun x => fmul x (rate_of o)) dB).
Proof.
  unfold Opt_Update. erewrite bind_eq by (unfold get_opt; rewrite Hl; reflexivity). rewrite Hkind. unfold SGD_Update.
  apply decay_rate_of with (o := o); [exact Hl|]. intros s1 E1 _.
  rewrite (bind_eq _ _ _ _ _ (oext_get _ _ _ _ _ Hl E1)). change (o_usemom (set_rate o (rate_of o))) with (o_usemom o). rewrite Hmom.
  change (o_rate (set_rate o (rate_of o))) with (rate_of o).
  destruct Hpos as (P1 & P2 & P3 & P4 & P5 & P6).
  pose proof (wp_MulScalar s1 dw rdw k1 c1 dW (rate_of o) (own_oext _ _ _ _ _ _ _ _ _ Hdw E1) P3 P4) as H1.
  apply wp_ex in H1 as (wu & s2 & EM1 & rwu & M1 & X1).
  assert (E2 := oext_ext _ _ _ _ _ E1 X1).
  pose proof (wp_MulScalar s2 db rdb k2 c2 dB (rate_of o) (own_oext _ _ _ _ _ _ _ _ _ Hdb E2) P5 P6) as H2.
  apply wp_ex in H2 as (bu & s3 & EM2 & rbu & M2 & X2).
  exists wu, rwu, bu, rbu, s3. split; [|split; [eapply oext_ext; eauto|split]].
  - unfold bind at 1. rewrite (bind_eq _ _ _ _ _ EM1), (bind_eq _ _ _ _ _ EM2). 
    unfold bind. destruct (each_cell (mrows w) (mcols w) _ s3) as [[[]| |] s4]; reflexivity.
  - eapply fresh_mat_keep; [eapply fresh_oext; [exact E1|exact M1]|apply X2].
  - eapply fresh_oext; [exact E2|exact M2].
Qed.

(** Gradients at least as large: the extra rows and columns are ignored. *)
Lemma sgd_larger : (k <= k1 /\ c <= c1 /\ c <= c2)%nat ->
  returns (Opt_Update oref w b dw db) s (fun _ s' => own s' w rw k c new_w /\ own s' b rb 1 c new_b /\
    frame (among (rw ++ rb)) s s' /\ rest3 s s' /\
    h_opts s' = upd oref (set_iter (set_rate o (rate_of o)) (o_iter o + 1)) (h_opts s)).
Proof.
  intros (Q1 & Q2 & Q3). destruct plain_start as (wu & rwu & bu & rbu & s3 & E & E3 & Mw & Mb).
  destruct Hpos as (P1 & P2 & P3 & P4 & P5 & P6).
  enough (HH : wp (Opt_Update oref w b dw db) s (fun _ s' => own s' w rw k c new_w /\ own s' b rb 1 c new_b /\
    frame (among (rw ++ rb)) s s' /\ rest3 s s' /\
    h_opts s' = upd oref (set_iter (set_rate o (rate_of o)) (o_iter o + 1)) (h_opts s))) by (apply wp_ex in HH as (a & s' & ? & ?); exists a, s'; auto).
  unfold wp. rewrite E.
  eapply wp_conseq.
  { eapply (final_steps oref s s3 o _ w b rw rb k c W B
      (fun i j => fsub (entry W i j) (fmul (entry dW i j) (rate_of o))) (fun i j => fsub (entry B i j) (fmul (entry dB i j) (rate_of o)))); eauto.
    - intros i j s4 A4 Hi Hj H4 HF4 EA. rewrite (bind_eq _ _ _ _ _ (getc_own _ _ _ _ _ _ i j H4 Hi Hj)).
      rewrite (bind_eq _ _ _ _ _ (getc_own _ _ _ _ _ _ i j (fresh_not_params _ _ _ _ _ _ _ _ _ _ _ _ _ _ _ _ Mw Hw Hb
         (frame_weaken _ _ _ _ HF4 (fun x _ H => in_or_app _ _ _ (or_introl H)))) ltac:(lia) ltac:(lia))).
      unfold pmap. rewrite entry_mk by lia. rewrite EA. reflexivity.
    - intros i j s4 A4 Hi Hj H4 HF4 EA. rewrite (bind_eq _ _ _ _ _ (getc_own _ _ _ _ _ _ i j H4 Hi Hj)).
      rewrite (bind_eq _ _ _ _ _ (getc_own _ _ _ _ _ _ i j (fresh_not_params _ _ _ _ _ _ _ _ _ _ _ _ _ _ _ _ Mb Hw Hb HF4) ltac:(lia) ltac:(lia))).
      unfold pmap. rewrite entry_mk by lia. rewrite EA. reflexivity. }
  cbv beta. intros _ s' (HW' & HB' & (U1 & U2 & U3) & _). auto 8.
Qed.

(** A weight gradient that is too small in some direction. *)
Lemma sgd_small_weights : (k1 < k \/ c1 < c)%nat ->
  exists s', Opt_Update oref w b dw db s = (Panic PIndex, s') /\ own s' b rb 1 c B /\
    h_opts s' = upd oref (set_rate o (rate_of o)) (h_opts s).
Proof.
  intros Hbad. destruct plain_start as (wu & rwu & bu & rbu & s3 & E & E3 & Mw & Mb).
  destruct Hpos as (P1 & P2 & P3 & P4 & P5 & P6).
  destruct (cells_stop s3 w rw k c W wu rwu k1 c1 _ (fun a b => fsub a b) (own_oext _ _ _ _ _ _ _ _ _ Hw E3) HNw (proj1 Mw)) as (s' & E' & HF & HR); auto.
  { destruct Mw as (_ & Hfr & _). intros x Hx Hx'. exact (disjoint_old_fresh s rw rwu (own_old _ _ _ _ _ _ Hw) Hfr x Hx' Hx). }
  exists s'. split; [rewrite E; apply bind_panic; exact E'|]. split.
  - eapply own_frame; [exact (own_oext _ _ _ _ _ _ _ _ _ Hb E3)|exact HF|]. intros x Hx Hx'. exact (HD x Hx' Hx).
  - destruct HR as (_ & -> & _). apply E3.
Qed.

(** A bias gradient that is too narrow: the weights have changed already. *)
Lemma sgd_small_biases : (k <= k1 /\ c <= c1)%nat -> (c2 < c)%nat ->
  exists s', Opt_Update oref w b dw db s = (Panic PIndex, s') /\ own s' w rw k c new_w /\
    h_opts s' = upd oref (set_rate o (rate_of o)) (h_opts s).
Proof.
  intros (Q1 & Q2) Hbad. destruct plain_start as (wu & rwu & bu & rbu & s3 & E & E3 & Mw & Mb).
  destruct Hpos as (P1 & P2 & P3 & P4 & P5 & P6).
  assert (H1 : wp (each_cell (mrows w) (mcols w) (fun i j => a <- getc w i j ;; b <- getc wu i j ;; setc w i j (fsub a b))) s3
    (fun _ s' => own s' w rw k c new_w /\ frame (among rw) s3 s' /\ rest s3 s')).
  { eapply wp_param_update with (A := W); [exact (own_oext _ _ _ _ _ _ _ _ _ Hw E3)|exact HNw|].
    intros i j s4 A4 Hi Hj H4 HF4 EA. rewrite (bind_eq _ _ _ _ _ (getc_own _ _ _ _ _ _ i j H4 Hi Hj)).
    rewrite (bind_eq _ _ _ _ _ (getc_own _ _ _ _ _ _ i j (fresh_not_params _ _ _ _ _ _ _ _ _ _ _ _ _ _ _ _ Mw Hw Hb
         (frame_weaken _ _ _ _ HF4 (fun x _ H => in_or_app _ _ _ (or_introl H)))) ltac:(lia) ltac:(lia))).
    unfold pmap. rewrite entry_mk by lia. rewrite EA. reflexivity. }
  apply wp_ex in H1 as ([] & s4 & E4 & Hw4 & HF4 & HR4).
  destruct (cells_stop s4 b rb 1 c B bu rbu k2 c2 (pmap k2 c2 (fun x => fmul x (rate_of o)) dB) (fun a b => fsub a b)) as (s' & E' & HF & HR); auto.
  { eapply own_frame; [exact (own_oext _ _ _ _ _ _ _ _ _ Hb E3)|exact HF4|]. intros x Hx Hx'. exact (HD x Hx' Hx). }
  { apply (fresh_not_params _ _ _ _ _ _ _ _ _ _ _ _ _ _ _ _ Mb Hw Hb). apply (frame_weaken _ _ _ _ HF4 (fun x _ H => in_or_app _ _ _ (or_introl H))). }
  { destruct Mb as (_ & Hfr & _). intros x Hx Hx'. exact (disjoint_old_fresh s rb rbu (own_old _ _ _ _ _ _ Hb) Hfr x Hx' Hx). }
  exists s'. split; [rewrite E, (bind_eq _ _ _ _ _ E4); apply bind_panic; exact E'|]. split.
  - eapply own_frame; [exact Hw4|exact HF|]. intros x Hx Hx'. exact (HD x Hx Hx').
  - destruct HR as (_ & -> & _). destruct HR4 as (_ & -> & _). apply E3.
Qed.
End Plain.
End WithNum.
