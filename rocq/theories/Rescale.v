(** * Rescale: networks with scaled units compute the same. *)
From Coq Require Import String ZArith List Bool Arith Lia Reals Lra.
From Verif Require Import Num NumR Heap Spec Matrix Loss Network Optimizers ModelGo PureSpec Repr HeapLemmas MiscFacts MiscProofs RSum LayerReal LossProofs OptSpec ModelSpec ModelProofs FitFacts MatrixFacts FitProofs ModelRefute EvalProofs RescaleSpec.
Import ListNotations.
Open Scope R_scope.
Notation rpm := (pm RNum).

Definition scaled_by (r k : nat) (c : nat -> R) (X X' : rpm) : Prop := forall n i, (n < r)%nat -> (i < k)%nat -> entry X' n i = entry X n i * c i.
Lemma affine_scaled c d p r (X X' : rpm) : (forall i, 0 < c i) -> scaled_by r (p_in p) c X X' ->
  scaled_by r (p_out p) d (paffine p r X) (paffine (scale_layer c d p) r X').
Proof.
  intros HC HX n j Hn Hj. unfold paffine, paff. cbn [p_in p_out p_w p_b scale_layer]. rewrite !entry_mk by (lia || assumption). cbn [fadd RNum].
  change (fsum (K := RNum) ?k ?g) with (rsum k g). cbn [fmul RNum]. rewrite Rmult_plus_distr_r. f_equal. rewrite <- rsum_scal_r. apply rsum_ext. intros i Hi.
  rewrite entry_mk by assumption. rewrite (HX n i Hn Hi). specialize (HC i). change (F RNum) with R in *. field. lra.
Qed.
Lemma Rmax_scale z d : 0 < d -> Rmax (z * d) 0 = Rmax z 0 * d.
Proof. intros H. unfold Rmax. destruct (Rle_dec z 0), (Rle_dec (z * d) 0); try nra. Qed.
Lemma mk_eq r c (f g : nat -> nat -> R) : (forall i j, (i < r)%nat -> (j < c)%nat -> f i j = g i j) -> mk (K := RNum) r c f = mk (K := RNum) r c g.
Proof. intros H. apply mk_ext. exact H. Qed.
Lemma forward_scaled c d p r (X X' : rpm) : (forall i, 0 < c i) -> (forall j, 0 < d j) -> (p_kind p = SigmoidK \/ p_kind p = SoftmaxK -> forall j, d j = 1) ->
  scaled_by r (p_in p) c X X' -> scaled_by r (p_out p) d (pforward p r X) (pforward (scale_layer c d p) r X').
Proof.
  intros HC HD HK HX n j Hn Hj. pose proof (affine_scaled c d p r X X' HC HX) as HA. unfold pforward, pact. cbn [p_kind p_out scale_layer].
  destruct (p_kind p) eqn:EK.
  - unfold pmap. rewrite !entry_mk by assumption. unfold act1. cbn [p_kind scale_layer]. rewrite EK. rewrite (HA n j Hn Hj). unfold relu1, f0. cbn [fmax ofZ RNum]. apply Rmax_scale. apply HD.
  - apply HA; assumption.
  - unfold pmap. rewrite !entry_mk by assumption. unfold act1. cbn [p_kind scale_layer]. rewrite EK. rewrite (HA n j Hn Hj), (HK (or_introl eq_refl) j). now rewrite !Rmult_1_r.
  - unfold pmap. rewrite !entry_mk by assumption. unfold act1. cbn [p_kind scale_layer p_slope]. rewrite EK. rewrite (HA n j Hn Hj). unfold leaky1, f0. cbn [flt fmul ofZ RNum]. unfold r_ltb.
    specialize (HD j). set (z := entry (paffine p r X) n j). destruct (Rlt_dec z 0), (Rlt_dec (z * d j) 0); try nra.
  - specialize (HK (or_intror eq_refl)). rewrite HK, Rmult_1_r. unfold psoftmax. rewrite !entry_mk by assumption.
    assert (G : forall k, (k < p_out p)%nat -> entry (paffine (scale_layer c d p) r X') n k = entry (paffine p r X) n k) by (intros k Hk; rewrite (HA n k Hn Hk), HK; apply Rmult_1_r).
    rewrite G by assumption. f_equal. apply rsum_ext. intros k Hk. now rewrite G.
  - unfold pmap. rewrite !entry_mk by assumption. unfold act1. cbn [p_kind scale_layer]. rewrite EK. rewrite (HA n j Hn Hj). unfold relu1, f0. cbn [fmax ofZ RNum]. apply Rmax_scale. apply HD.
Qed.
Lemma forward_shape p r (X : rpm) : shape (K := RNum) r (p_out p) (pforward p r X).
Proof. unfold pforward, pact. destruct (p_kind p); unfold pmap, psoftmax, paffine, paff; apply shape_mk. Qed.
Lemma same_entries r c (A B : rpm) : shape (K := RNum) r c A -> shape (K := RNum) r c B -> (forall i j, (i < r)%nat -> (j < c)%nat -> entry A i j = entry B i j) -> A = B.
Proof. intros HA HB H. eapply shape_ext; eauto. Qed.
Lemma net_scaled r : forall ps i o c ds (X X' : rpm), chain i ps o -> (1 <= length ps)%nat -> (forall k, 0 < c k) -> scales ps ds -> scaled_by r i c X X' -> pnet (scale_net c ds ps) r X' = pnet ps r X.
Proof.
  induction ps as [|p ps IH]; intros i o c ds X X' HCh HL HC (HS & HO) HX; [simpl in HL; lia|].
  inversion HS as [|? d ? ds' (D1 & D2) HS']; subst. cbn [scale_net]. unfold pnet. cbn [fold_left]. simpl in HCh. destruct HCh as (E1 & HCh). subst i.
  pose proof (forward_scaled c d p r X X' HC D1 D2 HX) as HF. destruct ps as [|p1 ps].
  - inversion HS'; subst. cbn [fold_left scale_net]. apply (same_entries r (p_out p)); [apply (forward_shape (scale_layer c d p))|apply forward_shape|].
    intros a b Ha Hb. rewrite (HF a b Ha Hb). simpl in HO. rewrite HO. apply Rmult_1_r.
  - apply (IH (p_out p) o d ds' _ _ HCh); [simpl; lia|exact D1| |exact HF]. split; [exact HS'|]. inversion HS'; subst. exact HO.
Qed.
Lemma scale_len c ds ps : length ps = length ds -> length (scale_net c ds ps) = length ps.
Proof. revert c ds. induction ps as [|p ps IH]; intros c [|d ds] H; try discriminate; [reflexivity|]. simpl. rewrite IH; auto. Qed.
Section Two.
Variables (s1 s2 : state RNum) (m1 m2 : model RNum) (es1 es2 : list (lent RNum)) (i o r : nat) (ds : list (nat -> R)) (x1 x2 : matrix) (rsx1 rsx2 : list nat) (X : rpm).
Hypotheses (HC1 : consistent s1 m1 es1 i o) (HC2 : consistent s2 m2 es2 i o) (HL : (1 <= length es1)%nat) (HS : scales (net es1) ds) (HN : net es2 = scale_net one ds (net es1)) (Hr : (1 <= r)%nat)
  (HX1 : own s1 x1 rsx1 r i X) (HX2 : own s2 x2 rsx2 r i X).
Lemma two_nets : (1 <= length es2)%nat /\ pnet (net es2) r X = pnet (net es1) r X.
Proof.
  split.
  - apply (f_equal (@length _)) in HN. rewrite scale_len in HN by (destruct HS as [H _]; clear -H; induction H; simpl; congruence). unfold net in HN. rewrite !map_length in HN. lia.
  - rewrite HN. apply (net_scaled r (net es1) i o); [apply HC1|unfold net; rewrite map_length; exact HL|intros k; unfold one; lra|exact HS|]. intros a b _ _. unfold one. symmetry. apply Rmult_1_r.
Qed.
Lemma predict_scaled c A : m_acctype m1 = m_acctype m2 -> ppredict (m_acctype m1) r o (pnet (net es1) r X) = Some (c, A) ->
  exists P1 P2 s1' s2' rs1 rs2, Predict m1 x1 s1 = (Ret P1, s1') /\ Predict m2 x2 s2 = (Ret P2, s2') /\ own s1' P1 rs1 r c A /\ own s2' P2 rs2 r c A.
Proof.
  destruct two_nets as (HL2 & EN). intros EA HP.
  destruct (ModelRefute.predict_spec s1 m1 es1 i o x1 rsx1 r X c A HC1 HL HP HX1 Hr) as (P1 & s1' & E1 & rs1 & O1 & _).
  rewrite EA, <- EN in HP. destruct (ModelRefute.predict_spec s2 m2 es2 i o x2 rsx2 r X c A HC2 HL2 HP HX2 Hr) as (P2 & s2' & E2 & rs2 & O2 & _).
  exists P1, P2, s1', s2', rs1, rs2. auto.
Qed.
Lemma loss_scaled k y1 rsy1 y2 rsy2 (Y : rpm) : m_loss m1 = Some (MkLoss k (Z.of_nat o)) -> m_loss m2 = Some (MkLoss k (Z.of_nat o)) -> own s1 y1 rsy1 r o Y -> own s2 y2 rsy2 r o Y ->
  exists v s1' s2', CalculateLoss m1 x1 y1 s1 = (Ret v, s1') /\ CalculateLoss m2 x2 y2 s2 = (Ret v, s2').
Proof.
  destruct two_nets as (HL2 & EN). intros A1 A2 HY1 HY2.
  pose proof (EvalProofs.wp_CalculateLoss s1 m1 es1 i o k x1 rsx1 y1 rsy1 r X Y HC1 HL A1 HX1 HY1 Hr) as W1. apply returns_wp in W1. destruct W1 as (v1 & s1' & E1 & -> & _).
  pose proof (EvalProofs.wp_CalculateLoss s2 m2 es2 i o k x2 rsx2 y2 rsy2 r _ _ HC2 HL2 A2 HX2 HY2 Hr) as W2. apply returns_wp in W2. destruct W2 as (v2 & s2' & E2 & -> & _).
  do 3 eexists. split; [exact E1|]. rewrite E2, EN. reflexivity.
Qed.
End Two.
