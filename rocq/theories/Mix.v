(** * Mix: training a linear layer by SGD on the squared error is linear in the targets and the parameters. *)
From Coq Require Import String ZArith List Bool Arith Lia Reals Lra.
From Verif Require Import Num NumR Heap Spec Matrix Loss Network Optimizers ModelGo PureSpec Repr HeapLemmas RSum MatrixFacts OptSpec LossProofs ModelSpec ModelFacts FitFacts FitProofs MiscProofs Params Rotate MixSpec.
From Verif Require ModelRefute UnitOrder.
Import ListNotations.
Open Scope R_scope.

Section Mix.
Variables (a b : R).
Lemma rsum_mix n (f g h : nat -> R) : (forall i, (i < n)%nat -> h i = a * f i + b * g i) -> rsum n h = a * rsum n f + b * rsum n g.
Proof. intros H. rewrite (rsum_ext n h (fun i => a * f i + b * g i) H), rsum_plus, !rsum_scal. reflexivity. Qed.
Lemma mixed_mk r c (f g h : nat -> nat -> R) : (forall n j, (n < r)%nat -> (j < c)%nat -> h n j = a * f n j + b * g n j) ->
  mixed a b r c (mk (K := RNum) r c f) (mk (K := RNum) r c g) (mk (K := RNum) r c h).
Proof. intros H n j Hn Hj. rewrite !entry_mk by assumption. now apply H. Qed.
Lemma forward_mix p1 p2 p3 r (X : rpm) : mixed_layer a b p1 p2 p3 -> mixed a b r (p_out p1) (pforward p1 r X) (pforward p2 r X) (pforward p3 r X).
Proof.
  intros (K1 & K2 & K3 & I2 & I3 & O2 & O3 & HW & HB). unfold pforward, pact. rewrite K1, K2, K3. unfold paffine, paff. rewrite I2, I3, O2, O3. apply mixed_mk. intros n j Hn Hj.
  cbn [fadd RNum]. rewrite (HB 0%nat j) by lia.
  pose proof (rsum_mix (p_in p1) (fun k => entry X n k * entry (p_w p1) k j) (fun k => entry X n k * entry (p_w p2) k j) (fun k => entry X n k * entry (p_w p3) k j)) as E. unfold rsum in E. cbn [fmul RNum].
  rewrite E; [ring|]. intros k Hk. rewrite (HW k j Hk Hj). ring.
Qed.
Lemma loss_mix r c (O1 O2 O3 Y1 Y2 Y3 : rpm) : mixed a b r c O1 O2 O3 -> mixed a b r c Y1 Y2 Y3 ->
  mixed a b r c (ploss_back (K := RNum) MSE r c O1 Y1) (ploss_back (K := RNum) MSE r c O2 Y2) (ploss_back (K := RNum) MSE r c O3 Y3).
Proof. intros HO HY. unfold ploss_back, pmse_back. apply mixed_mk. intros n j Hn Hj. cbn [fmul fsub RNum]. rewrite (HO n j Hn Hj), (HY n j Hn Hj). ring. Qed.
Lemma dW_mix r k c (X G1 G2 G3 : rpm) : mixed a b r c G1 G2 G3 -> mixed a b k c (pdW (K := RNum) r k c X G1) (pdW (K := RNum) r k c X G2) (pdW (K := RNum) r k c X G3).
Proof.
  intros HG. unfold pdW, pdot. apply mixed_mk. intros n j Hn Hj. apply (rsum_mix r). intros i Hi. cbn [fmul RNum]. rewrite (HG i j Hi Hj). ring.
Qed.
Lemma sum_mix r c (G1 G2 G3 : rpm) : mixed a b r c G1 G2 G3 -> mixed a b 1 c (psum0 (K := RNum) r c G1) (psum0 (K := RNum) r c G2) (psum0 (K := RNum) r c G3).
Proof. intros HG. unfold psum0. apply mixed_mk. intros n j Hn Hj. apply (rsum_mix r). intros i Hi. apply HG; assumption. Qed.
Lemma rate_same o1 o2 : same_settings o1 o2 -> next_rate o2 = next_rate o1.
Proof. intros (_ & E2 & E3 & _ & E5 & E6 & E7 & _). unfold next_rate. now rewrite E2, E3, E5, E6, E7. Qed.
Lemma upd1_mix o1 o2 o3 r c (P1 P2 P3 D1 D2 D3 m1 m2 m3 c1 c2 c3 : rpm) : po_kind o1 = SGD -> same_settings o1 o2 -> same_settings o1 o3 ->
  mixed a b r c P1 P2 P3 -> mixed a b r c D1 D2 D3 -> mixed a b r c m1 m2 m3 ->
  exists Q1 n1 Q2 n2 Q3 n3, pupd1 (K := RNum) o1 r c P1 D1 m1 c1 = (Q1, n1, c1) /\ pupd1 (K := RNum) o2 r c P2 D2 m2 c2 = (Q2, n2, c2) /\ pupd1 (K := RNum) o3 r c P3 D3 m3 c3 = (Q3, n3, c3) /\
    mixed a b r c Q1 Q2 Q3 /\ mixed a b r c n1 n2 n3.
Proof.
  intros HK S2 S3 HP HD Hm. unfold pupd1. rewrite (rate_same _ _ S2), (rate_same _ _ S3).
  destruct S2 as (-> & _ & _ & -> & _ & _ & _ & ->), S3 as (-> & _ & _ & -> & _ & _ & _ & ->). rewrite HK. destruct (po_usemom o1).
  - do 6 eexists. do 3 (split; [reflexivity|]).
    assert (HN : mixed a b r c (pmap2 (K := RNum) r c (vel1 (po_mom o1) (next_rate o1)) m1 D1) (pmap2 (K := RNum) r c (vel1 (po_mom o1) (next_rate o1)) m2 D2) (pmap2 (K := RNum) r c (vel1 (po_mom o1) (next_rate o1)) m3 D3)).
    { unfold pmap2. apply mixed_mk. intros n j Hn Hj. unfold vel1. cbn [fmul fsub RNum]. rewrite (Hm n j Hn Hj), (HD n j Hn Hj). ring. }
    split; [|exact HN]. unfold pmap2 at 1 3 5. apply mixed_mk. intros n j Hn Hj. rewrite (HN n j Hn Hj). cbn [fadd RNum]. rewrite (HP n j Hn Hj). change (F RNum) with R. ring.
  - do 6 eexists. do 3 (split; [reflexivity|]). split; [|exact Hm]. unfold pmap2. apply mixed_mk. intros n j Hn Hj. unfold sgd1. cbn [fmul fsub RNum]. rewrite (HP n j Hn Hj), (HD n j Hn Hj). ring.
Qed.
Lemma settings_after o1 o2 w1 b1 x1 y1 w2 b2 x2 y2 : same_settings o1 o2 -> same_settings (po_after o1 w1 b1 x1 y1) (po_after o2 w2 b2 x2 y2).
Proof. intros H. pose proof (rate_same _ _ H) as E. destruct H as (E1 & E2 & E3 & E4 & E5 & E6 & E7 & E8). unfold same_settings, po_after. cbn. rewrite E6. auto 10. Qed.
(** The gradients of a linear layer under the squared error. *)
Lemma linear_grads p (Y : rpm) r (X : rpm) U q : p_kind p = Linear -> snd (pbackprop (K := RNum) MSE Y (p_out p) [p] r X U q) =
  let G := ploss_back (K := RNum) MSE r (p_out p) (pforward p r X) Y in [(pdW (K := RNum) r (p_in p) (p_out p) X G, psum0 (K := RNum) r (p_out p) G)].
Proof. intros HK. cbn [pbackprop]. unfold pre_grad, fused, pback, ptrain. rewrite HK. reflexivity. Qed.
Lemma batch_mix o t1 t2 t3 (X Y1 Y2 Y3 : rpm) U1 q1 U2 q2 U3 q3 : mixed_trainer a b t1 t2 t3 -> (exists p z, t1 = [(p, z)] /\ p_out p = o) -> mixed a b (length X) o Y1 Y2 Y3 ->
  mixed_trainer a b (pbatch (K := RNum) MSE o t1 X Y1 U1 q1) (pbatch (K := RNum) MSE o t2 X Y2 U2 q2) (pbatch (K := RNum) MSE o t3 X Y3 U3 q3) /\
  (exists p z, pbatch (K := RNum) MSE o t1 X Y1 U1 q1 = [(p, z)] /\ p_out p = o).
Proof.
  intros (p1 & o1 & p2 & o2 & p3 & o3 & -> & -> & -> & HL & HO) Ho HY.
  assert (Eo : p_out p1 = o) by (destruct Ho as (p & z & E & H); injection E as <- <-; exact H). subst o.
  pose proof HL as (K1 & K2 & K3 & I2 & I3 & O2 & O3 & HW & HB). destruct HO as (HK & S2 & S3 & Hwm & Hbm).
  unfold pbatch. cbn [map fst]. pose proof (linear_grads p1 Y1 (length X) X U1 q1 K1) as E1. pose proof (linear_grads p2 Y2 (length X) X U2 q2 K2) as E2. pose proof (linear_grads p3 Y3 (length X) X U3 q3 K3) as E3.
  rewrite O2 in E2. rewrite O3 in E3. rewrite E1, E2, E3. cbv zeta. cbn [combine map fst snd].
  set (G1 := ploss_back MSE (length X) (p_out p1) (pforward p1 (length X) X) Y1). set (G2 := ploss_back MSE (length X) (p_out p1) (pforward p2 (length X) X) Y2). set (G3 := ploss_back MSE (length X) (p_out p1) (pforward p3 (length X) X) Y3).
  assert (HG : mixed a b (length X) (p_out p1) G1 G2 G3) by (apply loss_mix; [now apply forward_mix|exact HY]).
  unfold tstep, pupdate. cbn [fst snd]. rewrite I2, I3, O2, O3.
  destruct (upd1_mix o1 o2 o3 _ _ _ _ _ _ _ _ _ _ _ (po_wc o1) (po_wc o2) (po_wc o3) HK S2 S3 HW (dW_mix _ (p_in p1) _ X _ _ _ HG) Hwm) as (Q1 & n1 & Q2 & n2 & Q3 & n3 & -> & -> & -> & HQ & Hn).
  destruct (upd1_mix o1 o2 o3 _ _ _ _ _ _ _ _ _ _ _ (po_bc o1) (po_bc o2) (po_bc o3) HK S2 S3 HB (sum_mix _ _ _ _ _ HG) Hbm) as (R1 & l1 & R2 & l2 & R3 & l3 & -> & -> & -> & HR & Hl).
  split; [|do 2 eexists; split; reflexivity]. do 6 eexists. do 3 (split; [reflexivity|]). split.
  - unfold mixed_layer, reparam. cbn [p_kind p_in p_out p_w p_b]. auto 20.
  - split; [exact HK|]. split; [now apply settings_after|]. split; [now apply settings_after|]. split; assumption.
Qed.
(** ** Batches *)
Inductive batches : list (rpm * rpm) -> list (rpm * rpm) -> list (rpm * rpm) -> nat -> Prop :=
| bnil o : batches [] [] [] o
| bcons o X Y1 Y2 Y3 l1 l2 l3 : mixed a b (length X) o Y1 Y2 Y3 -> batches l1 l2 l3 o -> batches ((X, Y1) :: l1) ((X, Y2) :: l2) ((X, Y3) :: l3) o.
Lemma batches_app o k1 k2 k3 l1 l2 l3 : batches k1 k2 k3 o -> batches l1 l2 l3 o -> batches (k1 ++ l1) (k2 ++ l2) (k3 ++ l3) o.
Proof. intros H. induction H; intros HL; [exact HL|]. cbn [app]. constructor; auto. Qed.
Lemma train_mix o bs1 bs2 bs3 : batches bs1 bs2 bs3 o -> forall t1 t2 t3 U1 q1 U2 q2 U3 q3, mixed_trainer a b t1 t2 t3 -> (exists p z, t1 = [(p, z)] /\ p_out p = o) ->
  mixed_trainer a b (fst (ptrain_on (K := RNum) MSE o t1 U1 q1 bs1)) (fst (ptrain_on (K := RNum) MSE o t2 U2 q2 bs2)) (fst (ptrain_on (K := RNum) MSE o t3 U3 q3 bs3)).
Proof.
  intros H. induction H as [o|o X Y1 Y2 Y3 l1 l2 l3 HY HB IH]; intros t1 t2 t3 U1 q1 U2 q2 U3 q3 HT Ho; [exact HT|]. cbn [ptrain_on].
  destruct (batch_mix o t1 t2 t3 X Y1 Y2 Y3 U1 q1 U2 q2 U3 q3 HT Ho HY) as (HT' & Ho'). apply IH; assumption.
Qed.
Definition mixed_all (o : nat) (Y1 Y2 Y3 : rpm) : Prop := length Y2 = length Y1 /\ length Y3 = length Y1 /\ forall n j, (j < o)%nat -> entry Y3 n j = a * entry Y1 n j + b * entry Y2 n j.
Lemma mixed_all_intro r o (Y1 Y2 Y3 : rpm) : length Y1 = r -> length Y2 = r -> length Y3 = r -> mixed a b r o Y1 Y2 Y3 -> mixed_all o Y1 Y2 Y3.
Proof.
  intros L1 L2 L3 H. split; [congruence|]. split; [congruence|]. intros n j Hj. destruct (Nat.lt_ge_cases n r) as [Hn|Hn]; [now apply H|].
  unfold entry. rewrite !nth_overflow with (l := Y1), !nth_overflow with (l := Y2), !nth_overflow with (l := Y3) by lia. destruct j; cbn; change (F RNum) with R; ring.
Qed.
Lemma nth_skip {A} (d : A) : forall k n l, nth n (skipn k l) d = nth (k + n) l d.
Proof. induction k as [|k IH]; intros n l; [reflexivity|]. destruct l as [|x l]; [destruct n; reflexivity|]. cbn. apply IH. Qed.
Lemma nth_first {A} (d : A) : forall k n l, (n < k)%nat -> nth n (firstn k l) d = nth n l d.
Proof. induction k as [|k IH]; intros n l Hn; [lia|]. destruct l as [|x l]; [reflexivity|]. destruct n; [reflexivity|]. cbn. apply IH. lia. Qed.
Lemma skip_all o k Y1 Y2 Y3 : mixed_all o Y1 Y2 Y3 -> mixed_all o (skipn k Y1) (skipn k Y2) (skipn k Y3).
Proof. intros (L2 & L3 & H). split; [rewrite !skipn_length; lia|]. split; [rewrite !skipn_length; lia|]. intros n j Hj. unfold entry. rewrite !nth_skip. apply H, Hj. Qed.
Lemma chunks_mix o c : (1 <= c)%nat -> forall m (X Y1 Y2 Y3 : rpm), length X = length Y1 -> mixed_all o Y1 Y2 Y3 ->
  batches (combine (chunks_fuel m c X) (chunks_fuel m c Y1)) (combine (chunks_fuel m c X) (chunks_fuel m c Y2)) (combine (chunks_fuel m c X) (chunks_fuel m c Y3)) o.
Proof.
  intros Hc. induction m as [|m IH]; intros X Y1 Y2 Y3 HX HY.
  - destruct X; constructor.
  - destruct X as [|x X]; [constructor|]. pose proof HY as (L2 & L3 & H). destruct Y1 as [|y1 Y1]; [discriminate|]. destruct Y2 as [|y2 Y2]; [discriminate|]. destruct Y3 as [|y3 Y3]; [discriminate|].
    cbn [chunks_fuel combine]. constructor.
    + intros n j Hn Hj. rewrite firstn_length in Hn. unfold entry. rewrite !nth_first by lia. apply H, Hj.
    + apply IH; [rewrite !skipn_length; cbn [length] in *; lia|]. now apply skip_all.
Qed.
Lemma epochs_mix e c r o (X Y1 Y2 Y3 : rpm) : (1 <= c)%nat -> length X = r -> length Y1 = r -> length Y2 = r -> length Y3 = r -> mixed a b r o Y1 Y2 Y3 ->
  batches (epochs_of (K := RNum) e c X Y1) (epochs_of (K := RNum) e c X Y2) (epochs_of (K := RNum) e c X Y3) o.
Proof.
  intros Hc LX L1 L2 L3 HY. unfold epochs_of, chunks. rewrite LX, L1, L2, L3.
  pose proof (chunks_mix o c Hc r X Y1 Y2 Y3 ltac:(congruence) (mixed_all_intro _ _ _ _ _ L1 L2 L3 HY)) as HB.
  induction e as [|e IH]; [constructor|]. cbn [repeat concat]. now apply batches_app.
Qed.
End Mix.

Lemma fit_mixed a b s1 m1 es1 xs1 x1 rsx1 y1 rsy1 xv1 yv1 s2 m2 es2 xs2 x2 rsx2 y2 rsy2 xv2 yv2 s3 m3 es3 xs3 x3 rsx3 y3 rsy3 xv3 yv3 i o n (X Y1 Y2 Y3 : rpm) epochs bs :
  (0 <= bs)%Z -> (Z.of_nat n + bs <= 2 ^ 52)%Z -> (1 <= n)%nat ->
  trainable s1 m1 es1 xs1 i o MSE -> data_ok s1 es1 x1 rsx1 y1 rsy1 n i o X Y1 ->
  trainable s2 m2 es2 xs2 i o MSE -> data_ok s2 es2 x2 rsx2 y2 rsy2 n i o X Y2 ->
  trainable s3 m3 es3 xs3 i o MSE -> data_ok s3 es3 x3 rsx3 y3 rsy3 n i o X Y3 ->
  mixed a b n o Y1 Y2 Y3 -> mixed_trainer a b (trainer es1 xs1) (trainer es2 xs2) (trainer es3 xs3) ->
  exists s1' s2' s3' es1' xs1' es2' xs2' es3' xs3',
    Fit m1 x1 y1 epochs bs xv1 yv1 0 s1 = (Ret tt, s1') /\ Fit m2 x2 y2 epochs bs xv2 yv2 0 s2 = (Ret tt, s2') /\ Fit m3 x3 y3 epochs bs xv3 yv3 0 s3 = (Ret tt, s3') /\
    trainable s1' m1 es1' xs1' i o MSE /\ Forall2 same_place es1 es1' /\ trainable s2' m2 es2' xs2' i o MSE /\ Forall2 same_place es2 es2' /\
    trainable s3' m3 es3' xs3' i o MSE /\ Forall2 same_place es3 es3' /\
    mixed_trainer a b (trainer es1' xs1') (trainer es2' xs2') (trainer es3' xs3').
Proof.
  intros Hb H52 Hn HT1 HD1 HT2 HD2 HT3 HD3 HY HM.
  destruct (fit_trains s1 m1 es1 xs1 i o MSE x1 rsx1 y1 rsy1 n X Y1 epochs bs xv1 yv1 RNum_min_faithful Hb H52 Hn HT1 HD1)
    as ([] & s1' & E1 & nn1 & _ & (es1' & xs1' & HT1' & HPl1 & _ & Htr1 & _) & _).
  destruct (fit_trains s2 m2 es2 xs2 i o MSE x2 rsx2 y2 rsy2 n X Y2 epochs bs xv2 yv2 RNum_min_faithful Hb H52 Hn HT2 HD2)
    as ([] & s2' & E2 & nn2 & _ & (es2' & xs2' & HT2' & HPl2 & _ & Htr2 & _) & _).
  destruct (fit_trains s3 m3 es3 xs3 i o MSE x3 rsx3 y3 rsy3 n X Y3 epochs bs xv3 yv3 RNum_min_faithful Hb H52 Hn HT3 HD3)
    as ([] & s3' & E3 & nn3 & _ & (es3' & xs3' & HT3' & HPl3 & _ & Htr3 & _) & _).
  exists s1', s2', s3', es1', xs1', es2', xs2', es3', xs3'. do 9 (split; [assumption|]). rewrite Htr1, Htr2, Htr3.
  assert (HBR : (1 <= batch_rows n bs)%nat) by (unfold batch_rows; destruct (Z.eqb_spec bs 0); lia).
  apply train_mix; [|exact HM|].
  - apply (epochs_mix a b _ _ n); try assumption;
      [exact (proj1 (own_shape _ _ _ _ _ _ (proj1 HD1)))|exact (proj1 (own_shape _ _ _ _ _ _ (proj1 (proj2 HD1))))|exact (proj1 (own_shape _ _ _ _ _ _ (proj1 (proj2 HD2))))|exact (proj1 (own_shape _ _ _ _ _ _ (proj1 (proj2 HD3))))].
  - pose proof (proj1 (proj2 (proj2 (proj2 (proj2 (proj1 HT1)))))) as HC. rewrite <- (trainer_net' es1 xs1 HT1) in HC.
    destruct HM as (p1 & o1 & p2 & o2 & p3 & o3 & Et & _). exists p1, o1. split; [exact Et|]. rewrite Et in HC. exact (proj2 HC).
Qed.
Lemma predict_mixed a b s1 m1 es1 xs1 x1 rsx1 s2 m2 es2 xs2 x2 rsx2 s3 m3 es3 xs3 x3 rsx3 i o k r (X : rpm) :
  trainable s1 m1 es1 xs1 i o k -> trainable s2 m2 es2 xs2 i o k -> trainable s3 m3 es3 xs3 i o k -> mixed_trainer a b (trainer es1 xs1) (trainer es2 xs2) (trainer es3 xs3) ->
  m_acctype m1 = 0%Z -> m_acctype m2 = 0%Z -> m_acctype m3 = 0%Z -> (1 <= r)%nat -> own s1 x1 rsx1 r i X -> own s2 x2 rsx2 r i X -> own s3 x3 rsx3 r i X ->
  exists P1 P2 P3 s1' s2' s3' rs1 rs2 rs3 A B C, Predict m1 x1 s1 = (Ret P1, s1') /\ Predict m2 x2 s2 = (Ret P2, s2') /\ Predict m3 x3 s3 = (Ret P3, s3') /\
    own s1' P1 rs1 r o A /\ own s2' P2 rs2 r o B /\ own s3' P3 rs3 r o C /\ mixed a b r o A B C.
Proof.
  intros T1 T2 T3 HM A1 A2 A3 Hr HX1 HX2 HX3.
  destruct (ModelRefute.predict_spec s1 m1 es1 i o x1 rsx1 r X o (pnet (net es1) r X) (proj1 T1) (proj1 (proj2 (proj2 T1)))) as (P1 & s1' & E1 & rs1 & HO1 & _); [rewrite A1; reflexivity|exact HX1|exact Hr|].
  destruct (ModelRefute.predict_spec s2 m2 es2 i o x2 rsx2 r X o (pnet (net es2) r X) (proj1 T2) (proj1 (proj2 (proj2 T2)))) as (P2 & s2' & E2 & rs2 & HO2 & _); [rewrite A2; reflexivity|exact HX2|exact Hr|].
  destruct (ModelRefute.predict_spec s3 m3 es3 i o x3 rsx3 r X o (pnet (net es3) r X) (proj1 T3) (proj1 (proj2 (proj2 T3)))) as (P3 & s3' & E3 & rs3 & HO3 & _); [rewrite A3; reflexivity|exact HX3|exact Hr|].
  exists P1, P2, P3, s1', s2', s3', rs1, rs2, rs3, (pnet (net es1) r X), (pnet (net es2) r X), (pnet (net es3) r X). do 6 (split; [assumption|]).
  pose proof (proj1 (proj2 (proj2 (proj2 (proj2 (proj1 T1)))))) as HC. rewrite <- (trainer_net' es1 xs1 T1) in HC |- *. rewrite <- (trainer_net' es2 xs2 T2), <- (trainer_net' es3 xs3 T3).
  destruct HM as (p1 & o1 & p2 & o2 & p3 & o3 & Et1 & -> & -> & HL & _). rewrite Et1 in *. cbn [map fst chain] in HC. rewrite <- (proj2 HC). unfold pnet. cbn [map fst fold_left]. now apply forward_mix.
Qed.
