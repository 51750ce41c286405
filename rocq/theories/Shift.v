(** * Shift: moving the targets and the last biases by the same vector does not change training. *)
From Coq Require Import String ZArith List Bool Arith Lia Reals Lra.
From Verif Require Import Num NumR Heap Spec Matrix Loss Network Optimizers ModelGo PureSpec Repr HeapLemmas RSum MatrixFacts OptSpec LossProofs ModelSpec ModelFacts FitFacts FitProofs MiscProofs Params ShiftSpec Rotate.
From Verif Require ModelRefute UnitOrder.
Import ListNotations.
Open Scope R_scope.

Section Shift.
Variables (o : nat) (d : nat -> R).
Lemma shifted_length Y : length (shifted o d Y) = length Y.
Proof. apply map_length. Qed.
Lemma shifted_entry (Y : rpm) n j : (n < length Y)%nat -> (j < o)%nat -> entry (shifted o d Y) n j = entry Y n j + d j.
Proof.
  intros Hn Hj. unfold entry, shifted. set (f := fun row : list R => map (fun j => nth j row 0 + d j) (seq 0 o)).
  rewrite (nth_indep _ [] (f [])) by (rewrite map_length; exact Hn). rewrite (map_nth f). unfold f.
  erewrite nth_indep by (rewrite map_length, seq_length; exact Hj). rewrite (map_nth (fun j => nth j (nth n Y []) 0 + d j) (seq 0 o) 0%nat). rewrite seq_nth by exact Hj. reflexivity.
Qed.
Lemma shifted_mk r (f : nat -> nat -> R) : shifted o d (mk (K := RNum) r o f) = mk (K := RNum) r o (fun n j => f n j + d j).
Proof.
  unfold shifted, mk. rewrite map_map. apply map_ext. intros n. apply map_ext_in. intros j Hj. apply in_seq in Hj. f_equal.
  rewrite (nth_indep _ 0 (f n 0%nat)) by (rewrite map_length, seq_length; lia). rewrite (map_nth (f n)). rewrite seq_nth by lia. reflexivity.
Qed.
(** The last layer's output moves by [d]. *)
Lemma forward_shift p r (X : rpm) : p_kind p = Linear -> p_out p = o -> pforward (shift_layer d p) r X = shifted o d (pforward p r X).
Proof.
  intros HK Ho. unfold pforward, pact. cbn [shift_layer p_kind]. rewrite HK. unfold paffine, paff. cbn [shift_layer p_in p_out p_w p_b]. rewrite Ho, shifted_mk.
  apply mk_ext. intros n j Hn Hj. rewrite entry_mk by lia. cbn [fadd RNum]. apply eq_sym, Rplus_assoc.
Qed.
Lemma forward_rows p r (X : rpm) : p_kind p = Linear -> length (pforward p r X) = r.
Proof. intros HK. unfold pforward, pact. rewrite HK. unfold paffine, paff, mk. now rewrite map_length, seq_length. Qed.
Lemma loss_back_shift k r (O Y : rpm) : k = MSE \/ k = MAE -> length O = r -> length Y = r -> ploss_back (K := RNum) k r o (shifted o d O) (shifted o d Y) = ploss_back (K := RNum) k r o O Y.
Proof.
  intros [-> | ->] HO HY; unfold ploss_back, pmse_back, pmae_back; apply mk_ext; intros n j Hn Hj; rewrite !shifted_entry by lia;
    replace (@fsub RNum (entry O n j + d j) (entry Y n j + d j)) with (@fsub RNum (entry O n j) (entry Y n j)) by (cbn [fsub RNum]; change (F RNum) with R; ring); reflexivity.
Qed.
Fixpoint good (ts : list (player RNum * popt RNum)) : Prop :=
  match ts with [] => False | [(p, _)] => p_kind p = Linear /\ p_out p = o | _ :: rest => good rest end.
Lemma good_cons t t2 ts : good (t :: t2 :: ts) -> good (t2 :: ts).
Proof. destruct t as [p po]. exact (fun H => H). Qed.
Lemma shift_cons t t2 ts : shift_trainer d (t :: t2 :: ts) = t :: shift_trainer d (t2 :: ts).
Proof. destruct t as [p po]. reflexivity. Qed.
Lemma shift_more t2 ts : exists a l, shift_trainer d (t2 :: ts) = a :: l.
Proof. destruct t2 as [p po], ts as [|t3 ts]; simpl; eauto. Qed.
Lemma backprop_shift k r (Y : rpm) U : k = MSE \/ k = MAE -> length Y = r -> forall ts (X : rpm) q, good ts ->
  pbackprop (K := RNum) k (shifted o d Y) o (map fst (shift_trainer d ts)) r X U q = pbackprop (K := RNum) k Y o (map fst ts) r X U q.
Proof.
  intros Hk HY. induction ts as [|[p po] ts IH]; intros X q HG; [destruct HG|]. destruct ts as [|t2 ts].
  - destruct HG as (HK & Ho). cbn [shift_trainer map fst pbackprop].
    assert (E : ptrain (shift_layer d p) r X (from U q) = shifted o d (ptrain p r X (from U q))) by (unfold ptrain; cbn [shift_layer p_kind]; rewrite HK; now apply forward_shift).
    rewrite E. rewrite loss_back_shift; [|exact Hk| |exact HY]; [|unfold ptrain; rewrite HK; now apply forward_rows].
    unfold pre_grad, fused, pback. cbn [shift_layer p_kind p_in p_out p_w]. rewrite HK. destruct Hk as [-> | ->]; reflexivity.
  - rewrite shift_cons. destruct (shift_more t2 ts) as (a & l & E). specialize (IH (ptrain p r X (from U q)) (q + pdraws p r)%nat (good_cons _ _ _ HG)). rewrite E in *.
    cbn [map fst] in *. cbn [pbackprop] in *. cbn [map fst]. rewrite IH. reflexivity.
Qed.
Lemma upd1_shift po c (P dP m ch : rpm) :
  pupd1 (K := RNum) po 1 c (mk (K := RNum) 1 c (fun _ j => entry P 0 j + d j)) dP m ch =
  (let '(P', m', ch') := pupd1 (K := RNum) po 1 c P dP m ch in (mk (K := RNum) 1 c (fun _ j => entry P' 0 j + d j), m', ch')).
Proof.
  unfold pupd1. destruct (po_kind po); [destruct (po_usemom po)|]; do 2 f_equal; unfold pmap2; apply mk_ext; intros n j Hn Hj; assert (n = 0)%nat as -> by lia; rewrite ?entry_mk by lia;
    unfold sgd1, adam_p1; cbn [fadd fsub RNum]; change (F RNum) with R; ring.
Qed.
Lemma step_shift p po g : tstep (K := RNum) (shift_layer d p, po) g = (let '(p', po') := tstep (K := RNum) (p, po) g in (shift_layer d p', po')).
Proof.
  unfold tstep, pupdate. cbn [fst snd shift_layer p_in p_out p_w p_b]. rewrite upd1_shift.
  destruct (pupd1 po (p_in p) (p_out p) (p_w p) (fst g) (po_wm po) (po_wc po)) as [[W' m'] c']. destruct (pupd1 po 1 (p_out p) (p_b p) (snd g) (po_bm po) (po_bc po)) as [[B' bm] bc]. reflexivity.
Qed.
Lemma tstep_kind p po g : p_kind (fst (tstep (K := RNum) (p, po) g)) = p_kind p /\ p_out (fst (tstep (K := RNum) (p, po) g)) = p_out p.
Proof.
  unfold tstep, pupdate. cbn [fst snd]. destruct (pupd1 po (p_in p) (p_out p) (p_w p) (fst g) (po_wm po) (po_wc po)) as [[W' m'] c'].
  destruct (pupd1 po 1 (p_out p) (p_b p) (snd g) (po_bm po) (po_bc po)) as [[B' bm] bc]. split; reflexivity.
Qed.
Lemma steps_shift : forall ts gs, length gs = length ts -> good ts ->
  let u := map (fun tg => tstep (K := RNum) (fst tg) (snd tg)) in u (combine (shift_trainer d ts) gs) = shift_trainer d (u (combine ts gs)) /\ good (u (combine ts gs)).
Proof.
  cbv zeta. induction ts as [|[p po] ts IH]; intros [|g gs] HL HG; try discriminate HL; [destruct HG|]. destruct ts as [|t2 ts].
  - destruct gs; [|discriminate HL]. cbn [shift_trainer combine map fst snd]. rewrite step_shift. pose proof (tstep_kind p po g) as (E1 & E2). destruct (tstep (p, po) g) as [p' po']. cbn [fst] in *.
    split; [reflexivity|]. cbn [good]. rewrite E1, E2. exact HG.
  - destruct gs as [|g2 gs]; [discriminate HL|]. destruct (IH (g2 :: gs) ltac:(simpl in *; lia) (good_cons _ _ _ HG)) as (E & HG').
    rewrite shift_cons. cbn [combine map fst snd] in *. destruct (shift_more t2 ts) as (a & l & Ea). rewrite Ea in *. cbn [combine map fst snd] in *.
    rewrite shift_cons. rewrite E. split; [reflexivity|]. destruct (tstep (p, po) g) as [p' po']. exact HG'.
Qed.
Lemma backprop_grads k (Y : rpm) r U : forall ps (X : rpm) q, length (snd (pbackprop (K := RNum) k Y o ps r X U q)) = length ps.
Proof. induction ps as [|p ps IH]; intros X q; [reflexivity|]. cbn [pbackprop]. specialize (IH (ptrain p r X (from U q)) (q + pdraws p r)%nat). destruct (pbackprop k Y o ps r (ptrain p r X (from U q)) U (q + pdraws p r)) as [G gs]. cbn [snd length] in *. now rewrite IH. Qed.
Lemma batch_shift k ts (X Y : rpm) U q : k = MSE \/ k = MAE -> length X = length Y -> good ts ->
  pbatch (K := RNum) k o (shift_trainer d ts) X (shifted o d Y) U q = shift_trainer d (pbatch (K := RNum) k o ts X Y U q) /\ good (pbatch (K := RNum) k o ts X Y U q).
Proof.
  intros Hk HL HG. unfold pbatch. rewrite backprop_shift by auto. apply steps_shift; [|exact HG]. rewrite backprop_grads. apply map_length.
Qed.
Lemma draws_shift r : forall ts, net_draws (K := RNum) true (map fst (shift_trainer d ts)) r = net_draws (K := RNum) true (map fst ts) r.
Proof.
  induction ts as [|[p po] ts IH]; [reflexivity|]. destruct ts as [|t2 ts]; [reflexivity|]. rewrite shift_cons. cbn [map fst]. unfold net_draws in *. cbn [fold_right]. now rewrite IH.
Qed.
Lemma train_on_shift k U : k = MSE \/ k = MAE -> forall bs ts q, List.Forall (fun c => length (fst c) = length (snd c)) bs -> good ts ->
  ptrain_on (K := RNum) k o (shift_trainer d ts) U q (map (fun XY : rpm * rpm => (fst XY, shifted o d (snd XY))) bs) =
    (shift_trainer d (fst (ptrain_on (K := RNum) k o ts U q bs)), snd (ptrain_on (K := RNum) k o ts U q bs)) /\ good (fst (ptrain_on (K := RNum) k o ts U q bs)).
Proof.
  intros Hk. induction bs as [|[X Y] bs IH]; intros ts q HB HG; [split; [reflexivity|exact HG]|]. inversion HB as [|? ? HL HB']; subst. cbn [fst snd] in HL. cbn [map ptrain_on fst snd].
  destruct (batch_shift k ts X Y U q Hk HL HG) as (E & HG'). rewrite E, draws_shift. apply IH; assumption.
Qed.
Lemma epochs_shift e b (X Y : rpm) : epochs_of (K := RNum) e b X (shifted o d Y) = map (fun XY : rpm * rpm => (fst XY, shifted o d (snd XY))) (epochs_of (K := RNum) e b X Y).
Proof.
  unfold epochs_of. rewrite concat_map. f_equal. rewrite repeat_map. f_equal. unfold chunks. rewrite shifted_length. unfold shifted at 1. rewrite chunks_map.
  assert (HC : forall (xs ys : list rpm), combine xs (map (shifted o d) ys) = map (fun XY : rpm * rpm => (fst XY, shifted o d (snd XY))) (combine xs ys)).
  { induction xs as [|c cs IH]; intros [|e' ds]; try reflexivity. cbn [map combine fst snd]. f_equal. apply IH. }
  exact (HC _ _).
Qed.
Lemma net_shift : forall ts, map fst (shift_trainer d ts) = shift_net d (map fst ts).
Proof. induction ts as [|[p po] ts IH]; [reflexivity|]. destruct ts as [|t2 ts]; [reflexivity|]. rewrite shift_cons. cbn [map fst] in *. rewrite IH. reflexivity. Qed.
Lemma good_of_chain : forall (ts : list (player RNum * popt RNum)) i, chain i (map fst ts) o -> ends_linear (map fst ts) -> good ts.
Proof.
  induction ts as [|[p po] ts IH]; intros i HC HE; [exact HE|]. destruct ts as [|t2 ts]; [split; [exact HE|apply HC]|]. destruct HC as (_ & HC). exact (IH _ HC HE).
Qed.
Lemma pnet_shift r : forall (ps : list (player RNum)) (X : rpm) i, chain i ps o -> ends_linear ps -> pnet (K := RNum) (shift_net d ps) r X = shifted o d (pnet (K := RNum) ps r X).
Proof.
  induction ps as [|p ps IH]; intros X i HC HE; [destruct HE|]. destruct HC as (Hi & HC). destruct ps as [|p2 ps].
  - unfold pnet. cbn [shift_net fold_left]. apply forward_shift; [exact HE|exact HC].
  - change (pnet (shift_net d (p :: p2 :: ps)) r X) with (pnet (shift_net d (p2 :: ps)) r (pforward p r X)). rewrite (IH _ _ HC HE). reflexivity.
Qed.
End Shift.

Lemma fit_shifted s1 m1 es1 xs1 x1 rsx1 y1 rsy1 xv1 yv1 s2 m2 es2 xs2 x2 rsx2 y2 rsy2 xv2 yv2 i o k n d (X Y : rpm) epochs bs :
  (0 <= bs)%Z -> (Z.of_nat n + bs <= 2 ^ 52)%Z -> (1 <= n)%nat -> k = MSE \/ k = MAE -> ends_linear (net es1) ->
  trainable s1 m1 es1 xs1 i o k -> data_ok s1 es1 x1 rsx1 y1 rsy1 n i o X Y ->
  trainable s2 m2 es2 xs2 i o k -> data_ok s2 es2 x2 rsx2 y2 rsy2 n i o X (shifted o d Y) ->
  trainer es2 xs2 = shift_trainer d (trainer es1 xs1) -> r_uni (h_rng s2) = r_uni (h_rng s1) -> r_upos (h_rng s2) = r_upos (h_rng s1) ->
  exists s1' s2' es1' xs1' es2' xs2',
    Fit m1 x1 y1 epochs bs xv1 yv1 0 s1 = (Ret tt, s1') /\ Fit m2 x2 y2 epochs bs xv2 yv2 0 s2 = (Ret tt, s2') /\
    trainable s1' m1 es1' xs1' i o k /\ Forall2 same_place es1 es1' /\
    trainable s2' m2 es2' xs2' i o k /\ Forall2 same_place es2 es2' /\
    trainer es2' xs2' = shift_trainer d (trainer es1' xs1') /\ net es2' = shift_net d (net es1') /\ ends_linear (net es1').
Proof.
  intros Hb H52 Hn Hk HS HT1 HD1 HT2 HD2 HE HU HP.
  destruct (fit_trains s1 m1 es1 xs1 i o k x1 rsx1 y1 rsy1 n X Y epochs bs xv1 yv1 RNum_min_faithful Hb H52 Hn HT1 HD1)
    as ([] & s1' & E1 & nn1 & _ & (es1' & xs1' & HT1' & HPl1 & _ & Htr1 & _) & _).
  destruct (fit_trains s2 m2 es2 xs2 i o k x2 rsx2 y2 rsy2 n _ _ epochs bs xv2 yv2 RNum_min_faithful Hb H52 Hn HT2 HD2)
    as ([] & s2' & E2 & nn2 & _ & (es2' & xs2' & HT2' & HPl2 & _ & Htr2 & _) & _).
  exists s1', s2', es1', xs1', es2', xs2'. do 6 (split; [assumption|]).
  assert (HG : good o (trainer es1 xs1)).
  { pose proof (proj1 (proj2 (proj2 (proj2 (proj2 (proj1 HT1)))))) as HC. pose proof (trainer_net' es1 xs1 HT1) as HN. rewrite <- HN in HC, HS. exact (good_of_chain o _ i HC HS). }
  assert (HLen : length X = length Y).
  { destruct HD1 as (HX & HY & _). now rewrite (proj1 (own_shape _ _ _ _ _ _ HX)), (proj1 (own_shape _ _ _ _ _ _ HY)). }
  assert (HBR : (1 <= batch_rows n bs)%nat) by (unfold batch_rows; destruct (Z.eqb_spec bs 0); lia).
  destruct (train_on_shift o d k (r_uni (h_rng s1)) Hk (epochs_of (K := RNum) (Z.to_nat epochs) (batch_rows n bs) X Y) (trainer es1 xs1) (r_upos (h_rng s1)) (UnitOrder.epochs_paired _ _ _ _ HBR HLen) HG) as (ET & HG').
  assert (E : trainer es2' xs2' = shift_trainer d (trainer es1' xs1')) by (rewrite Htr1, Htr2, HE, HU, HP, epochs_shift, ET; reflexivity).
  split; [exact E|]. split.
  - rewrite <- (trainer_net' es1' xs1' HT1'), <- (trainer_net' es2' xs2' HT2'), E. apply net_shift.
  - rewrite <- (trainer_net' es1' xs1' HT1'). rewrite <- Htr1 in HG'. clear -HG'. induction (trainer es1' xs1') as [|[p po] ts IH]; [exact HG'|]. destruct ts as [|t2 ts]; [exact (proj1 HG')|]. exact (IH HG').
Qed.
Lemma predict_shifted s1 m1 es1 x1 rsx1 s2 m2 es2 x2 rsx2 i o d r (X : rpm) :
  consistent s1 m1 es1 i o -> consistent s2 m2 es2 i o -> ends_linear (net es1) -> net es2 = shift_net d (net es1) ->
  m_acctype m1 = 0%Z -> m_acctype m2 = 0%Z -> (1 <= r)%nat -> own s1 x1 rsx1 r i X -> own s2 x2 rsx2 r i X ->
  exists P1 P2 s1' s2' rs1 rs2 P, Predict m1 x1 s1 = (Ret P1, s1') /\ Predict m2 x2 s2 = (Ret P2, s2') /\ own s1' P1 rs1 r o P /\ own s2' P2 rs2 r o (shifted o d P).
Proof.
  intros HC1 HC2 HS HE HA1 HA2 Hr HX1 HX2.
  assert (HL1 : (1 <= length es1)%nat) by (destruct es1; [destruct HS|simpl; lia]).
  assert (HL2 : (1 <= length es2)%nat) by (destruct es2; [destruct es1 as [|e [|]]; [destruct HS|discriminate HE|discriminate HE]|simpl; lia]).
  destruct (ModelRefute.predict_spec s1 m1 es1 i o x1 rsx1 r X o (pnet (net es1) r X) HC1 HL1) as (P1 & s1' & E1 & rs1 & HO1 & _); [rewrite HA1; reflexivity|exact HX1|exact Hr|].
  destruct (ModelRefute.predict_spec s2 m2 es2 i o x2 rsx2 r X o (pnet (net es2) r X) HC2 HL2) as (P2 & s2' & E2 & rs2 & HO2 & _); [rewrite HA2; reflexivity|exact HX2|exact Hr|].
  exists P1, P2, s1', s2', rs1, rs2, (pnet (net es1) r X). do 3 (split; [assumption|]).
  rewrite HE, (pnet_shift o d r (net es1) X i (proj1 (proj2 (proj2 (proj2 (proj2 HC1))))) HS) in HO2. exact HO2.
Qed.
