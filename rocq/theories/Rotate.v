(** * Rotate: training by SGD commutes with rotating the inputs. *)
From Coq Require Import String ZArith List Bool Arith Lia Reals Lra.
From Verif Require Import Num NumR Heap Spec Matrix Loss Network Optimizers ModelGo PureSpec Repr HeapLemmas RSum MatrixFacts OptSpec LossProofs ModelSpec ModelFacts FitFacts FitProofs MiscProofs Params RotateSpec Span.
From Verif Require ModelRefute.
Import ListNotations.
Open Scope R_scope.

Section Iso.
Variables (i j : nat) (Q : nat -> nat -> R).
Lemma recoded_length X : length (recoded i j Q X) = length X.
Proof. apply map_length. Qed.
Lemma recoded_entry (X : rpm) n l : (n < length X)%nat -> (l < j)%nat -> entry (recoded i j Q X) n l = rsum i (fun a => entry X n a * Q a l).
Proof.
  intros Hn Hl. unfold entry, recoded. rewrite (nth_indep _ [] ((fun row : list R => map (fun l => rsum i (fun a => nth a row 0 * Q a l)) (seq 0 j)) [])) by (rewrite map_length; exact Hn).
  rewrite (map_nth (fun row : list R => map (fun l => rsum i (fun a => nth a row 0 * Q a l)) (seq 0 j))).
  erewrite nth_indep by (rewrite map_length, seq_length; exact Hl). rewrite (map_nth (fun l => rsum i (fun a => nth a (nth n X []) 0 * Q a l)) (seq 0 j) 0%nat). rewrite seq_nth by exact Hl. reflexivity.
Qed.
Lemma mk_ext r c (f g : nat -> nat -> RNum) : (forall a b, (a < r)%nat -> (b < c)%nat -> f a b = g a b) -> mk (K := RNum) r c f = mk r c g.
Proof. intros H. unfold mk. apply map_ext_in. intros a Ha. apply in_seq in Ha. apply map_ext_in. intros b Hb. apply in_seq in Hb. apply H; lia. Qed.
Lemma dW_recoded c (X G : rpm) : pdW (K := RNum) (length X) j c (recoded i j Q X) G = recoded_w i j c Q (pdW (K := RNum) (length X) i c X G).
Proof.
  unfold recoded_w. unfold pdW at 1, pdot. apply mk_ext. intros l u Hl Hu.
  transitivity (rsum (length X) (fun n => rsum i (fun a => Q a l * (entry X n a * entry G n u)))).
  - apply rsum_ext. intros n Hn. unfold ptrans. rewrite entry_mk by auto. rewrite recoded_entry by auto. cbn [fmul RNum]. rewrite Rmult_comm, <- rsum_scal. apply rsum_ext. intros a Ha. ring.
  - rewrite rsum_swap. apply rsum_ext. intros a Ha. rewrite dW_entry by auto. apply rsum_scal.
Qed.
Lemma map2_linear c (x y : R) (f : R -> R -> R) (A B : rpm) : (forall a b, f a b = x * a + y * b) ->
  pmap2 (K := RNum) j c f (recoded_w i j c Q A) (recoded_w i j c Q B) = recoded_w i j c Q (pmap2 (K := RNum) i c f A B).
Proof.
  intros Hf. unfold recoded_w at 3, pmap2 at 1. apply mk_ext. intros l u Hl Hu. rewrite Hf. unfold recoded_w. rewrite !entry_mk by auto.
  change (F RNum) with R. rewrite <- !rsum_scal, <- rsum_plus. apply rsum_ext. intros a Ha. unfold pmap2. rewrite entry_mk by auto. rewrite Hf. change (F RNum) with R. ring.
Qed.
Lemma upd1_recoded (po : popt RNum) c (P dP m ch : rpm) : po_kind po = SGD ->
  pupd1 po j c (recoded_w i j c Q P) (recoded_w i j c Q dP) (recoded_w i j c Q m) (recoded_w i j c Q ch) =
  (let '(P', m', ch') := pupd1 po i c P dP m ch in (recoded_w i j c Q P', recoded_w i j c Q m', recoded_w i j c Q ch')).
Proof.
  intros HK. unfold pupd1. rewrite HK.
  assert (V : forall A B, pmap2 (K := RNum) j c (vel1 (po_mom po) (next_rate po)) (recoded_w i j c Q A) (recoded_w i j c Q B) = recoded_w i j c Q (pmap2 (K := RNum) i c (vel1 (po_mom po) (next_rate po)) A B)).
  { intros A B. apply (map2_linear c (po_mom po) (- next_rate po)). intros a b. unfold vel1. cbn [fsub fmul RNum]. change (F RNum) with R in *. ring. }
  destruct (po_usemom po).
  - rewrite V. do 2 f_equal. apply (map2_linear c 1 1). intros a b. cbn [fadd RNum]. ring.
  - do 2 f_equal. apply (map2_linear c 1 (- next_rate po)). intros a b. unfold sgd1. cbn [fsub fmul RNum]. change (F RNum) with R in *. ring.
Qed.
Hypothesis HQ : isometry i j Q.
(** The first layer computes what it computed before. *)
Lemma affine_recoded (p : player RNum) (X : rpm) : p_in p = i -> paffine (recoded_layer j Q p) (length X) (recoded i j Q X) = paffine p (length X) X.
Proof.
  intros Hi. unfold paffine, paff. cbn [recoded_layer p_in p_out p_w p_b]. rewrite Hi. apply mk_ext. intros n u Hn Hu. f_equal.
  transitivity (rsum j (fun l => rsum i (fun a => rsum i (fun b => entry X n a * entry (p_w p) b u * (Q a l * Q b l))))).
  - apply rsum_ext. intros l Hl. rewrite recoded_entry by auto. unfold recoded_w. rewrite entry_mk by auto. cbn [fmul RNum].
    rewrite <- rsum_scal_r. apply rsum_ext. intros a Ha. rewrite <- rsum_scal. apply rsum_ext. intros b Hb. change (F RNum) with R in *. ring.
  - rewrite rsum_swap. apply rsum_ext. intros a Ha. rewrite rsum_swap.
    transitivity (rsum i (fun b => if (a =? b)%nat then entry X n a * entry (p_w p) b u else 0)).
    + apply rsum_ext. intros b Hb. rewrite rsum_scal, HQ by auto. destruct (a =? b)%nat; change (F RNum) with R; ring.
    + exact (rsum_delta i a (fun b => entry X n a * entry (p_w p) b u) Ha).
Qed.
Lemma train_recoded (p : player RNum) (X : rpm) u : p_in p = i -> ptrain (recoded_layer j Q p) (length X) (recoded i j Q X) u = ptrain p (length X) X u.
Proof.
  intros Hi. unfold ptrain, pforward, pforward_drop. rewrite (affine_recoded p X Hi). reflexivity.
Qed.
Lemma pnet_recoded (ps : list (player RNum)) (X : rpm) : match ps with [] => False | p :: _ => p_in p = i end -> pnet (recoded_net j Q ps) (length X) (recoded i j Q X) = pnet ps (length X) X.
Proof. destruct ps as [|p ps]; [intros []|]. intros Hi. unfold pnet. cbn [recoded_net fold_left]. f_equal. unfold pforward. rewrite (affine_recoded p X Hi). reflexivity. Qed.
Lemma step_recoded p po (X G dB : rpm) : p_in p = i -> po_kind po = SGD ->
  tstep (K := RNum) (recoded_layer j Q p, recoded_opt i j (p_out p) Q po) (pdW (K := RNum) (length X) j (p_out p) (recoded i j Q X) G, dB) =
  (let '(p', po') := tstep (K := RNum) (p, po) (pdW (K := RNum) (length X) i (p_out p) X G, dB) in (recoded_layer j Q p', recoded_opt i j (p_out p') Q po')).
Proof.
  intros Hi HK. unfold tstep, pupdate. cbn [fst snd recoded_layer p_in p_out p_w p_b recoded_opt po_wm po_wc po_bm po_bc].
  rewrite dW_recoded, Hi.
  change (pupd1 (recoded_opt i j (p_out p) Q po)) with (pupd1 (K := RNum) po).
  rewrite upd1_recoded by exact HK. destruct (pupd1 po i (p_out p) (p_w p) (pdW (K := RNum) (length X) i (p_out p) X G) (po_wm po) (po_wc po)) as [[W' m'] c'].
  destruct (pupd1 po 1 (p_out p) (p_b p) dB (po_bm po) (po_bc po)) as [[B' bm] bc].
  unfold reparam, recoded_layer, recoded_opt, po_after. cbn [p_kind p_in p_out p_w p_b p_slope p_drop]. rewrite Hi. reflexivity.
Qed.
Definition fits (ts : list (player RNum * popt RNum)) : Prop := match ts with [] => False | (p, po) :: _ => p_in p = i /\ po_kind po = SGD end.
Lemma tstep_keeps p po g : let t := tstep (K := RNum) (p, po) g in p_in (fst t) = p_in p /\ p_out (fst t) = p_out p /\ po_kind (snd t) = po_kind po.
Proof.
  cbv zeta. unfold tstep, pupdate. cbn [fst snd]. destruct (pupd1 po (p_in p) (p_out p) (p_w p) (fst g) (po_wm po) (po_wc po)) as [[W' m'] c'].
  destruct (pupd1 po 1 (p_out p) (p_b p) (snd g) (po_bm po) (po_bc po)) as [[B' bm] bc]. repeat split.
Qed.
Lemma batch_recoded k o ts (X Y : rpm) U q : fits ts ->
  pbatch (K := RNum) k o (recoded_trainer j Q ts) (recoded i j Q X) Y U q = recoded_trainer j Q (pbatch (K := RNum) k o ts X Y U q) /\ fits (pbatch (K := RNum) k o ts X Y U q).
Proof.
  destruct ts as [|[p po] ts]; [intros []|]. intros (Hi & HK). unfold pbatch. rewrite recoded_length. cbn [recoded_trainer map fst pbackprop]. rewrite Hi.
  rewrite (train_recoded p X (from U q) Hi). change (pdraws (recoded_layer j Q p) (length X)) with (pdraws p (length X)).
  change (ptrain_mask (recoded_layer j Q p) (length X) (from U q)) with (ptrain_mask p (length X) (from U q)).
  destruct (pbackprop (K := RNum) k Y o (map fst ts) (length X) (ptrain p (length X) X (from U q)) U (q + pdraws p (length X))) as [G gs].
  cbn [snd combine map fst]. cbv zeta.
  match goal with |- context [pdW _ i (p_out p) X ?g] => set (G' := g) end.
  match goal with |- context [pdW _ _ _ (recoded i j Q X) ?g] => change g with G' end.
  change (p_in (recoded_layer j Q p)) with j. change (p_out (recoded_layer j Q p)) with (p_out p). rewrite step_recoded by assumption.
  pose proof (tstep_keeps p po (pdW (K := RNum) (length X) i (p_out p) X G', psum0 (length X) (p_out p) G')) as E.
  destruct (tstep (p, po) (pdW (length X) i (p_out p) X G', psum0 (length X) (p_out p) G')) as [p' po']. cbn [fst snd] in E. destruct E as (E1 & E2 & E3).
  cbn [recoded_trainer fits]. rewrite E1, E3. split; [now rewrite Hi|]. split; assumption.
Qed.
Lemma train_on_recoded k o U : forall bs ts q, fits ts ->
  ptrain_on (K := RNum) k o (recoded_trainer j Q ts) U q (map (fun XY => (recoded i j Q (fst XY), snd XY)) bs) =
    (recoded_trainer j Q (fst (ptrain_on (K := RNum) k o ts U q bs)), snd (ptrain_on (K := RNum) k o ts U q bs)) /\ fits (fst (ptrain_on (K := RNum) k o ts U q bs)).
Proof.
  induction bs as [|[X Y] bs IH]; intros ts q HF; [split; [reflexivity|exact HF]|]. cbn [map ptrain_on fst snd].
  destruct (batch_recoded k o ts X Y U q HF) as (E & HF'). rewrite E. destruct (IH _ (q + net_draws true (map fst ts) (length X))%nat HF') as (E2 & HF2).
  rewrite recoded_length. replace (net_draws true (map fst (recoded_trainer j Q ts)) (length X)) with (net_draws true (map fst ts) (length X)); [split; assumption|].
  destruct ts as [|[p po] ts]; reflexivity.
Qed.
Lemma chunks_map {A B} (f : A -> B) b : forall n l, chunks_fuel n b (map f l) = map (map f) (chunks_fuel n b l).
Proof. induction n as [|n IH]; intros [|a l]; try reflexivity. cbn [map chunks_fuel]. rewrite <- (map_cons f a l), firstn_map, skipn_map, IH. reflexivity. Qed.
Lemma repeat_map {A B} (f : A -> B) x n : map f (repeat x n) = repeat (f x) n.
Proof. induction n; simpl; congruence. Qed.
Lemma epochs_recoded e b (X Y : rpm) : epochs_of (K := RNum) e b (recoded i j Q X) Y = map (fun XY => (recoded i j Q (fst XY), snd XY)) (epochs_of (K := RNum) e b X Y).
Proof.
  unfold epochs_of. rewrite concat_map. f_equal. rewrite repeat_map. f_equal. unfold chunks. rewrite recoded_length. unfold recoded at 1. rewrite chunks_map.
  assert (HC : forall (xs ys : list rpm), combine (map (recoded i j Q) xs) ys = map (fun XY => (recoded i j Q (fst XY), snd XY)) (combine xs ys)).
  { induction xs as [|c cs IH]; intros [|d ds]; try reflexivity. cbn [map combine fst snd]. f_equal. apply IH. }
  exact (HC _ _).
Qed.
End Iso.

Lemma trainer_net' s (m : model RNum) es xs i o k : trainable s m es xs i o k -> map fst (trainer es xs) = net es.
Proof. intros HT. apply trainer_net. destruct HT as (_ & _ & _ & _ & _ & HO & _). symmetry. eapply Forall2_length; eauto. Qed.
Arguments trainer_net' {s m} es xs {i o k} _.
Lemma fit_recoded s1 m1 es1 xs1 x1 rsx1 y1 rsy1 xv1 yv1 s2 m2 es2 xs2 x2 rsx2 y2 rsy2 xv2 yv2 i j o k n Q (X Y : rpm) epochs bs :
  (0 <= bs)%Z -> (Z.of_nat n + bs <= 2 ^ 52)%Z -> (1 <= n)%nat -> isometry i j Q -> first_sgd (trainer es1 xs1) ->
  trainable s1 m1 es1 xs1 i o k -> data_ok s1 es1 x1 rsx1 y1 rsy1 n i o X Y ->
  trainable s2 m2 es2 xs2 j o k -> data_ok s2 es2 x2 rsx2 y2 rsy2 n j o (recoded i j Q X) Y ->
  trainer es2 xs2 = recoded_trainer j Q (trainer es1 xs1) -> r_uni (h_rng s2) = r_uni (h_rng s1) -> r_upos (h_rng s2) = r_upos (h_rng s1) ->
  exists s1' s2' es1' xs1' es2' xs2',
    Fit m1 x1 y1 epochs bs xv1 yv1 0 s1 = (Ret tt, s1') /\ Fit m2 x2 y2 epochs bs xv2 yv2 0 s2 = (Ret tt, s2') /\
    trainable s1' m1 es1' xs1' i o k /\ Forall2 same_place es1 es1' /\
    trainable s2' m2 es2' xs2' j o k /\ Forall2 same_place es2 es2' /\
    trainer es2' xs2' = recoded_trainer j Q (trainer es1' xs1') /\ net es2' = recoded_net j Q (net es1').
Proof.
  intros Hb H52 Hn HQ HS HT1 HD1 HT2 HD2 HE HU HP.
  destruct (fit_trains s1 m1 es1 xs1 i o k x1 rsx1 y1 rsy1 n X Y epochs bs xv1 yv1 RNum_min_faithful Hb H52 Hn HT1 HD1)
    as ([] & s1' & E1 & nn1 & _ & (es1' & xs1' & HT1' & HPl1 & _ & Htr1 & _) & _).
  destruct (fit_trains s2 m2 es2 xs2 j o k x2 rsx2 y2 rsy2 n _ _ epochs bs xv2 yv2 RNum_min_faithful Hb H52 Hn HT2 HD2)
    as ([] & s2' & E2 & nn2 & _ & (es2' & xs2' & HT2' & HPl2 & _ & Htr2 & _) & _).
  exists s1', s2', es1', xs1', es2', xs2'. do 6 (split; [assumption|]).
  assert (HF : fits i (trainer es1 xs1)).
  { pose proof (proj1 (proj2 (proj2 (proj2 (proj2 (proj1 HT1)))))) as HC. pose proof (proj1 (proj2 (proj2 HT1))) as HL. pose proof (trainer_net' es1 xs1 HT1) as HN.
    unfold fits, first_sgd in *. destruct es1 as [|e es1]; [simpl in HL; lia|]. destruct (trainer (e :: es1) xs1) as [|[p po] ts]; [discriminate HN|]. cbn in HN. injection HN as -> _. split; [apply HC|exact HS]. }
  destruct (train_on_recoded i j Q HQ k o (r_uni (h_rng s1)) (epochs_of (K := RNum) (Z.to_nat epochs) (batch_rows n bs) X Y) (trainer es1 xs1) (r_upos (h_rng s1)) HF) as (ET & _).
  assert (E : trainer es2' xs2' = recoded_trainer j Q (trainer es1' xs1')) by (rewrite Htr1, Htr2, HE, HU, HP, epochs_recoded, ET; reflexivity).
  split; [exact E|]. rewrite <- (trainer_net' es1' xs1' HT1'), <- (trainer_net' es2' xs2' HT2'), E. destruct (trainer es1' xs1') as [|[p po] ts]; reflexivity.
Qed.
Lemma predict_recoded s1 m1 es1 x1 rsx1 s2 m2 es2 x2 rsx2 i j o Q r (X : rpm) :
  isometry i j Q -> consistent s1 m1 es1 i o -> consistent s2 m2 es2 j o -> (1 <= length es1)%nat -> net es2 = recoded_net j Q (net es1) ->
  m_acctype m1 = 0%Z -> m_acctype m2 = 0%Z -> (1 <= r)%nat -> own s1 x1 rsx1 r i X -> own s2 x2 rsx2 r j (recoded i j Q X) ->
  exists P1 P2 s1' s2' rs1 rs2 P, Predict m1 x1 s1 = (Ret P1, s1') /\ Predict m2 x2 s2 = (Ret P2, s2') /\ own s1' P1 rs1 r o P /\ own s2' P2 rs2 r o P.
Proof.
  intros HQ HC1 HC2 HL HN A1 A2 Hr HX1 HX2.
  assert (HL2 : (1 <= length es2)%nat). { apply (f_equal (@length _)) in HN. unfold net in HN. rewrite map_length in HN. destruct es1 as [|e es1]; [simpl in HL; lia|]. cbn in HN. lia. }
  destruct (ModelRefute.predict_spec s1 m1 es1 i o x1 rsx1 r X o (pnet (net es1) r X) HC1 HL ltac:(now rewrite A1) HX1 Hr) as (P1 & s1' & E1 & rs1 & O1 & _).
  destruct (ModelRefute.predict_spec s2 m2 es2 j o x2 rsx2 r _ o (pnet (net es2) r (recoded i j Q X)) HC2 HL2 ltac:(now rewrite A2) HX2 Hr) as (P2 & s2' & E2 & rs2 & O2 & _).
  exists P1, P2, s1', s2', rs1, rs2, (pnet (net es1) r X). do 3 (split; [assumption|]).
  pose proof (own_shape _ _ _ _ _ _ HX1) as (HLX & _). rewrite HN in O2. rewrite <- HLX in O2 at 2. rewrite (pnet_recoded i j Q HQ) in O2; [rewrite HLX in O2; exact O2|].
  pose proof (proj1 (proj2 (proj2 (proj2 (proj2 HC1))))) as HC. destruct es1 as [|e es1]; [simpl in HL; lia|]. apply HC.
Qed.
