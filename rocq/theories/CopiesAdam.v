(** * CopiesAdam: Adam on several copies of the data. *)
From Coq Require Import String ZArith List Bool Arith Lia Reals Lra.
From Coquelicot Require Import Coquelicot.
From Verif Require Import Num NumR Heap Spec Matrix Loss Network Optimizers ModelGo PureSpec Repr HeapLemmas LoopLemmas MatrixFacts MiscFacts RSum LayerFacts LayerReal GradSpec Grad LossProofs LossReal LossCode OptSpec ModelSpec ModelProofs FitProofs FitFacts NetGradSpec NetGrad NetGradCode LossRefute Converge ConvergeFit ConvergeEx ConserveProofs MiniBatch MiniFit RowOrder CopiesSpec Copies CopiesEx.
Import ListNotations.
Open Scope R_scope.

Lemma adam_scale (rate eps corr p m c t : R) : 0 < t ->
  adam_p1 (K := RNum) rate (eps / t) corr p (m / t) (c / (t * t)) = adam_p1 (K := RNum) rate eps corr p m c.
Proof.
  intros Ht. unfold adam_p1. change (p + - rate * (m / t * corr) / (sqrt (c / (t * t) * corr) + eps / t) = p + - rate * (m * corr) / (sqrt (c * corr) + eps)). f_equal.
  assert (E : sqrt (c / (t * t) * corr) = sqrt (c * corr) / t).
  { replace (c / (t * t) * corr) with ((/ t * / t) * (c * corr)) by (unfold Rdiv; rewrite Rinv_mult; ring).
    assert (0 < / t) by now apply Rinv_0_lt_compat.
    rewrite sqrt_mult_alt by nra. rewrite sqrt_square by lra. unfold Rdiv. ring. }
  rewrite E. replace (sqrt (c * corr) / t + eps / t) with ((sqrt (c * corr) + eps) * / t) by (unfold Rdiv; ring).
  unfold Rdiv. rewrite Rinv_mult, Rinv_inv. assert (HI : / t * t = 1) by (field; lra).
  transitivity (- rate * (m * corr) * / (sqrt (c * corr) + eps) * (/ t * t)); [ring|rewrite HI; ring].
Qed.
Lemma adam_sum t (po : popt RNum) r k (P dP dP' m ch : rpm) a b : 0 < t -> po_kind po = Adam -> dP' = mk (K := RNum) r k (fun i j => t * entry dP i j) ->
  let '(P1, m1, c1) := pupd1 (finer_opt t a b po) r k P dP (over t r k m) (over (t * t) r k ch) in
  let '(P2, m2, c2) := pupd1 po r k P dP' m ch in P1 = P2 /\ m1 = over t r k m2 /\ c1 = over (t * t) r k c2.
Proof.
  intros Ht HK ->. unfold pupd1. replace (po_kind (finer_opt t a b po)) with (po_kind po) by reflexivity. rewrite HK.
  replace (next_rate (finer_opt t a b po)) with (next_rate po) by reflexivity.
  replace (po_b1 (finer_opt t a b po)) with (po_b1 po) by reflexivity. replace (po_b2 (finer_opt t a b po)) with (po_b2 po) by reflexivity.
  replace (po_iter (finer_opt t a b po)) with (po_iter po) by reflexivity. replace (po_eps (finer_opt t a b po)) with (po_eps po / t) by reflexivity.
  set (m1 := pmap2 r k (adam_m1 (po_b1 po)) (over t r k m) dP).
  set (c1 := pmap2 r k (adam_c1 (po_b2 po)) (over (t * t) r k ch) dP).
  set (m2 := pmap2 r k (adam_m1 (po_b1 po)) m (mk (K := RNum) r k (fun i j => t * entry dP i j))).
  set (c2 := pmap2 r k (adam_c1 (po_b2 po)) ch (mk (K := RNum) r k (fun i j => t * entry dP i j))).
  assert (Em : m1 = over t r k m2).
  { apply mk_ext. intros i j Hi Hj. unfold m2, pmap2, over. rewrite !entry_mk by assumption. unfold adam_m1.
    change (entry m i j / t * po_b1 po + entry dP i j * (1 - po_b1 po) = (entry m i j * po_b1 po + t * entry dP i j * (1 - po_b1 po)) / t). field. lra. }
  assert (Ec : c1 = over (t * t) r k c2).
  { apply mk_ext. intros i j Hi Hj. unfold c2, pmap2, over. rewrite !entry_mk by assumption. unfold adam_c1. rewrite !R_pow2.
    change (entry ch i j / (t * t) * po_b2 po + entry dP i j ^ 2 * (1 - po_b2 po) = (entry ch i j * po_b2 po + (t * entry dP i j) ^ 2 * (1 - po_b2 po)) / (t * t)). field. lra. }
  split; [|now split]. apply mk_ext. intros i j Hi Hj. rewrite Em, Ec. unfold over. rewrite !entry_mk by assumption. now apply adam_scale.
Qed.
Lemma tstep_adam t x g g' : 0 < t -> po_kind (snd x) = Adam -> times t (p_in (fst x)) (p_out (fst x)) g g' -> tstep (K := RNum) (finer t x) g = finer t (tstep x g').
Proof.
  intros Ht HK (E1 & E2). destruct x as (p & po). unfold tstep, pupdate, finer. cbn [fst snd] in *.
  pose proof (adam_sum t po (p_in p) (p_out p) (p_w p) (fst g) (fst g') (po_wm po) (po_wc po) (p_in p) (p_out p) Ht HK E1) as A1.
  pose proof (adam_sum t po 1 (p_out p) (p_b p) (snd g) (snd g') (po_bm po) (po_bc po) (p_in p) (p_out p) Ht HK E2) as A2.
  replace (po_wm (finer_opt t (p_in p) (p_out p) po)) with (over t (p_in p) (p_out p) (po_wm po)) by reflexivity.
  replace (po_bm (finer_opt t (p_in p) (p_out p) po)) with (over t 1 (p_out p) (po_bm po)) by reflexivity.
  replace (po_wc (finer_opt t (p_in p) (p_out p) po)) with (over (t * t) (p_in p) (p_out p) (po_wc po)) by reflexivity.
  replace (po_bc (finer_opt t (p_in p) (p_out p) po)) with (over (t * t) 1 (p_out p) (po_bc po)) by reflexivity.
  destruct (pupd1 (finer_opt t (p_in p) (p_out p) po) (p_in p) (p_out p) (p_w p) (fst g) _ _) as ((W & wm) & wc).
  destruct (pupd1 (finer_opt t (p_in p) (p_out p) po) 1 (p_out p) (p_b p) (snd g) _ _) as ((B & bm) & bc).
  destruct (pupd1 po (p_in p) (p_out p) (p_w p) (fst g') (po_wm po) (po_wc po)) as ((W2 & wm2) & wc2).
  destruct (pupd1 po 1 (p_out p) (p_b p) (snd g') (po_bm po) (po_bc po)) as ((B2 & bm2) & bc2).
  destruct A1 as (-> & -> & ->). destruct A2 as (-> & -> & ->). reflexivity.
Qed.
Lemma steps_adam t gs gs' (ts : list (player RNum * popt RNum)) : 0 < t -> List.Forall (fun x => po_kind (snd x) = Adam) ts -> all_times t (map fst ts) gs gs' ->
  map (fun tg => tstep (K := RNum) (fst tg) (snd tg)) (combine (map (finer t) ts) gs) = map (finer t) (map (fun tg => tstep (fst tg) (snd tg)) (combine ts gs')).
Proof.
  intros Ht. revert gs gs'. induction ts as [|x ts IH]; intros [|g gs] [|g' gs'] HF H; try (destruct H; fail); try reflexivity. destruct H as (H1 & H2). inversion HF; subst.
  cbn [combine map fst snd]. rewrite (tstep_adam t x g g') by assumption. now rewrite (IH gs gs').
Qed.
Lemma steps_adam_kind gs (ts : list (player RNum * popt RNum)) : List.Forall (fun x => po_kind (snd x) = Adam) ts ->
  List.Forall (fun x => po_kind (snd x) = Adam) (map (fun tg => tstep (K := RNum) (fst tg) (snd tg)) (combine ts gs)).
Proof.
  intros H. revert gs. induction H as [|x ts Hx Ht IH]; intros [|g gs]; try constructor; cbn [fst snd]; [now rewrite tstep_okind|apply IH].
Qed.
Lemma map_fst_finer t ts : map fst (map (finer t) ts) = map fst ts.
Proof. rewrite map_map. apply map_ext. reflexivity. Qed.
Lemma train_adam n c (X Y : rpm) i o k e : (1 <= n)%nat -> (1 <= c)%nat -> length X = n -> length Y = n -> k = MSE \/ k = MAE ->
  forall (ts : list (player RNum * popt RNum)) U q U' q', chain i (map fst ts) o -> List.Forall (fun l => p_kind l <> Dropout) (map fst ts) ->
  List.Forall (fun x => po_kind (snd x) = Adam) ts ->
  fst (ptrain_on (K := RNum) k o (map (finer (INR c)) ts) U q (repeat (X, Y) e)) =
  map (finer (INR c)) (fst (ptrain_on (K := RNum) k o ts U' q' (repeat (copies c X, copies c Y) e))).
Proof.
  intros Hn Hc HX HY Hk. assert (Hct : 0 < INR c) by (apply lt_0_INR; lia). induction e as [|e IH]; intros ts U q U' q' HC HF HS; [reflexivity|]. cbn [repeat ptrain_on].
  assert (E : pbatch (K := RNum) k o (map (finer (INR c)) ts) X Y U q = map (finer (INR c)) (pbatch (K := RNum) k o ts (copies c X) (copies c Y) U' q')).
  { unfold pbatch. rewrite map_fst_finer. apply steps_adam; [exact Hct|exact HS|]. pose proof (batch_times n c X Y i o Hn Hc HX HY k ts U q U' q' HC HF) as HB.
    replace (INR c * share c k) with (INR c) in HB; [exact HB|]. destruct Hk as [-> | ->]; simpl; ring. }
  rewrite E. destruct (batch_kept k o ts (copies c X) (copies c Y) U' q' i HC HF). apply IH; try assumption. now apply steps_adam_kind.
Qed.
Lemma fit_adam s1 m1 es1 xs1 x1 rsx1 y1 rsy1 xv1 yv1 s2 m2 es2 xs2 x2 rsx2 y2 rsy2 xv2 yv2 i o k n c (X Y : rpm) epochs bs1 bs2 :
  (bs1 = 0 \/ Z.of_nat n <= bs1)%Z -> (Z.of_nat n + bs1 <= 2 ^ 52)%Z ->
  (bs2 = 0 \/ Z.of_nat (c * n) <= bs2)%Z -> (Z.of_nat (c * n) + bs2 <= 2 ^ 52)%Z -> (1 <= n)%nat -> (1 <= c)%nat ->
  trainable s1 m1 es1 xs1 i o k -> data_ok s1 es1 x1 rsx1 y1 rsy1 n i o X Y ->
  trainable s2 m2 es2 xs2 i o k -> data_ok s2 es2 x2 rsx2 y2 rsy2 (c * n) i o (copies c X) (copies c Y) ->
  List.Forall (fun e => p_kind (e_p e) <> Dropout) es2 -> k = MSE \/ k = MAE ->
  trainer es1 xs1 = map (finer (INR c)) (trainer es2 xs2) -> List.Forall (fun x => po_kind (snd x) = Adam) (trainer es2 xs2) ->
  exists s1' s2' es1' xs1' es2' xs2',
    Fit m1 x1 y1 epochs bs1 xv1 yv1 0 s1 = (Ret tt, s1') /\ Fit m2 x2 y2 epochs bs2 xv2 yv2 0 s2 = (Ret tt, s2') /\
    trainable s1' m1 es1' xs1' i o k /\ Forall2 same_place es1 es1' /\
    trainable s2' m2 es2' xs2' i o k /\ Forall2 same_place es2 es2' /\
    trainer es1' xs1' = map (finer (INR c)) (trainer es2' xs2').
Proof.
  intros Hb1 H1 Hb2 H2 Hn Hc HT1 HD1 HT2 HD2 HND Hk HE HS.
  destruct (both_fit s1 m1 es1 xs1 x1 rsx1 y1 rsy1 xv1 yv1 s2 m2 es2 xs2 x2 rsx2 y2 rsy2 xv2 yv2 i o k n c X Y epochs bs1 bs2 Hb1 H1 Hb2 H2 Hn Hc HT1 HD1 HT2 HD2) as (s1' & s2' & es1' & xs1' & es2' & xs2' & A1 & A2 & A3 & A4 & A5 & A6 & A7 & A8).
  exists s1', s2', es1', xs1', es2', xs2'. do 6 (split; [assumption|]). rewrite A7, A8, HE.
  destruct (net2 s2 m2 es2 xs2 i o k HT2 HND) as (HC & HF).
  destruct (lens s1 es1 x1 rsx1 y1 rsy1 i o n X Y HD1) as (HX & HY). now apply train_adam with (n := n) (i := i).
Qed.

(** ** A concrete case: the linear model of [ConvergeEx] in the middle of a training with Adam *)
Definition ca_po (eps m1 m2 m3 c1 c2 c3 : R) : popt RNum :=
  PO (K := RNum) Adam (1/10) 0 0 eps (9/10) (99/100) (1/10) 3 false false [[m1];[m2]] [[m3]] [[c1];[c2]] [[c3]].
Definition ca_xo eps m1 m2 m3 c1 c2 c3 : oent RNum := OE (K := RNum) 0 [13;14;15;16;17;18]%nat (ca_po eps m1 m2 m3 c1 c2 c3).
Definition ca_state (outs : list (list nat)) (eps m1 m2 m3 c1 c2 c3 : R) : state RNum :=
  MkState (K := RNum) (h_rows (cv_state 1) ++ [[m1]; [m2]; [m3]; [c1]; [c2]; [c3]])
    (outs ++ [[13;14]; [15]; [16;17]; [18]])%nat (h_layers (cv_state 1))
    [MkOpt (K := RNum) Adam (1/10) 0 0 eps (9/10) (99/100) (1/10) 3 (MkMatrix 2 1 (MkSlice 8 0 2)) (MkMatrix 1 1 (MkSlice 9 0 1)) (MkMatrix 2 1 (MkSlice 10 0 2)) (MkMatrix 1 1 (MkSlice 11 0 1)) false false]
    nr_rng true [].
(** The copies side and the side with the data once. *)
Definition ca_two : state RNum := ca_state (h_outs (cp_state 1)) 2 2 4 2 4 8 4.
Definition ca_one : state RNum := ca_state (h_outs (cv_state 1)) 1 1 2 1 1 2 1.
Ltac ca_tac := unfold trainable; split; [|split; [|split; [|split; [|split; [|split; [|split; [|split; [|split]]]]]]]];
  [unfold consistent; do 4 (split; [reflexivity|]); split; [simpl; auto|];
    repeat constructor; eexists; (split; [reflexivity|]); unfold lown; simpl; repeat (split; [first [reflexivity|lia]|]); split; own_tac'
  |split; nd|simpl; lia|reflexivity|nd
  |repeat constructor; eexists; (split; [reflexivity|]); unfold oown, oscal; simpl; split; [auto 20|right];
    exists [13;14]%nat, [15]%nat, [16;17]%nat, [18]%nat; (split; [reflexivity|]); split; [own_tac'|split; [own_tac'|split; own_tac']]
  |dj|reflexivity|reflexivity|repeat constructor; discriminate].
Lemma ca_trainable_two : trainable ca_two cv_m1 [cv_e1] [ca_xo 2 2 4 2 4 8 4] 2 1 MSE.
Proof. ca_tac. Qed.
Lemma ca_trainable_one : trainable ca_one cv_m1 [cv_e1] [ca_xo 1 1 2 1 1 2 1] 2 1 MSE.
Proof. ca_tac. Qed.
Lemma ca_data_two : data_ok ca_two [cv_e1] cp_x [4;5;4;5]%nat cp_y1 [6;7;6;7]%nat (2 * 2) 2 1 (copies 2 cvX) (copies 2 cvY1).
Proof. split; [own_tac'|]. split; [own_tac'|]. split; dj. Qed.
Lemma ca_data_one : data_ok ca_one [cv_e1] cv_x [4;5]%nat cv_y1 [6;7]%nat 2 2 1 cvX cvY1.
Proof. split; [own_tac'|]. split; [own_tac'|]. split; dj. Qed.
Lemma ca_finer : trainer [cv_e1] [ca_xo 1 1 2 1 1 2 1] = map (finer (INR 2)) (trainer [cv_e1] [ca_xo 2 2 4 2 4 8 4]).
Proof.
  unfold trainer, ca_xo, ca_po, finer, finer_opt. cbn [combine map fst snd e_p x_po po_kind po_lr po_decay po_mom po_eps po_b1 po_b2 po_rate po_iter po_usedecay po_usemom po_wm po_bm po_wc po_bc].
  assert (E : INR 2 = 2) by (simpl; ring). rewrite E.
  assert (F1 : over 2 2 1 [[2];[4]] = [[1];[2]]) by (cbv [over mk map seq entry nth]; repeat f_equal; field).
  assert (F2 : over 2 1 1 [[2]] = [[1]]) by (cbv [over mk map seq entry nth]; repeat f_equal; field).
  assert (F3 : over (2 * 2) 2 1 [[4];[8]] = [[1];[2]]) by (cbv [over mk map seq entry nth]; repeat f_equal; field).
  assert (F4 : over (2 * 2) 1 1 [[4]] = [[1]]) by (cbv [over mk map seq entry nth]; repeat f_equal; field).
  change ([(e_p cv_e1, ca_po 1 1 2 1 1 2 1)] = [(e_p cv_e1, PO (K := RNum) Adam (1/10) 0 0 (2 / 2)%R (9/10) (99/100) (1/10) 3 false false
    (over 2 2 1 [[2];[4]]) (over 2 1 1 [[2]]) (over (2 * 2) 2 1 [[4];[8]]) (over (2 * 2) 1 1 [[4]]))]).
  rewrite F1, F2, F3, F4. replace (2 / 2)%R with 1%R by field. reflexivity.
Qed.
