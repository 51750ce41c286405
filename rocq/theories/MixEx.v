(** * MixEx: three linear layers, the third the sum of twice the first and the second; the absolute error is not linear. *)
From Coq Require Import String ZArith List Bool Arith Lia Reals Lra.
From Verif Require Import Num NumR Heap Spec Matrix Loss Network Optimizers ModelGo PureSpec Repr HeapLemmas RSum MiscFacts OptSpec OptFacts ModelSpec FitFacts LossRefute FitProofs LossProofs ModelProofs LayerReal NetGradCode MatrixFacts Params Span SpanEx Rotate RotateEx MixSpec Mix.
Import ListNotations.
Open Scope R_scope.

(** Linear 2 -> 1 with weights [u], [v] and bias [b], targets [y0] and [y1]; SGD with momentum 1/2. *)
Definition mx_state (u v b y0 y1 : R) : state RNum :=
  MkState (K := RNum) [[u]; [v]; [b]; [1;2]; [3;-1]; [y0]; [y1]] [[1;2]; [3]; [4;5]; [6;7]]%nat
    [MkLayer (K := RNum) Linear 2 1 (MkMatrix 2 1 (MkSlice 1 0 2)) (MkMatrix 1 1 (MkSlice 2 0 1)) 0 0 matrix0 matrix0] [rt_o] nr_rng true [].
Definition mx_es (u v b : R) : list (lent RNum) := [LE (K := RNum) 0 [1;2]%nat [3]%nat (PL (K := RNum) Linear 2 1 [[u];[v]] [[b]] 0 0)].
Definition mx_xs : list (oent RNum) := [OE (K := RNum) 0 [] (rt_po 2 1)].
Definition mx_m : model RNum := MkModel (K := RNum) 1 2 1 0 (Some (MkLoss MSE 1)) 0 0 0 [] [0]%nat [0]%nat.
Definition mx_x : matrix := MkMatrix 2 2 (MkSlice 3 0 2).
Definition mx_y : matrix := MkMatrix 2 1 (MkSlice 4 0 2).
Lemma mx_trainable u v b y0 y1 : trainable (mx_state u v b y0 y1) mx_m (mx_es u v b) mx_xs 2 1 MSE.
Proof.
  unfold trainable. split; [|split; [|split; [|split; [|split; [|split; [|split; [|split; [|split]]]]]]]].
  - unfold consistent. do 4 (split; [reflexivity|]). split; [simpl; auto|].
    repeat constructor; eexists; (split; [reflexivity|]); unfold lown; simpl; repeat (split; [first [reflexivity|lia]|]); split; own_tac'.
  - split; nd.
  - simpl; lia.
  - reflexivity.
  - nd.
  - repeat constructor; eexists; (split; [reflexivity|]); unfold oown, oscal; simpl; auto 20.
  - dj.
  - reflexivity.
  - reflexivity.
  - repeat constructor; discriminate.
Qed.
Lemma mx_data u v b y0 y1 : data_ok (mx_state u v b y0 y1) (mx_es u v b) mx_x [4;5]%nat mx_y [6;7]%nat 2 2 1 [[1;2];[3;-1]] [[y0];[y1]].
Proof. split; [own_tac'|]. split; [own_tac'|]. split; dj. Qed.
Lemma mx_all : trainable (mx_state 1 0 (1/2) 1 4) mx_m (mx_es 1 0 (1/2)) mx_xs 2 1 MSE /\ data_ok (mx_state 1 0 (1/2) 1 4) (mx_es 1 0 (1/2)) mx_x [4;5]%nat mx_y [6;7]%nat 2 2 1 [[1;2];[3;-1]] [[1];[4]] /\
  trainable (mx_state (-1) 1 3 5 0) mx_m (mx_es (-1) 1 3) mx_xs 2 1 MSE /\ data_ok (mx_state (-1) 1 3 5 0) (mx_es (-1) 1 3) mx_x [4;5]%nat mx_y [6;7]%nat 2 2 1 [[1;2];[3;-1]] [[5];[0]] /\
  trainable (mx_state 1 1 4 7 8) mx_m (mx_es 1 1 4) mx_xs 2 1 MSE /\ data_ok (mx_state 1 1 4 7 8) (mx_es 1 1 4) mx_x [4;5]%nat mx_y [6;7]%nat 2 2 1 [[1;2];[3;-1]] [[7];[8]] /\
  mixed 2 1 2 1 [[1];[4]] [[5];[0]] [[7];[8]] /\ mixed_trainer 2 1 (trainer (mx_es 1 0 (1/2)) mx_xs) (trainer (mx_es (-1) 1 3) mx_xs) (trainer (mx_es 1 1 4) mx_xs).
Proof.
  do 3 (split; [apply mx_trainable|split; [apply mx_data|]]).
  assert (HM : forall r x0 x1 y0 y1 z0 z1, z0 = 2 * x0 + 1 * y0 -> z1 = 2 * x1 + 1 * y1 -> (r <= 2)%nat -> mixed 2 1 r 1 [[x0];[x1]] [[y0];[y1]] [[z0];[z1]]).
  { intros r x0 x1 y0 y1 z0 z1 E0 E1 Hr n j Hn Hj. assert (j = 0)%nat as -> by lia. destruct n as [|[|n]]; [exact E0|exact E1|lia]. }
  assert (HZ : forall r c, mixed 2 1 r c (zmat r c) (zmat r c) (zmat r c)) by (intros r c; apply mixed_mk; intros; change (0 = 2 * 0 + 1 * 0); ring).
  split; [apply HM; lra || lia|]. do 6 eexists. do 3 (split; [reflexivity|]). split.
  - unfold mixed_layer. cbn [p_kind p_in p_out p_w p_b]. do 7 (split; [reflexivity|]). split; [apply HM; cbn; change (F RNum) with R; lra || lia|]. intros n j Hn Hj. assert (n = 0)%nat as -> by lia. assert (j = 0)%nat as -> by (cbn in Hj; lia). change (4 = 2 * (1/2) + 1 * 3). lra.
  - unfold mixed_opt, same_settings. cbn [po_kind rt_po po_wm po_bm]. split; [reflexivity|]. split; [repeat split|]. split; [repeat split|]. split; apply HZ.
Qed.

(** ** The absolute error: one linear unit *)
Definition ma_o : optimizer RNum := MkOpt (K := RNum) SGD (1/10) 0 0 0 0 0 (1/10) 0 matrix0 matrix0 matrix0 matrix0 false false.
Definition ma_po : popt RNum := PO (K := RNum) SGD (1/10) 0 0 0 0 0 (1/10) 0 false false (zmat 1 1) (zmat 1 1) (zmat 1 1) (zmat 1 1).
Definition ma_state (y : R) : state RNum :=
  MkState (K := RNum) [[0]; [0]; [1]; [y]] [[1]; [2]; [3]; [4]]%nat
    [MkLayer (K := RNum) Linear 1 1 (MkMatrix 1 1 (MkSlice 1 0 1)) (MkMatrix 1 1 (MkSlice 2 0 1)) 0 0 matrix0 matrix0] [ma_o] nr_rng true [].
Definition ma_m : model RNum := MkModel (K := RNum) 1 1 1 1 (Some (MkLoss MAE 1)) 0 0 0 [] [0]%nat [0]%nat.
Definition ma_p : player RNum := PL (K := RNum) Linear 1 1 [[0]] [[0]] 0 0.
Definition ma_es : list (lent RNum) := [LE (K := RNum) 0 [1]%nat [2]%nat ma_p].
Definition ma_xs : list (oent RNum) := [OE (K := RNum) 0 [] ma_po].
Definition ma_x : matrix := MkMatrix 1 1 (MkSlice 3 0 1).
Definition ma_y : matrix := MkMatrix 1 1 (MkSlice 4 0 1).
Lemma ma_trainable y : trainable (ma_state y) ma_m ma_es ma_xs 1 1 MAE.
Proof.
  unfold trainable. split; [|split; [|split; [|split; [|split; [|split; [|split; [|split; [|split]]]]]]]].
  - unfold consistent. do 4 (split; [reflexivity|]). split; [simpl; auto|].
    repeat constructor; eexists; (split; [reflexivity|]); unfold lown; simpl; repeat (split; [first [reflexivity|lia]|]); split; own_tac'.
  - split; nd.
  - simpl; lia.
  - reflexivity.
  - nd.
  - repeat constructor; eexists; (split; [reflexivity|]); unfold oown, oscal; simpl; auto 20.
  - dj.
  - reflexivity.
  - reflexivity.
  - repeat constructor; discriminate.
Qed.
Lemma ma_data y : data_ok (ma_state y) ma_es ma_x [3]%nat ma_y [4]%nat 1 1 1 [[1]] [[y]].
Proof. split; [own_tac'|]. split; [own_tac'|]. split; dj. Qed.
Lemma ma_grad y (U : nat -> R) q : 0 < y -> snd (pbackprop (K := RNum) MAE [[y]] 1 [ma_p] 1 [[1]] U q) = [([[0 + 1 * -1]], [[0 + -1]])].
Proof.
  intros Hy. cbn [pbackprop].
  assert (EG : ploss_back (K := RNum) MAE 1 1 (ptrain ma_p 1 [[1]] (from U q)) [[y]] = ([[-1]] : rpm)).
  { unfold ploss_back, pmae_back, mk. cbn [map seq]. assert (EO : entry (K := RNum) (ptrain ma_p 1 [[1]] (from U q)) 0 0 = 0) by exact (eq_trans (eq_refl (0 + 1 * 0 + 0)) (ltac:(ring) : 0 + 1 * 0 + 0 = 0)). rewrite EO.
    change (entry [[y]] 0 0) with y. cbn [fsub RNum flt]. unfold r_ltb, f0. cbn [ofZ RNum]. destruct (Rlt_dec _ _) as [H|_]; [exfalso; cbn in H; lra|].
    destruct (Rlt_dec _ _) as [_|H]; [reflexivity|exfalso; cbn in H; lra]. }
  rewrite EG. reflexivity.
Qed.
Lemma ma_fit y : 0 < y -> returns (Fit ma_m ma_x ma_y 1 0 matrix0 matrix0 0) (ma_state y) (fun _ s' => exists es' xs' p, trainable s' ma_m es' xs' 1 1 MAE /\ Forall2 same_place ma_es es' /\ net es' = [p] /\ p_out p = 1%nat /\ entry (p_b p) 0 0 = 1/10).
Proof.
  intros Hy.
  destruct (fit_trains (K := RNum) (ma_state y) ma_m ma_es ma_xs 1 1 MAE ma_x [3]%nat ma_y [4]%nat 1 [[1]] [[y]] 1 0 matrix0 matrix0 RNum_min_faithful) as ([] & s' & E & nn & _ & (es' & xs' & A1 & A2 & _ & A3 & _) & _);
    try lia; [apply ma_trainable|apply ma_data|].
  exists tt, s'. split; [exact E|].
  change (epochs_of (K := RNum) (Z.to_nat 1) (batch_rows 1 0) [[1]] [[y]]) with [([[1]] : rpm, [[y]] : rpm)] in A3. cbn [ptrain_on fst] in A3. unfold pbatch in A3.
  change (map fst (trainer ma_es ma_xs)) with [ma_p] in A3. change (length [[1]]) with 1%nat in A3. change (trainer ma_es ma_xs) with [(ma_p, ma_po)] in A3. rewrite (ma_grad y _ _ Hy) in A3. cbn [combine map fst snd] in A3.
  exists es', xs'. eexists. split; [exact A1|]. split; [exact A2|]. split; [rewrite <- (trainer_net' es' xs' A1), A3; reflexivity|]. split; [reflexivity|].
  transitivity (0 - (0 + -1) * (1/10)); [reflexivity|lra].
Qed.
Lemma mae_not_linear : exists (s1 s2 : state RNum) m es xs x rsx y rsy X Y1 Y2, trainable s1 m es xs 1 1 MAE /\ trainable s2 m es xs 1 1 MAE /\
  data_ok s1 es x rsx y rsy 1 1 1 X Y1 /\ data_ok s2 es x rsx y rsy 1 1 1 X Y2 /\ mixed 2 0 1 1 Y1 Y1 Y2 /\ mixed_trainer 2 0 (trainer es xs) (trainer es xs) (trainer es xs) /\
  returns (Fit m x y 1 0 matrix0 matrix0 0) s1 (fun _ s1' => returns (Fit m x y 1 0 matrix0 matrix0 0) s2 (fun _ s2' => exists es1' xs1' p1 es2' xs2' p2,
    trainable s1' m es1' xs1' 1 1 MAE /\ Forall2 same_place es es1' /\ trainable s2' m es2' xs2' 1 1 MAE /\ Forall2 same_place es es2' /\
    net es1' = [p1] /\ net es2' = [p2] /\ ~ mixed_layer 2 0 p1 p1 p2)).
Proof.
  exists (ma_state 1), (ma_state 2), ma_m, ma_es, ma_xs, ma_x, [3]%nat, ma_y, [4]%nat, [[1]], [[1]], [[2]].
  split; [apply ma_trainable|]. split; [apply ma_trainable|]. split; [apply ma_data|]. split; [apply ma_data|].
  assert (HM : forall x y, y = 2 * x + 0 * x -> mixed 2 0 1 1 [[x]] [[x]] [[y]]).
  { intros x y E n j Hn Hj. assert (n = 0)%nat as -> by lia. assert (j = 0)%nat as -> by lia. exact E. }
  split; [apply HM; lra|]. split.
  - do 6 eexists. do 3 (split; [reflexivity|]). split.
    + unfold mixed_layer, ma_p. cbn [e_p p_kind p_in p_out p_w p_b]. do 7 (split; [reflexivity|]). split; apply HM; lra.
    + unfold mixed_opt, same_settings. cbn [po_kind ma_po po_wm po_bm]. split; [reflexivity|]. split; [repeat split|]. split; [repeat split|]. split; apply mixed_mk; intros; change (0 = 2 * 0 + 0 * 0); ring.
  - destruct (ma_fit 1 ltac:(lra)) as (u1 & s1' & E1 & es1' & xs1' & p1 & T1 & L1 & N1 & O1 & B1). destruct (ma_fit 2 ltac:(lra)) as (u2 & s2' & E2 & es2' & xs2' & p2 & T2 & L2 & N2 & O2 & B2).
    exists u1, s1'. split; [exact E1|]. exists u2, s2'. split; [exact E2|]. exists es1', xs1', p1, es2', xs2', p2. do 6 (split; [assumption|]).
    intros (_ & _ & _ & _ & _ & _ & _ & _ & HB). specialize (HB 0%nat 0%nat ltac:(lia) ltac:(lia)). rewrite B1, B2 in HB. lra.
Qed.
