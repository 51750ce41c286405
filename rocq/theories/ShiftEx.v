(** * ShiftEx: a network and its shifted copy; a ReLU last layer tells them apart. *)
From Coq Require Import String ZArith List Bool Arith Lia Reals Lra.
From Verif Require Import Num NumR Heap Spec Matrix Loss Network Optimizers ModelGo PureSpec Repr HeapLemmas RSum MiscFacts OptSpec OptFacts ModelSpec FitFacts LossRefute FitProofs LossProofs ModelProofs LayerReal NetGradCode MatrixFacts Params Span SpanEx Rotate RotateEx ShiftSpec Shift.
Import ListNotations.
Open Scope R_scope.

(** ReLU 2 -> 2, linear 2 -> 1 with bias [b], targets [y0] and [y1]; the first layer trained by SGD with momentum, the last by Adam. *)
Definition sf_state (b y0 y1 : R) : state RNum :=
  MkState (K := RNum) [[5;0]; [0;5]; [1;-1]; [1]; [-1]; [b]; [5;0]; [5;10]; [y0]; [y1]] [[1;2]; [3]; [4;5]; [6]; [7;8]; [9;10]]%nat
    [MkLayer (K := RNum) Hidden 2 2 (MkMatrix 2 2 (MkSlice 1 0 2)) (MkMatrix 1 2 (MkSlice 2 0 1)) 0 0 matrix0 matrix0;
     MkLayer (K := RNum) Linear 2 1 (MkMatrix 2 1 (MkSlice 3 0 2)) (MkMatrix 1 1 (MkSlice 4 0 1)) 0 0 matrix0 matrix0] [rt_o; sp_adam] nr_rng true [].
Definition sf_es (b : R) : list (lent RNum) :=
  [LE (K := RNum) 0 [1;2]%nat [3]%nat (PL (K := RNum) Hidden 2 2 [[5;0];[0;5]] [[1;-1]] 0 0); LE (K := RNum) 1 [4;5]%nat [6]%nat (PL (K := RNum) Linear 2 1 [[1];[-1]] [[b]] 0 0)].
Definition sf_xs : list (oent RNum) := [OE (K := RNum) 0 [] (rt_po 2 2); OE (K := RNum) 1 [] sp_apo].
Lemma sf_trainable b y0 y1 : trainable (sf_state b y0 y1) rt_m (sf_es b) sf_xs 2 1 MSE.
Proof.
  unfold trainable. split; [|split; [|split; [|split; [|split; [|split; [|split; [|split; [|split]]]]]]]].
  - unfold consistent. do 4 (split; [reflexivity|]). split; [simpl; auto|].
    repeat constructor; eexists; (split; [reflexivity|]); unfold lown; simpl; repeat (split; [first [reflexivity|lia]|]); split; own_tac'.
  - split; nd.
  - simpl; lia.
  - reflexivity.
  - nd.
  - repeat constructor; eexists; (split; [reflexivity|]); unfold oown, oscal; simpl; auto 20.
  - dj.
  - reflexivity.
  - reflexivity.
  - repeat constructor; discriminate.
Qed.
Lemma sf_data b y0 y1 : data_ok (sf_state b y0 y1) (sf_es b) rt_x [7;8]%nat rt_y [9;10]%nat 2 2 1 [[5;0];[5;10]] [[y0];[y1]].
Proof. split; [own_tac'|]. split; [own_tac'|]. split; dj. Qed.
Lemma sf_all : ends_linear (net (sf_es (1/2))) /\
  trainable (sf_state (1/2) 1 0) rt_m (sf_es (1/2)) sf_xs 2 1 MSE /\ data_ok (sf_state (1/2) 1 0) (sf_es (1/2)) rt_x [7;8]%nat rt_y [9;10]%nat 2 2 1 [[5;0];[5;10]] [[1];[0]] /\
  trainable (sf_state (1/2+3) (1+3) (0+3)) rt_m (sf_es (1/2+3)) sf_xs 2 1 MSE /\
  data_ok (sf_state (1/2+3) (1+3) (0+3)) (sf_es (1/2+3)) rt_x [7;8]%nat rt_y [9;10]%nat 2 2 1 [[5;0];[5;10]] (shifted 1 (fun _ => 3) [[1];[0]]) /\
  trainer (sf_es (1/2+3)) sf_xs = shift_trainer (fun _ => 3) (trainer (sf_es (1/2)) sf_xs).
Proof. exact (conj eq_refl (conj (sf_trainable _ _ _) (conj (sf_data _ _ _) (conj (sf_trainable _ _ _) (conj (sf_data _ _ _) eq_refl))))). Qed.

(** ** One ReLU unit *)
Definition su_o : optimizer RNum := MkOpt (K := RNum) SGD (1/10) 0 0 0 0 0 (1/10) 0 matrix0 matrix0 matrix0 matrix0 false false.
Definition su_po : popt RNum := PO (K := RNum) SGD (1/10) 0 0 0 0 0 (1/10) 0 false false (zmat 1 1) (zmat 1 1) (zmat 1 1) (zmat 1 1).
Definition su_state (b y : R) : state RNum :=
  MkState (K := RNum) [[0]; [b]; [1]; [y]] [[1]; [2]; [3]; [4]]%nat
    [MkLayer (K := RNum) Hidden 1 1 (MkMatrix 1 1 (MkSlice 1 0 1)) (MkMatrix 1 1 (MkSlice 2 0 1)) 0 0 matrix0 matrix0] [su_o] nr_rng true [].
Definition su_m : model RNum := MkModel (K := RNum) 1 1 1 0 (Some (MkLoss MSE 1)) 0 0 0 [] [0]%nat [0]%nat.
Definition su_p (b : R) : player RNum := PL (K := RNum) Hidden 1 1 [[0]] [[b]] 0 0.
Definition su_es (b : R) : list (lent RNum) := [LE (K := RNum) 0 [1]%nat [2]%nat (su_p b)].
Definition su_xs : list (oent RNum) := [OE (K := RNum) 0 [] su_po].
Definition su_x : matrix := MkMatrix 1 1 (MkSlice 3 0 1).
Definition su_y : matrix := MkMatrix 1 1 (MkSlice 4 0 1).
Lemma su_trainable b y : trainable (su_state b y) su_m (su_es b) su_xs 1 1 MSE.
Proof.
  unfold trainable. split; [|split; [|split; [|split; [|split; [|split; [|split; [|split; [|split]]]]]]]].
  - unfold consistent. do 4 (split; [reflexivity|]). split; [simpl; auto|].
    repeat constructor; eexists; (split; [reflexivity|]); unfold lown; simpl; repeat (split; [first [reflexivity|lia]|]); split; own_tac'.
  - split; nd.
  - simpl; lia.
  - reflexivity.
  - nd.
  - repeat constructor; eexists; (split; [reflexivity|]); unfold oown, oscal; simpl; auto 20.
  - dj.
  - reflexivity.
  - reflexivity.
  - repeat constructor; discriminate.
Qed.
Lemma su_data b y : data_ok (su_state b y) (su_es b) su_x [3]%nat su_y [4]%nat 1 1 1 [[1]] [[y]].
Proof. split; [own_tac'|]. split; [own_tac'|]. split; dj. Qed.
Lemma su_fit b y b' : (forall (U : nat -> R) q, p_b (fst (tstep (K := RNum) (su_p b, su_po) (hd ([], []) (snd (pbackprop (K := RNum) MSE [[y]] 1 [su_p b] 1 [[1]] U q))))) = [[b']]) ->
  returns (Fit su_m su_x su_y 1 0 matrix0 matrix0 0) (su_state b y) (fun _ s' => exists es' xs', trainable s' su_m es' xs' 1 1 MSE /\ Forall2 same_place (su_es b) es' /\ map p_b (net es') = [[[b']]]).
Proof.
  intros HB.
  destruct (fit_trains (K := RNum) (su_state b y) su_m (su_es b) su_xs 1 1 MSE su_x [3]%nat su_y [4]%nat 1 [[1]] [[y]] 1 0 matrix0 matrix0 RNum_min_faithful) as ([] & s' & E & nn & _ & (es' & xs' & A1 & A2 & _ & A3 & _) & _);
    try lia; [apply su_trainable|apply su_data|].
  exists tt, s'. split; [exact E|]. exists es', xs'. split; [exact A1|]. split; [exact A2|]. rewrite <- (trainer_net' es' xs' A1), A3.
  change (epochs_of (K := RNum) (Z.to_nat 1) (batch_rows 1 0) [[1]] [[y]]) with [([[1]] : rpm, [[y]] : rpm)]. cbn [ptrain_on fst]. unfold pbatch.
  change (map fst (trainer (su_es b) su_xs)) with [su_p b]. change (length [[1]]) with 1%nat. change (trainer (su_es b) su_xs) with [(su_p b, su_po)]. 
  pose proof (backprop_grads 1 MSE [[y]] 1 (r_uni (h_rng (su_state b y))) [su_p b] [[1]] (r_upos (h_rng (su_state b y)))) as HL.
  specialize (HB (r_uni (h_rng (su_state b y))) (r_upos (h_rng (su_state b y)))).
  destruct (snd (pbackprop (K := RNum) MSE [[y]] 1 [su_p b] 1 [[1]] (r_uni (h_rng (su_state b y))) (r_upos (h_rng (su_state b y))))) as [|g [|]]; try discriminate HL.
  cbn [combine map fst snd]. cbn [hd] in HB. now rewrite HB.
Qed.
Lemma su_step b y g b' : relu1 (K := RNum) b = b' -> relu_prime1 (K := RNum) ((b' - y) * (2 / 1)) b' = g -> forall (U : nat -> R) q,
  p_b (fst (tstep (K := RNum) (su_p b, su_po) (hd ([], []) (snd (pbackprop (K := RNum) MSE [[y]] 1 [su_p b] 1 [[1]] U q))))) = [[b - g * (1/10)]].
Proof.
  intros E1 E2 U q.
  assert (EO : ptrain (su_p b) 1 [[1]] (from U q) = ([[b']] : rpm)).
  { transitivity ([[relu1 (K := RNum) (0 + 1 * 0 + b)]] : rpm); [reflexivity|]. assert (Eb : 0 + 1 * 0 + b = b) by ring. do 2 f_equal. exact (eq_trans (f_equal (relu1 (K := RNum)) Eb) E1). }
  assert (E : snd (pbackprop (K := RNum) MSE [[y]] 1 [su_p b] 1 [[1]] U q) = [([[0 + 1 * g]], [[0 + g]])]).
  { cbn [pbackprop]. rewrite EO. rewrite <- E2. reflexivity. }
  rewrite E. transitivity ([[b - (0 + g) * (1/10)]] : rpm); [reflexivity|]. repeat f_equal. ring.
Qed.
Lemma relu_shifted : exists (s1 s2 : state RNum) m es1 es2 xs x rsx y rsy X Y d, trainable s1 m es1 xs 1 1 MSE /\ trainable s2 m es2 xs 1 1 MSE /\
  data_ok s1 es1 x rsx y rsy 1 1 1 X Y /\ data_ok s2 es2 x rsx y rsy 1 1 1 X (shifted 1 d Y) /\ trainer es2 xs = shift_trainer d (trainer es1 xs) /\
  map p_kind (net es1) = [Hidden] /\ h_rng s2 = h_rng s1 /\
  returns (Fit m x y 1 0 matrix0 matrix0 0) s1 (fun _ s1' => returns (Fit m x y 1 0 matrix0 matrix0 0) s2 (fun _ s2' => exists es1' xs1' es2' xs2',
    trainable s1' m es1' xs1' 1 1 MSE /\ Forall2 same_place es1 es1' /\ trainable s2' m es2' xs2' 1 1 MSE /\ Forall2 same_place es2 es2' /\
    net es2' <> shift_net d (net es1'))).
Proof.
  exists (su_state (-1) 0), (su_state (-1 + 3) (0 + 3)), su_m, (su_es (-1)), (su_es (-1 + 3)), su_xs, su_x, [3]%nat, su_y, [4]%nat, [[1]], [[0]], (fun _ => 3).
  split; [apply su_trainable|]. split; [apply su_trainable|]. split; [apply su_data|]. split; [apply su_data|]. split; [reflexivity|]. split; [reflexivity|]. split; [reflexivity|].
  assert (H1 : relu1 (K := RNum) (-1) = 0) by (rewrite R_relu; apply Rmax_right; lra).
  assert (H2 : relu1 (K := RNum) (-1 + 3) = 2) by (rewrite R_relu, Rmax_left; lra).
  assert (H3 : relu_prime1 (K := RNum) ((0 - 0) * (2 / 1)) 0 = 0) by (unfold relu_prime1; destruct (fle _ _); [reflexivity|]; change (F RNum) with R; lra).
  assert (H4 : relu_prime1 (K := RNum) ((2 - (0 + 3)) * (2 / 1)) 2 = -2).
  { unfold relu_prime1. replace (@fle RNum 2 f0) with false; [change (F RNum) with R; lra|]. symmetry. unfold f0. cbn [fle ofZ RNum]. unfold r_leb. destruct (Rle_dec _ _) as [H|H]; [exfalso; cbn in H; lra|reflexivity]. }
  destruct (su_fit (-1) 0 _ (su_step _ _ _ _ H1 H3)) as (u1 & s1' & E1 & es1' & xs1' & T1 & P1 & N1). destruct (su_fit (-1 + 3) (0 + 3) _ (su_step _ _ _ _ H2 H4)) as (u2 & s2' & E2 & es2' & xs2' & T2 & P2 & N2).
  exists u1, s1'. split; [exact E1|]. exists u2, s2'. split; [exact E2|]. exists es1', xs1', es2', xs2'. do 4 (split; [assumption|]).
  intros E. rewrite E in N2. destruct (net es1') as [|p [|]]; try discriminate N1. cbn [map shift_net] in N1, N2. unfold shift_layer in N2. cbn [p_b] in N2. injection N1 as N1. rewrite N1 in N2.
  apply (f_equal (fun l => entry (K := RNum) (hd [] l) 0 0)) in N2. cbn [hd] in N2. destruct (p_out p) as [|c].
  - unfold mk in N2. cbn in N2. lra.
  - rewrite entry_mk in N2 by lia. change (entry (K := RNum) [[-1 - 0 * (1/10)]] 0 0) with (-1 - 0 * (1/10)) in N2. change (entry (K := RNum) [[-1 + 3 - -2 * (1/10)]] 0 0) with (-1 + 3 - -2 * (1/10)) in N2. lra.
Qed.
