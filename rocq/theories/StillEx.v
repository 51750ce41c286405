(** * StillEx: Adam with epsilon 0 and a model that already fits. *)
From Coq Require Import String ZArith List Bool Arith Lia Reals Lra.
From Flocq Require Import IEEE754.BinarySingleNaN IEEE754.Bits.
From Verif Require Import Num NumR LayerData NumB64 Heap Spec Matrix Loss Network Optimizers ModelGo PureSpec Repr HeapLemmas RSum MiscFacts OptSpec OptFacts ModelSpec FitFacts LossRefute FitProofs LossProofs ModelProofs LayerReal NetGradCode MatrixFacts Params ModelRefute StillSpec Still BalanceEx.
Import ListNotations.
Open Scope Z_scope.

Section Float.
Variable L : libm.
Notation K := (B64 L).
Notation one := (b64_ofZ 1).
Notation zer := (b64_ofZ 0).
Definition st_half : binary64 := b64_div mode_NE one (b64_ofZ 2).
(** Linear 1 -> 1, weight 1, bias 0; one sample, input 1, target 1. *)
Definition st_opt : optimizer K := MkOpt (K := K) Adam one zer zer zer st_half st_half one 0 matrix0 matrix0 matrix0 matrix0 false false.
Definition st_po : popt K := PO (K := K) Adam one zer zer zer st_half st_half one 0 false false (zmat (K := K) 1 1) (zmat (K := K) 1 1) (zmat (K := K) 1 1) (zmat (K := K) 1 1).
Definition st_rng : rng K := MkRng (K := K) (fun _ => zer) (fun _ => zer) (fun _ => 0) 0 0 0.
Definition st_state : state K := MkState (K := K) [[one]; [zer]; [one]; [one]] [[1]; [2]; [3]; [4]]%nat
  [MkLayer (K := K) Linear 1 1 (MkMatrix 1 1 (MkSlice 1 0 1)) (MkMatrix 1 1 (MkSlice 2 0 1)) zer zer matrix0 matrix0] [st_opt] st_rng true [].
Definition st_m : model K := MkModel (K := K) 1 1 1 0 (Some (MkLoss MSE 1)) 0 zer 0 [] [0]%nat [0]%nat.
Definition st_p : player K := PL (K := K) Linear 1 1 [[one]] [[zer]] zer zer.
Definition st_es : list (lent K) := [LE (K := K) 0 [1]%nat [2]%nat st_p].
Definition st_xs : list (oent K) := [OE (K := K) 0 [] st_po].
Definition st_x : matrix := MkMatrix 1 1 (MkSlice 3 0 1).
Definition st_y : matrix := MkMatrix 1 1 (MkSlice 4 0 1).
Lemma st_trainable : trainable st_state st_m st_es st_xs 1 1 MSE.
Proof.
  unfold trainable. split; [|split; [|split; [|split; [|split; [|split; [|split; [|split; [|split]]]]]]]].
  - unfold consistent. do 4 (split; [reflexivity|]). split; [simpl; auto|].
    repeat constructor; eexists; (split; [reflexivity|]); unfold lown; cbn [l_kind l_in l_out l_slope l_drop l_w l_b p_kind p_in p_out p_slope p_drop p_w p_b st_p e_p e_rw e_rb]; repeat (split; [first [reflexivity|lia]|]); split; own_tac'.
  - split; nd.
  - simpl; lia.
  - reflexivity.
  - nd.
  - constructor; [exists st_opt; split; [reflexivity|]|constructor]. unfold oown, oscal; simpl; auto 20.
  - dj.
  - reflexivity.
  - reflexivity.
  - repeat constructor; discriminate.
Qed.
Lemma st_data : data_ok st_state st_es st_x [3]%nat st_y [4]%nat 1 1 1 [[one]] [[one]].
Proof. split; [own_tac'|]. split; [own_tac'|]. split; dj. Qed.
Lemma st_grads U q : snd (pbackprop (K := K) MSE [[one]] 1 [st_p] 1 [[one]] U q) = [([[zer]], [[zer]])].
Proof. vm_compute. reflexivity. Qed.
Lemma st_bad : l_pow L zer (b64_ofZ 2) = zer -> l_pow L st_half one = st_half ->
  b64_nan (entry (p_w (fst (tstep (K := K) (st_p, st_po) ([[zer]], [[zer]])))) 0 0) = true.
Proof.
  intros H1 H2. unfold tstep, pupdate, pupd1, st_po, po_kind, next_rate, adam_p1, adam_c1, adam_corr, st_p, pmap2, mk. cbn - [b64_ofZ b64_nan st_half b64_plus b64_mult b64_minus b64_div b64_sqrt b64_opp].
  change (Z.pos 1) with 1. rewrite H1, H2. vm_compute. reflexivity.
Qed.
Lemma bits_inj (x y : binary64) : bits_of_b64 x = bits_of_b64 y -> x = y.
Proof. intros H. rewrite <- (proj2 (B64_bits_ok L x)), <- (proj2 (B64_bits_ok L y)). cbn [B64_bits of_bits to_bits]. now rewrite H. Qed.
Lemma st_fits : pnet (K := K) (net st_es) 1 [[one]] = [[one]].
Proof.
  unfold pnet, net, st_es, pforward, pact, paffine, paff, st_p, mk. cbn - [b64_ofZ b64_plus b64_mult]. do 2 f_equal. apply bits_inj. vm_compute. reflexivity.
Qed.
Lemma adam_eps0 : l_pow L zer (b64_ofZ 2) = zer -> l_pow L st_half one = st_half ->
  exists (s : state K) m es xs x rsx y rsy n X Y lr b1 b2 p', trainable s m es xs 1 1 MSE /\ data_ok s es x rsx y rsy n 1 1 X Y /\ (1 <= n)%nat /\ pnet (net es) n X = Y /\
    (forall s0, returns (NewAdamOptimizer (K := K) lr zer zer b1 b2) s0 (fun o s1 => s1 = s0 /\ h_opts s = [o])) /\
    returns (Fit m x y 1 0 matrix0 matrix0 0) s (fun _ s' => exists es' xs', trainable s' m es' xs' 1 1 MSE /\ Forall2 same_place es es' /\ net es' = [p'] /\ b64_nan (entry (p_w p') 0 0) = true).
Proof.
  intros H1 H2. exists st_state, st_m, st_es, st_xs, st_x, [3]%nat, st_y, [4]%nat, 1%nat, [[one]], [[one]], one, st_half, st_half, (fst (tstep (K := K) (st_p, st_po) ([[zer]], [[zer]]))).
  split; [exact st_trainable|]. split; [exact st_data|]. split; [lia|]. split; [exact st_fits|].
  split; [intros s0; exists st_opt, s0; repeat split; reflexivity|].
  destruct (fit_trains (K := K) st_state st_m st_es st_xs 1 1 MSE st_x [3]%nat st_y [4]%nat 1 [[one]] [[one]] 1 0 matrix0 matrix0 (B64_min_faithful L)) as ([] & s' & E & nn & _ & (es' & xs' & A1 & A2 & _ & A3 & _) & _);
    try lia; [exact st_trainable|exact st_data|].
  exists tt, s'. split; [exact E|]. exists es', xs'. split; [exact A1|]. split; [exact A2|]. split; [|apply st_bad; assumption].
  rewrite <- (FitProofs.trainer_net es' xs' (eq_sym (f2len _ _ _ (proj1 (proj2 (proj2 (proj2 (proj2 (proj2 A1))))))))), A3.
  change (epochs_of (K := K) (Z.to_nat 1) (batch_rows 1 0) [[one]] [[one]]) with [([[one]] : pm K, [[one]] : pm K)]. cbn [ptrain_on fst]. unfold pbatch.
  change (map fst (trainer st_es st_xs)) with [st_p]. change (length [[one]]) with 1%nat. rewrite st_grads. reflexivity.
Qed.
End Float.

(** A ReLU network that fits, with Adam. *)
Lemma st_ex : trainable (bl_state 3 0 bl_adam) bl_m (bl_es 3 0) (bl_xs bl_apo) 1 1 MSE /\ data_ok (bl_state 3 0 bl_adam) (bl_es 3 0) bl_x [5]%nat bl_y [6]%nat 1 1 1 [[1%R]] [[0%R]] /\
  List.Forall (fun e => p_kind (e_p e) <> Dropout) (bl_es 3 0) /\ List.Forall at_rest (trainer (bl_es 3 0) (bl_xs bl_apo)) /\ pnet (net (bl_es 3 0)) 1 [[1%R]] = [[0%R]].
Proof.
  split; [apply bl_trainable, bl_adam_ok|]. split; [apply bl_data|]. split; [repeat constructor; discriminate|]. split.
  - assert (Z1 : zero 1 1 (zmat (K := RNum) 1 1)) by (intros [|i] [|j] Hi Hj; try lia; reflexivity).
    repeat constructor; cbn; first [lra|exact Z1].
  - unfold pnet, net, bl_es, pforward, pact, pmap, paffine, paff, bl_p0, bl_p1, mk, act1, relu1, entry, fsum. cbn. do 2 f_equal. ring.
Qed.

