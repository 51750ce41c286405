(** * SigEx: a network with sigmoid layers, and one that learns the wrong way round. *)
From Coq Require Import String ZArith List Bool Arith Lia Reals Lra.
From Verif Require Import Num NumR Heap Spec Matrix Activation Loss Network Optimizers ModelGo PureSpec Repr HeapLemmas RSum MatrixFacts LayerReal LossProofs LossRefute OptSpec OptFacts ModelSpec FitProofs GradSpec Grad NetGradSpec NetGradCode Span SigSpec SigFit SigLoop SigFacts.
Import ListNotations.
Open Scope R_scope.

(** ** Sigmoid 2 -> 2, leaky 2 -> 1, sigmoid 1 -> 1; two samples, with validation data *)
Definition sg_po (lr : R) (k c : nat) : popt RNum :=
  PO (K := RNum) SGD lr 0 0 0 0 0 lr 0 false false (zmat (K := RNum) k c) (zmat (K := RNum) 1 c) (zmat (K := RNum) k c) (zmat (K := RNum) 1 c).
Definition sg_state (lr : R) : state RNum :=
  MkState (K := RNum) [[1;-1]; [2;0]; [1;-2]; [1]; [-1]; [1/2]; [3]; [1]; [-3;2]; [4;-5]; [1]; [0]; [7;-1]; [1]]
    [[1;2]; [3]; [4;5]; [6]; [7]; [8]; [9;10]; [11;12]; [13]; [14]]%nat
    [MkLayer (K := RNum) SigmoidK 2 2 (MkMatrix 2 2 (MkSlice 1 0 2)) (MkMatrix 1 2 (MkSlice 2 0 1)) 0 0 matrix0 matrix0;
     MkLayer (K := RNum) Leaky 2 1 (MkMatrix 2 1 (MkSlice 3 0 2)) (MkMatrix 1 1 (MkSlice 4 0 1)) (1/2) 0 matrix0 matrix0;
     MkLayer (K := RNum) SigmoidK 1 1 (MkMatrix 1 1 (MkSlice 5 0 1)) (MkMatrix 1 1 (MkSlice 6 0 1)) 0 0 matrix0 matrix0]
    [nr_o lr; nr_o lr; nr_o lr] nr_rng true [].
Definition sg_x : matrix := MkMatrix 2 2 (MkSlice 7 0 2).
Definition sg_y : matrix := MkMatrix 2 1 (MkSlice 8 0 2).
Definition sg_xv : matrix := MkMatrix 1 2 (MkSlice 9 0 1).
Definition sg_yv : matrix := MkMatrix 1 1 (MkSlice 10 0 1).
Definition sgX : rpm := [[-3;2];[4;-5]].
Definition sgY : rpm := [[1];[0]].
Definition sg_es : list (lent RNum) :=
  [LE (K := RNum) 0 [1;2]%nat [3]%nat (PL (K := RNum) SigmoidK 2 2 [[1;-1];[2;0]] [[1;-2]] 0 0);
   LE (K := RNum) 1 [4;5]%nat [6]%nat (PL (K := RNum) Leaky 2 1 [[1];[-1]] [[1/2]] (1/2) 0);
   LE (K := RNum) 2 [7]%nat [8]%nat (PL (K := RNum) SigmoidK 1 1 [[3]] [[1]] 0 0)].
Definition sg_xs (lr : R) : list (oent RNum) :=
  [OE (K := RNum) 0 [] (sg_po lr 2 2); OE (K := RNum) 1 [] (sg_po lr 2 1); OE (K := RNum) 2 [] (sg_po lr 1 1)].
Definition sg_m : model RNum := MkModel (K := RNum) 3 2 1 0 (Some (MkLoss MSE 1)) 0 0 0 [] [0;1;2]%nat [0;1;2]%nat.
Lemma sg_trainable lr : strainable (sg_state lr) sg_m sg_es (sg_xs lr) 2 1 MSE.
Proof.
  unfold strainable. split; [|split; [|split; [|split; [|split; [|split; [|split; [|split; [|split]]]]]]]].
  - unfold consistent. do 4 (split; [reflexivity|]). split; [simpl; auto|].
    repeat constructor; eexists; (split; [reflexivity|]); unfold lown; simpl; repeat (split; [first [reflexivity|lia]|]); split; own_tac'.
  - split; nd.
  - simpl; lia.
  - reflexivity.
  - nd.
  - repeat constructor; eexists; (split; [reflexivity|]); unfold oown, oscal; simpl; auto 20.
  - dj.
  - reflexivity.
  - reflexivity.
  - repeat constructor; intros H; try discriminate H; reflexivity.
Qed.
Lemma sg_data lr : sdata_ok (sg_state lr) sg_es (sg_xs lr) sg_x [9;10]%nat sg_y [11;12]%nat 2 2 1 sgX sgY.
Proof. split; [own_tac'|]. split; [own_tac'|]. split; [nd|]. repeat (split; [dj|]). dj. Qed.
Lemma sg_log lr : slog_ok (sg_state lr) sg_m sg_es [9;10]%nat sg_xv sg_yv 2 1 (Some ([[7;-1]], [[1]])) 1.
Proof.
  right. split; [reflexivity|]. split; [exact RNum_int_faithful|]. split; [simpl; lia|]. split; [simpl; lia|].
  exists [13]%nat, [14]%nat, 1%nat. split; [lia|]. split; [own_tac'|]. split; [own_tac'|]. split; dj.
Qed.
Lemma sg_plain lr : List.Forall (fun x => plain_sgd lr (x_po x)) (sg_xs lr).
Proof. repeat constructor. Qed.

(** ** Sigmoid 1 -> 1, zero weights, samples 1 -> 1 and -1 -> 0 *)
Definition sw_p : player RNum := PL (K := RNum) SigmoidK 1 1 [[0]] [[0]] 0 0.
Definition sw_state (lr : R) : state RNum :=
  MkState (K := RNum) [[0]; [0]; [1]; [-1]; [1]; [0]] [[1]; [2]; [3;4]; [5;6]]%nat
    [MkLayer (K := RNum) SigmoidK 1 1 (MkMatrix 1 1 (MkSlice 1 0 1)) (MkMatrix 1 1 (MkSlice 2 0 1)) 0 0 matrix0 matrix0]
    [nr_o lr] nr_rng true [].
Definition sw_x : matrix := MkMatrix 2 1 (MkSlice 3 0 2).
Definition sw_y : matrix := MkMatrix 2 1 (MkSlice 4 0 2).
Definition swX : rpm := [[1];[-1]].
Definition swY : rpm := [[1];[0]].
Definition sw_es : list (lent RNum) := [LE (K := RNum) 0 [1]%nat [2]%nat sw_p].
Definition sw_xs (lr : R) : list (oent RNum) := [OE (K := RNum) 0 [] (sg_po lr 1 1)].
Definition sw_m : model RNum := MkModel (K := RNum) 1 1 1 0 (Some (MkLoss MSE 1)) 0 0 0 [] [0]%nat [0]%nat.
Lemma sw_trainable lr : strainable (sw_state lr) sw_m sw_es (sw_xs lr) 1 1 MSE.
Proof.
  unfold strainable. split; [|split; [|split; [|split; [|split; [|split; [|split; [|split; [|split]]]]]]]].
  - unfold consistent. do 4 (split; [reflexivity|]). split; [simpl; auto|].
    repeat constructor; eexists; (split; [reflexivity|]); unfold lown; simpl; repeat (split; [first [reflexivity|lia]|]); split; own_tac'.
  - split; nd.
  - simpl; lia.
  - reflexivity.
  - nd.
  - repeat constructor; eexists; (split; [reflexivity|]); unfold oown, oscal; simpl; auto 20.
  - dj.
  - reflexivity.
  - reflexivity.
  - repeat constructor.
Qed.
Lemma sw_data lr : sdata_ok (sw_state lr) sw_es (sw_xs lr) sw_x [3;4]%nat sw_y [5;6]%nat 2 1 1 swX swY.
Proof. split; [own_tac'|]. split; [own_tac'|]. split; [nd|]. repeat (split; [dj|]). dj. Qed.
Lemma sw_first lr U q : 0 < lr -> exists p po X', sbatch (K := RNum) MSE 1 (trainer sw_es (sw_xs lr)) swX swY U q = ([(p, po)], X') /\
  like sw_p p /\ plain_sgd lr po /\ entry (p_w p) 0 0 < 0.
Proof.
  intros Hlr. unfold sbatch. cbn [trainer net sw_es sw_xs map combine e_p x_po fst]. cbn [sbackprop sw_p p_kind].
  set (O := ptrain _ _ _ _). set (H := sig_grad _ _ _ _).
  assert (HP : plain_sgd lr (sg_po lr 1 1)) by (repeat split).
  assert (HO : entry O 0 0 = 1/2).
  { unfold O, ptrain, pforward, pact. cbn [p_kind p_out sw_p]. unfold pmap. rewrite (entry_mk (K := RNum)) by (simpl; lia).
    unfold paffine. cbn [p_in p_out p_w p_b]. rewrite paff_entry by (simpl; lia). rewrite rsum_1. unfold act1. cbn [p_kind]. unfold sigmoid1, entry. simpl.
    replace (- (1 * 0 + 0)) with 0 by ring. rewrite exp_0. lra. }
  assert (HH : entry H 0 0 <> 0).
  { unfold H, sig_grad. rewrite (entry_mk (K := RNum)) by (simpl; lia). unfold ploss_back, pmse_back. rewrite (entry_mk (K := RNum)) by (simpl; lia).
    rewrite HO. unfold sigmoid_prime1, sigmoid1, entry. simpl. assert (E := exp_pos (Ropp 1)). set (a := exp (Ropp 1)) in *.
    apply Rmult_integral_contrapositive_currified; [apply Rmult_integral_contrapositive_currified|].
    - intros HC. field_simplify in HC. lra.
    - assert (0 < 1 / (1 + a)) by (apply Rdiv_lt_0_compat; lra). lra.
    - assert (1 / (1 + a) < 1). { apply Rmult_lt_reg_r with (1 + a); [lra|]. unfold Rdiv. rewrite Rmult_assoc, Rinv_l; lra. } lra. }
  eexists. eexists. eexists. split; [cbn [combine map fst snd]; rewrite (surjective_pairing (tstep _ _)); reflexivity|].
  split; [apply (tstep_like (sw_p, sg_po lr 1 1))|]. split; [apply (plain_next lr (sw_p, sg_po lr 1 1)); exact HP|].
  cbn [map fst snd]. rewrite (plain_tstep lr) by exact HP. unfold with_params. cbn [p_w p_in p_out]. rewrite (entry_mk (K := RNum)) by (simpl; lia). cbn [fst].
  rewrite dW_entry by (simpl; lia). cbn [length]. assert (0 < rsum (length swX) (fun n => entry H n 0 * entry H n 0)).
  { apply Rlt_le_trans with (entry H 0 0 * entry H 0 0).
    - assert (HS := Rle_0_sqr (entry H 0 0)). destruct HS as [HS|HS]; [exact HS|]. symmetry in HS. apply Rsqr_0_uniq in HS. contradiction.
    - apply (rsum_term_le (length swX) (fun n => entry H n 0 * entry H n 0) 0); [intros n _; exact (Rle_0_sqr (entry H n 0))|simpl; lia]. }
  assert (0 < lr * rsum (length swX) (fun n => entry H n 0 * entry H n 0)) by (apply Rmult_lt_0_compat; assumption).
  match goal with |- ?w - _ < 0 => change w with 0 end. lra.
Qed.
Lemma sw_order (p : player RNum) : like sw_p p -> entry (p_w p) 0 0 < 0 -> entry (pforward p 2 swX) 0 0 < entry (pforward p 2 swX) 1 0.
Proof.
  intros (H1 & H2 & H3 & _) Hw. unfold pforward, pact, act1. rewrite H1. cbn [p_kind sw_p]. unfold pmap.
  rewrite !(entry_mk (K := RNum)) by (rewrite ?H3; simpl; lia). unfold paffine. rewrite H2, H3. cbn [p_in p_out sw_p].
  rewrite !paff_entry by (simpl; lia). rewrite !rsum_1. set (w := entry (p_w p) 0 0) in *. set (b := entry (p_b p) 0 0).
  unfold entry. cbn [nth swX]. unfold sigmoid1. simpl. set (u := - (1 * w + b)). set (v := - (-1 * w + b)).
  assert (HE : exp v < exp u) by (apply exp_increasing; unfold u, v; lra). assert (E := exp_pos v).
  unfold Rdiv. rewrite !Rmult_1_l. apply Rinv_lt_contravar; [apply Rmult_lt_0_compat; lra|lra].
Qed.
(** Whatever the rate and however long it is trained, the network ranks the two samples the
    wrong way round. *)
Lemma sig_wrong_way : exists X Y : rpm, X = [[1];[-1]] /\ Y = [[1];[0]] /\ forall lr epochs xv yv, 0 < lr -> (1 <= epochs)%Z ->
  exists s m es xs x rsx y rsy, strainable s m es xs 1 1 MSE /\ sdata_ok s es xs x rsx y rsy 2 1 1 X Y /\
    List.Forall (fun x => plain_sgd lr (x_po x)) xs /\
    returns (Fit m x y epochs 0 xv yv 0) s (fun _ s' => exists es' xs', strainable s' m es' xs' 1 1 MSE /\ Forall2 same_place es es' /\
      entry (pnet (K := RNum) (net es') 2 X) 0 0 < entry (pnet (K := RNum) (net es') 2 X) 1 0).
Proof.
  exists swX, swY. split; [reflexivity|]. split; [reflexivity|]. intros lr epochs xv yv Hlr He.
  exists (sw_state lr), sw_m, sw_es, (sw_xs lr), sw_x, [3;4]%nat, sw_y, [5;6]%nat.
  split; [apply sw_trainable|]. split; [apply sw_data|]. split; [repeat constructor|].
  destruct (sig_fit_returns (sw_state lr) sw_m sw_es (sw_xs lr) 1 1 MSE sw_x [3;4]%nat sw_y [5;6]%nat 2 swX swY epochs 0 xv yv None 0
    RNum_min_faithful ltac:(lia) ltac:(simpl; lia) ltac:(lia) (sw_trainable lr) (sw_data lr) (or_introl eq_refl)) as ([] & s' & E & HR).
  exists tt, s'. split; [exact E|]. destruct (Z.to_nat epochs) as [|n] eqn:En; [lia|]. cbn [sfit] in HR.
  change (combine (chunks (batch_rows 2 0) swX) (chunks (batch_rows 2 0) swY)) with [(swX, swY)] in HR. cbn [strain_on] in HR.
  destruct (sw_first lr (r_uni (h_rng (sw_state lr))) (r_upos (h_rng (sw_state lr))) Hlr) as (p & po & X' & EB & HLk & HP & Hw).
  rewrite EB in HR. cbn [fst snd] in HR.
  match type of HR with context [sfit ?a ?b ?c ?d ?e ?f n ?g ?h ?u ?q ?X0 ?Y0] =>
    assert (HS := sig_fit lr a b c d e f Y0 (Rlt_le _ _ Hlr) n g h u q X0 ltac:(repeat constructor; apply HP));
    destruct (sfit a b c d e f n g h u q X0 Y0) as [[[ts2 q2] X2] ls] end.
  cbn [fst snd map] in HS. destruct HR as (nn & _ & es' & xs' & HT' & HSp & _ & ET & _).
  exists es', xs'. split; [exact HT'|]. split; [exact HSp|].
  rewrite <- ET in HS. rewrite trainer_net in HS by (eapply strainable_len; eauto).
  inversion HS as [|? p' ? l' [L2 H2] H3 E1 E2]; subst. inversion H3; subst. cbn [pnet fold_left].
  apply sw_order.
  - eapply like_trans_; eauto.
  - destruct HLk as (K1 & K2 & K3 & _). destruct (H2 ltac:(rewrite K1; reflexivity) ltac:(rewrite K2, K3; reflexivity)) as [HQ _].
    specialize (HQ (fun _ => 1)). rewrite K2 in HQ. unfold quad in HQ. cbn [p_in sw_p] in HQ. rewrite !rsum_1 in HQ. lra.
Qed.
