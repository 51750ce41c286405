(** * NetGradCode: Backward after Forward returns the gradient of the training objective, and a
    small plain SGD step decreases it. *)
From Coq Require Import String ZArith List Bool Arith Lia Reals Lra.
From Coquelicot Require Import Coquelicot.
From Verif Require Import Num NumR Heap Spec Matrix Loss Network Optimizers ModelGo PureSpec Repr HeapLemmas LoopLemmas MatrixFacts RSum LayerFacts LayerReal GradSpec Grad LossProofs OptSpec ModelSpec ModelProofs FitProofs FitFacts NetGradSpec NetGrad LossRefute.
Import ListNotations.
Open Scope R_scope.

Lemma smooth_no_sigmoid k Y o ps r X U q : smooth_net k Y o ps r X U q -> List.Forall (fun p => p_kind p <> SigmoidK) ps.
Proof.
  revert X q. induction ps as [|p t IH]; intros X q H; [constructor|]. destruct H as (H & _ & _ & Ht). constructor; [exact H|].
  destruct (is_last t && fused k p)%bool eqn:E; [|eapply IH; eauto]. destruct t; [constructor|discriminate].
Qed.
Lemma lok_shaped s es : List.Forall (lok s) es -> List.Forall (fun p => shaped p /\ (1 <= p_out p)%nat) (net es).
Proof.
  intros H. unfold net. rewrite List.Forall_map. eapply List.Forall_impl; [|exact H]. intros e (l & _ & HL).
  destruct HL as (_ & _ & _ & _ & _ & _ & Ho & HW & HB). split; [|exact Ho]. split; eapply own_shape; eauto.
Qed.
Lemma chain_out (ps : list (player RNum)) i o : chain i ps o -> (1 <= length ps)%nat -> List.Forall (fun p => shaped p /\ (1 <= p_out p)%nat) ps -> (1 <= o)%nat.
Proof.
  revert i. induction ps as [|p t IH]; intros i HC HL HF; [simpl in HL; lia|]. destruct HC as (_ & HC). inversion HF as [|? ? (_ & Hp) HF2]; subst.
  destruct t; [simpl in HC; lia|]. eapply IH; eauto. simpl; lia.
Qed.

Lemma backward_gradient s m es i o k x rsx y rsy r (X Y : rpm) :
  has_loss s m es i o k -> own s x rsx r i X -> own s y rsy r o Y -> (1 <= r)%nat ->
  smooth_net k Y o (net es) r X (r_uni (h_rng s)) (r_upos (h_rng s)) ->
  returns (training_pass m x y) s (fun gs s' => exists Gs, grads_are s' gs (net es) Gs /\
    rates k Y o (net es) r X (r_uni (h_rng s)) (r_upos (h_rng s)) Gs /\
    partials k Y o (net es) r X (r_uni (h_rng s)) (r_upos (h_rng s)) Gs).
Proof.
  intros (HC & HN & HL & Hm & Ht) HX HY Hr HS.
  assert (HSig : List.Forall (fun e => p_kind (e_p e) <> SigmoidK) es).
  { pose proof (smooth_no_sigmoid _ _ _ _ _ _ _ _ HS) as H. unfold net in H. now rewrite List.Forall_map in H. }
  destruct (forward_backward s m es i o k x rsx y rsy r X Y HC HN HL Hm Ht HSig HX HY Hr) as (outs & s1 & E1 & H1).
  destruct (H1 [] s1 (frame_refl _ _) (layers_kept_refl _ _)) as (gs & s3 & E3 & Hlen & Hgs & _ & _). { intros z _ []. }
  exists gs, s3. split. { unfold training_pass. rewrite (bind_eq _ _ _ _ _ E1). exact E3. }
  exists (snd (pbackprop (K := RNum) k Y o (net es) r X (r_uni (h_rng s)) (r_upos (h_rng s)))).
  assert (HE : length (net es) = length es) by (unfold net; apply map_length).
  pose proof HC as (_ & _ & _ & _ & Hch & Hok). pose proof (lok_shaped _ _ Hok) as Hsh.
  assert (Ho : (1 <= o)%nat) by (apply (chain_out (net es) i o Hch); [lia|exact Hsh]).
  split; [|split].
  - unfold grads_are. rewrite HE. split; [exact Hlen|]. split; [now rewrite backprop_len|]. exact Hgs.
  - eapply net_motion; eauto.
  - eapply net_partials; eauto. eapply List.Forall_impl; [|exact Hsh]. intros p (H & _). exact H.
Qed.
Lemma no_dropout_skip ps j : no_dropout ps -> no_dropout (skipn j ps).
Proof. intros H p Hp. apply H. rewrite <- (firstn_skipn j ps). apply in_or_app. now right. Qed.
Lemma no_dropout_set ps j W B : no_dropout ps -> no_dropout (set_params ps j W B).
Proof.
  revert j. induction ps as [|p t IH]; intros j H; [destruct j; exact H|]. destruct j; intros p' [<-|Hp]; simpl.
  - exact (H p (or_introl eq_refl)).
  - exact (H p' (or_intror Hp)).
  - exact (H p (or_introl eq_refl)).
  - revert Hp. apply IH. intros p2 Hp2. exact (H p2 (or_intror Hp2)).
Qed.
Lemma backward_gradient_exact s m es i o k x rsx y rsy r (X Y : rpm) :
  has_loss s m es i o k -> own s x rsx r i X -> own s y rsy r o Y -> (1 <= r)%nat ->
  smooth_net k Y o (net es) r X (r_uni (h_rng s)) (r_upos (h_rng s)) ->
  no_dropout (net es) -> (forall n, 0 <= r_uni (h_rng s) n) ->
  returns (training_pass m x y) s (fun gs s' => exists Gs, grads_are s' gs (net es) Gs /\
    forall j, let p := nth j (net es) (no_layer (K := RNum)) in let g := nth j Gs ([], []) in (j < length es)%nat ->
    (forall a b, (a < p_in p)%nat -> (b < p_out p)%nat ->
       is_derive (fun t => objective k r o Y (pnet (set_params (net es) j (put (p_in p) (p_out p) (p_w p) a b t) (p_b p)) r X))
         (entry (p_w p) a b) (entry (fst g) a b)) /\
    (forall b, (b < p_out p)%nat ->
       is_derive (fun t => objective k r o Y (pnet (set_params (net es) j (p_w p) (put 1 (p_out p) (p_b p) 0 b t)) r X))
         (entry (p_b p) 0 b) (entry (snd g) 0 b))).
Proof.
  intros HL HX HY Hr HS HD HU. destruct (backward_gradient s m es i o k x rsx y rsy r X Y HL HX HY Hr HS) as (gs & s' & E & Gs & HG & _ & HP).
  exists gs, s'. split; [exact E|]. exists Gs. split; [exact HG|]. intros j p g Hj.
  assert (Hj' : (j < length (net es))%nat) by (unfold net; rewrite map_length; exact Hj).
  destruct (HP j Hj') as (H1 & H2). fold p g in H1, H2.
  assert (HSc : scale (skipn j (net es)) = 1) by (apply scale_one, no_dropout_skip, HD).
  rewrite HSc in H1, H2. split.
  - intros a b Ha Hb. eapply d_eq; [|eapply d_ext; [|exact (H1 a b Ha Hb)]].
    + unfold Rdiv. rewrite Rinv_1. apply Rmult_1_r.
    + intros t. cbv beta. rewrite tnet_inference; auto. now apply no_dropout_set.
  - intros b Hb. eapply d_eq; [|eapply d_ext; [|exact (H2 b Hb)]].
    + unfold Rdiv. rewrite Rinv_1. apply Rmult_1_r.
    + intros t. cbv beta. rewrite tnet_inference; auto. now apply no_dropout_set.
Qed.

(** ** One step of plain SGD *)
Lemma plain_tstep lr (p : player RNum) po g : plain_sgd lr po -> fst (tstep (p, po) g) =
  with_params p (mk (K := RNum) (p_in p) (p_out p) (fun i j => entry (p_w p) i j - lr * entry (fst g) i j))
                (mk (K := RNum) 1 (p_out p) (fun i j => entry (p_b p) i j - lr * entry (snd g) i j)).
Proof.
  intros (Hk & Hm & Hd & Hr). unfold tstep, pupdate, pupd1. cbn [fst snd]. rewrite Hk, Hm. cbn [fst snd].
  unfold next_rate. rewrite Hd, Hr. unfold reparam, with_params, pmap2, sgd1. cbn [fsub fmul RNum].
  f_equal; apply mk_ext; intros i j _ _; toR; ring.
Qed.
Lemma plain_step lr (ps : list (player RNum)) pos gs : List.Forall (plain_sgd lr) pos -> length pos = length ps -> length gs = length ps ->
  map fst (map (fun tg => tstep (fst tg) (snd tg)) (combine (combine ps pos) gs)) = descend lr ps gs.
Proof.
  revert pos gs. induction ps as [|p t IH]; intros [|po pos] [|g gs] HF H1 H2; try discriminate; [reflexivity|].
  inversion HF; subst. cbn [combine map fst snd]. unfold descend. cbn [combine map fst snd]. f_equal; [now apply plain_tstep|].
  apply IH; auto.
Qed.
Lemma sgd_descends k (Y : rpm) o (ps : list (player RNum)) r U q i (X : rpm) : (1 <= r)%nat -> (Z.of_nat r <= 2 ^ 52)%Z ->
  smooth_net k Y o ps r X U q ->
  not_stationary k Y o ps r X U q ->
  exists d, 0 < d /\ forall s m es xs x rsx y rsy lr xv yv,
    trainable s m es xs i o k -> net es = ps -> data_ok s es x rsx y rsy r i o X Y ->
    r_uni (h_rng s) = U -> r_upos (h_rng s) = q -> List.Forall (fun x => plain_sgd lr (x_po x)) xs -> 0 < lr < d ->
    returns (Fit m x y 1 0 xv yv 0) s (fun _ s' => exists es' xs',
      trainable s' m es' xs' i o k /\ Forall2 same_place es es' /\
      objective k r o Y (tnet (net es') r X U q) < objective k r o Y (tnet ps r X U q)).
Proof.
  intros Hr Hr52 HS HN.
  destruct (Classical_Prop.classic (chain i ps o /\ (1 <= length ps)%nat /\ List.Forall (fun p => shaped p /\ (1 <= p_out p)%nat) ps)) as [(Hch & Hl & Hsh)|HX].
  2:{ exists 1. split; [lra|]. intros s m es xs x rsx y rsy lr xv yv HT <- . exfalso. apply HX.
      destruct HT as ((_ & _ & _ & _ & Hch & Hok) & _ & Hl & _). split; [exact Hch|]. split; [unfold net; now rewrite map_length|]. now apply (lok_shaped s). }
  destruct (descent k Y o ps r U q i X Hr (chain_out _ _ _ Hch Hl Hsh) Hch HS) as (d & Hd & HDe).
  { eapply List.Forall_impl; [|exact Hsh]. intros p (H & _). exact H. }
  { eapply not_stationary_nonzero; eauto; [eapply chain_out; eauto|]. eapply List.Forall_impl; [|exact Hsh]. intros p (H & _). exact H. }
  exists d. split; [exact Hd|]. intros s m es xs x rsx y rsy lr xv yv HT Hnet HData HU Hq HF Hlr.
  destruct (fit_trains s m es xs i o k x rsx y rsy r X Y 1 0 xv yv RNum_min_faithful ltac:(lia) ltac:(lia) Hr HT HData) as ([] & s' & E & nn & Hsnd & (es' & xs' & HT' & HP & HP2 & Htr & _) & _).
  exists tt, s'. split; [exact E|]. exists es', xs'. split; [exact HT'|]. split; [exact HP|].
  replace (net es') with (descend lr ps (snd (pbackprop (K := RNum) k Y o ps r X U q))); [now apply HDe|].
  assert (HLx : length xs = length es).
  { destruct HT as (_ & _ & _ & _ & _ & HO & _). symmetry. eapply Forall2_length; eauto. }
  assert (HLx' : length xs' = length es').
  { destruct HT' as (_ & _ & _ & _ & _ & HO & _). symmetry. eapply Forall2_length; eauto. }
  destruct HData as (HX & HY & _ & _). pose proof (own_shape _ _ _ _ _ _ HX) as (HXl & _). pose proof (own_shape _ _ _ _ _ _ HY) as (HYl & _).
  rewrite <- (trainer_net es' xs' HLx'), Htr. unfold epochs_of, batch_rows. change ((0 =? 0)%Z) with true. cbv iota.
  change (Z.to_nat 1) with 1%nat. cbn [repeat concat].
  rewrite !chunks_whole; try (destruct X, Y; simpl in *; try discriminate; lia).
  cbn [combine app ptrain_on fst]. unfold pbatch. rewrite (trainer_net es xs HLx), Hnet, HXl. subst U q.
  symmetry. unfold trainer. rewrite Hnet. apply plain_step.
  - now rewrite List.Forall_map.
  - rewrite map_length. subst ps. unfold net. now rewrite map_length.
  - apply backprop_len.
Qed.

(** ** A concrete network: hidden 2 -> 2, linear 2 -> 1, two samples *)
Definition nr_o (lr : R) : optimizer RNum := MkOpt (K := RNum) SGD lr 0 0 0 0 0 lr 0 matrix0 matrix0 matrix0 matrix0 false false.
Definition nr_rng : rng RNum := MkRng (K := RNum) (fun _ => 1/2) (fun _ => 0) (fun _ => 0%Z) 0 0 0.
Definition nr_state (lr : R) : state RNum :=
  MkState (K := RNum) [[1;-1]; [2;0]; [1;-2]; [1]; [-1]; [1/2]; [-3;2]; [4;-5]; [1]; [0]]
    [[1;2]; [3]; [4;5]; [6]; [7;8]; [9;10]]%nat
    [MkLayer (K := RNum) Hidden 2 2 (MkMatrix 2 2 (MkSlice 1 0 2)) (MkMatrix 1 2 (MkSlice 2 0 1)) 0 0 matrix0 matrix0;
     MkLayer (K := RNum) Linear 2 1 (MkMatrix 2 1 (MkSlice 3 0 2)) (MkMatrix 1 1 (MkSlice 4 0 1)) 0 0 matrix0 matrix0]
    [nr_o lr; nr_o lr] nr_rng true [].
Definition nr_x : matrix := MkMatrix 2 2 (MkSlice 5 0 2).
Definition nr_y : matrix := MkMatrix 2 1 (MkSlice 6 0 2).
Definition nrX : rpm := [[-3;2];[4;-5]].
Definition nrY : rpm := [[1];[0]].
Definition nrP0 : player RNum := PL (K := RNum) Hidden 2 2 [[1;-1];[2;0]] [[1;-2]] 0 0.
Definition nrP1 : player RNum := PL (K := RNum) Linear 2 1 [[1];[-1]] [[1/2]] 0 0.
Definition nr_es : list (lent RNum) := [LE (K := RNum) 0 [1;2]%nat [3]%nat nrP0; LE (K := RNum) 1 [4;5]%nat [6]%nat nrP1].
Definition nr_po (lr : R) (c : nat) : popt RNum :=
  PO (K := RNum) SGD lr 0 0 0 0 0 lr 0 false false (zmat (K := RNum) 2 c) (zmat (K := RNum) 1 c) (zmat (K := RNum) 2 c) (zmat (K := RNum) 1 c).
Definition nr_xs (lr : R) : list (oent RNum) := [OE (K := RNum) 0 [] (nr_po lr 2); OE (K := RNum) 1 [] (nr_po lr 1)].
Definition nr_m (lr : R) : model RNum :=
  MkModel (K := RNum) 2 2 1 0 (Some (MkLoss MSE 1)) 0 0 0 [] [0; 1]%nat [0; 1]%nat.
Lemma nr_trainable lr : trainable (nr_state lr) (nr_m lr) nr_es (nr_xs lr) 2 1 MSE.
Proof.
  unfold trainable. split; [|split; [|split; [|split; [|split; [|split; [|split; [|split; [|split]]]]]]]].
  - unfold consistent. do 4 (split; [reflexivity|]). split; [simpl; auto|].
    repeat constructor; eexists; (split; [reflexivity|]); unfold lown; simpl; repeat (split; [first [reflexivity|lia]|]); split; own_tac'.
  - split; nd.
  - simpl; lia.
  - reflexivity.
  - nd.
  - repeat constructor; eexists; (split; [reflexivity|]); unfold oown, oscal; simpl; auto 20.
  - dj.
  - reflexivity.
  - reflexivity.
  - repeat constructor; discriminate.
Qed.
Lemma nr_data lr : data_ok (nr_state lr) nr_es nr_x [7;8]%nat nr_y [9;10]%nat 2 2 1 nrX nrY.
Proof. split; [own_tac'|]. split; [own_tac'|]. split; dj. Qed.
Lemma nr_smooth : smooth_net MSE nrY 1 (net nr_es) 2 nrX (fun _ => 1/2) 0.
Proof.
  simpl. split; [discriminate|]. split; [discriminate|]. split; [|split; [discriminate|split; [discriminate|split; exact I]]].
  intros i j Hi Hj. unfold paffine. simpl p_in. simpl p_out in *. rewrite paff_entry by lia. rewrite rsum_S, rsum_1.
  destruct i as [|[|]]; [| |lia]; (destruct j as [|[|]]; [| |lia]); unfold entry; simpl; lra.
Qed.
Lemma nr_nonzero : nonzero_gradient (net nr_es) (snd (pbackprop (K := RNum) MSE nrY 1 (net nr_es) 2 nrX (fun _ => 1/2) 0)).
Proof.
  exists 1%nat. split; [simpl; lia|]. cbv zeta. right. exists 0%nat. split; [simpl; lia|].
  cbv -[Rplus Rmult Rminus Rdiv Ropp Rinv IZR Rlt_dec Rle_dec Rmax Rlt Rle R0 R1 exp sqrt].
  rewrite (Rmax_left (0 + -3 * 1 + 2 * 2 + 1)), (Rmax_left (0 + -3 * -1 + 2 * 0 + -2)), (Rmax_right (0 + 4 * 1 + -5 * 2 + 1)), (Rmax_right (0 + 4 * -1 + -5 * 0 + -2)) by lra.
  lra.
Qed.

Lemma nr_moving : not_stationary MSE nrY 1 (net nr_es) 2 nrX (fun _ => 1/2) 0.
Proof.
  destruct (nr_trainable 1) as ((_ & _ & _ & _ & Hch & Hok) & _). pose proof (lok_shaped _ _ Hok) as Hsh.
  apply (not_stationary_nonzero MSE nrY 1 (net nr_es) 2 _ _ 2 nrX ltac:(lia) ltac:(lia) Hch nr_smooth).
  - eapply List.Forall_impl; [|exact Hsh]. intros p (H & _). exact H.
  - exact nr_nonzero.
Qed.
