(** * GradCode: the gradients the layer methods return, compared with derivatives. *)
From Coq Require Import String ZArith List Bool Arith Lia Reals Lra.
From Coquelicot Require Import Coquelicot.
From Verif Require Import Num NumR Heap Matrix Network Spec PureSpec Repr RSum HeapLemmas LoopLemmas MatrixProofs LayerProofs MatrixFacts MiscFacts ActFacts LayerFacts LayerReal GradSpec Grad.
Import ListNotations.
Open Scope R_scope.
Open Scope go_scope.

Definition fwd_bwd (lref : nat) (x dv : matrix) : M RNum (matrix * grads3) :=
  (out <- Layer_Forward lref x ;; g <- Layer_Backward lref x dv ;; ret (out, g)).

Lemma gradient_plain s lref l rw rb p x rsx r (X : rpm) dv rsg (G : rpm) :
  nth_error (h_layers s) lref = Some l -> lown s l rw rb p -> p_kind p <> SigmoidK -> p_kind p <> Dropout ->
  own s x rsx r (p_in p) X -> (1 <= r)%nat -> own s dv rsg r (p_out p) G -> NoDup rsg ->
  disjoint rsx rsg -> disjoint rw rsg -> disjoint rb rsg -> smooth_at p r X ->
  returns (fwd_bwd lref x dv) s (fun og s' =>
    (exists rs, fresh_mat s s' (fst og) rs r (p_out p) (pforward p r X)) /\
    exists dW dB dX, bwd_result s s' (snd og) (p_in p) (p_out p) r dW dB dX /\
      is_vjp (fun q Y => pforward q r Y) p r X G dW dB dX).
Proof.
  intros Hl HL Hs Hd HX Hr HG HND D1 D2 D3 Hsm. apply returns_wp. eapply wp_conseq.
  { pose proof (wp_forward_backward s lref l rw rb p x rsx r X dv rsg G Hl HL Hs HX Hr HG HND D1 D2 D3) as H.
    cbv zeta in H. exact H. }
  cbv beta. intros og s' (H1 & H2 & _).
  assert (E1 : ptrain p r X (uniforms s) = pforward p r X) by (unfold ptrain; destruct (p_kind p); congruence).
  assert (E2 : ptrain_mask p r (uniforms s) = []) by (unfold ptrain_mask; destruct (p_kind p); congruence).
  rewrite E1, E2 in *. split; [exact H1|]. do 3 eexists. split; [exact H2|].
  exact (vjp_plain p r X G Hs Hd Hsm).
Qed.
Lemma gradient_dropout s lref l rw rb p x rsx r (X : rpm) dv rsg (G : rpm) :
  nth_error (h_layers s) lref = Some l -> lown s l rw rb p -> p_kind p = Dropout -> 0 <= p_drop p < 1 ->
  own s x rsx r (p_in p) X -> (1 <= r)%nat -> own s dv rsg r (p_out p) G -> NoDup rsg ->
  disjoint rsx rsg -> disjoint rw rsg -> disjoint rb rsg -> away_from_zero p r X ->
  returns (fwd_bwd lref x dv) s (fun og s' =>
    (exists rs, fresh_mat s s' (fst og) rs r (p_out p) (pforward_drop p r X (uniforms s))) /\
    exists dW dB dX, bwd_result s s' (snd og) (p_in p) (p_out p) r dW dB dX /\
      is_vjp_scaled (1 - p_drop p) (fun q Y => pforward_drop q r Y (uniforms s)) p r X G dW dB dX).
Proof.
  intros Hl HL Hk Hd HX Hr HG HND D1 D2 D3 Hsm. assert (Hs : p_kind p <> SigmoidK) by congruence.
  apply returns_wp. eapply wp_conseq.
  { pose proof (wp_forward_backward s lref l rw rb p x rsx r X dv rsg G Hl HL Hs HX Hr HG HND D1 D2 D3) as H.
    cbv zeta in H. exact H. }
  cbv beta. intros og s' (H1 & H2 & _).
  assert (E1 : ptrain p r X (uniforms s) = pforward_drop p r X (uniforms s)) by (unfold ptrain; now rewrite Hk).
  assert (E2 : ptrain_mask p r (uniforms s) = pmask (p_drop p) r (p_out p) (uniforms s)) by (unfold ptrain_mask; now rewrite Hk).
  rewrite E1, E2 in *. split; [exact H1|]. do 3 eexists. split; [exact H2|].
  exact (vjp_dropout p r X G (uniforms s) Hk Hd Hsm).
Qed.

(** ** One-by-one layers, for the refutations *)
Definition one_layer (k : lkind) (slope drop : R) : layer RNum :=
  MkLayer (K := RNum) k 1 1 (MkMatrix 1 1 (MkSlice 2 0 1)) (MkMatrix 1 1 (MkSlice 3 0 1)) slope drop matrix0 matrix0.
Definition one_state (k : lkind) (slope drop w b x g u : R) : state RNum :=
  MkState (K := RNum) [[x]; [w]; [b]; [g]] [[1]; [2]; [3]; [4]]%nat [one_layer k slope drop]
    [] (MkRng (K := RNum) (fun _ => u) (fun _ => 0) (fun _ => 0%Z) 0 0 0) true [].
Definition one_x : matrix := MkMatrix 1 1 (MkSlice 1 0 1).
Definition one_dv : matrix := MkMatrix 1 1 (MkSlice 4 0 1).
Definition one_p (k : lkind) (slope drop w b : R) : player RNum := PL (K := RNum) k 1 1 [[w]] [[b]] slope drop.
Definition one_ok (s : state RNum) l rw rb p x rsx dv rsg (X G : rpm) : Prop :=
  nth_error (h_layers s) 0 = Some l /\ lown s l rw rb p /\
  own s x rsx 1 (p_in p) X /\ own s dv rsg 1 (p_out p) G /\ NoDup rsg /\ disjoint rsx rsg /\ disjoint rw rsg /\ disjoint rb rsg.
Lemma one_state_ok k slope drop w b x g u :
  one_ok (one_state k slope drop w b x g u) (one_layer k slope drop) [2%nat] [3%nat] (one_p k slope drop w b) one_x [1%nat] one_dv [4%nat] [[x]] [[g]].
Proof.
  unfold one_ok. split; [reflexivity|]. split.
  { unfold lown. simpl. repeat (split; [first [reflexivity|lia]|]). split; own_tac'. }
  split; [own_tac'|]. split; [own_tac'|]. split; [repeat constructor; simpl; tauto|].
  split; [|split]; unfold disjoint; simpl; lia.
Qed.
Lemma one_dW (x g : R) : entry (pdW (K := RNum) 1 1 1 [[x]] [[g]]) 0 0 = x * g.
Proof. unfold pdW, pdot. rewrite entry_mk by lia. fold (rsum 1). rewrite rsum_1. unfold ptrans. rewrite entry_mk by lia. reflexivity. Qed.
Lemma one_affine k slope drop w b x : paffine (one_p k slope drop w b) 1 [[x]] = [[x * w + b]].
Proof.
  transitivity (mk (K := RNum) 1 1 (fun _ _ => x * w + b)); [|reflexivity].
  unfold paffine, paff. apply mk_ext. intros i j Hi Hj. assert (i = 0)%nat as -> by lia. simpl in Hj. assert (j = 0)%nat as -> by lia.
  fold (rsum 1). change (fun n : nat => fmul (entry [[x]] 0 n) (entry [[w]] n 0)) with (fun n : nat => entry [[x]] 0 n * entry (K := RNum) [[w]] n 0).
  change (rsum 1 (fun n : nat => entry (K := RNum) [[x]] 0 n * entry (K := RNum) [[w]] n 0) + b = x * w + b). now rewrite rsum_1.
Qed.
Lemma one_away k slope drop w b x : x * w + b <> 0 -> away_from_zero (one_p k slope drop w b) 1 [[x]].
Proof.
  intros H i j Hi Hj. rewrite one_affine. simpl in Hj. assert (i = 0)%nat as -> by lia. assert (j = 0)%nat as -> by lia. exact H.
Qed.
(** A vector-Jacobian product of a 1x1 layer gives the derivative with respect to its weight. *)
Lemma one_vjp_w f k slope drop w b x g dW dB dX :
  is_vjp f (one_p k slope drop w b) 1 [[x]] [[g]] dW dB dX ->
  is_derive (fun t => g * entry (f (one_p k slope drop t b) [[x]]) 0 0) w (entry dW 0 0).
Proof.
  intros H. apply vjp_partials in H; [|split; repeat constructor..].
  destruct H as (H & _). specialize (H 0%nat 0%nat). simpl in H. specialize (H (le_n 1) (le_n 1)).
  eapply d_ext; [|exact H]. intros t. unfold inner. rewrite !rsum_1. reflexivity.
Qed.

Lemma d_uniq (f : R -> R) (x a b : R) : is_derive f x a -> is_derive f x b -> a = b.
Proof. intros H1 H2. apply is_derive_unique in H1. apply is_derive_unique in H2. congruence. Qed.

Definition leaky0_s : state RNum := one_state Leaky 0 0 1 0 (-1) 1 0.
Lemma leaky_slope_zero : exists (s : state RNum) l rw rb p x rsx dv rsg X G,
  one_ok s l rw rb p x rsx dv rsg X G /\ p_kind p = Leaky /\ p_slope p = 0 /\ away_from_zero p 1 X /\
  returns (fwd_bwd 0 x dv) s (fun og s' => exists dW dB dX, bwd_result s s' (snd og) (p_in p) (p_out p) 1 dW dB dX /\
     ~ is_vjp (fun q Y => pforward q 1 Y) p 1 X G dW dB dX).
Proof.
  exists leaky0_s, (one_layer Leaky 0 0), [2%nat], [3%nat], (one_p Leaky 0 0 1 0), one_x, [1%nat], one_dv, [4%nat], [[-1]], [[1]].
  assert (HO := one_state_ok Leaky 0 0 1 0 (-1) 1 0).
  split; [exact HO|]. split; [reflexivity|]. split; [reflexivity|]. split; [apply one_away; lra|].
  destruct HO as (Hl & HL & HX & HG & HND & D1 & D2 & D3).
  apply returns_wp. eapply wp_conseq.
  { pose proof (wp_forward_backward leaky0_s 0 _ _ _ _ _ _ _ _ _ _ _ Hl HL ltac:(discriminate) HX (le_n 1) HG HND D1 D2 D3) as H.
    cbv zeta in H. exact H. }
  cbv beta. intros og s' (_ & H2 & _). do 3 eexists. split; [exact H2|]. clear H2.
  intros HV. apply one_vjp_w in HV.
  match type of HV with is_derive _ _ (entry (pdW _ _ _ _ ?g') _ _) => assert (E : g' = [[1]]) end.
  { transitivity (mk (K := RNum) 1 1 (fun _ _ => 1)); [|reflexivity].
    unfold pback, ptrain. simpl p_kind. cbv iota. unfold pforward, pact. simpl p_kind. cbv iota. rewrite one_affine.
    unfold pmap2. apply mk_ext. intros i j Hi Hj. assert (i = 0)%nat as -> by lia. simpl in Hj. assert (j = 0)%nat as -> by lia.
    rewrite entry_pmap by (simpl; lia). change (act1 (one_p Leaky 0 0 1 0)) with (leaky1 (K := RNum) 0). change (p_slope (one_p Leaky 0 0 1 0)) with 0. rewrite leaky_R, leaky_prime_R.
    unfold entry. simpl nth. destruct (Rlt_dec (-1 * 1 + 0) 0); [|lra]. destruct (Rlt_dec ((-1 * 1 + 0) * 0) 0); [lra|reflexivity]. }
  rewrite E in HV. simpl p_in in HV. simpl p_out in HV. rewrite one_dW in HV.
  assert (HD : is_derive (fun t => 1 * entry (pforward (one_p Leaky 0 0 t 0) 1 [[-1]]) 0 0) 1 0).
  { apply (d_ext (fun t => (if Rlt_dec (-1 * t) 0 then -1 * t * 0 else -1 * t))).
    { intros t. unfold pforward, pact. simpl p_kind. cbv iota. rewrite one_affine. rewrite entry_pmap by (simpl; lia).
      change (act1 (one_p Leaky 0 0 t 0)) with (leaky1 (K := RNum) 0). rewrite leaky_R. unfold entry. simpl nth. rewrite Rplus_0_r, Rmult_1_l. reflexivity. }
    eapply d_eq; [|apply (d_comp (fun z => if Rlt_dec z 0 then z * 0 else z) (fun t => -1 * t)); [apply (d_leaky 0); lra|apply d_scal; exact (is_derive_id 1)]].
    destruct (Rlt_dec (-1 * 1) 0); [|lra]. apply Rmult_0_l. }
  pose proof (d_uniq _ _ _ _ HV HD). lra.
Qed.

Definition drop_s : state RNum := one_state Dropout 0 (1/2) 1 0 1 1 0.
Lemma half_mask : mask1 (K := RNum) (1/2) 0 = 1.
Proof.
  rewrite R_mask by lra. destruct (Rlt_dec (1/2) (1/2)); [lra|]. destruct (Rlt_dec 0 (1 - 1/2)); [reflexivity|lra].
Qed.
Lemma dropout_gradient_wrong : exists (s : state RNum) l rw rb p x rsx dv rsg X G,
  one_ok s l rw rb p x rsx dv rsg X G /\ p_kind p = Dropout /\ (p_drop p = 1/2)%R /\ away_from_zero p 1 X /\
  returns (fwd_bwd 0 x dv) s (fun og s' => exists dW dB dX, bwd_result s s' (snd og) (p_in p) (p_out p) 1 dW dB dX /\
     ~ is_vjp (fun q Y => pforward_drop q 1 Y (uniforms s)) p 1 X G dW dB dX).
Proof.
  exists drop_s, (one_layer Dropout 0 (1/2)), [2%nat], [3%nat], (one_p Dropout 0 (1/2) 1 0), one_x, [1%nat], one_dv, [4%nat], [[1]], [[1]].
  assert (HO := one_state_ok Dropout 0 (1/2) 1 0 1 1 0).
  split; [exact HO|]. split; [reflexivity|]. split; [reflexivity|]. split; [apply one_away; lra|].
  destruct HO as (Hl & HL & HX & HG & HND & D1 & D2 & D3).
  apply returns_wp. eapply wp_conseq.
  { pose proof (wp_forward_backward drop_s 0 _ _ _ _ _ _ _ _ _ _ _ Hl HL ltac:(discriminate) HX (le_n 1) HG HND D1 D2 D3) as H.
    cbv zeta in H. exact H. }
  cbv beta. intros og s' (_ & H2 & _). do 3 eexists. split; [exact H2|]. clear H2.
  intros HV. apply one_vjp_w in HV.
  assert (EF : forall t, entry (pforward_drop (one_p Dropout 0 (1/2) t 0) 1 [[1]] (uniforms drop_s)) 0 0 = Rmax t 0 * 2).
  { intros t. unfold pforward_drop. rewrite one_affine. rewrite entry_mk by (simpl; lia). rewrite R_relu.
    change (uniforms drop_s (0 * p_out (one_p Dropout 0 (1 / 2) t 0) + 0)%nat) with 0. change (p_drop (one_p Dropout 0 (1 / 2) t 0)) with (1/2).
    rewrite half_mask. unfold entry. simpl nth. rewrite Rmult_1_l, Rplus_0_r. unfold f1. cbn [fmul fdiv fsub ofZ RNum]. toR. field. }
  match type of HV with is_derive _ _ (entry (pdW _ _ _ _ ?g') _ _) => assert (E : g' = [[1]]) end.
  { transitivity (mk (K := RNum) 1 1 (fun _ _ => 1)); [|reflexivity].
    unfold pback, ptrain, ptrain_mask. simpl p_kind. cbv iota. unfold pmap2 at 1. apply mk_ext. intros i j Hi Hj.
    assert (i = 0)%nat as -> by lia. simpl in Hj. assert (j = 0)%nat as -> by lia.
    rewrite EF, relu_prime_R, entry_pmap2 by (simpl; lia). unfold pmask. rewrite entry_mk by (simpl; lia).
    change (uniforms drop_s (0 * p_out (one_p Dropout 0 (1 / 2) 1 0) + 0)%nat) with 0. change (p_drop (one_p Dropout 0 (1 / 2) 1 0)) with (1/2).
    rewrite half_mask. rewrite Rmax_left by lra. destruct (Rlt_dec 0 (1 * 2)); [|lra]. unfold entry. simpl. toR. ring. }
  rewrite E in HV. simpl p_in in HV. simpl p_out in HV. rewrite one_dW in HV.
  assert (HD : is_derive (fun t => 1 * entry (pforward_drop (one_p Dropout 0 (1/2) t 0) 1 [[1]] (uniforms drop_s)) 0 0) 1 2).
  { apply (d_ext (fun t => Rmax t 0 * 2)). { intros t. rewrite EF. toR. ring. }
    eapply d_eq; [|apply (d_scal_r (fun t => Rmax t 0)); apply d_relu; lra]. destruct (Rlt_dec 0 1); [toR; ring|lra]. }
  pose proof (d_uniq _ _ _ _ HV HD). lra.
Qed.

Lemma gradient_linear s lref l rw rb p x rsx r (X : rpm) dv rsg (G : rpm) :
  nth_error (h_layers s) lref = Some l -> lown s l rw rb p -> p_kind p = Linear ->
  own s x rsx r (p_in p) X -> (1 <= r)%nat -> own s dv rsg r (p_out p) G -> NoDup rsg ->
  disjoint rsx rsg -> disjoint rw rsg -> disjoint rb rsg ->
  returns (fwd_bwd lref x dv) s (fun og s' =>
    (exists rs, fresh_mat s s' (fst og) rs r (p_out p) (pforward p r X)) /\
    exists dW dB dX, bwd_result s s' (snd og) (p_in p) (p_out p) r dW dB dX /\
      is_vjp (fun q Y => pforward q r Y) p r X G dW dB dX).
Proof. intros H1 H2 Hk H3 H4 H5 H6 H7 H8 H9. eapply gradient_plain; eauto; try congruence. unfold smooth_at. now rewrite Hk. Qed.
Lemma gradient_softmax s lref l rw rb p x rsx r (X : rpm) dv rsg (G : rpm) :
  nth_error (h_layers s) lref = Some l -> lown s l rw rb p -> p_kind p = SoftmaxK ->
  own s x rsx r (p_in p) X -> (1 <= r)%nat -> own s dv rsg r (p_out p) G -> NoDup rsg ->
  disjoint rsx rsg -> disjoint rw rsg -> disjoint rb rsg ->
  returns (fwd_bwd lref x dv) s (fun og s' =>
    (exists rs, fresh_mat s s' (fst og) rs r (p_out p) (pforward p r X)) /\
    exists dW dB dX, bwd_result s s' (snd og) (p_in p) (p_out p) r dW dB dX /\
      is_vjp (fun q Y => pforward q r Y) p r X G dW dB dX).
Proof. intros H1 H2 Hk H3 H4 H5 H6 H7 H8 H9. eapply gradient_plain; eauto; try congruence. unfold smooth_at. now rewrite Hk. Qed.
Lemma gradient_hidden s lref l rw rb p x rsx r (X : rpm) dv rsg (G : rpm) :
  nth_error (h_layers s) lref = Some l -> lown s l rw rb p -> p_kind p = Hidden ->
  own s x rsx r (p_in p) X -> (1 <= r)%nat -> own s dv rsg r (p_out p) G -> NoDup rsg ->
  disjoint rsx rsg -> disjoint rw rsg -> disjoint rb rsg -> away_from_zero p r X ->
  returns (fwd_bwd lref x dv) s (fun og s' =>
    (exists rs, fresh_mat s s' (fst og) rs r (p_out p) (pforward p r X)) /\
    exists dW dB dX, bwd_result s s' (snd og) (p_in p) (p_out p) r dW dB dX /\
      is_vjp (fun q Y => pforward q r Y) p r X G dW dB dX).
Proof. intros H1 H2 Hk H3 H4 H5 H6 H7 H8 H9 H10. eapply gradient_plain; eauto; try congruence. unfold smooth_at. now rewrite Hk. Qed.
Lemma gradient_leaky s lref l rw rb p x rsx r (X : rpm) dv rsg (G : rpm) :
  nth_error (h_layers s) lref = Some l -> lown s l rw rb p -> p_kind p = Leaky -> 0 < p_slope p ->
  own s x rsx r (p_in p) X -> (1 <= r)%nat -> own s dv rsg r (p_out p) G -> NoDup rsg ->
  disjoint rsx rsg -> disjoint rw rsg -> disjoint rb rsg -> away_from_zero p r X ->
  returns (fwd_bwd lref x dv) s (fun og s' =>
    (exists rs, fresh_mat s s' (fst og) rs r (p_out p) (pforward p r X)) /\
    exists dW dB dX, bwd_result s s' (snd og) (p_in p) (p_out p) r dW dB dX /\
      is_vjp (fun q Y => pforward q r Y) p r X G dW dB dX).
Proof. intros H1 H2 Hk H0 H3 H4 H5 H6 H7 H8 H9 H10. eapply gradient_plain; eauto; try congruence. unfold smooth_at. now rewrite Hk. Qed.
