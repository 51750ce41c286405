(** * NetGrad: backpropagation computes the gradient of the training objective. *)
From Coq Require Import String ZArith List Bool Arith Lia Reals Lra.
From Coquelicot Require Import Coquelicot.
From Verif Require Import Num NumR Heap Spec Matrix Loss Network ModelGo PureSpec Repr RSum LayerFacts LayerReal GradSpec Grad LossProofs LossReal LossCode LossFacts OptSpec ModelSpec NetGradSpec.
Import ListNotations.
Open Scope R_scope.

Lemma d_abs (z : R) : z <> 0 -> is_derive Rabs z (sgn z).
Proof.
  intros Hz. unfold sgn. destruct (Rlt_dec 0 z) as [H|H].
  - apply (is_derive_ext_loc (fun t => t)).
    { exists (mkposreal z H). intros y Hy. unfold ball in Hy; simpl in Hy. unfold AbsRing_ball, abs, minus, plus, opp in Hy; simpl in Hy.
      apply Rabs_def2 in Hy. symmetry. apply Rabs_right. lra. }
    exact (is_derive_id z).
  - destruct (Rlt_dec z 0) as [H2|]; [|lra]. apply (is_derive_ext_loc (fun t => - t)).
    { assert (H3 : 0 < - z) by lra. exists (mkposreal (- z) H3). intros y Hy. unfold ball in Hy; simpl in Hy. unfold AbsRing_ball, abs, minus, plus, opp in Hy; simpl in Hy.
      apply Rabs_def2 in Hy. symmetry. apply Rabs_left. lra. }
    apply d_opp. exact (is_derive_id z).
Qed.
Lemma mae_grad r (Yh Y : rpm) : (forall i, (i < r)%nat -> entry Yh i 0 <> entry Y i 0) ->
  is_grad r 1 (objective MAE r 1 Y) Yh (pmae_back r 1 Yh Y).
Proof.
  intros HN Ac A' H0 HD. unfold objective, inner. rewrite mae_back_one.
  apply (d_rsum r (fun i t => rsum 1 (fun j => Rabs (entry (Ac t) i j - entry Y i j)) / INR 1)). intros i Hi.
  apply (d_ext (fun t => Rabs (entry (Ac t) i 0 - entry Y i 0))).
  { intros t. rewrite rsum_1. change (INR 1) with 1. toR. field. }
  replace (rsum 1 _) with (sgn (entry Yh i 0 - entry Y i 0) * (entry A' i 0 - 0)).
  - apply (d_comp Rabs (fun t => entry (Ac t) i 0 - entry Y i 0)).
    + rewrite H0. apply d_abs. intros E. apply (HN i Hi). toR. lra.
    + apply d_minus; [apply HD; lia|apply d_const].
  - rewrite rsum_1, entry_mk by lia. toR. ring.
Qed.
Lemma objective_grad k r o (Y A : rpm) : (1 <= r)%nat -> (1 <= o)%nat -> objective_smooth k r o Y A ->
  is_grad r o (objective k r o Y) A (ploss_back k r o A Y).
Proof.
  intros Hr Ho H. destruct k; simpl in H |- *.
  - now apply mse_grad.
  - destruct H as (-> & H). now apply mae_grad.
  - destruct H. now apply ce_grad.
  - now apply bce_grad.
Qed.

(** ** One layer, in training mode *)
Lemma vjp_train p r (X G : rpm) (u : nat -> R) : p_kind p <> SigmoidK -> (p_kind p = Dropout -> 0 <= p_drop p < 1) -> smooth_at p r X ->
  let G' := pback p r (ptrain p r X u) (ptrain_mask p r u) G in
  is_vjp_scaled (kept p) (fun q A => ptrain q r A u) p r X G (pdW r (p_in p) (p_out p) X G') (psum0 r (p_out p) G') (pdX r (p_in p) (p_out p) G' (p_w p)).
Proof.
  intros Hs Hd Hsm G'. destruct (p_kind p) eqn:E.
  6:{ unfold kept. rewrite E.
      assert (HA : away_from_zero p r X) by (unfold smooth_at in Hsm; now rewrite E in Hsm).
      pose proof (vjp_dropout p r X G u E (Hd eq_refl) HA) as H. cbv zeta in H.
      unfold G', ptrain, ptrain_mask. rewrite E.
      intros Wc Bc Xc W' B' X' HW0 HB0 HX0 HW HB HX. destruct (H Wc Bc Xc W' B' X' HW0 HB0 HX0 HW HB HX) as (O' & HO & EQ).
      exists O'. split; [|exact EQ]. simpl. rewrite E. exact HO. }
  all: pose proof (vjp_plain p r X G ltac:(congruence) ltac:(congruence) Hsm) as H; cbv zeta in H;
    unfold is_vjp in H; unfold kept, G', ptrain, ptrain_mask; rewrite E;
    intros Wc Bc Xc W' B' X' HW0 HB0 HX0 HW HB HX; destruct (H Wc Bc Xc W' B' X' HW0 HB0 HX0 HW HB HX) as (O' & HO & EQ);
    exists O'; split; [|exact EQ]; simpl; rewrite E; exact HO.
Qed.

(** ** The whole network *)
Lemma kept_pos p : (p_kind p = Dropout -> 0 <= p_drop p < 1) -> 0 < kept p.
Proof. intros H. unfold kept. destruct (p_kind p); try lra. specialize (H eq_refl). lra. Qed.
Lemma clip_in01 r c (A : rpm) : shape r c A -> in01 r c A -> pmap r c clip1 A = A.
Proof.
  intros HS H. unfold pmap. transitivity (mk (K := RNum) r c (entry A)); [|now apply mk_entry].
  apply mk_ext. intros i j Hi Hj. pose proof (H i j Hi Hj). apply clipR_id. lra.
Qed.
Lemma smooth_scale k Y o ps r X U q : smooth_net k Y o ps r X U q -> 0 < scale ps.
Proof.
  revert X q. induction ps as [|p t IH]; intros X q H; simpl; [lra|].
  destruct H as (_ & Hd & _ & Ht). apply Rmult_lt_0_compat; [now apply kept_pos|].
  destruct (is_last t && fused k p)%bool eqn:E; [|eauto].
  destruct t; [simpl; lra|discriminate].
Qed.
Lemma params_self p (W B : rpm) : W = p_w p -> B = p_b p -> with_params p W B = p.
Proof. intros -> ->. destruct p; reflexivity. Qed.

Lemma net_rate k (Y : rpm) o ps r U : (1 <= r)%nat -> (1 <= o)%nat ->
  forall i q X cs ds Xc X', chain i ps o -> smooth_net k Y o ps r X U q -> moves ps cs ds -> Xc 0 = X -> mderiv r i Xc X' ->
  is_derive (fun t => objective k r o Y (tnet (moved ps cs t) r (Xc t) U q)) 0
    (predicted ps (snd (pbackprop (K := RNum) k Y o ps r X U q)) ds + inner r i (fst (pbackprop (K := RNum) k Y o ps r X U q)) X' / scale ps).
Proof.
  intros Hr Ho. induction ps as [|p t IH]; intros i q X cs ds Xc X' HC HS HM H0 HX.
  - simpl in HC. subst i. destruct cs, ds; try contradiction. simpl.
    eapply d_eq; [|apply (objective_grad k r o Y X Hr Ho HS Xc X' H0 HX)]. field.
  - destruct cs as [|[Wc Bc] cs]; [contradiction|]. destruct ds as [|[W' B'] ds]; [contradiction|].
    destruct HC as (Hi & HC). destruct HM as (HW0 & HB0 & HW & HB & HM). cbn [fst snd] in HW0, HB0, HW, HB. subst i.
    pose proof (smooth_scale _ _ _ _ _ _ _ _ HS) as HSC.
    destruct HS as (Hsig & Hd & Hsm & HS).
    pose proof (kept_pos p Hd) as HK.
    cbn [moved tnet fst snd pbackprop].
    set (O := ptrain p r X (from (K := RNum) U q)) in *.
    destruct (is_last t && fused k p)%bool eqn:EF.
    + (* final softmax layer under cross-entropy *)
      apply andb_true_iff in EF. destruct EF as (EL & EF). destruct t; [|discriminate]. simpl in HC. subst o.
      destruct cs, ds; try contradiction.
      unfold fused in EF. destruct k; try discriminate. destruct (p_kind p) eqn:Ek; try discriminate.
      assert (EO : forall W B A, ptrain (with_params p W B) r A (from (K := RNum) U q) = psoftmax r (p_out p) (paffine (with_params p W B) r A)).
      { intros. unfold ptrain, pforward, pact. simpl. now rewrite Ek. }
      assert (EP : O = psoftmax r (p_out p) (paffine p r X)) by (unfold O, ptrain, pforward, pact; now rewrite Ek).
      set (G := pce_loss_back r (p_out p) O Y).
      pose proof (vjp_train p r X G (from (K := RNum) U q) ltac:(congruence) ltac:(congruence) Hsm) as HV. cbv zeta in HV. fold O in HV.
      replace (pback p r O (ptrain_mask p r (from (K := RNum) U q)) G) with (pce_back r (p_out p) Y O) in HV.
      2:{ unfold pback. rewrite Ek. unfold G. rewrite EP. symmetry. now apply fused_back. }
      destruct (HV Wc Bc Xc W' B' X' HW0 HB0 H0 HW HB HX) as (O' & HO & EQ).
      assert (HG : is_grad r (p_out p) (uce r (p_out p) Y) O G).
      { apply uce_grad; auto. intros i j Hii Hj. rewrite EP. apply softmax_range; auto. }
      cbn [moved tnet objective].
      apply (d_ext (fun t => uce r (p_out p) Y (ptrain (with_params p (Wc t) (Bc t)) r (Xc t) (from (K := RNum) U q)))).
      { intros t. rewrite EO. symmetry. apply pce_softmax. }
      eapply d_eq; [|apply (HG _ O'); [|exact HO]].
      * unfold pre_grad, fused. rewrite Ek. cbn [predicted fst snd scale].
        transitivity (kept p * inner r (p_out p) G O' / kept p); [field; lra|]. rewrite EQ. simpl. field. lra.
      * cbv beta. rewrite (params_self p _ _ HW0 HB0), H0. reflexivity.
    + set (G := fst (pbackprop (K := RNum) k Y o t r O U (q + pdraws p r))).
      set (gs := snd (pbackprop (K := RNum) k Y o t r O U (q + pdraws p r))).
      replace (pbackprop (K := RNum) k Y o t r O U (q + pdraws p r)) with (G, gs) by (symmetry; apply surjective_pairing).
      set (G' := pback p r O (ptrain_mask p r (from (K := RNum) U q)) G).
      replace (pre_grad k Y (match t with [] => true | _ => false end) p r O (ptrain_mask p r (from (K := RNum) U q)) G) with G'.
      2:{ unfold pre_grad, G'. destruct t; [|reflexivity]. simpl in EF. rewrite EF. destruct (bwd_clips k) eqn:Eb; [|reflexivity].
          simpl in HC, HS. subst o. unfold clipped. rewrite clip_in01; [reflexivity|apply shape_ptrain|].
          destruct k; try discriminate. exact HS. }
      pose proof (vjp_train p r X G (from (K := RNum) U q) Hsig Hd Hsm) as HV. cbv zeta in HV. fold O in HV. fold G' in HV.
      destruct (HV Wc Bc Xc W' B' X' HW0 HB0 H0 HW HB HX) as (O' & HO & EQ).
      assert (HO0 : ptrain (with_params p (Wc 0) (Bc 0)) r (Xc 0) (from (K := RNum) U q) = O).
      { rewrite (params_self p _ _ HW0 HB0), H0. reflexivity. }
      pose proof (IH (p_out p) (q + pdraws p r)%nat O cs ds _ O' HC HS HM HO0 HO) as HD.
      eapply d_eq; [|exact HD]. fold G gs. cbn [predicted scale fst snd].
      pose proof (smooth_scale _ _ _ _ _ _ _ _ HS) as HSt.
      transitivity (predicted t gs ds + kept p * inner r (p_out p) G O' / (kept p * scale t)); [field; lra|]. rewrite EQ. field. lra.
Qed.

(** ** Single parameters *)
Definition still (p : player RNum) : (R -> rpm) * (R -> rpm) := (fun _ => p_w p, fun _ => p_b p).
Definition zero2 (p : player RNum) : rpm * rpm := (zmat (K := RNum) (p_in p) (p_out p), zmat (K := RNum) 1 (p_out p)).
Fixpoint one_curve (ps : list (player RNum)) (j : nat) (c : (R -> rpm) * (R -> rpm)) :=
  match ps, j with
  | [], _ => []
  | p :: t, O => c :: map still t
  | p :: t, S j => still p :: one_curve t j c
  end.
Fixpoint one_deriv (ps : list (player RNum)) (j : nat) (d : rpm * rpm) :=
  match ps, j with
  | [], _ => []
  | p :: t, O => d :: map zero2 t
  | p :: t, S j => zero2 p :: one_deriv t j d
  end.
Lemma mderiv_zmat r c (A : rpm) : mderiv r c (fun _ => A) (zmat (K := RNum) r c).
Proof. intros i j Hi Hj. unfold zmat. rewrite entry_mk by auto. apply d_const. Qed.
Lemma inner_zmat r c (A : rpm) : inner r c A (zmat (K := RNum) r c) = 0.
Proof.
  unfold inner. rewrite (rsum_ext r _ (fun _ => 0)). { apply rsum_zero. }
  intros i Hi. rewrite (rsum_ext c _ (fun _ => 0)). { apply rsum_zero. }
  intros j Hj. unfold zmat. rewrite entry_mk by auto. apply Rmult_0_r.
Qed.
Lemma moves_still ps : moves ps (map still ps) (map zero2 ps).
Proof. induction ps as [|p t IH]; simpl; auto. do 2 (split; [reflexivity|]). do 2 (split; [apply mderiv_zmat|]). exact IH. Qed.
Lemma moved_still ps t : moved ps (map still ps) t = ps.
Proof. induction ps as [|p l IH]; simpl; auto. rewrite IH. now destruct p. Qed.
Lemma moves_one ps j Wc Bc W' B' : (j < length ps)%nat -> let p := nth j ps (no_layer (K := RNum)) in
  Wc 0 = p_w p -> Bc 0 = p_b p -> mderiv (p_in p) (p_out p) Wc W' -> mderiv 1 (p_out p) Bc B' ->
  moves ps (one_curve ps j (Wc, Bc)) (one_deriv ps j (W', B')).
Proof.
  revert j. induction ps as [|p l IH]; intros j Hj; [simpl in Hj; lia|]. destruct j; simpl; intros H1 H2 H3 H4.
  - do 4 (split; [assumption|]). apply moves_still.
  - do 2 (split; [reflexivity|]). do 2 (split; [apply mderiv_zmat|]). apply IH; auto. simpl in Hj. lia.
Qed.
Lemma moved_one ps j Wc Bc t : moved ps (one_curve ps j (Wc, Bc)) t = set_params ps j (Wc t) (Bc t).
Proof.
  revert j. induction ps as [|p l IH]; intros [|j]; simpl; auto.
  - now rewrite moved_still.
  - rewrite IH. now destruct p.
Qed.
Lemma predicted_still ps gs : predicted ps gs (map zero2 ps) = 0.
Proof.
  revert gs. induction ps as [|p l IH]; intros [|g gs]; simpl; auto. rewrite IH. rewrite !inner_zmat. unfold Rdiv. ring.
Qed.
Lemma predicted_one ps j gs W' B' : (j < length ps)%nat -> length gs = length ps -> let p := nth j ps (no_layer (K := RNum)) in
  predicted ps gs (one_deriv ps j (W', B')) =
  (inner (p_in p) (p_out p) (fst (nth j gs ([], []))) W' + inner 1 (p_out p) (snd (nth j gs ([], []))) B') / scale (skipn j ps).
Proof.
  revert j gs. induction ps as [|p l IH]; intros j gs Hj HL; [simpl in Hj; lia|].
  destruct gs as [|g gs]; [discriminate|]. destruct j.
  - cbn [one_deriv predicted nth fst snd skipn]. rewrite predicted_still. ring.
  - cbn [one_deriv predicted nth skipn]. unfold zero2. cbn [fst snd]. rewrite !inner_zmat.
    simpl in Hj, HL. rewrite (IH j gs ltac:(lia) ltac:(lia)). cbv zeta. unfold Rdiv. ring.
Qed.
Lemma backprop_len k (Y : rpm) o ps r X U q : length (snd (pbackprop (K := RNum) k Y o ps r X U q)) = length ps.
Proof.
  revert X q. induction ps as [|p t IH]; intros X q; [reflexivity|]. cbn [pbackprop].
  destruct (pbackprop _ _ _ t _ _ _ _) as [G gs] eqn:E. cbn [snd length]. f_equal.
  specialize (IH (ptrain p r X (from (K := RNum) U q)) (q + pdraws p r)%nat). rewrite E in IH. exact IH.
Qed.
Lemma net_curve k (Y : rpm) o ps r U q i X j Wc Bc W' B' : (1 <= r)%nat -> (1 <= o)%nat -> chain i ps o -> smooth_net k Y o ps r X U q ->
  (j < length ps)%nat -> let p := nth j ps (no_layer (K := RNum)) in
  let g := nth j (snd (pbackprop (K := RNum) k Y o ps r X U q)) ([], []) in
  Wc 0 = p_w p -> Bc 0 = p_b p -> mderiv (p_in p) (p_out p) Wc W' -> mderiv 1 (p_out p) Bc B' ->
  is_derive (fun t => objective k r o Y (tnet (set_params ps j (Wc t) (Bc t)) r X U q)) 0
    ((inner (p_in p) (p_out p) (fst g) W' + inner 1 (p_out p) (snd g) B') / scale (skipn j ps)).
Proof.
  intros Hr Ho HC HS Hj p g H1 H2 H3 H4.
  pose proof (net_rate k Y o ps r U Hr Ho i q X _ _ (fun _ => X) (zmat (K := RNum) r i) HC HS (moves_one ps j Wc Bc W' B' Hj H1 H2 H3 H4) eq_refl (mderiv_zmat _ _ _)) as HD.
  rewrite inner_zmat, predicted_one in HD by (auto; apply backprop_len). fold p g in HD.
  eapply d_eq; [|eapply d_ext; [|exact HD]].
  - unfold Rdiv. fold p. fold g. ring.
  - intros t. cbv beta. now rewrite moved_one.
Qed.

Lemma net_partials k (Y : rpm) o ps r U q i X : (1 <= r)%nat -> (1 <= o)%nat -> chain i ps o -> smooth_net k Y o ps r X U q ->
  List.Forall (fun p => shape (p_in p) (p_out p) (p_w p) /\ shape 1 (p_out p) (p_b p)) ps ->
  partials k Y o ps r X U q (snd (pbackprop (K := RNum) k Y o ps r X U q)).
Proof.
  intros Hr Ho HC HS HF j p g Hj. subst p g.
  assert (HP : shape (p_in (nth j ps no_layer)) (p_out (nth j ps no_layer)) (p_w (nth j ps no_layer)) /\ shape 1 (p_out (nth j ps no_layer)) (p_b (nth j ps no_layer))).
  { rewrite List.Forall_forall in HF. apply HF. now apply nth_In. }
  destruct HP as (HW & HB). split.
  - intros a b Ha Hb. apply d_shift.
    eapply d_eq; [|apply (net_curve k Y o ps r U q i X j _ (fun _ => p_b (nth j ps no_layer)) _ _ Hr Ho HC HS Hj (put_same _ _ _ a b HW) eq_refl (mderiv_put _ _ _ a b HW Ha Hb) (mderiv_const _ _ _))].
    rewrite inner_zero, inner_mk_delta by auto. toR. now rewrite Rplus_0_r.
  - intros b Hb. apply d_shift. assert (H01 : (0 < 1)%nat) by lia.
    eapply d_eq; [|apply (net_curve k Y o ps r U q i X j (fun _ => p_w (nth j ps no_layer)) _ _ _ Hr Ho HC HS Hj eq_refl (put_same _ _ _ 0 b HB) (mderiv_const _ _ _) (mderiv_put _ _ _ 0 b HB H01 Hb))].
    rewrite inner_zero, inner_mk_delta by auto. toR. now rewrite Rplus_0_l.
Qed.
Lemma net_motion k (Y : rpm) o ps r U q i X : (1 <= r)%nat -> (1 <= o)%nat -> chain i ps o -> smooth_net k Y o ps r X U q ->
  rates k Y o ps r X U q (snd (pbackprop (K := RNum) k Y o ps r X U q)).
Proof.
  intros Hr Ho HC HS cs ds HM.
  eapply d_eq; [|exact (net_rate k Y o ps r U Hr Ho i q X cs ds (fun _ => X) (zmat (K := RNum) r i) HC HS HM eq_refl (mderiv_zmat _ _ _))].
  rewrite inner_zmat. unfold Rdiv. ring.
Qed.
Lemma scale_one ps : no_dropout ps -> scale ps = 1.
Proof.
  induction ps as [|p t IH]; intros H; [reflexivity|]. simpl. rewrite IH. 2:{ intros p' Hp. apply H. now right. }
  unfold kept. destruct (p_kind p) eqn:E; try ring. rewrite (H p); [ring|now left|auto].
Qed.
(** Without dropout the training pass is the prediction. *)
Lemma ptrain_inference p r (X : rpm) u : (p_kind p = Dropout -> p_drop p = 0) -> (forall n, 0 <= u n) ->
  ptrain p r X u = pforward p r X.
Proof.
  intros Hd Hu. unfold ptrain. destruct (p_kind p) eqn:E; try reflexivity. specialize (Hd eq_refl).
  unfold pforward_drop, pforward, pact, pmap, act1. rewrite E. apply mk_ext. intros i j Hi Hj.
  rewrite Hd. rewrite R_mask by lra. destruct (Rlt_dec 0 (1 / 2)) as [_|?]; [|lra].
  destruct (Rle_dec 0 (u (i * p_out p + j)%nat)) as [_|n]; [|now destruct n].
  unfold f1. cbn [fmul fdiv fsub ofZ RNum]. toR. field.
Qed.
Lemma tnet_inference ps r X U q : no_dropout ps -> (forall n, 0 <= U n) -> tnet ps r X U q = pnet (K := RNum) ps r X.
Proof.
  revert X q. induction ps as [|p t IH]; intros X q Hd HU; [reflexivity|]. simpl.
  rewrite ptrain_inference; [|apply Hd; now left|intros n; apply HU].
  rewrite IH; [reflexivity| |exact HU]. intros p' Hp. apply Hd. now right.
Qed.

(** ** Descent *)
Definition line (ps : list (player RNum)) (gs : list (rpm * rpm)) : list ((R -> rpm) * (R -> rpm)) :=
  map (fun pg => let p := fst pg in let g := snd pg in
    ((fun t => mk (K := RNum) (p_in p) (p_out p) (fun i j => entry (p_w p) i j - t * entry (fst g) i j)),
     (fun t => mk (K := RNum) 1 (p_out p) (fun i j => entry (p_b p) i j - t * entry (snd g) i j)))) (combine ps gs).
Definition slope (ps : list (player RNum)) (gs : list (rpm * rpm)) : list (rpm * rpm) :=
  map (fun pg => let p := fst pg in let g := snd pg in
    (mk (K := RNum) (p_in p) (p_out p) (fun i j => - entry (fst g) i j), mk (K := RNum) 1 (p_out p) (fun i j => - entry (snd g) i j))) (combine ps gs).
Definition shaped (p : player RNum) := shape (p_in p) (p_out p) (p_w p) /\ shape 1 (p_out p) (p_b p).
Lemma mderiv_line r c (A D : rpm) : mderiv r c (fun t => mk (K := RNum) r c (fun i j => entry A i j - t * entry D i j)) (mk (K := RNum) r c (fun i j => - entry D i j)).
Proof.
  intros i j Hi Hj. rewrite entry_mk by auto. apply (d_ext (fun t => entry A i j - t * entry D i j)).
  { intros t. now rewrite entry_mk by auto. }
  eapply d_eq; [|apply d_minus; [apply d_const|apply d_scal_r; exact (is_derive_id 0)]]. unfold one; simpl. ring.
Qed.
Lemma line_start r c (A D : rpm) : shape r c A -> mk (K := RNum) r c (fun i j => entry A i j - 0 * entry D i j) = A.
Proof.
  intros HS. transitivity (mk (K := RNum) r c (entry A)); [|now apply mk_entry]. apply mk_ext. intros i j Hi Hj. toR. ring.
Qed.
Lemma moves_line ps gs : length gs = length ps -> List.Forall shaped ps -> moves ps (line ps gs) (slope ps gs).
Proof.
  revert gs. induction ps as [|p t IH]; intros [|g gs] HL HF; try discriminate; [exact I|].
  inversion HF as [|? ? (HW & HB) HF2]; subst. unfold line, slope. cbn [combine map moves fst snd].
  split; [now apply line_start|]. split; [now apply line_start|]. do 2 (split; [apply mderiv_line|]).
  apply IH; auto.
Qed.
Lemma moved_line ps gs t : length gs = length ps -> moved ps (line ps gs) t = descend t ps gs.
Proof.
  revert gs. induction ps as [|p l IH]; intros [|g gs] HL; try discriminate; [reflexivity|].
  unfold line, descend. cbn [combine map moved fst snd]. f_equal. apply IH. now inversion HL.
Qed.
Lemma moved_line_0 ps gs : length gs = length ps -> List.Forall shaped ps -> moved ps (line ps gs) 0 = ps.
Proof.
  revert gs. induction ps as [|p l IH]; intros [|g gs] HL HF; try discriminate; [reflexivity|].
  inversion HF as [|? ? (HW & HB) HF2]; subst. unfold line. cbn [combine map moved fst snd]. f_equal; [|apply IH; auto].
  rewrite !line_start by auto. now destruct p.
Qed.
Definition sq (r c : nat) (A : rpm) : R := rsum r (fun i => rsum c (fun j => entry A i j * entry A i j)).
Lemma sq_nonneg r c A : 0 <= sq r c A.
Proof. apply rsum_nonneg. intros i Hi. apply rsum_nonneg. intros j Hj. exact (Rle_0_sqr _). Qed.
Lemma sq_pos r c A i j : (i < r)%nat -> (j < c)%nat -> entry A i j <> 0 -> 0 < sq r c A.
Proof.
  intros Hi Hj H.
  assert (H1 : entry A i j * entry A i j <= rsum c (fun j => entry A i j * entry A i j)).
  { apply (rsum_term_le c (fun j => entry A i j * entry A i j) j); auto. intros k Hk. exact (Rle_0_sqr _). }
  assert (H2 : rsum c (fun j => entry A i j * entry A i j) <= sq r c A).
  { apply (rsum_term_le r (fun i => rsum c (fun j => entry A i j * entry A i j)) i); auto. intros k Hk. apply rsum_nonneg. intros j' Hj'. exact (Rle_0_sqr _). }
  assert (H3 : 0 < entry A i j * entry A i j) by (apply Rsqr_pos_lt; exact H).
  eapply Rlt_le_trans; [exact H3|]. eapply Rle_trans; [exact H1|exact H2].
Qed.
Lemma inner_neg r c (A : rpm) : inner r c A (mk (K := RNum) r c (fun i j => - entry A i j)) = - sq r c A.
Proof.
  unfold inner, sq. rewrite <- rsum_opp. apply rsum_ext. intros i Hi. rewrite <- rsum_opp. apply rsum_ext. intros j Hj.
  rewrite entry_mk by auto. toR. ring.
Qed.
Fixpoint energy (ps : list (player RNum)) (gs : list (rpm * rpm)) : R :=
  match ps, gs with
  | p :: t, g :: gs => (sq (p_in p) (p_out p) (fst g) + sq 1 (p_out p) (snd g)) / scale (p :: t) + energy t gs
  | _, _ => 0
  end.
Lemma predicted_slope ps gs : length gs = length ps -> predicted ps gs (slope ps gs) = - energy ps gs.
Proof.
  revert gs. induction ps as [|p t IH]; intros [|g gs] HL; try discriminate; [simpl; ring|].
  unfold slope. cbn [combine map predicted energy fst snd]. fold (slope t gs). rewrite IH by now inversion HL.
  rewrite !inner_neg. unfold Rdiv. ring.
Qed.
Definition pos_scales (ps : list (player RNum)) : Prop := forall p, In p ps -> 0 < kept p.
Lemma scale_pos ps : pos_scales ps -> 0 < scale ps.
Proof.
  induction ps as [|p t IH]; intros H; simpl; [lra|]. apply Rmult_lt_0_compat; [apply H; now left|]. apply IH. intros p' Hp. apply H. now right.
Qed.
Lemma smooth_pos k Y o ps r X U q : smooth_net k Y o ps r X U q -> pos_scales ps.
Proof.
  revert X q. induction ps as [|p t IH]; intros X q H p' Hin; [contradiction|].
  destruct H as (_ & Hd & _ & Ht). destruct Hin as [->|Hin]; [now apply kept_pos|].
  destruct (is_last t && fused k p)%bool eqn:E; [|eapply IH; eauto].
  destruct t; [contradiction|discriminate].
Qed.
Lemma term_nonneg p g t : 0 < scale (p :: t) -> 0 <= (sq (p_in p) (p_out p) (fst g) + sq 1 (p_out p) (snd g)) / scale (p :: t).
Proof.
  intros H. apply Rmult_le_pos; [|left; now apply Rinv_0_lt_compat].
  pose proof (sq_nonneg (p_in p) (p_out p) (fst g)). pose proof (sq_nonneg 1 (p_out p) (snd g)). lra.
Qed.
Lemma energy_nonneg ps gs : pos_scales ps -> 0 <= energy ps gs.
Proof.
  revert gs. induction ps as [|p t IH]; intros [|g gs] H; cbn [energy]; try lra.
  pose proof (term_nonneg p g t (scale_pos _ H)). assert (0 <= energy t gs); [|lra]. apply IH. intros p' Hp. apply H. now right.
Qed.
Lemma energy_pos ps gs : length gs = length ps -> pos_scales ps -> nonzero_gradient ps gs -> 0 < energy ps gs.
Proof.
  intros HL HP (j & Hj & HN). revert gs j HL Hj HN. induction ps as [|p t IH]; intros gs j HL Hj HN; [simpl in Hj; lia|].
  destruct gs as [|g gs]; [discriminate|]. cbn [energy].
  assert (HPt : pos_scales t) by (intros p' Hp; apply HP; now right).
  pose proof (term_nonneg p g t (scale_pos _ HP)) as H1. pose proof (energy_nonneg t gs HPt) as H2.
  destruct j as [|j].
  - assert (H3 : 0 < (sq (p_in p) (p_out p) (fst g) + sq 1 (p_out p) (snd g)) / scale (p :: t)); [|lra].
    apply Rmult_lt_0_compat; [|apply Rinv_0_lt_compat, (scale_pos _ HP)].
    pose proof (sq_nonneg (p_in p) (p_out p) (fst g)). pose proof (sq_nonneg 1 (p_out p) (snd g)).
    simpl in HN. destruct HN as [(a & b & Ha & Hb & HN)|(b & Hb & HN)].
    + pose proof (sq_pos _ _ _ _ _ Ha Hb HN). lra.
    + pose proof (sq_pos 1 _ _ 0 _ ltac:(lia) Hb HN). lra.
  - assert (0 < energy t gs); [|lra]. apply (IH HPt gs j); simpl in *; auto; lia.
Qed.
Lemma right_decrease (f : R -> R) (l : R) : is_derive f 0 (- l) -> 0 < l -> exists d, 0 < d /\ forall t, 0 < t < d -> f t < f 0.
Proof.
  intros H Hl. apply is_derive_Reals in H. destruct (H (l / 2) ltac:(lra)) as (d & Hd). exists d. split; [apply cond_pos|].
  intros t Ht. specialize (Hd t ltac:(lra)). rewrite Rabs_right in Hd by lra. specialize (Hd ltac:(lra)). rewrite Rplus_0_l in Hd.
  apply Rabs_def2 in Hd. assert (HQ : (f t - f 0) / t < 0) by lra.
  apply Rmult_lt_compat_r with (r := t) in HQ; [|lra]. unfold Rdiv in HQ. rewrite Rmult_assoc, Rinv_l, Rmult_1_r, Rmult_0_l in HQ by lra. lra.
Qed.
Lemma descent k (Y : rpm) o ps r U q i X : (1 <= r)%nat -> (1 <= o)%nat -> chain i ps o -> smooth_net k Y o ps r X U q ->
  List.Forall shaped ps -> let gs := snd (pbackprop (K := RNum) k Y o ps r X U q) in nonzero_gradient ps gs ->
  exists d, 0 < d /\ forall t, 0 < t < d ->
    objective k r o Y (tnet (descend t ps gs) r X U q) < objective k r o Y (tnet ps r X U q).
Proof.
  intros Hr Ho HC HS HF gs HN. assert (HL : length gs = length ps) by apply backprop_len.
  pose proof (net_motion k Y o ps r U q i X Hr Ho HC HS _ _ (moves_line ps gs HL HF)) as HD. fold gs in HD. rewrite predicted_slope in HD by auto.
  destruct (right_decrease _ _ HD (energy_pos _ _ HL (smooth_pos _ _ _ _ _ _ _ _ HS) HN)) as (d & Hd & H).
  exists d. split; [exact Hd|]. intros t Ht. specialize (H t Ht). cbv beta in H. rewrite !moved_line in H by auto.
  replace (descend 0 ps gs) with ps in H; [exact H|].
  rewrite <- moved_line by auto. symmetry. now apply moved_line_0.
Qed.

Lemma not_stationary_nonzero k (Y : rpm) o ps r U q i X : (1 <= r)%nat -> (1 <= o)%nat -> chain i ps o -> smooth_net k Y o ps r X U q ->
  List.Forall shaped ps ->
  not_stationary k Y o ps r X U q <-> nonzero_gradient ps (snd (pbackprop (K := RNum) k Y o ps r X U q)).
Proof.
  intros Hr Ho HC HS HF. pose proof (net_partials k Y o ps r U q i X Hr Ho HC HS HF) as HP. split.
  - intros (j & l & Hj & Hl & HD). exists j. split; [exact Hj|]. cbv zeta in HD |- *. destruct (HP j Hj) as (H1 & H2).
    destruct HD as [(a & b & Ha & Hb & HD)|(b & Hb & HD)].
    + left. exists a, b. split; [exact Ha|]. split; [exact Hb|]. intros E. apply Hl.
      specialize (H1 a b Ha Hb). rewrite E in H1. unfold Rdiv in H1. rewrite Rmult_0_l in H1.
      rewrite <- (is_derive_unique _ _ _ HD). exact (is_derive_unique _ _ _ H1).
    + right. exists b. split; [exact Hb|]. intros E. apply Hl.
      specialize (H2 b Hb). rewrite E in H2. unfold Rdiv in H2. rewrite Rmult_0_l in H2.
      rewrite <- (is_derive_unique _ _ _ HD). exact (is_derive_unique _ _ _ H2).
  - intros (j & Hj & HD). destruct (HP j Hj) as (H1 & H2).
    assert (HSc : 0 < scale (skipn j ps)).
    { apply scale_pos. intros p Hp. apply (smooth_pos _ _ _ _ _ _ _ _ HS). rewrite <- (firstn_skipn j ps). apply in_or_app. now right. }
    assert (HI : / scale (skipn j ps) <> 0) by (apply Rinv_neq_0_compat; lra).
    destruct HD as [(a & b & Ha & Hb & HD)|(b & Hb & HD)].
    + eexists j, _. split; [exact Hj|]. split; [|left; exists a, b; split; [exact Ha|]; split; [exact Hb|exact (H1 a b Ha Hb)]].
      now apply Rmult_integral_contrapositive_currified.
    + eexists j, _. split; [exact Hj|]. split; [|right; exists b; split; [exact Hb|exact (H2 b Hb)]].
      now apply Rmult_integral_contrapositive_currified.
Qed.
