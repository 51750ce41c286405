(** * LayerProofs: forward and backward passes of single layers. *)
From Coq Require Import String ZArith List Bool Arith Lia ZifyBool.
From Verif Require Import Num Heap Spec HeapLemmas LoopLemmas Matrix MatrixProofs Activation
  ActivationProofs Network.
Import ListNotations.
Open Scope Z_scope.

Section WithNum.
Context {K : Num}.
Implicit Types s : state K.



Lemma lown_frame W s s' l rw rb p : lown s l rw rb p -> frame W s s' ->
  (forall x, In x rw \/ In x rb -> ~ W x) -> lown s' l rw rb p.
Proof.
  unfold lown. intros (H1&H2&H3&H4&H5&H6&H7&H8&H9) HF HW. repeat (split; [assumption|]).
  split; eapply own_frame; eauto.
Qed.


Lemma wp_affine s l rw rb p x rsx r X :
  lown s l rw rb p -> own s x rsx r (p_in p) X -> (1 <= r)%nat ->
  wp (affine l x) s (fresh_result s r (p_out p) (paff r (p_in p) (p_out p) X (p_w p) (p_b p))).
Proof.
  intros (H1&H2&H3&H4&H5&H6&H7&HW&HB) HX Hr. unfold affine.
  rewrite (own_cols _ _ _ _ _ _ HX), H2, Z.eqb_refl. simpl. apply wp_bind.
  eapply wp_conseq; [eapply wp_Dot; eauto|]. intros out s1 (rso & (HO & HFr & HND & Hno) & HE).
  assert (HB1 : own s1 (l_b l) rb 1 (p_out p) (p_b p)) by (eauto using own_ext).
  assert (HD : disjoint rb rso) by (eapply (disjoint_old_fresh s); [exact (own_old _ _ _ _ _ _ HB)|exact HFr]).
  apply wp_bind. eapply wp_conseq.
  - eapply wp_inplace with (f := fun i j => fadd (entry (pdot r (p_in p) (p_out p) X (p_w p)) i j) (entry (p_b p) 0 j)); eauto.
    intros i j s2 A1 Hi Hj HO2 HF2 HR2 HEq.
    assert (HB2 : own s2 (l_b l) rb 1 (p_out p) (p_b p)) by (eapply own_frame; eauto).
    apply wp_bind. eapply wp_eq; [eapply getc_own; eauto|].
    apply wp_bind. eapply wp_eq; [change 0 with (Z.of_nat 0); eapply getc_own; eauto|].
    rewrite HEq. now apply wp_setc.
  - simpl. intros _ s2 (HO2 & HF2 & HR2). apply wp_ret. exists rso. split; [split|].
    + erewrite mk_ext in HO2; [exact HO2|]. intros i j Hi Hj. unfold pdot. now rewrite entry_mk by auto.
    + auto.
    + destruct HE as [HF1 HR1]. split; [|eapply rest_trans; eauto].
      eapply frame_fresh; eauto. eapply frame_trans; eauto. intros ? ? [[]|H]; exact H.
Qed.

Lemma affine_err s l x : mcols x <> l_in l -> affine l x s = (Fail (EMatDims (mrows x) (mcols x)), s).
Proof. intros H. unfold affine. replace (mcols x =? l_in l) with false by lia. reflexivity. Qed.

Lemma rest_rest2 s s' : rest s s' -> rest2 s s'.
Proof. unfold rest, rest2. intuition. Qed.
Lemma rest2_refl s : rest2 s s.
Proof. repeat split. Qed.
Lemma rest2_trans s1 s2 s3 : rest2 s1 s2 -> rest2 s2 s3 -> rest2 s1 s3.
Proof. unfold rest2. intuition congruence. Qed.

Lemma get_layer_run s lref l : nth_error (h_layers s) lref = Some l -> get_layer lref s = (Ret l, s).
Proof. unfold get_layer. now intros ->. Qed.

(** put_layer does not touch memory. *)
Lemma frame_put W s lref l : frame W s (with_layers s (upd lref l (h_layers s))).
Proof. repeat split; eauto. Qed.
Lemma own_put s ls m rs r c A : own s m rs r c A -> own (with_layers s ls) m rs r c A.
Proof. intros H. exact H. Qed.




Lemma shape_pforward (p : player K) r X : shape r (p_out p) (pforward p r X).
Proof. unfold pforward, pact. destruct (p_kind p); apply shape_mk. Qed.


Lemma upd_same {A} k (x : A) l : nth_error l k = Some x -> upd k x l = l.
Proof.
  revert k; induction l as [|h t IH]; intros [|k] H; simpl in *; try congruence.
  f_equal. auto.
Qed.

Lemma inplace_fresh s0 s1 s2 m m' rs r c A A' :
  fresh_mat s0 s1 m rs r c A -> frame nothing s0 s1 ->
  inplace_result s1 m rs r c A' m' s2 ->
  fresh_mat s0 s2 m' rs r c A' /\ frame nothing s0 s2 /\ rest s1 s2.
Proof.
  intros (HO & HFr & HND & Hno) HF (-> & HO2 & HF2 & HR2). split; [unfold fresh_mat; auto|]. split; auto.
  eapply frame_fresh; eauto. eapply frame_trans; eauto. intros ? ? [[]|H]; exact H.
Qed.

Lemma wp_at {T} (m m' : M K T) s Q : m s = m' s -> wp m' s Q -> wp m s Q.
Proof. unfold wp. now intros ->. Qed.

Ltac get_l Hl := apply wp_bind; eapply wp_eq; [apply get_layer_run; exact Hl|].

Theorem wp_forward_plain s lref l rw rb p x rsx r X training :
  nth_error (h_layers s) lref = Some l -> lown s l rw rb p ->
  own s x rsx r (p_in p) X -> (1 <= r)%nat ->
  (training = false \/ p_kind p <> Dropout) ->
  wp (match l_kind l, training with
      | Dropout, false => Dropout_ForwardNoDropout lref x
      | _, _ => Layer_Forward lref x end) s
     (fun out s' => exists rs, fresh_mat s s' out rs r (p_out p) (pforward p r X) /\
        fwd_effect s s' lref l out None /\ h_rng s' = h_rng s).
Proof.
  intros Hl HL HX Hr Htr.
  pose proof HL as (H1&H2&H3&H4&H5&H6&H7&HW&HB).
  assert (GR : forall (prog : M K matrix), (p_kind p = Hidden \/ p_kind p = Dropout) ->
    (forall s0, prog s0 = bind (get_layer lref) (fun l => bind (affine l x) (fun out =>
        bind (put_layer lref (set_cache l out)) (fun _ => RELU out))) s0) ->
    wp prog s (fun out s' => exists rs, fresh_mat s s' out rs r (p_out p) (pforward p r X) /\
        fwd_effect s s' lref l out None /\ h_rng s' = h_rng s)).
  { intros prog Hk Hp. eapply wp_at; [apply Hp|].
    get_l Hl. apply wp_bind. eapply wp_conseq; [eapply wp_affine; eauto|].
    intros out s1 (rso & HM & [HF HR]). apply wp_bind. eapply wp_eq; [reflexivity|].
    eapply wp_conseq. { eapply wp_RELU; [apply own_put|]; apply HM. }
    intros out' s2 Hin.
    set (s1' := with_layers s1 (upd lref (set_cache l out) (h_layers s1))) in *.
    assert (HM' : fresh_mat s s1' out rso r (p_out p) (paff r (p_in p) (p_out p) X (p_w p) (p_b p))) by exact HM.
    assert (HF' : frame nothing s s1') by exact HF.
    pose proof Hin as (-> & _).
    destruct (inplace_fresh _ _ _ _ _ _ _ _ _ _ HM' HF' Hin) as (HM2 & HF2 & HR2).
    exists rso. destruct HR as (R1&R2&R3&R4&R5). destruct HR2 as (S1&S2&S3&S4&S5). simpl in *. split; [|split].
    - unfold pforward, pact, act1, paffine. destruct Hk as [-> | ->]; exact HM2.
    - split; [exact HF2|]. split; [unfold rest2; intuition congruence|]. rewrite S1, R1.
      unfold after_forward. rewrite H1. destruct Hk as [-> | ->]; reflexivity.
    - congruence. }
  assert (LF : forall k, l_kind l = k -> forall s0, h_layers s0 = h_layers s -> Layer_Forward lref x s0 =
     match k with
     | Hidden => Hidden_Forward lref x | Linear => Linear_Forward lref x
     | SigmoidK => Sigmoid_Forward lref x | Leaky => Leaky_Forward lref x
     | SoftmaxK => Softmax_Forward lref x | Dropout => Dropout_Forward lref x end s0).
  { intros k Hk s0 E. unfold Layer_Forward. erewrite bind_eq by (apply get_layer_run; rewrite E; exact Hl).
    rewrite Hk. destruct k; reflexivity. }
  rewrite H1. destruct (p_kind p) eqn:Hkind.
  - (* Hidden *)
    eapply wp_at; [destruct training; apply (LF Hidden); auto|]. apply GR; auto.
  - (* Linear *)
    eapply wp_at; [destruct training; apply (LF Linear); auto|].
    unfold Linear_Forward. get_l Hl. eapply wp_conseq; [eapply wp_affine; eauto|].
    intros out s1 (rso & HM & [HF HR]). exists rso. destruct HR as (R1&R2&R3&R4&R5). split; [|split; [split; [exact HF|split]|exact R3]].
    + unfold pforward, pact. rewrite Hkind. exact HM.
    + unfold rest2. auto.
    + unfold after_forward. rewrite H1. rewrite upd_same; auto.
  - (* Sigmoid *)
    eapply wp_at; [destruct training; apply (LF SigmoidK); auto|].
    unfold Sigmoid_Forward. get_l Hl. apply wp_bind. eapply wp_conseq; [eapply wp_affine; eauto|].
    intros out s1 (rso & HM & [HF HR]). eapply wp_conseq; [eapply wp_Sigmoid; apply HM|].
    intros out' s2 Hin. pose proof Hin as (-> & _).
    destruct (inplace_fresh _ _ _ _ _ _ _ _ _ _ HM HF Hin) as (HM2 & HF2 & HR2).
    exists rso. pose proof (rest_trans _ _ _ HR HR2) as (R1&R2&R3&R4&R5). split; [|split; [split; [exact HF2|split]|exact R3]].
    + unfold pforward, pact, act1. rewrite Hkind. exact HM2.
    + unfold rest2; auto.
    + unfold after_forward. rewrite H1. rewrite upd_same; auto.
  - (* Leaky *)
    eapply wp_at; [destruct training; apply (LF Leaky); auto|].
    unfold Leaky_Forward. get_l Hl. apply wp_bind. eapply wp_conseq; [eapply wp_affine; eauto|].
    intros out s1 (rso & HM & [HF HR]). apply wp_bind. eapply wp_eq; [reflexivity|].
    eapply wp_conseq. { eapply wp_LeakyRELU; [apply own_put|]; apply HM. }
    intros out' s2 Hin.
    set (s1' := with_layers s1 (upd lref (set_cache l out) (h_layers s1))) in *.
    assert (HM' : fresh_mat s s1' out rso r (p_out p) (paff r (p_in p) (p_out p) X (p_w p) (p_b p))) by exact HM.
    assert (HF' : frame nothing s s1') by exact HF.
    pose proof Hin as (-> & _).
    destruct (inplace_fresh _ _ _ _ _ _ _ _ _ _ HM' HF' Hin) as (HM2 & HF2 & HR2).
    exists rso. destruct HR as (R1&R2&R3&R4&R5). destruct HR2 as (S1&S2&S3&S4&S5). simpl in *. split; [|split].
    + unfold pforward, pact, act1, paffine. rewrite Hkind. rewrite <- H4. exact HM2.
    + split; [exact HF2|]. split; [unfold rest2; intuition congruence|]. rewrite S1, R1.
      unfold after_forward. rewrite H1. reflexivity.
    + congruence.
  - (* Softmax *)
    eapply wp_at; [destruct training; apply (LF SoftmaxK); auto|].
    unfold Softmax_Forward. get_l Hl. apply wp_bind. eapply wp_conseq; [eapply wp_affine; eauto|].
    intros out s1 (rso & HM & [HF HR]). apply wp_bind. eapply wp_conseq; [eapply wp_Softmax; apply HM|].
    intros out' s2 Hin. pose proof Hin as (-> & _).
    destruct (inplace_fresh _ _ _ _ _ _ _ _ _ _ HM HF Hin) as (HM2 & HF2 & HR2).
    apply wp_bind. eapply wp_eq; [reflexivity|]. apply wp_ret.
    pose proof (rest_trans _ _ _ HR HR2) as (R1&R2&R3&R4&R5).
    exists rso. split; [|split; [split; [exact HF2|split]|exact R3]].
    + unfold pforward, pact. rewrite Hkind. exact HM2.
    + unfold rest2; auto.
    + simpl. rewrite R1. unfold after_forward. rewrite H1. reflexivity.
  - (* Dropout, inference *)
    destruct Htr as [-> | Hne]; [|congruence]. apply GR; auto.
Qed.

(** ** Dropout in training *)



Lemma binomial1_run d s :
  binomial1_Rand (fsub f1 d) s = (Ret (mask1 d (r_uni (h_rng s) (r_upos (h_rng s)))), with_rng s (adv_uni (h_rng s) 1)).
Proof.
  unfold binomial1_Rand, bind, draw_uniform, ret, mask1, adv_uni. rewrite Nat.add_1_r. reflexivity.
Qed.

Theorem wp_Dropout_Forward s lref l rw rb p x rsx r X :
  nth_error (h_layers s) lref = Some l -> lown s l rw rb p ->
  own s x rsx r (p_in p) X -> (1 <= r)%nat -> p_kind p = Dropout ->
  let u := fun n => r_uni (h_rng s) (r_upos (h_rng s) + n)%nat in
  wp (Dropout_Forward lref x) s
     (fun out s' => exists rs mask rsm,
        fresh_mat s s' out rs r (p_out p) (pforward_drop p r X u) /\
        fresh_mat s s' mask rsm r (p_out p) (pmask (p_drop p) r (p_out p) u) /\ disjoint rsm rs /\
        fwd_effect s s' lref l out (Some mask) /\ h_rng s' = adv_uni (h_rng s) (r * p_out p)).
Proof.
  intros Hl HL HX Hr Hkind u.
  pose proof HL as (H1&H2&H3&H4&H5&H6&H7&HW&HB).
  unfold Dropout_Forward. get_l Hl. apply wp_bind. eapply wp_conseq; [eapply wp_affine; eauto|].
  intros out s1 (rso & HM & [HF HR]). apply wp_bind. eapply wp_eq; [reflexivity|].
  apply wp_bind. eapply wp_conseq. { eapply wp_RELU; [apply own_put|]; apply HM. }
  intros out' s2 Hin.
  set (s1' := with_layers s1 (upd lref (set_cache l out) (h_layers s1))) in *.
  assert (HM' : fresh_mat s s1' out rso r (p_out p) (paff r (p_in p) (p_out p) X (p_w p) (p_b p))) by exact HM.
  assert (HF' : frame nothing s s1') by exact HF.
  pose proof Hin as (-> & _).
  destruct (inplace_fresh _ _ _ _ _ _ _ _ _ _ HM' HF' Hin) as (HM2 & HF2 & HR2).
  destruct HM2 as (HO2 & HFr2 & HND2 & Hno2).
  rewrite (own_rows _ _ _ _ _ _ HO2), (own_cols _ _ _ _ _ _ HO2).
  apply wp_bind. apply wp_NewMatrix_; auto. intros mask rsm s3 (HO3 & HFr3 & HND3 & Hno3) [HF3 HR3].
  apply wp_bind. eapply wp_eq; [reflexivity|].
  set (l2 := set_mask (set_cache l out) mask).
  set (s4 := with_layers s3 (upd lref l2 (h_layers s3))).
  assert (HO4 : own s4 out rso r (p_out p) (pmap r (p_out p) relu1 (paffine p r X))).
  { apply own_put. eapply own_frame; eauto. }
  assert (HO4m : own s4 mask rsm r (p_out p) (mk r (p_out p) (fun _ _ => f0))) by exact HO3.
  assert (HD : disjoint rsm rso).
  { apply disjoint_sym. eapply disjoint_old_fresh; [eapply own_old; exact HO2|exact HFr3]. }
  assert (HFr3' : fresh s rsm) by (eapply fresh_mono; [apply (frame_nrows _ _ _ HF2)|exact HFr3]).
  assert (Hnm : (nouts s < sl_loc (mdata mask))%nat) by (pose proof (frame_nouts _ _ _ HF2); lia).
  destruct HR as (R1&R2&R3&R4&R5). destruct HR2 as (S1&S2&S3&S4&S5). destruct HR3 as (T1&T2&T3&T4&T5).
  simpl in S1, S2, S3, S4, S5.
  assert (HF4 : frame nothing s s4).
  { eapply frame_trans; [exact HF2|exact HF3|]. intros ? ? [[]|[]]. }
  set (fo := fun i j => fmul (relu1 (entry (paffine p r X) i j))
         (fdiv (mask1 (p_drop p) (u (i * p_out p + j)%nat)) (fsub f1 (p_drop p)))).
  set (fm := fun i j => mask1 (p_drop p) (u (i * p_out p + j)%nat)).
  apply wp_bind.
  apply wp_each_cell with (I := fun i j st =>
     own st out rso r (p_out p) (merge r (p_out p) fo (pmap r (p_out p) relu1 (paffine p r X)) i j) /\
     own st mask rsm r (p_out p) (merge r (p_out p) fm (mk r (p_out p) (fun _ _ => f0)) i j) /\
     frame nothing s st /\ h_layers st = h_layers s4 /\ rest2 s4 st /\
     h_rng st = adv_uni (h_rng s4) (i * p_out p + j)).
  - rewrite !merge_0 by apply shape_mk. repeat (split; [solve [assumption|reflexivity|apply rest2_refl]|]).
    unfold adv_uni. simpl. rewrite Nat.add_0_r. destruct (h_rng s3); reflexivity.
  - intros i j st Hi Hj (HOa & HOb & HFs & HLs & HRs & HG).
    apply wp_bind. eapply wp_eq. { rewrite H5. apply binomial1_run. }
    rewrite HG.
    set (st1 := with_rng st (adv_uni (adv_uni (h_rng s4) (i * p_out p + j)) 1)).
    assert (HOa1 : own st1 out rso r (p_out p) (merge r (p_out p) fo (pmap r (p_out p) relu1 (paffine p r X)) i j)) by exact HOa.
    assert (HOb1 : own st1 mask rsm r (p_out p) (merge r (p_out p) fm (mk r (p_out p) (fun _ _ => f0)) i j)) by exact HOb.
    assert (Hfm : mask1 (p_drop p) (r_uni (adv_uni (h_rng s4) (i * p_out p + j)) (r_upos (adv_uni (h_rng s4) (i * p_out p + j)))) = fm i j).
    { unfold fm, u. simpl. rewrite T3, S3, R3. reflexivity. }
    rewrite Hfm. apply wp_bind. eapply wp_conseq; [eapply wp_setc; eauto|].
    simpl. intros _ st2 (HOb2 & HFb2 & HRb2). rewrite merge_step in HOb2 by auto.
    assert (HOa2 : own st2 out rso r (p_out p) (merge r (p_out p) fo (pmap r (p_out p) relu1 (paffine p r X)) i j)).
    { eapply own_frame; [exact HOa1|exact HFb2|]. intros y Hy. apply (disjoint_sym _ _ HD); auto. }
    apply wp_bind. eapply wp_eq; [eapply getc_own; eauto|].
    apply wp_bind. eapply wp_eq; [eapply getc_own; eauto|].
    rewrite entry_merge by auto.
    replace (entry (merge r (p_out p) fm (mk r (p_out p) (fun _ _ => f0)) i (S j)) i j) with (fm i j).
    2:{ unfold merge. rewrite entry_mk by auto. unfold before.
        replace ((i <? i) || (i =? i) && (j <? S j))%nat with true by lia. reflexivity. }
    eapply wp_conseq; [eapply wp_setc; eauto|].
    simpl. intros _ st3 (HOa3 & HFa3 & HRa3). split; [|split; [|split; [|split; [|split]]]].
    + rewrite H5 in HOa3. unfold pmap in HOa3 at 2. rewrite entry_mk in HOa3 by auto.
      change (fmul (relu1 (entry (paffine p r X) i j)) (fdiv (fm i j) (fsub f1 (p_drop p)))) with (fo i j) in HOa3.
      now rewrite merge_step in HOa3 by auto.
    + eapply own_frame; [exact HOb2|exact HFa3|]. intros y Hy. apply HD; auto.
    + eapply frame_trans with (W1 := nothing) (s2 := st1); [exact HFs| |].
      * eapply frame_trans; [exact HFb2|exact HFa3|]. intros y Hy HH. exact HH.
      * intros y Hy [[]|[Hy2|Hy2]]; red in Hy2.
        -- red in HFr3'. rewrite Forall_forall in HFr3'. specialize (HFr3' _ Hy2). simpl in HFr3'. lia.
        -- red in HFr2. rewrite Forall_forall in HFr2. specialize (HFr2 _ Hy2). simpl in HFr2. lia.
    + destruct HRb2 as (U1&_). destruct HRa3 as (V1&_). simpl in *. congruence.
    + eapply rest2_trans; [exact HRs|]. apply rest_rest2 in HRa3, HRb2.
      eapply rest2_trans; [|exact HRa3]. exact HRb2.
    + destruct HRb2 as (_&_&U3&_). destruct HRa3 as (_&_&V3&_). rewrite V3, U3. simpl.
      unfold adv_uni. simpl. f_equal. lia.
  - intros i st Hi. rewrite !merge_row. intros (A&B&C&D&E&G). repeat (split; [assumption|]).
    rewrite G. f_equal. lia.
  - intros st (HOa & HOb & HFs & HLs & HRs & HG). rewrite !merge_end in *. apply wp_ret.
    exists rso, mask, rsm. split; [|split; [|split; [exact HD|split; [split; [exact HFs|split]|]]]].
    + split; [exact HOa|]. auto.
    + split; [exact HOb|]. auto.
    + eapply rest2_trans; [|exact HRs]. unfold rest2, s4. simpl. intuition congruence.
    + rewrite HLs. unfold s4. simpl. rewrite T1, S1, R1.
      assert (UU : forall {T} k (a b : T) l0, upd k a (upd k b l0) = upd k a l0).
      { clear. intros T k a b l0. revert k. induction l0; intros [|k]; simpl; auto. f_equal; auto. }
      rewrite UU. unfold after_forward. rewrite H1, Hkind. reflexivity.
    + rewrite HG. unfold s4. simpl. rewrite T3, S3, R3. f_equal. lia.
Qed.

(** ** Backward passes *)



Lemma fresh_mat_ext s s1 s2 m rs r c A : fresh_mat s s1 m rs r c A -> ext s1 s2 -> fresh_mat s s2 m rs r c A.
Proof. intros (H1&H2&H3&H4) HE. split; eauto using own_ext. Qed.
Lemma fresh_mat_mono s0 s s1 m rs r c A : frame nothing s0 s -> fresh_mat s s1 m rs r c A -> fresh_mat s0 s1 m rs r c A.
Proof.
  intros HF (H1&H2&H3&H4). split; [exact H1|]. split; [exact (fresh_mono _ _ _ (frame_nrows _ _ _ HF) H2)|]. split; auto.
  apply frame_nouts in HF. lia.
Qed.
Lemma fresh_mat_mono' W s0 s s1 m rs r c A : frame W s0 s -> fresh_mat s s1 m rs r c A -> fresh_mat s0 s1 m rs r c A.
Proof.
  intros HF (H1&H2&H3&H4). split; [exact H1|]. split; [exact (fresh_mono _ _ _ (frame_nrows _ _ _ HF) H2)|]. split; auto.
  apply frame_nouts in HF. lia.
Qed.

Lemma wp_dense_backward s l rw rb p x rsx r X dv rsg G :
  lown s l rw rb p -> own s x rsx r (p_in p) X -> own s dv rsg r (p_out p) G -> (1 <= r)%nat ->
  wp (dense_backward l x dv) s (fun g s' =>
    bwd_result s s' g (p_in p) (p_out p) r
      (pdW r (p_in p) (p_out p) X G) (psum0 r (p_out p) G) (pdX r (p_in p) (p_out p) G (p_w p)) /\ ext s s').
Proof.
  intros (H1&H2&H3&H4&H5&H6&H7&HW&HB) HX HG Hr. unfold dense_backward.
  apply wp_bind. eapply wp_conseq; [eapply wp_T; eauto|]. intros it s1 (rs1 & HM1 & HE1).
  apply wp_bind. eapply wp_conseq; [eapply wp_T; eauto using own_ext|]. intros wt s2 (rs2 & HM2 & HE2).
  assert (HE12 : ext s s2) by (eapply ext_trans; eauto).
  assert (HM1' : fresh_mat s s2 it rs1 (p_in p) r (ptrans r (p_in p) X)) by (eapply fresh_mat_ext; eauto).
  apply wp_bind. eapply wp_conseq. { eapply wp_Dot; [apply HM1'|exact (own_ext _ _ _ _ _ _ _ HG HE12)|lia|lia]. }
  intros dW s3 (rs3 & HM3 & HE3).
  assert (HE13 : ext s s3) by (eapply ext_trans; eauto).
  apply wp_bind. eapply wp_conseq. { eapply wp_Sum0; [eapply own_ext; [exact HG|exact HE13]|lia]. }
  intros dB s4 (rs4 & HM4 & HE4).
  assert (HE14 : ext s s4) by (eapply ext_trans; eauto).
  apply wp_bind. apply wp_ignore_err.
  assert (HM2' : fresh_mat s1 s4 wt rs2 (p_out p) (p_in p) (ptrans (p_in p) (p_out p) (p_w p))).
  { exact (fresh_mat_ext _ _ _ _ _ _ _ _ HM2 (ext_trans _ _ _ HE3 HE4)). }
  eapply wp_conseq. { eapply wp_Dot; [eapply own_ext; [exact HG|exact HE14]|apply HM2'| |]; lia. }
  intros dX s5 (rs5 & HM5 & HE5). apply wp_ret.
  assert (HE15 : ext s s5) by (exact (ext_trans _ _ _ HE14 HE5)).
  split; [|exact HE15]. exists rs3, rs4, rs5. simpl.
  split; [|split; [|split; [|split; [|split]]]].
  - eapply fresh_mat_mono; [apply HE12|]. exact (fresh_mat_ext _ _ _ _ _ _ _ _ HM3 (ext_trans _ _ _ HE4 HE5)).
  - eapply fresh_mat_mono; [apply HE13|]. exact (fresh_mat_ext _ _ _ _ _ _ _ _ HM4 HE5).
  - eapply fresh_mat_mono; [apply HE14|]. exact HM5.
  - exact (disjoint_old_fresh _ _ _ (own_old _ _ _ _ _ _ (proj1 HM3)) (proj1 (proj2 HM4))).
  - refine (disjoint_old_fresh _ _ _ _ (proj1 (proj2 HM5))). exact (own_old _ _ _ _ _ _ (own_ext _ _ _ _ _ _ _ (proj1 HM3) HE4)).
  - exact (disjoint_old_fresh _ _ _ (own_old _ _ _ _ _ _ (proj1 HM4)) (proj1 (proj2 HM5))).
Qed.


Lemma shape_pback (p : player K) r O Mask G : shape r (p_out p) G -> shape r (p_out p) (pback p r O Mask G).
Proof. intros HG. unfold pback. destruct (p_kind p); auto; apply shape_mk. Qed.

Lemma check_backward_ok s l rw rb p x rsx r X dv rsg rr G :
  lown s l rw rb p -> own s x rsx r (p_in p) X -> own s dv rsg rr (p_out p) G ->
  check_backward l x dv s = (Ret tt, s).
Proof.
  intros (H1&H2&H3&_) HX HG. unfold check_backward.
  rewrite (own_cols _ _ _ _ _ _ HX), (own_cols _ _ _ _ _ _ HG), H2, H3, !Z.eqb_refl. reflexivity.
Qed.


Lemma bwd_result_mono W s0 s s1 g k c r A B C : frame W s0 s ->
  bwd_result s s1 g k c r A B C -> bwd_result s0 s1 g k c r A B C.
Proof.
  intros HF (a&b&x&Ha&Hb&Hx&D). exists a, b, x.
  split; [|split; [|split; [|exact D]]]; eapply fresh_mat_mono'; eauto.
Qed.

(** Tail shared by hidden, leaky and dropout: an in-place change of dValues, then dense. *)
Lemma bwd_tail s l rw rb p x rsx r X dv rsg G' (prog : M K matrix) :
  lown s l rw rb p -> own s x rsx r (p_in p) X -> (1 <= r)%nat ->
  disjoint rsx rsg -> disjoint rw rsg -> disjoint rb rsg ->
  wp prog s (inplace_result s dv rsg r (p_out p) G') ->
  wp (bind prog (fun dv' => dense_backward l x dv')) s (fun g s' =>
    bwd_result s s' g (p_in p) (p_out p) r
      (pdW r (p_in p) (p_out p) X G') (psum0 r (p_out p) G') (pdX r (p_in p) (p_out p) G' (p_w p)) /\
    bwd_effect rsg s s' /\ own s' dv rsg r (p_out p) G').
Proof.
  intros HL HX Hr D1 D2 D3 Hp. apply wp_bind. eapply wp_conseq; [exact Hp|].
  intros dv' s1 (-> & HO1 & HF1 & HR1). eapply wp_conseq.
  { eapply wp_dense_backward with (rw := rw) (rb := rb); eauto.
    - eapply lown_frame; eauto. intros y [Hy|Hy] Hin; [eapply D2|eapply D3]; eauto.
    - eapply own_frame; eauto. }
  simpl. intros g s2 (HB & [HF2 HR2]). split; [|split].
  - eapply bwd_result_mono; eauto.
  - split; [|eapply rest_trans; eauto]. eapply frame_trans; eauto. intros y _ [H|[]]; exact H.
  - exact (own_ext _ _ _ _ _ _ _ HO1 (conj HF2 HR2)).
Qed.

(** A one-row matrix made from row i of an owned matrix. *)
Lemma alloc_out_run (l : list nat) s :
  alloc_out l s = (Ret (MkSlice (S (nouts s)) 0 (length l)), with_outs s (h_outs s ++ [l])).
Proof. reflexivity. Qed.

Lemma ext_alloc_out l s : ext s (with_outs s (h_outs s ++ [l])).
Proof.
  split; [|repeat split]. repeat split; eauto.
  intros [|o] arr Ho; auto. simpl in *. rewrite nth_error_app1; auto. apply nth_error_Some. congruence.
Qed.

Lemma wp_one_row s m rs r c A i :
  own s m rs r c A -> (i < r)%nat -> (1 <= c)%nat ->
  wp (bind (idx_out (mdata m) (Z.of_nat i)) (fun x => bind (alloc_out [x]) (fun sl =>
        ignore_err matrix0 (NewMatrixFromSlice sl)))) s
     (fun m1 s1 => exists x, own s1 m1 [x] 1 c [nth i A []] /\ ext s s1).
Proof.
  intros HO Hi Hc. destruct (own_ref _ _ _ _ _ _ _ HO Hi) as (x & Hx & Hidx & Hrow & _).
  assert (HL : length (nth i A []) = c) by (eapply shape_row; eauto using own_shape).
  apply wp_bind. eapply wp_eq; [exact Hidx|]. apply wp_bind. eapply wp_eq; [apply alloc_out_run|].
  apply wp_ignore_err. unfold NewMatrixFromSlice. simpl sl_len. simpl Z.of_nat. simpl (1 <? 1).
  set (s1 := with_outs s (h_outs s ++ [[x]])).
  assert (Hout : out_at s1 (S (nouts s)) = Some [x]).
  { simpl. unfold nouts. rewrite nth_error_app2 by lia. now rewrite Nat.sub_diag. }
  cbv iota. apply wp_bind. eapply wp_eq.
  { unfold idx_out. simpl sl_len. cbn [sl_loc sl_off]. rewrite Hout. reflexivity. }
  apply wp_bind. eapply wp_eq.
  { unfold row_len. change (row_at s1 x) with (row_at s x). rewrite Hrow. reflexivity. }
  rewrite HL. replace (Z.of_nat c <? 1) with false by lia. apply wp_ret.
  exists x. split; [|apply ext_alloc_out].
  unfold own. cbn [mrows mcols mdata sl_len]. repeat (split; [reflexivity|]). split; [|split].
  - split; auto.
  - exists [x]. cbn [sl_loc sl_off sl_len]. split; [exact Hout|]. split; [simpl; lia|reflexivity].
  - constructor; auto.
Qed.

Lemma wp_new s (r c : nat) : (1 <= r)%nat -> (1 <= c)%nat ->
  wp (NewMatrix_ (Z.of_nat r) (Z.of_nat c)) s (fresh_result s r c (mk r c (fun _ _ => f0))).
Proof. intros. apply wp_NewMatrix_; auto. intros m rs s' HM HE. exists rs. auto. Qed.

(** ** Softmax backward *)

(** Replacing one row reference of a freshly allocated matrix. *)
Lemma set_out_own s m rs r c A i x row :
  own s m rs r c A -> (i < r)%nat -> row_at s x = Some row -> length row = c ->
  exists s', set_out (mdata m) (Z.of_nat i) x s = (Ret tt, s') /\
    own s' m (upd i x rs) r c (upd i row A) /\ h_rows s' = h_rows s /\ rest s s' /\
    (forall o arr, o <> sl_loc (mdata m) -> out_at s o = Some arr -> out_at s' o = Some arr) /\ nouts s' = nouts s.
Proof.
  intros (H1 & H2 & H3 & [HL HS] & (arr & Ha & Hlen & E) & H6) Hi Hx Hrow.
  destruct (mdata m) as [loc off len] eqn:Em. simpl in *. subst len.
  destruct loc as [|k]; simpl in *. { inversion Ha; subst arr. simpl in Hlen. lia. }
  exists (with_outs s (upd k (upd (off + i) x arr) (h_outs s))).
  split; [|split; [|split; [|split; [|split]]]].
  - unfold set_out. simpl. replace ((0 <=? Z.of_nat i) && (Z.of_nat i <? Z.of_nat r)) with true by lia.
    rewrite Ha, Nat2Z.id. reflexivity.
  - unfold own. rewrite Em. simpl. repeat (split; [assumption|reflexivity] || (split; [solve [auto]|])). split; [split|split].
    + rewrite upd_length. exact HL.
    + apply Forall_forall. intros y Hy. apply In_nth_error in Hy as (n & Hn). rewrite nth_error_upd in Hn.
      rewrite Forall_forall in HS. destruct (i =? n)%nat.
      * destruct (i <? length A)%nat; inversion Hn; subst; auto.
      * apply HS. eapply nth_error_In; eauto.
    + exists (upd (off + i) x arr). simpl. split; [|split].
      * rewrite nth_error_upd, Nat.eqb_refl. assert (HNN : nth_error (h_outs s) k <> None) by congruence.
        apply nth_error_Some in HNN. replace (k <? length (h_outs s))%nat with true by lia. reflexivity.
      * rewrite upd_length. lia.
      * subst rs. clear. revert arr i r. induction off as [|off IH]; intros arr i r; simpl.
        -- revert i r. induction arr; intros [|i] [|r]; simpl; auto. f_equal. auto.
        -- destruct arr; simpl; auto. now destruct r, i.
    + assert (Hr2 : forall y, row_at (with_outs s (upd k (upd (off + i) x arr) (h_outs s))) y = row_at s y) by (intros [|y]; reflexivity).
      clear - H6 Hx Hr2. assert (G : forall i, Forall2 (fun ref row0 => row_at s ref = Some row0) (upd i x rs) (upd i row A)).
      { clear i Hr2. induction H6; intros [|i]; simpl; constructor; auto. }
      specialize (G i). eapply Forall2_mono; [|exact G]. simpl. intros a b <-. apply Hr2.
  - reflexivity.
  - repeat split.
  - intros [|o] arr' Hne Ho; simpl in *; auto. rewrite nth_error_upd.
    destruct (Nat.eqb_spec k o); [congruence|exact Ho].
  - simpl. unfold nouts. simpl. now rewrite upd_length.
Qed.

Lemma entry_one_row (A : pm K) i j : entry [nth i A []] 0 j = entry A i j.
Proof. reflexivity. Qed.

Lemma fsum_1 (g : nat -> K) : fsum 1 g = fadd f0 (g 0%nat).
Proof. reflexivity. Qed.

(** State of the result matrix during the row loop: rows 0..i-1 replaced by fresh rows. *)
Definition snew s s1 (dNew : matrix) (r c : nat) (rest_ : state K -> Prop) (A : pm K) : Prop :=
  exists rs, own s1 dNew rs r c A /\ fresh s rs /\ NoDup rs /\ (nouts s < sl_loc (mdata dNew))%nat.

(** Frame allowing one array-of-rows to change. *)
Definition frame_but (o0 : nat) s s' : Prop :=
  (forall o arr, o <> o0 -> out_at s o = Some arr -> out_at s' o = Some arr) /\
  (forall x row, row_at s x = Some row -> row_at s' x = Some row) /\
  (nrows s <= nrows s')%nat /\ (nouts s <= nouts s')%nat.

Lemma frame_frame_but o0 s s' : frame nothing s s' -> frame_but o0 s s'.
Proof.
  intros HF. pose proof (frame_nouts _ _ _ HF). destruct HF as (A & B & _ & D).
  repeat split; auto.
Qed.

Lemma softmax_row_ok s dNew rsn r c A outputs rso O dv rsg G i :
  own s dNew rsn r c A -> own s outputs rso r c O -> own s dv rsg r c G ->
  (i < r)%nat -> (1 <= c)%nat ->
  wp (softmax_row outputs dv dNew (Z.of_nat i)) s (fun _ s' =>
    (exists x, (nrows s < x)%nat /\
      own s' dNew (upd i x rsn) r c (upd i (nth i (psoftmax_back r c O G) []) A)) /\
    (forall o arr, o <> sl_loc (mdata dNew) -> out_at s o = Some arr -> out_at s' o = Some arr) /\
    (forall x row, row_at s x = Some row -> row_at s' x = Some row) /\
    rest s s' /\ (nrows s <= nrows s')%nat /\ (nouts s <= nouts s')%nat).
Proof.
  intros HN HO HG Hi Hc. unfold softmax_row. own_dims.
  apply wp_bind. apply wp_NewMatrix_; auto. intros diag rsd s1 (HD & HFr1 & HND1 & Hno1) HE1.
  apply wp_bind.
  apply wp_for with (I := fun j st =>
     fresh_mat s st diag rsd c c (mk c c (fun a b => if ((a =? b) && (a <? j))%nat then entry O i a else f0)) /\ ext s st).
  { split; [|exact HE1]. split; [|auto]. erewrite mk_ext; [exact HD|].
    intros a b _ _. simpl. now rewrite andb_false_r. }
  { intros j st Hj (HM & HE). apply wp_bind. eapply wp_eq; [eapply getc_ext; eauto|].
    eapply wp_conseq; [eapply wp_setc_ext; eauto|]. simpl. intros _ st2 (HM2 & HE2). split; auto.
    rewrite pset_mk in HM2 by auto. erewrite mk_ext; [exact HM2|]. intros a b Ha Hb. simpl.
    destruct (Nat.eqb_spec j a), (Nat.eqb_spec j b); subst; simpl.
    - rewrite Nat.eqb_refl. replace (b <? S b)%nat with true by lia. reflexivity.
    - replace (a =? b)%nat with false by lia. reflexivity.
    - replace (a =? b)%nat with false by lia. reflexivity.
    - replace (a <? S j)%nat with (a <? j)%nat by lia. reflexivity. }
  intros s2 ((HD2 & HFr2 & HND2 & Hno2) & HE2).
  assert (HO2 : own s2 outputs rso r c O) by (eapply own_ext; eauto).
  (* outputRow *)
  assert (HSO := own_shape _ _ _ _ _ _ HO).
  pose proof (wp_one_row s2 outputs rso r c O i HO2 Hi Hc) as W1.
  unfold wp, bind in W1. unfold wp, bind.
  destruct (idx_out (mdata outputs) (Z.of_nat i) s2) as [[x|e|pp] sa]; try contradiction.
  destruct (alloc_out [x] sa) as [[sl|e|pp] sb]; try contradiction.
  destruct (ignore_err matrix0 (NewMatrixFromSlice sl) sb) as [[m1|e|pp] s3]; try contradiction.
  destruct W1 as (x1 & HM1 & HE3).
  assert (G1 : wp (bind (T m1) (fun orow => bind (T orow) (fun orowT => bind (Dot orow orowT) (fun od =>
     bind (Sub diag od) (fun jac => bind (idx_out (mdata dv) (Z.of_nat i)) (fun drow => bind (alloc_out [drow]) (fun dsl =>
     bind (ignore_err matrix0 (NewMatrixFromSlice dsl)) (fun dr => bind (T dr) (fun drT => bind (Dot jac drT) (fun row =>
     bind (T row) (fun rowT => bind (idx_out (mdata rowT) 0) (fun rr => ignore_err tt (SetRow dNew (Z.of_nat i) rr)))))))))))))
     s3 (fun _ s' =>
    (exists x, (nrows s < x)%nat /\
      own s' dNew (upd i x rsn) r c (upd i (nth i (psoftmax_back r c O G) []) A)) /\
    (forall o arr, o <> sl_loc (mdata dNew) -> out_at s o = Some arr -> out_at s' o = Some arr) /\
    (forall x row, row_at s x = Some row -> row_at s' x = Some row) /\
    rest s s' /\ (nrows s <= nrows s')%nat /\ (nouts s <= nouts s')%nat)).
  2:{ exact G1. }
  assert (HE03 : ext s s3) by exact (ext_trans _ _ _ HE2 HE3).
  apply wp_bind. eapply wp_conseq; [eapply wp_T; [exact HM1|lia|lia]|]. intros orow s4 (rs4 & HM4 & HE4).
  apply wp_bind. eapply wp_conseq; [eapply wp_T; [apply HM4|lia|lia]|]. intros orowT s5 (rs5 & HM5 & HE5).
  apply wp_bind. eapply wp_conseq.
  { eapply wp_Dot; [eapply own_ext; [apply HM4|exact HE5]|apply HM5|lia|lia]. }
  intros od s6 (rs6 & HM6 & HE6).
  assert (HE26 : ext s2 s6) by exact (ext_trans _ _ _ HE3 (ext_trans _ _ _ HE4 (ext_trans _ _ _ HE5 HE6))).
  apply wp_bind. eapply wp_conseq.
  { eapply wp_Sub; [eapply own_ext; [exact HD2|exact HE26]|apply HM6|lia|lia]. }
  intros jac s7 (rs7 & HM7 & HE7).
  assert (HE07 : ext s s7) by exact (ext_trans _ _ _ HE2 (ext_trans _ _ _ HE26 HE7)).
  assert (HG7 : own s7 dv rsg r c G) by (eapply own_ext; eauto).
  pose proof (wp_one_row s7 dv rsg r c G i HG7 Hi Hc) as W2.
  unfold wp, bind in W2. unfold wp, bind at 1 2 3.
  destruct (idx_out (mdata dv) (Z.of_nat i) s7) as [[x2|e|pp] sa2]; try contradiction.
  destruct (alloc_out [x2] sa2) as [[sl2|e|pp] sb2]; try contradiction.
  destruct (ignore_err matrix0 (NewMatrixFromSlice sl2) sb2) as [[m2|e|pp] s8]; try contradiction.
  destruct W2 as (x3 & HM8 & HE8).
  assert (G2 : wp (bind (T m2) (fun drT => bind (Dot jac drT) (fun row =>
     bind (T row) (fun rowT => bind (idx_out (mdata rowT) 0) (fun rr => ignore_err tt (SetRow dNew (Z.of_nat i) rr))))))
     s8 (fun _ s' =>
    (exists x, (nrows s < x)%nat /\
      own s' dNew (upd i x rsn) r c (upd i (nth i (psoftmax_back r c O G) []) A)) /\
    (forall o arr, o <> sl_loc (mdata dNew) -> out_at s o = Some arr -> out_at s' o = Some arr) /\
    (forall x row, row_at s x = Some row -> row_at s' x = Some row) /\
    rest s s' /\ (nrows s <= nrows s')%nat /\ (nouts s <= nouts s')%nat)).
  2:{ exact G2. }
  apply wp_bind. eapply wp_conseq; [eapply wp_T; [exact HM8|lia|lia]|]. intros drT s9 (rs9 & HM9 & HE9).
  apply wp_bind. eapply wp_conseq.
  { eapply wp_Dot; [eapply own_ext; [apply HM7|exact (ext_trans _ _ _ HE8 HE9)]|apply HM9|lia|lia]. }
  intros row s10 (rs10 & HM10 & HE10).
  apply wp_bind. eapply wp_conseq; [eapply wp_T; [apply HM10|lia|lia]|]. intros rowT s11 (rs11 & HM11 & HE11).
  destruct HM11 as (HOr & HFr11 & _ & _).
  destruct (own_ref _ _ _ _ _ _ 0%nat HOr) as (xr & Hxr & Hidx & Hrow & _); [lia|].
  apply wp_bind. eapply wp_eq; [exact Hidx|]. apply wp_ignore_err.
  assert (HE010 : ext s s10) by exact (ext_trans _ _ _ HE07 (ext_trans _ _ _ HE8 (ext_trans _ _ _ HE9 HE10))).
  assert (HE011 : ext s s11) by exact (ext_trans _ _ _ HE010 HE11).
  assert (HN11 : own s11 dNew rsn r c A) by (eapply own_ext; eauto).
  unfold SetRow. own_dims. replace (Z.of_nat i >=? Z.of_nat r) with false by lia.
  set (rowv := nth 0 (ptrans c 1 (pdot c c 1
     (pmap2 c c fsub (mk c c (fun a b => if (a =? b)%nat && (a <? c)%nat then entry O i a else f0))
        (pdot c 1 c (ptrans 1 c [nth i O []]) (ptrans c 1 (ptrans 1 c [nth i O []]))))
     (ptrans 1 c [nth i G []]))) []).
  change (row_at s11 xr = Some rowv) in Hrow.
  assert (HLr : length rowv = c) by (unfold rowv; eapply shape_row; [apply shape_mk|lia]).
  apply wp_bind. eapply wp_eq. { unfold row_len. rewrite Hrow. reflexivity. }
  rewrite HLr, Z.eqb_refl. cbn [negb].
  destruct (set_out_own _ _ _ _ _ _ i xr rowv HN11 Hi Hrow HLr) as (s12 & E12 & HO12 & HR12 & HS12 & HF12 & HNo12).
  eapply wp_eq; [exact E12|].
  assert (Erow : rowv = nth i (psoftmax_back r c O G) []).
  { apply list_eq_nth with (d := f0).
    - rewrite HLr. symmetry. eapply shape_row; [apply shape_mk|lia].
    - rewrite HLr. intros j Hj. change (nth j rowv f0) with (entry (ptrans c 1 (pdot c c 1
     (pmap2 c c fsub (mk c c (fun a b => if (a =? b)%nat && (a <? c)%nat then entry O i a else f0))
        (pdot c 1 c (ptrans 1 c [nth i O []]) (ptrans c 1 (ptrans 1 c [nth i O []]))))
     (ptrans 1 c [nth i G []]))) 0 j).
      change (nth j (nth i (psoftmax_back r c O G) []) f0) with (entry (psoftmax_back r c O G) i j).
      unfold ptrans at 1. rewrite entry_mk by lia. unfold pdot at 1. rewrite entry_mk by lia.
      unfold psoftmax_back. rewrite entry_mk by lia. apply fsum_ext. intros n Hn.
      unfold pmap2. rewrite !entry_mk by lia. unfold pdot. rewrite !entry_mk by lia.
      rewrite fsum_1. unfold ptrans. rewrite !entry_mk by lia. rewrite !entry_one_row.
      replace (j <? c)%nat with true by lia. now rewrite andb_true_r. }
  assert (Hrows12 : forall y, row_at s12 y = row_at s11 y) by (intros [|y]; simpl; auto; now rewrite HR12).
  destruct HE011 as [(FA & FB & FC & FD) FR].
  split; [|split; [|split; [|split; [|split]]]].
  - exists xr. split.
    + eapply (fresh_mono s s10) in HFr11; [|apply (ext_nrows _ _ HE010)].
      red in HFr11. rewrite Forall_forall in HFr11. apply HFr11. eapply nth_error_In; eauto.
    + rewrite <- Erow. exact HO12.
  - intros o arr Hne Ho. apply HF12; auto.
  - intros y rw Hy. rewrite Hrows12. apply FB; auto.
  - eapply rest_trans; eauto.
  - unfold nrows in *. rewrite HR12. exact FD.
  - rewrite HNo12. apply frame_nouts with (W := nothing). repeat split; auto.
Qed.

Lemma NoDup_upd_fresh (l : list nat) i x : NoDup l -> ~ In x l -> NoDup (upd i x l).
Proof.
  revert i. induction l as [|h t IH]; intros [|i] ND Hn; simpl; auto.
  - inversion ND; subst. constructor; auto. intros H. apply Hn. simpl; auto.
  - inversion ND; subst. constructor.
    + intros Hin. apply In_nth_error in Hin as (k & Hk). rewrite nth_error_upd in Hk.
      destruct (i =? k)%nat.
      * destruct (i <? length t)%nat; inversion Hk; subst. apply Hn. simpl; auto.
      * apply H1. eapply nth_error_In; eauto.
    + apply IH; auto. intros H. apply Hn. simpl; auto.
Qed.
Lemma fresh_upd s (l : list nat) i x : fresh s l -> (nrows s < x)%nat -> fresh s (upd i x l).
Proof.
  unfold fresh. revert i. induction l as [|h t IH]; intros [|i] HF Hx; simpl; auto; inversion HF; subst; constructor; auto.
Qed.
Lemma upd_mk_row r c g i row : (i < r)%nat -> length row = c ->
  upd i row (mk r c g) = mk r c (fun a b => if (a =? i)%nat then nth b row f0 else g a b) :> pm K.
Proof.
  intros Hi Hl. eapply (shape_ext r c).
  - split; [rewrite upd_length; apply length_mk|].
    apply Forall_forall. intros y Hy. apply In_nth_error in Hy as (n & Hn). rewrite nth_error_upd in Hn.
    pose proof (shape_mk r c g) as [_ HS]. rewrite Forall_forall in HS. destruct (i =? n)%nat.
    + destruct (i <? _)%nat; inversion Hn; subst; auto.
    + apply HS. eapply nth_error_In; eauto.
  - apply shape_mk.
  - intros a b Ha Hb. rewrite entry_mk by auto. unfold entry. rewrite nth_upd, length_mk.
    replace (i <? r)%nat with true by lia. rewrite andb_true_r, Nat.eqb_sym.
    destruct (a =? i)%nat; auto. now apply entry_mk.
Qed.

(** The row loop builds a fresh matrix. *)
Lemma wp_softmax_rows s outputs rso O dv rsg G r c :
  own s outputs rso r c O -> own s dv rsg r c G -> (1 <= r)%nat -> (1 <= c)%nat ->
  wp (bind (NewMatrix_ (mrows dv) (mcols dv)) (fun dNew =>
      bind (for_ (mrows dNew) (fun i => softmax_row outputs dv dNew i)) (fun _ => ret dNew))) s
     (fresh_result s r c (psoftmax_back r c O G)).
Proof.
  intros HO HG Hr Hc. own_dims. apply wp_bind. apply wp_NewMatrix_; auto.
  intros dNew rs0 s1 (HN & HFr & HND & Hno) HE. rewrite (own_rows _ _ _ _ _ _ HN).
  apply wp_bind.
  apply wp_for with (I := fun i st => exists rs,
     own st dNew rs r c (mk r c (fun a b => if (a <? i)%nat then entry (psoftmax_back r c O G) a b else f0)) /\
     fresh s rs /\ NoDup rs /\
     (forall o arr, (o <= nouts s)%nat -> out_at s o = Some arr -> out_at st o = Some arr) /\
     (forall x row, row_at s x = Some row -> row_at st x = Some row) /\
     rest s st /\ (nrows s <= nrows st)%nat).
  - exists rs0. destruct HE as [(A&B&C&D) R].
    repeat (split; [solve [auto]|]). repeat split; auto; try apply R.
  - intros i st Hi (rs & HNs & HFs & HNDs & Hout & Hrow & HRs & Hnr).
    assert (OW : forall m rsm a b X, own s m rsm a b X -> own st m rsm a b X).
    { intros m rsm a b X (Q1&Q2&Q3&Q4&(arr&Q5&Q6&Q7)&Q8). unfold own. repeat (split; [assumption|]). split.
      - exists arr. split; [|auto]. apply Hout; auto. eapply out_at_valid; eauto.
      - clear - Q8 Hrow. induction Q8; constructor; auto. }
    eapply wp_conseq. { eapply softmax_row_ok; [exact HNs|apply OW; eassumption|apply OW; eassumption| |]; auto. }
    simpl. intros _ st2 ((x & Hx & HN2) & Ho2 & Hr2 & HR2 & Hnr2 & Hno2).
    exists (upd i x rs). split; [|split; [|split; [|split; [|split; [|split]]]]].
    + rewrite upd_mk_row in HN2 by (first [exact Hi | eapply shape_row; [apply shape_mk|exact Hi]]).
      erewrite mk_ext; [exact HN2|]. intros a b Ha Hb. simpl.
      destruct (Nat.eqb_spec a i) as [->|Hne].
      * replace (i <? S i)%nat with true by lia. reflexivity.
      * replace (a <? S i)%nat with (a <? i)%nat by lia. reflexivity.
    + apply fresh_upd; auto. lia.
    + apply NoDup_upd_fresh; auto. intros Hin. apply own_old in HNs. rewrite Forall_forall in HNs.
      apply HNs in Hin. lia.
    + intros o arr Ho E. apply Ho2; auto. lia.
    + auto.
    + eapply rest_trans; eauto.
    + lia.
  - intros st (rs & HNs & HFs & HNDs & Hout & Hrow & HRs & Hnr). apply wp_ret. exists rs. split; [split|].
    + erewrite mk_ext in HNs; [rewrite (mk_entry r c (psoftmax_back r c O G)) in HNs by apply shape_mk; exact HNs|].
      intros a b Ha Hb. simpl. replace (a <? r)%nat with true by lia. reflexivity.
    + auto.
    + split; auto. split; [|split; [|split]]; auto.
      * intros o arr Ho. apply Hout; auto. eapply out_at_valid; eauto.
      * eauto.
Qed.

(** ** All backward passes except the sigmoid one *)


Theorem wp_backward s lref l rw rb p x rsx r X dv rsg G rso rsm O Mask :
  nth_error (h_layers s) lref = Some l -> lown s l rw rb p -> p_kind p <> SigmoidK ->
  own s x rsx r (p_in p) X -> (1 <= r)%nat -> own s dv rsg r (p_out p) G -> NoDup rsg ->
  cache_ok s l p r rso rsm O Mask ->
  disjoint rsx rsg -> disjoint rw rsg -> disjoint rb rsg -> disjoint rso rsg -> disjoint rsm rsg ->
  wp (Layer_Backward lref x dv) s (fun g s' =>
    bwd_result s s' g (p_in p) (p_out p) r
      (pdW r (p_in p) (p_out p) X (pback p r O Mask G)) (psum0 r (p_out p) (pback p r O Mask G))
      (pdX r (p_in p) (p_out p) (pback p r O Mask G) (p_w p)) /\
    bwd_effect rsg s s' /\ own s' dv rsg r (p_out p) (dv_after p G (pback p r O Mask G))).
Proof.
  intros Hl HL Hsig HX Hr HG HND HC D1 D2 D3 D4 D5.
  pose proof HL as (H1&H2&H3&H4&H5&H6&H7&HW&HB).
  unfold Layer_Backward. get_l Hl. rewrite H1. unfold cache_ok in HC. unfold dv_after, pback.
  destruct (p_kind p) eqn:Hk; try congruence.
  - unfold Hidden_Backward. get_l Hl. apply wp_bind. eapply wp_eq; [eapply check_backward_ok; eauto|].
    eapply bwd_tail with (rw := rw) (rb := rb); eauto. eapply wp_RELUPrime; eauto.
  - unfold Linear_Backward. get_l Hl. apply wp_bind. eapply wp_eq; [eapply check_backward_ok; eauto|].
    eapply wp_conseq; [eapply wp_dense_backward; eauto|]. simpl. intros g s' (HR & [HF HRe]). split; auto.
    split; [|exact (own_ext _ _ _ _ _ _ _ HG (conj HF HRe))]. split; auto. now apply frame_nothing.
  - unfold Leaky_Backward. get_l Hl. apply wp_bind. eapply wp_eq; [eapply check_backward_ok; eauto|].
    eapply bwd_tail with (rw := rw) (rb := rb); eauto. rewrite H4. eapply wp_LeakyRELUPrime; eauto.
  - unfold Softmax_Backward. get_l Hl. own_dims. rewrite H2, H3, !Z.eqb_refl. cbn [negb].
    pose proof (wp_softmax_rows s (l_cache l) rso O dv rsg G r (p_out p) HC HG Hr H7) as WS.
    revert WS. own_dims. intros WS. unfold wp in WS. unfold wp. unfold bind in WS. unfold bind.
    destruct (NewMatrix_ (Z.of_nat r) (Z.of_nat (p_out p)) s) as [[dn|e|pp] sa]; try contradiction.
    destruct (for_ (mrows dn) (fun i => softmax_row (l_cache l) dv dn i) sa) as [[[]|e|pp] sb]; try contradiction.
    simpl in WS. destruct WS as (rsn & (HN & HFr & HNDn & Hno) & HE).
    fold (wp (dense_backward l x dn) sb (fun g s' =>
      bwd_result s s' g (p_in p) (p_out p) r
        (pdW r (p_in p) (p_out p) X (psoftmax_back r (p_out p) O G)) (psum0 r (p_out p) (psoftmax_back r (p_out p) O G))
        (pdX r (p_in p) (p_out p) (psoftmax_back r (p_out p) O G) (p_w p)) /\
      bwd_effect rsg s s' /\ own s' dv rsg r (p_out p) G)).
    eapply wp_conseq.
    { eapply wp_dense_backward; [eapply lown_frame; [exact HL|apply HE|intros ? ? []]|eapply own_ext; eauto|exact HN|exact Hr]. }
    simpl. intros g s' (HB' & HE'). split.
    + eapply bwd_result_mono; [apply HE|exact HB'].
    + pose proof (ext_trans _ _ _ HE HE') as HX'. split; [|exact (own_ext _ _ _ _ _ _ _ HG HX')].
      destruct HX' as [HFf HRf]. split; auto. now apply frame_nothing.
  - destruct HC as [HC HM]. unfold Dropout_Backward. get_l Hl. apply wp_bind. eapply wp_eq; [eapply check_backward_ok; eauto|].
    apply wp_bind. eapply wp_conseq.
    { apply wp_inplace with (f := fun i j => fmul (entry G i j) (entry Mask i j)) (A := G) (rs := rsg) (r := r) (c := p_out p); auto.
      intros i j s1 A1 Hi Hj HO1 HF1 HR1 HEq.
      assert (HM1 : own s1 (l_mask l) rsm r (p_out p) Mask) by (eapply own_frame; eauto).
      apply wp_bind. eapply wp_eq; [eapply getc_own; eauto|].
      apply wp_bind. eapply wp_eq; [eapply getc_own; eauto|]. rewrite HEq. now apply wp_setc. }
    simpl. intros _ s1 (HO1 & HF1 & HR1).
    eapply wp_conseq.
    { eapply bwd_tail with (rw := rw) (rb := rb) (rsg := rsg) (dv := dv) (X := X) (rsx := rsx) (r := r)
        (G' := pmap2 r (p_out p) relu_prime1 (pmap2 r (p_out p) fmul G Mask) O); auto.
      - eapply lown_frame; eauto. intros y [Hy|Hy] Hin; [eapply D2|eapply D3]; eauto.
      - exact (own_frame _ _ _ _ _ _ _ _ HX HF1 D1).
      - eapply wp_RELUPrime with (rsx := rso); eauto. exact (own_frame _ _ _ _ _ _ _ _ HC HF1 D4). }
    simpl. intros g s2 (HB2 & [HF2 HR2] & HO2). split; [|split; [|exact HO2]].
    + eapply bwd_result_mono; [exact HF1|exact HB2].
    + split; [|eapply rest_trans; eauto]. eapply frame_trans; eauto. tauto.
Qed.


Theorem wp_BackwardCrossEntropy s lref l rw rb p x rsx r X y rsy Y dv rsg O :
  nth_error (h_layers s) lref = Some l -> lown s l rw rb p ->
  own s x rsx r (p_in p) X -> (1 <= r)%nat -> own s y rsy r (p_out p) Y -> own s dv rsg r (p_out p) O ->
  wp (BackwardCrossEntropy lref x y dv) s (fun g s' =>
    bwd_result s s' g (p_in p) (p_out p) r
      (pdW r (p_in p) (p_out p) X (pce_back r (p_out p) Y O)) (psum0 r (p_out p) (pce_back r (p_out p) Y O))
      (pdX r (p_in p) (p_out p) (pce_back r (p_out p) Y O) (p_w p)) /\ ext s s').
Proof.
  intros Hl HL HX Hr HY HO. pose proof HL as (H1&H2&H3&H4&H5&H6&H7&HW&HB).
  unfold BackwardCrossEntropy. get_l Hl. own_dims. rewrite H3, !Z.eqb_refl. cbn [negb].
  apply wp_bind. apply wp_NewMatrix_; auto. intros nv rsn s1 (HN & HFr & HND & Hno) HE.
  apply wp_bind. rewrite <- (own_rows _ _ _ _ _ _ HN) at 1. rewrite <- (own_cols _ _ _ _ _ _ HN).
  eapply wp_conseq.
  { eapply wp_inplace with (rs := rsn) (r := r) (c := p_out p); auto.
    - exact HN.
    - intros i j s2 A1 Hi Hj HO1 HF1 HR1 HEq.
      assert (HE2 : ext s s2).
      { destruct HE as [F R]. split; [|eapply rest_trans; eauto]. eapply frame_fresh; eauto.
        eapply frame_trans; eauto. intros ? ? [[]|H]; exact H. }
      apply wp_bind. eapply wp_eq; [eapply (getc_ext s); eauto|].
      apply wp_bind. eapply wp_eq; [eapply (getc_ext s); eauto|].
      instantiate (1 := fun i j => fdiv (if feq (entry Y i j) f1 then fsub (entry O i j) f1 else entry O i j) (ofZ (Z.of_nat r))).
      simpl. destruct (feq (entry Y i j) f1); now apply wp_setc. }
  simpl. intros _ s2 (HN2 & HF2 & HR2).
  assert (HE2 : ext s s2).
  { destruct HE as [F R]. split; [|eapply rest_trans; eauto]. eapply frame_fresh; eauto.
    eapply frame_trans; eauto. intros ? ? [[]|H]; exact H. }
  eapply wp_conseq.
  { eapply wp_dense_backward; [eapply lown_frame; [exact HL|apply HE2|intros ? ? []]|exact (own_ext _ _ _ _ _ _ _ HX HE2)|exact HN2|exact Hr]. }
  simpl. intros g s' (HB' & HE'). split.
  - eapply bwd_result_mono; [apply HE2|exact HB'].
  - exact (ext_trans _ _ _ HE2 HE').
Qed.

End WithNum.
