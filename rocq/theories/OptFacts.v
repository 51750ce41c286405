(** * OptFacts: histories of updates, and updates that fail. *)
From Coq Require Import String ZArith List Bool Arith Lia.
From Verif Require Import Num Heap Spec Matrix Network Optimizers PureSpec Repr HeapLemmas LoopLemmas MatrixProofs MatrixFacts LayerProofs LossCode OptSpec OptProofs.
Import ListNotations.
Open Scope Z_scope.

Section WithNum.
Context {K : Num}.
Implicit Types (s : state K) (po : popt K) (Gs : list (pm K * pm K)).

(** The calls [Update(weights, biases, g.w, g.b)] for all [g] in [gs]. *)
Fixpoint updates (oref : nat) (w b : matrix) (gs : list (matrix * matrix)) : M K unit :=
  match gs with
  | [] => ret tt
  | (dw, db) :: r => Opt_Update oref w b dw db ;; updates oref w b r
  end.

Lemma nth_upd_neq {A} (l : list A) n m x : n <> m -> nth_error (upd m x l) n = nth_error l n.
Proof. revert n m; induction l as [|y l IH]; intros [|n] [|m] H; simpl; auto; try lia. Qed.

Lemma Forall2_imp {A B} (P Q : A -> B -> Prop) l l' : (forall a b, P a b -> Q a b) -> Forall2 P l l' -> Forall2 Q l l'.
Proof. intros H HF. induction HF; constructor; auto. Qed.
Lemma rest3_trans s1 s2 s3 : rest3 s1 s2 -> rest3 s2 s3 -> rest3 s1 s3.
Proof. unfold rest3. intuition congruence. Qed.
Lemma rest3_refl s : rest3 s s. Proof. unfold rest3; auto. Qed.

Lemma upd_effect_only oref s s' rw rb o' : upd_effect oref s s' rw rb o' -> only_params oref s s' rw rb.
Proof. intros (H1 & H2 & H3). split; [exact H1|]. split; [exact H2|]. intros o Ho. rewrite H3. now apply nth_upd_neq. Qed.

Lemma wp_updates gs Gs : forall s oref o ro po w b rw rb k c W B,
  nth_error (h_opts s) oref = Some o -> oown s o ro k c po ->
  params s w b rw rb k c W B -> grads s rw rb k c gs Gs ->
  let '(po', W', B') := pupdates po k c W B Gs in
  wp (updates oref w b gs) s (fun _ s' => params s' w b rw rb k c W' B' /\ only_params oref s s' rw rb /\
    exists o' ro', nth_error (h_opts s') oref = Some o' /\ oown s' o' ro' k c po').
Proof.
  revert Gs; induction gs as [|(dw & db) gs IH]; intros Gs s oref o ro po w b rw rb k c W B Hl HO HP HG; inversion HG; subst.
  - simpl. unfold wp, ret. split; [exact HP|]. split; [split; [apply frame_refl|split; [apply rest3_refl|auto]]|]. eauto.
  - destruct y as [dW dB]. destruct H1 as (r1 & r2 & G1 & G2 & G3). simpl in G1, G2.
    destruct HP as (P1 & P2 & P3 & P4 & P5 & P6 & P7).
    pose proof (wp_Opt_Update s oref o ro po w b dw db rw rb r1 r2 k c W B dW dB Hl HO
      (conj P1 (conj P2 (conj G1 (conj G2 (conj P3 (conj P4 (conj P5 (conj P6 P7)))))))) ) as HU.
    simpl. destruct (pupdate po k c W B dW dB) as [[po1 W1] B1] eqn:EP.
    destruct (pupdates po1 k c W1 B1 l') as [[po2 W2] B2] eqn:EP2.
    apply wp_bind. eapply wp_conseq; [exact HU|]. intros _ s1 (O1 & O2 & o1 & ro1 & HE & OO & _).
    assert (Hl1 : nth_error (h_opts s1) oref = Some o1). { destruct HE as (_ & _ & ->). eapply nth_upd_eq; eauto. }
    assert (HG1 : grads s1 rw rb k c gs l').
    { eapply Forall2_imp; [|exact H3]. intros [gw gb] [Gw Gb] (q1 & q2 & A1 & A2 & A3). exists q1, q2. simpl in *.
      destruct HE as (HF & _). split; [|split; [|exact A3]]; eapply own_frame; eauto; intros x Hx; apply A3; apply in_or_app; auto. }
    pose proof (IH l' s1 oref o1 ro1 po1 w b rw rb k c W1 B1 Hl1 OO
       (conj O1 (conj O2 (conj P3 (conj P4 (conj P5 (conj P6 P7)))))) HG1) as H. rewrite EP2 in H.
    eapply wp_conseq; [exact H|]. cbv beta. intros _ s2 (Q1 & (Q2 & Q3 & Q4) & Q5). split; [exact Q1|]. split; [|exact Q5].
    destruct (upd_effect_only _ _ _ _ _ _ HE) as (E1 & E2 & E3).
    split; [eapply frame_trans; [exact E1|exact Q2|tauto]|]. split; [eapply rest3_trans; eauto|]. intros o' Ho. rewrite Q4, E3; auto.
Qed.

(** ** Entries of the recurrences *)
Lemma po_sched_after po wm bm wc bc : po_sched (po_after po wm bm wc bc) = po_sched po.
Proof. destruct po as [? ? ? ? ? ? ? ? ? [] ? ? ? ? ?]; reflexivity. Qed.
Lemma next_rate_sched po : next_rate po = po_sched po (po_iter po). Proof. reflexivity. Qed.
Lemma pupdate_iter po k c W B dW dB po' W' B' : pupdate po k c W B dW dB = (po', W', B') ->
  po_iter po' = po_iter po + 1 /\ po_kind po' = po_kind po /\ po_usemom po' = po_usemom po /\ po_mom po' = po_mom po /\
  po_b1 po' = po_b1 po /\ po_b2 po' = po_b2 po /\ po_eps po' = po_eps po /\ po_sched po' = po_sched po.
Proof.
  unfold pupdate. destruct (pupd1 po k c W dW _ _) as [[? ?] ?], (pupd1 po 1 c B dB _ _) as [[? ?] ?].
  intros [= <- <- <-]. repeat split. apply po_sched_after.
Qed.

Lemma run_sgd Gs : forall po k c W B po' W' B', po_kind po = SGD -> po_usemom po = false ->
  shape k c W -> shape 1 c B -> pupdates po k c W B Gs = (po', W', B') ->
  W' = mk k c (fun i j => sgd_run (po_sched po) (po_iter po) (entry W i j) (wgrad Gs i j)) /\
  B' = mk 1 c (fun i j => sgd_run (po_sched po) (po_iter po) (entry B i j) (bgrad Gs i j)).
Proof.
  induction Gs as [|(dW & dB) Gs IH]; intros po k c W B po' W' B' Hk Hu HW HB E; simpl in E.
  - injection E as <- <- <-. simpl. split; symmetry; now apply mk_entry.
  - destruct (pupdate po k c W B dW dB) as [[po1 W1] B1] eqn:EP.
    destruct (pupdate_iter _ _ _ _ _ _ _ _ _ _ EP) as (I1 & I2 & I3 & _ & _ & _ & _ & I4).
    unfold pupdate, pupd1 in EP. rewrite Hk, Hu in EP. injection EP as EP0 <- <-.
    destruct (IH _ _ _ _ _ _ _ _ (eq_trans I2 Hk) (eq_trans I3 Hu) (shape_mk _ _ _) (shape_mk _ _ _) E) as [-> ->].
    rewrite I1, I4. split; apply mk_ext; intros i j Hi Hj; unfold pmap2; rewrite entry_mk by auto; reflexivity.
Qed.

Lemma run_mom Gs : forall po k c W B po' W' B', po_kind po = SGD -> po_usemom po = true ->
  shape k c W -> shape 1 c B -> shape k c (po_wm po) -> shape 1 c (po_bm po) -> pupdates po k c W B Gs = (po', W', B') ->
  let run P m g i j := mom_run (po_mom po) (po_sched po) (po_iter po) (entry P i j) (entry m i j) (g i j) in
  W' = mk k c (fun i j => fst (run W (po_wm po) (wgrad Gs) i j)) /\
  B' = mk 1 c (fun i j => fst (run B (po_bm po) (bgrad Gs) i j)) /\
  po_wm po' = mk k c (fun i j => snd (run W (po_wm po) (wgrad Gs) i j)) /\
  po_bm po' = mk 1 c (fun i j => snd (run B (po_bm po) (bgrad Gs) i j)).
Proof.
  induction Gs as [|(dW & dB) Gs IH]; intros po k c W B po' W' B' Hk Hu HW HB Hwm Hbm E; simpl in E.
  - injection E as <- <- <-. simpl. repeat split; symmetry; now apply mk_entry.
  - destruct (pupdate po k c W B dW dB) as [[po1 W1] B1] eqn:EP.
    destruct (pupdate_iter _ _ _ _ _ _ _ _ _ _ EP) as (I1 & I2 & I3 & I5 & _ & _ & _ & I4).
    unfold pupdate, pupd1 in EP. rewrite Hk, Hu in EP. injection EP as EP0 <- <-.
    assert (Ewm : po_wm po1 = pmap2 k c (vel1 (po_mom po) (next_rate po)) (po_wm po) dW) by now rewrite <- EP0.
    assert (Ebm : po_bm po1 = pmap2 1 c (vel1 (po_mom po) (next_rate po)) (po_bm po) dB) by now rewrite <- EP0.
    assert (Swm : shape k c (po_wm po1)) by (rewrite Ewm; apply shape_mk).
    assert (Sbm : shape 1 c (po_bm po1)) by (rewrite Ebm; apply shape_mk).
    destruct (IH _ _ _ _ _ _ _ _ (eq_trans I2 Hk) (eq_trans I3 Hu) (shape_mk _ _ _) (shape_mk _ _ _) Swm Sbm E) as (-> & -> & -> & ->).
    rewrite I1, I4, I5, Ewm, Ebm.
    repeat split; apply mk_ext; intros i j Hi Hj; unfold pmap2; rewrite !entry_mk by auto; reflexivity.
Qed.

Lemma run_adam Gs : forall po k c W B po' W' B', po_kind po = Adam ->
  shape k c W -> shape 1 c B -> shape k c (po_wm po) -> shape 1 c (po_bm po) -> shape k c (po_wc po) -> shape 1 c (po_bc po) ->
  pupdates po k c W B Gs = (po', W', B') ->
  let run P m h g i j := adam_run (po_b1 po) (po_b2 po) (po_eps po) (po_sched po) (po_iter po) (entry P i j) (entry m i j) (entry h i j) (g i j) in
  W' = mk k c (fun i j => fst (fst (run W (po_wm po) (po_wc po) (wgrad Gs) i j))) /\
  B' = mk 1 c (fun i j => fst (fst (run B (po_bm po) (po_bc po) (bgrad Gs) i j))) /\
  po_wm po' = mk k c (fun i j => snd (fst (run W (po_wm po) (po_wc po) (wgrad Gs) i j))) /\
  po_bm po' = mk 1 c (fun i j => snd (fst (run B (po_bm po) (po_bc po) (bgrad Gs) i j))) /\
  po_wc po' = mk k c (fun i j => snd (run W (po_wm po) (po_wc po) (wgrad Gs) i j)) /\
  po_bc po' = mk 1 c (fun i j => snd (run B (po_bm po) (po_bc po) (bgrad Gs) i j)).
Proof.
  induction Gs as [|(dW & dB) Gs IH]; intros po k c W B po' W' B' Hk HW HB Hwm Hbm Hwc Hbc E; simpl in E.
  - injection E as <- <- <-. simpl. repeat split; symmetry; now apply mk_entry.
  - destruct (pupdate po k c W B dW dB) as [[po1 W1] B1] eqn:EP.
    destruct (pupdate_iter _ _ _ _ _ _ _ _ _ _ EP) as (I1 & I2 & _ & _ & I5 & I6 & I7 & I4).
    unfold pupdate, pupd1 in EP. rewrite Hk in EP. injection EP as EP0 <- <-.
    assert (Ewm : po_wm po1 = pmap2 k c (adam_m1 (po_b1 po)) (po_wm po) dW) by now rewrite <- EP0.
    assert (Ebm : po_bm po1 = pmap2 1 c (adam_m1 (po_b1 po)) (po_bm po) dB) by now rewrite <- EP0.
    assert (Ewc : po_wc po1 = pmap2 k c (adam_c1 (po_b2 po)) (po_wc po) dW) by now rewrite <- EP0.
    assert (Ebc : po_bc po1 = pmap2 1 c (adam_c1 (po_b2 po)) (po_bc po) dB) by now rewrite <- EP0.
    assert (Swm : shape k c (po_wm po1)) by (rewrite Ewm; apply shape_mk).
    assert (Sbm : shape 1 c (po_bm po1)) by (rewrite Ebm; apply shape_mk).
    assert (Swc : shape k c (po_wc po1)) by (rewrite Ewc; apply shape_mk).
    assert (Sbc : shape 1 c (po_bc po1)) by (rewrite Ebc; apply shape_mk).
    destruct (IH _ _ _ _ _ _ _ _ (eq_trans I2 Hk) (shape_mk _ _ _) (shape_mk _ _ _) Swm Sbm Swc Sbc E) as (-> & -> & -> & -> & -> & ->).
    rewrite I1, I4, I5, I6, I7, Ewm, Ebm, Ewc, Ebc.
    repeat split; apply mk_ext; intros i j Hi Hj; unfold pmap2; rewrite !entry_mk by auto; reflexivity.
Qed.

(** ** The optimizers the constructors make *)
Definition new_po (o : optimizer K) (k c : nat) : popt K :=
  PO (o_kind o) (o_lr o) (o_decay o) (o_momentum o) (o_eps o) (o_beta1 o) (o_beta2 o) (o_rate o) (o_iter o)
     (o_usedecay o) (o_usemom o) (zmat k c) (zmat 1 c) (zmat k c) (zmat 1 c).
Lemma new_oown s o k c : o_wm o = matrix0 -> oown s o [] k c (new_po o k c).
Proof.
  intros E. split; [repeat split|]. simpl. rewrite E.
  destruct (o_kind o); [destruct (o_usemom o); [left|]; repeat split|left; repeat split].
Qed.
Lemma zmat_shape k c : shape k c (zmat (K := K) k c). Proof. apply shape_mk. Qed.

Lemma NewSGD_eq lr decay mu s o : NewSGDOptimizer lr decay mu s = (Ret o, s) ->
  o = MkOpt SGD lr decay mu f0 f0 f0 lr 0 matrix0 matrix0 matrix0 matrix0 (negb (feq decay f0)) (negb (feq mu f0)).
Proof. unfold NewSGDOptimizer. destruct (fle lr f0), (flt decay f0), (flt mu f0); cbn; intros E; inversion E; reflexivity. Qed.
Lemma NewAdam_eq lr decay eps b1 b2 s o : NewAdamOptimizer lr decay eps b1 b2 s = (Ret o, s) ->
  o = MkOpt Adam lr decay f0 eps b1 b2 lr 0 matrix0 matrix0 matrix0 matrix0 (negb (feq decay f0)) false.
Proof. unfold NewAdamOptimizer. destruct (fle lr f0), (flt decay f0); cbn; intros E; inversion E; reflexivity. Qed.

Definition schedule (lr decay : K) (t : Z) : K := if feq decay f0 then lr else rate_at lr decay t.
Lemma po_sched_new o k c lr decay : o_lr o = lr -> o_decay o = decay -> o_rate o = lr -> o_usedecay o = negb (feq decay f0) ->
  po_sched (new_po o k c) = schedule lr decay.
Proof. intros <- <- E E2. unfold po_sched, schedule. simpl. rewrite E, E2. destruct (feq (o_decay o) f0); reflexivity. Qed.

Lemma own_mk_ext s m rs r c f g : own s m rs r c (mk r c f) -> (forall i j, (i < r)%nat -> (j < c)%nat -> f i j = g i j) -> own s m rs r c (mk r c g).
Proof. intros H E. rewrite <- (mk_ext r c f g); auto. Qed.

Theorem sgd_history lr decay mu o s oref w b rw rb k c W B gs Gs :
  NewSGDOptimizer lr decay mu s = (Ret o, s) -> feq mu f0 = true ->
  nth_error (h_opts s) oref = Some o -> params s w b rw rb k c W B -> grads s rw rb k c gs Gs ->
  returns (updates oref w b gs) s (fun _ s' =>
    own s' w rw k c (mk k c (fun i j => sgd_run (schedule lr decay) 0 (entry W i j) (wgrad Gs i j))) /\
    own s' b rb 1 c (mk 1 c (fun i j => sgd_run (schedule lr decay) 0 (entry B i j) (bgrad Gs i j))) /\
    only_params oref s s' rw rb).
Proof.
  intros HN Hmu Hl HP HG. apply NewSGD_eq in HN. rewrite Hmu in HN. simpl in HN.
  assert (HO := new_oown s o k c ltac:(now rewrite HN)).
  pose proof (wp_updates gs Gs s oref o [] _ w b rw rb k c W B Hl HO HP HG) as H.
  destruct (pupdates _ _ _ _ _ _) as [[po' W'] B'] eqn:E.
  assert (HP' := HP). destruct HP' as (P1 & P2 & _).
  destruct (run_sgd Gs (new_po o k c) k c W B po' W' B' ltac:(now rewrite HN) ltac:(now rewrite HN) (own_shape _ _ _ _ _ _ P1) (own_shape _ _ _ _ _ _ P2) E) as [-> ->].
  rewrite (po_sched_new o k c lr decay) in H by (now rewrite HN). replace (po_iter (new_po o k c)) with 0 in H by now rewrite HN.
  apply returns_wp. eapply wp_conseq; [exact H|]. cbv beta. intros _ s' ((Q1 & Q2 & _) & Q3 & _). auto.
Qed.

Theorem mom_history lr decay mu o s oref w b rw rb k c W B gs Gs :
  NewSGDOptimizer lr decay mu s = (Ret o, s) -> feq mu f0 = false ->
  nth_error (h_opts s) oref = Some o -> params s w b rw rb k c W B -> grads s rw rb k c gs Gs ->
  returns (updates oref w b gs) s (fun _ s' =>
    own s' w rw k c (mk k c (fun i j => fst (mom_run mu (schedule lr decay) 0 (entry W i j) f0 (wgrad Gs i j)))) /\
    own s' b rb 1 c (mk 1 c (fun i j => fst (mom_run mu (schedule lr decay) 0 (entry B i j) f0 (bgrad Gs i j)))) /\
    only_params oref s s' rw rb).
Proof.
  intros HN Hmu Hl HP HG. apply NewSGD_eq in HN. rewrite Hmu in HN. simpl in HN.
  assert (HO := new_oown s o k c ltac:(now rewrite HN)).
  pose proof (wp_updates gs Gs s oref o [] _ w b rw rb k c W B Hl HO HP HG) as H.
  destruct (pupdates _ _ _ _ _ _) as [[po' W'] B'] eqn:E.
  assert (HP' := HP). destruct HP' as (P1 & P2 & _).
  destruct (run_mom Gs (new_po o k c) k c W B po' W' B' ltac:(now rewrite HN) ltac:(now rewrite HN) (own_shape _ _ _ _ _ _ P1) (own_shape _ _ _ _ _ _ P2)
     (zmat_shape _ _) (zmat_shape _ _) E) as (-> & -> & _).
  rewrite (po_sched_new o k c lr decay) in H by (now rewrite HN). replace (po_iter (new_po o k c)) with 0 in H by now rewrite HN.
  replace (po_mom (new_po o k c)) with mu in H by now rewrite HN.
  apply returns_wp. eapply wp_conseq; [exact H|]. cbv beta. intros _ s' ((Q1 & Q2 & _) & Q3 & _).
  split; [|split; [|exact Q3]].
  - eapply own_mk_ext; [exact Q1|]. intros i j Hi Hj. simpl. unfold zmat. now rewrite entry_mk.
  - eapply own_mk_ext; [exact Q2|]. intros i j Hi Hj. simpl. unfold zmat. now rewrite entry_mk.
Qed.

Theorem adam_history lr decay eps b1 b2 o s oref w b rw rb k c W B gs Gs :
  NewAdamOptimizer lr decay eps b1 b2 s = (Ret o, s) ->
  nth_error (h_opts s) oref = Some o -> params s w b rw rb k c W B -> grads s rw rb k c gs Gs ->
  returns (updates oref w b gs) s (fun _ s' =>
    own s' w rw k c (mk k c (fun i j => fst (fst (adam_run b1 b2 eps (schedule lr decay) 0 (entry W i j) f0 f0 (wgrad Gs i j))))) /\
    own s' b rb 1 c (mk 1 c (fun i j => fst (fst (adam_run b1 b2 eps (schedule lr decay) 0 (entry B i j) f0 f0 (bgrad Gs i j))))) /\
    only_params oref s s' rw rb).
Proof.
  intros HN Hl HP HG. apply NewAdam_eq in HN.
  assert (HO := new_oown s o k c ltac:(now rewrite HN)).
  pose proof (wp_updates gs Gs s oref o [] _ w b rw rb k c W B Hl HO HP HG) as H.
  destruct (pupdates _ _ _ _ _ _) as [[po' W'] B'] eqn:E.
  assert (HP' := HP). destruct HP' as (P1 & P2 & _).
  destruct (run_adam Gs (new_po o k c) k c W B po' W' B' ltac:(now rewrite HN) (own_shape _ _ _ _ _ _ P1) (own_shape _ _ _ _ _ _ P2)
     (zmat_shape _ _) (zmat_shape _ _) (zmat_shape _ _) (zmat_shape _ _) E) as (-> & -> & _).
  rewrite (po_sched_new o k c lr decay) in H by (now rewrite HN). replace (po_iter (new_po o k c)) with 0 in H by now rewrite HN.
  replace (po_b1 (new_po o k c)) with b1 in H by now rewrite HN. replace (po_b2 (new_po o k c)) with b2 in H by now rewrite HN.
  replace (po_eps (new_po o k c)) with eps in H by now rewrite HN.
  apply returns_wp. eapply wp_conseq; [exact H|]. cbv beta. intros _ s' ((Q1 & Q2 & _) & Q3 & _).
  split; [|split; [|exact Q3]].
  - eapply own_mk_ext; [exact Q1|]. intros i j Hi Hj. simpl. unfold zmat. now rewrite !entry_mk.
  - eapply own_mk_ext; [exact Q2|]. intros i j Hi Hj. simpl. unfold zmat. now rewrite !entry_mk.
Qed.
End WithNum.

Lemma new_sgd_spec (K : Num) (s : state K) lr decay mu :
  ((fle lr f0 || flt decay f0 || flt mu f0)%bool = true -> exists e, NewSGDOptimizer lr decay mu s = (Fail e, s)) /\
  ((fle lr f0 || flt decay f0 || flt mu f0)%bool = false -> exists o, NewSGDOptimizer lr decay mu s = (Ret o, s) /\
     o_kind o = SGD /\ o_lr o = lr /\ o_decay o = decay /\ o_momentum o = mu /\ o_rate o = lr /\ o_iter o = 0 /\
     o_wm o = matrix0 /\ o_bm o = matrix0 /\ o_usedecay o = negb (feq decay f0) /\ o_usemom o = negb (feq mu f0)).
Proof.
  unfold NewSGDOptimizer. destruct (fle lr f0), (flt decay f0), (flt mu f0); simpl; split; intros E; try discriminate E;
    eexists; try reflexivity. split; [reflexivity|]. repeat split.
Qed.
Lemma new_adam_spec (K : Num) (s : state K) lr decay eps b1 b2 :
  ((fle lr f0 || flt decay f0)%bool = true -> exists e, NewAdamOptimizer lr decay eps b1 b2 s = (Fail e, s)) /\
  ((fle lr f0 || flt decay f0)%bool = false -> exists o, NewAdamOptimizer lr decay eps b1 b2 s = (Ret o, s) /\
     o_kind o = Adam /\ o_lr o = lr /\ o_decay o = decay /\ o_eps o = eps /\ o_beta1 o = b1 /\ o_beta2 o = b2 /\ o_rate o = lr /\
     o_iter o = 0 /\ o_wm o = matrix0 /\ o_bm o = matrix0 /\ o_wc o = matrix0 /\ o_bc o = matrix0 /\
     o_usedecay o = negb (feq decay f0)).
Proof.
  unfold NewAdamOptimizer. destruct (fle lr f0), (flt decay f0); simpl; split; intros E; try discriminate E;
    eexists; try reflexivity. split; [reflexivity|]. repeat split.
Qed.
