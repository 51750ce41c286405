(** * OptMore: sequences of failing and succeeding updates, and the concrete cases. *)
From Coq Require Import String ZArith List Bool Arith Lia QArith Reals Lra.
From Verif Require Import Num Heap Spec Matrix Network Optimizers PureSpec Repr HeapLemmas LoopLemmas MatrixProofs MatrixFacts LayerProofs LossCode NumQ NumR RSum LossRefute OptSpec OptProofs OptFacts OptFail OptReal.
Import ListNotations.
Open Scope Z_scope.

Section WithNum.
Context {K : Num}.
Implicit Types s : state K.

(** Which of the calls [Update(weights, biases, g.w, g.b)] succeed. *)
Fixpoint attempts (oref : nat) (w b : matrix) (gs : list (matrix * matrix)) : M K (list bool) :=
  match gs with
  | [] => ret []
  | (dw, db) :: r =>
      x <- catch (Opt_Update oref w b dw db) ;;
      l <- attempts oref w b r ;;
      ret ((match x with inl _ => true | inr _ => false end) :: l)
  end.

Definition stuck s oref (k c : nat) : Prop :=
  exists o rs V, nth_error (h_opts s) oref = Some o /\ moments o /\ own s (o_wm o) rs k c V /\ o_bm o = matrix0.

Lemma oext_frame oref s s' o' : oext oref s s' o' -> frame nothing s s'. Proof. intros H; apply H. Qed.
Lemma bfail_stuck oref s s' o r2 c2 k c e : nth_error (h_opts s) oref = Some o -> moments o ->
  bfail oref s o r2 c2 k c e s' -> stuck s' oref k c.
Proof.
  intros Hl HM (_ & o' & rs & V & (_ & _ & HO) & HK & HB & HW). exists o', rs, V. split; [rewrite HO; eapply nth_upd_eq; eauto|].
  split; [|auto]. destruct HK as (K1 & K2 & _). unfold moments. rewrite K1, K2. exact HM.
Qed.

Lemma grads_frame s s' rw rb k c gs Gs : frame nothing s s' -> grads s rw rb k c gs Gs -> grads s' rw rb k c gs Gs.
Proof.
  intros HF. apply Forall2_imp. intros g G (r1 & r2 & H1 & H2 & H3). exists r1, r2.
  split; [|split; [|exact H3]]; eapply own_frame; eauto; intros ? _ [].
Qed.

Lemma stuck_attempts gs Gs : forall s oref w b rw rb k c, stuck s oref k c -> (1 <= k)%nat -> (1 <= c)%nat -> grads s rw rb k c gs Gs ->
  wp (attempts oref w b gs) s (fun l s' => l = repeat false (length gs) /\ frame nothing s s').
Proof.
  revert Gs; induction gs as [|(dw & db) gs IH]; intros Gs s oref w b rw rb k c HS Hk Hc HG; inversion HG; subst.
  - split; [reflexivity|apply frame_refl].
  - destruct y as [dW dB]. destruct H1 as (r1 & r2 & G1 & G2 & _). simpl in G1, G2.
    destruct HS as (o & rs & V & Hl & HM & HV & HB).
    pose proof (stuck_update oref s o w b dw db r1 r2 k c 1 c dW dB Hl G1 G2 Hk Hc (le_n _) Hc k c rs V HM HV HB eq_refl) as HF.
    simpl. apply wp_bind. eapply wp_conseq; [exact (wp_fails _ _ _ HF)|]. intros [x|e] s1 H1; [destruct H1|].
    assert (HF1 : frame nothing s s1) by (destruct H1 as (_ & o' & rs' & V' & HE & _); exact (oext_frame _ _ _ _ HE)).
    apply wp_bind. eapply wp_conseq; [eapply (IH l' s1 oref w b rw rb k c); [exact (bfail_stuck _ _ _ _ _ _ _ _ _ Hl HM H1)|auto|auto|eapply grads_frame; eauto]|].
    cbv beta. intros l s2 (-> & HF2). split; [reflexivity|]. eapply frame_trans; [exact HF1|exact HF2|tauto].
Qed.

Theorem bias_error_wedges s oref o ro po w b dw db rw rb rdw rdb k c r2 c2 W B dW dB gs Gs :
  nth_error (h_opts s) oref = Some o -> moments o -> oown s o ro k c po -> params s w b rw rb k c W B ->
  own s dw rdw k c dW -> own s db rdb r2 c2 dB -> (1 <= r2)%nat -> (1 <= c2)%nat -> (r2, c2) <> (1%nat, c) ->
  grads s rw rb k c gs Gs ->
  returns (attempts oref w b ((dw, db) :: gs)) s (fun l s' => l = repeat false (S (length gs)) /\ frame nothing s s' /\
    own s' w rw k c W /\ own s' b rb 1 c B).
Proof.
  intros Hl HM HO (P1 & P2 & _ & _ & _ & Hk & Hc) Hdw Hdb Hr2 Hc2 Hne HG. apply returns_wp.
  destruct (bad_update oref s o w b dw db rdw rdb k c r2 c2 dW dB Hl Hdw Hdb Hk Hc Hr2 Hc2 ro po k c rw rb W B HM HO P1 P2 Hk Hc) as (_ & HF).
  specialize (HF eq_refl Hne). simpl. apply wp_bind. eapply wp_conseq; [exact (wp_fails _ _ _ HF)|]. intros [x|e] s1 H1; [destruct H1|].
  assert (HF1 : frame nothing s s1) by (destruct H1 as (_ & o' & rs' & V' & HE & _); exact (oext_frame _ _ _ _ HE)).
  apply wp_bind. eapply wp_conseq; [eapply (stuck_attempts gs Gs s1 oref w b rw rb k c); [exact (bfail_stuck _ _ _ _ _ _ _ _ _ Hl HM H1)|auto|auto|eapply grads_frame; eauto]|].
  cbv beta. intros l s2 (-> & HF2).
  assert (HF12 : frame nothing s s2) by (eapply frame_trans; [exact HF1|exact HF2|tauto]).
  split; [reflexivity|]. split; [exact HF12|]. split; (eapply own_frame; [|exact HF12|intros ? _ []]); assumption.
Qed.

(** A weight error makes the optimizer forget its moments. *)
Lemma wfail_forget oref s s' o ro po r1 c1 k c e : nth_error (h_opts s) oref = Some o -> oown s o ro k c po ->
  wfail oref s o r1 c1 e s' -> exists o', nth_error (h_opts s') oref = Some o' /\ oown s' o' [] k c (new_po o' k c) /\
    po_sched (new_po o' k c) = po_sched po /\ o_iter o' = po_iter po /\ o_kind o' = po_kind po /\ o_usemom o' = po_usemom po /\
    o_momentum o' = po_mom po /\ o_eps o' = po_eps po /\ o_beta1 o' = po_b1 po /\ o_beta2 o' = po_b2 po.
Proof.
  intros Hl ((S1&S2&S3&S4&S5&S6&S7&S8&S9&S10&S11) & _) (_ & o' & (_ & _ & HO) & (K1&K2&K3&K4&K5&K6&K7&K8&K9&K10&K11) & HW).
  exists o'. split; [rewrite HO; eapply nth_upd_eq; eauto|]. split; [now apply new_oown|].
  split; [|repeat (split; [congruence|]); congruence].
  unfold po_sched. simpl. rewrite K10, K3, K4, <- S10, S2, S3. destruct (o_usedecay o) eqn:E; [reflexivity|]. rewrite K11 by reflexivity. now rewrite S8.
Qed.

Theorem weight_error_forgets s oref o ro po w b dw db rw rb rdw rdb k c r1 c1 r2 c2 W B dW dB gs Gs :
  nth_error (h_opts s) oref = Some o -> moments o -> oown s o ro k c po -> params s w b rw rb k c W B ->
  own s dw rdw r1 c1 dW -> own s db rdb r2 c2 dB -> (1 <= r1)%nat -> (1 <= c1)%nat -> (1 <= r2)%nat -> (1 <= c2)%nat -> (r1, c1) <> (k, c) ->
  grads s rw rb k c gs Gs ->
  returns (catch (Opt_Update oref w b dw db)) s (fun r s1 => r = inr (EMatDims (Z.of_nat r1) (Z.of_nat c1)) /\ frame nothing s s1 /\
    returns (updates oref w b gs) s1 (fun _ s' =>
      own s' w rw k c (mk k c (fun i j => match po_kind po with
        | SGD => fst (mom_run (po_mom po) (po_sched po) (po_iter po) (entry W i j) f0 (wgrad Gs i j))
        | Adam => fst (fst (adam_run (po_b1 po) (po_b2 po) (po_eps po) (po_sched po) (po_iter po) (entry W i j) f0 f0 (wgrad Gs i j))) end)) /\
      own s' b rb 1 c (mk 1 c (fun i j => match po_kind po with
        | SGD => fst (mom_run (po_mom po) (po_sched po) (po_iter po) (entry B i j) f0 (bgrad Gs i j))
        | Adam => fst (fst (adam_run (po_b1 po) (po_b2 po) (po_eps po) (po_sched po) (po_iter po) (entry B i j) f0 f0 (bgrad Gs i j))) end)))).
Proof.
  intros Hl HM HO HP Hdw Hdb Hr1 Hc1 Hr2 Hc2 Hne HG. apply returns_wp. destruct HP as (P1 & P2 & P3 & P4 & P5 & Hk & Hc).
  destruct (bad_update oref s o w b dw db rdw rdb r1 c1 r2 c2 dW dB Hl Hdw Hdb Hr1 Hc1 Hr2 Hc2 ro po k c rw rb W B HM HO P1 P2 Hk Hc) as (HF & _).
  specialize (HF Hne). eapply wp_conseq; [exact (wp_fails _ _ _ HF)|]. intros [x|e] s1 H1; [destruct H1|].
  assert (HF1 : frame nothing s s1) by (destruct H1 as (_ & o' & HE & _); exact (oext_frame _ _ _ _ HE)).
  split; [destruct H1 as (-> & _); reflexivity|]. split; [exact HF1|].
  destruct (wfail_forget _ _ _ _ _ _ _ _ _ _ _ Hl HO H1) as (o' & Hl' & HO' & ES & EI & EK & EU & EM & EE & E1 & E2).
  assert (HP1 : params s1 w b rw rb k c W B).
  { repeat split; auto; eapply own_frame; eauto; intros ? _ []. }
  pose proof (wp_updates gs Gs s1 oref o' [] (new_po o' k c) w b rw rb k c W B Hl' HO' HP1 (grads_frame _ _ _ _ _ _ _ _ HF1 HG)) as H.
  destruct (pupdates _ _ _ _ _ _) as [[po' W'] B'] eqn:E.
  assert (HM' : po_kind po = SGD -> po_usemom po = true).
  { intros HS. destruct HO as ((S1 & S) & _). destruct HM as [HM|HM]; [congruence|]. destruct S as (_&_&_&_&_&_&_&_&_&S). congruence. }
  apply returns_wp. eapply wp_conseq; [exact H|]. cbv beta. intros _ s' ((Q1 & Q2 & _) & _ & _).
  destruct (po_kind po) eqn:Ek.
  - destruct (run_mom Gs (new_po o' k c) k c W B po' W' B' EK (eq_trans EU (HM' eq_refl)) (own_shape _ _ _ _ _ _ P1) (own_shape _ _ _ _ _ _ P2)
      (zmat_shape _ _) (zmat_shape _ _) E) as (-> & -> & _).
    rewrite ES in Q1, Q2. simpl in Q1, Q2. rewrite EI, EM in Q1, Q2.
    split; [eapply own_mk_ext; [exact Q1|]|eapply own_mk_ext; [exact Q2|]]; intros i j Hi Hj; simpl; unfold zmat; now rewrite entry_mk.
  - destruct (run_adam Gs (new_po o' k c) k c W B po' W' B' EK (own_shape _ _ _ _ _ _ P1) (own_shape _ _ _ _ _ _ P2)
      (zmat_shape _ _) (zmat_shape _ _) (zmat_shape _ _) (zmat_shape _ _) E) as (-> & -> & _).
    rewrite ES in Q1, Q2. simpl in Q1, Q2. rewrite EI, E1, E2, EE in Q1, Q2.
    split; [eapply own_mk_ext; [exact Q1|]|eapply own_mk_ext; [exact Q2|]]; intros i j Hi Hj; simpl; unfold zmat; now rewrite !entry_mk.
Qed.
End WithNum.

(** ** A small concrete state: 1x1 parameters and gradients, a 2x1 and a 1x1 spare matrix *)
Section Concrete.
Context {K : Num}.
Definition oc_rng : rng K := MkRng (fun _ => f0) (fun _ => f0) (fun _ => 0) 0 0 0.
Definition oc_state (W B dW dB x : K) (o : optimizer K) : state K :=
  MkState [[W]; [B]; [dW]; [dB]; [x]; [x]] [[1]; [2]; [3]; [4]; [5; 6]]%nat [] [o] oc_rng true [].
Definition oc_w : matrix := MkMatrix 1 1 (MkSlice 1 0 1).
Definition oc_b : matrix := MkMatrix 1 1 (MkSlice 2 0 1).
Definition oc_dw : matrix := MkMatrix 1 1 (MkSlice 3 0 1).
Definition oc_db : matrix := MkMatrix 1 1 (MkSlice 4 0 1).
Definition oc_bad : matrix := MkMatrix 2 1 (MkSlice 5 0 2).
Ltac oc_own := unfold own; simpl; repeat (split; [reflexivity|]); split; [split; [reflexivity|repeat constructor]|];
  split; [eexists; split; [reflexivity|]; split; [simpl; lia|reflexivity]|repeat constructor].
Lemma oc_own_w W B dW dB x o : own (oc_state W B dW dB x o) oc_w [1]%nat 1 1 [[W]]. Proof. oc_own. Qed.
Lemma oc_own_b W B dW dB x o : own (oc_state W B dW dB x o) oc_b [2]%nat 1 1 [[B]]. Proof. oc_own. Qed.
Lemma oc_own_dw W B dW dB x o : own (oc_state W B dW dB x o) oc_dw [3]%nat 1 1 [[dW]]. Proof. oc_own. Qed.
Lemma oc_own_db W B dW dB x o : own (oc_state W B dW dB x o) oc_db [4]%nat 1 1 [[dB]]. Proof. oc_own. Qed.
Lemma oc_own_bad W B dW dB x o : own (oc_state W B dW dB x o) oc_bad [5;6]%nat 2 1 [[x];[x]]. Proof. oc_own. Qed.
Lemma oc_params W B dW dB x o : params (oc_state W B dW dB x o) oc_w oc_b [1]%nat [2]%nat 1 1 [[W]] [[B]].
Proof.
  split; [apply oc_own_w|]. split; [apply oc_own_b|]. split; [repeat constructor; simpl; lia|]. split; [repeat constructor; simpl; lia|].
  split; [unfold disjoint; simpl; lia|lia].
Qed.
Lemma oc_grads W B dW dB x o n : grads (oc_state W B dW dB x o) [1]%nat [2]%nat 1 1 (repeat (oc_dw, oc_db) n) (repeat ([[dW]], [[dB]]) n).
Proof.
  induction n; constructor; auto. exists [3]%nat, [4]%nat. split; [apply oc_own_dw|]. split; [apply oc_own_db|]. unfold disjoint; simpl; lia.
Qed.
End Concrete.

Definition oq_sgd : optimizer QNum := MkOpt (K := QNum) SGD (1#2)%Q 0%Q 1%Q 0%Q 0%Q 0%Q (1#2)%Q 0 matrix0 matrix0 matrix0 matrix0 false true.
Definition oq_state : state QNum := oc_state (K := QNum) 1%Q 2%Q 6%Q 4%Q 3%Q oq_sgd.
Lemma oq_new : NewSGDOptimizer (K := QNum) (1#2)%Q 0%Q 1%Q oq_state = (Ret oq_sgd, oq_state). Proof. reflexivity. Qed.

Lemma failed_update_not_atomic : exists (s : state QNum) oref w b dw db bad rw rb,
  (* two good calls succeed *)
  returns (attempts oref w b [(dw, db); (dw, db)]) s (fun l s' => l = [true; true] /\ own s' w rw 1 1 [[(-8)%Q]] /\ own s' b rb 1 1 [[(-4)%Q]]) /\
  (* with a wrongly shaped weight gradient in between, the parameters differ *)
  returns (attempts oref w b [(dw, db); (bad, db); (dw, db)]) s (fun l s' => l = [true; false; true] /\ own s' w rw 1 1 [[(-5)%Q]]) /\
  (* after a wrongly shaped bias gradient no good call ever succeeds *)
  (forall n, returns (attempts oref w b ((dw, bad) :: repeat (dw, db) n)) s (fun l _ => l = false :: repeat false n)).
Proof.
  exists oq_state, 0%nat, oc_w, oc_b, oc_dw, oc_db, oc_bad, [1]%nat, [2]%nat. split; [|split].
  - assert (H : match attempts 0 oc_w oc_b [(oc_dw, oc_db); (oc_dw, oc_db)] oq_state with
       (Ret l, s') => l = [true; true] /\ row_at s' 1 = Some [(-8)%Q] /\ row_at s' 2 = Some [(-4)%Q] /\ out_at s' 1 = Some [1]%nat /\ out_at s' 2 = Some [2]%nat | _ => False end)
      by (vm_compute; repeat split; reflexivity).
    destruct (attempts _ _ _ _ _) as [[l|?|?] s'] eqn:E; try contradiction. destruct H as (-> & R1 & R2 & O1 & O2).
    exists [true; true], s'. split; [exact E|]. split; [reflexivity|].
    split; (unfold own; simpl; repeat (split; [reflexivity|]); split; [split; [reflexivity|repeat constructor]|];
      split; [eexists; split; [first [exact O1|exact O2]|]; split; [simpl; lia|reflexivity]|constructor; [assumption|constructor]]).
  - assert (H : match attempts 0 oc_w oc_b [(oc_dw, oc_db); (oc_bad, oc_db); (oc_dw, oc_db)] oq_state with
       (Ret l, s') => l = [true; false; true] /\ row_at s' 1 = Some [(-5)%Q] /\ out_at s' 1 = Some [1]%nat | _ => False end)
      by (vm_compute; repeat split; reflexivity).
    destruct (attempts _ _ _ _ _) as [[l|?|?] s'] eqn:E; try contradiction. destruct H as (-> & R1 & O1).
    exists [true; false; true], s'. split; [exact E|]. split; [reflexivity|].
    unfold own; simpl; repeat (split; [reflexivity|]); split; [split; [reflexivity|repeat constructor]|];
      split; [eexists; split; [exact O1|]; split; [simpl; lia|reflexivity]|constructor; [assumption|constructor]].
  - intros n. destruct (bias_error_wedges (K := QNum) oq_state 0 oq_sgd [] (new_po oq_sgd 1 1) oc_w oc_b oc_dw oc_bad [1]%nat [2]%nat [3]%nat [5;6]%nat 1 1 2 1
      [[1%Q]] [[2%Q]] [[6%Q]] [[3%Q];[3%Q]] (repeat (oc_dw, oc_db) n) (repeat ([[6%Q]], [[4%Q]]) n)) as (l & s' & E & H & _).
    + reflexivity. + right; reflexivity. + apply new_oown; reflexivity. + apply oc_params. + apply oc_own_dw. + apply oc_own_bad.
    + lia. + lia. + congruence. + apply oc_grads.
    + exists l, s'. split; [exact E|]. rewrite H. now rewrite repeat_length.
Qed.

Lemma oadam_new : exists o, NewAdamOptimizer (K := RNum) 1%R 0%R (1/10)%R (9/10)%R (999/1000)%R (oc_state (K := RNum) 0%R 0%R 1%R 1%R 0%R (MkOpt (K := RNum) Adam 1%R 0%R 0%R (1/10)%R (9/10)%R (999/1000)%R 1%R 0 matrix0 matrix0 matrix0 matrix0 (negb (r_eqb 0 0)) false)) =
  (Ret o, oc_state (K := RNum) 0%R 0%R 1%R 1%R 0%R o).
Proof.
  eexists. unfold NewAdamOptimizer. simpl. replace (r_leb 1 0) with false by (symmetry; apply r_leb_false; lra).
  replace (r_ltb 0 0) with false by (symmetry; apply r_ltb_false; lra). reflexivity.
Qed.

Open Scope R_scope.
Lemma adam_not_standard : exists (s : state RNum) o oref w b rw rb (W B : rpm) gs Gs lr eps b1 b2,
  NewAdamOptimizer (K := RNum) lr 0 eps b1 b2 s = (Ret o, s) /\ nth_error (h_opts s) oref = Some o /\
  0 < b1 < 1 /\ 0 < b2 < 1 /\ 0 < eps /\
  params s w b rw rb 1 1 W B /\ grads s rw rb 1 1 gs Gs /\ length Gs = 1%nat /\
  standard_adam lr 0 eps b1 b2 1 (wgrad Gs 0 0) = 10 / 11 /\
  returns (updates oref w b gs) s (fun _ s' => exists W', own s' w rw 1 1 W' /\ entry W' 0 0 = entry W 0 0 - 5).
Proof.
  destruct oadam_new as (o & Ho). match type of Ho with NewAdamOptimizer _ _ _ _ _ ?s = _ => set (s0 := s) in * end.
  assert (Es : s0 = oc_state (K := RNum) 0 0 1 1 0 o).
  { pose proof (NewAdam_eq (K := RNum) 1 0 (1/10) (9/10) (999/1000) s0 o) as X. unfold s0. f_equal.
    unfold NewAdamOptimizer in Ho. simpl in Ho. replace (r_leb 1 0) with false in Ho by (symmetry; apply r_leb_false; lra).
    replace (r_ltb 0 0) with false in Ho by (symmetry; apply r_ltb_false; lra). unfold ret in Ho. injection Ho as E _. exact E. }
  rewrite Es in Ho.
  exists (oc_state (K := RNum) 0 0 1 1 0 o), o, 0%nat, oc_w, oc_b, [1]%nat, [2]%nat, [[0]], [[0]], [(oc_dw, oc_db)], [([[1]], [[1]])], 1, (1/10), (9/10), (999/1000).
  assert (HP := oc_params (K := RNum) 0 0 1 1 0 o). assert (HG := oc_grads (K := RNum) 0 0 1 1 0 o 1). simpl in HG.
  split; [exact Ho|]. split; [reflexivity|]. repeat (split; [lra|]). split; [exact HP|]. split; [exact HG|]. split; [reflexivity|]. split.
  - unfold standard_adam. rewrite rsum_1, !rsum_1. simpl. unfold entry; simpl.
    replace ((1 - 999 / 1000) * (1 * (1 * (1 * 1))) / (1 - 999 / 1000 * 1)) with 1 by lra. rewrite sqrt_1. lra.
  - destruct (adam_exact 1 0 (1/10) (9/10) (999/1000) _ o 0 oc_w oc_b [1]%nat [2]%nat 1 1 _ _ _ _ Ho eq_refl HP HG) as (u & s' & E & Q1 & _).
    exists u, s'. split; [exact E|]. eexists. split; [exact Q1|]. rewrite entry_mk by lia. f_equal.
    unfold adam_total. simpl length. rewrite rsum_1, !rsum_1. simpl. unfold entry; simpl.
    replace ((1 - 999 / 1000) * (1 * (1 * (1 * 1))) / (1 - 9 / 10 * 1)) with ((1/10) * (1/10)) by lra. rewrite sqrt_square by lra. lra.
Qed.
