(** * MomentumFit: Fit with momentum or a decaying learning rate on one linear or softmax layer. *)
From Coq Require Import String ZArith List Bool Arith Lia Reals Lra Psatz.
From Coquelicot Require Import Coquelicot.
From Verif Require Import Num NumR Heap Spec Matrix Loss Network Optimizers ModelGo PureSpec Repr HeapLemmas LoopLemmas MatrixFacts MiscFacts RSum LayerFacts LayerReal GradSpec Grad LossProofs LossReal LossCode OptSpec ModelSpec ModelProofs FitProofs FitFacts NetGradSpec NetGrad NetGradCode Converge ConvergeFit Momentum RateSpec.
Import ListNotations.
Open Scope R_scope.

Lemma problem_pair k p n o Y L : convex_problem k (p_kind p) n o Y L -> convex_pair k p /\ (k = CE -> one_hot n o Y) /\ L = smoothness k n o.
Proof.
  intros [(-> & H & ->)|(-> & H & H1 & ->)]; (split; [|split]).
  - now left. - discriminate. - reflexivity. - now right. - auto. - reflexivity.
Qed.
(** ** One batch, any optimizer *)
Definition one_grad (k : losskind) (r o : nat) (X Y : rpm) (p : player RNum) : rpm * rpm := grad r (p_in p) o X (one_gr k r o Y p) (wb p).
Lemma one_batch_any k o p po (X Y : rpm) U q r : convex_pair k p -> p_out p = o -> length X = r ->
  pbatch (K := RNum) k o [(p, po)] X Y U q = [tstep (p, po) (one_grad k r o X Y p)].
Proof.
  intros HK Ho HX. unfold pbatch. cbn [map fst]. rewrite HX, one_backprop by auto. cbn [combine map fst snd].
  unfold one_grad, grad, dw, db, wb, paffine. cbn [fst snd]. subst o. reflexivity.
Qed.
(** Training is the iteration of one function of the layer and its optimizer. *)
Definition opt_step (k : losskind) (r o : nat) (X Y : rpm) (t : player RNum * popt RNum) : player RNum * popt RNum := tstep t (one_grad k r o X Y (fst t)).
Lemma opt_step_like k r o X Y t : p_kind (fst (opt_step k r o X Y t)) = p_kind (fst t) /\ p_in (fst (opt_step k r o X Y t)) = p_in (fst t) /\ p_out (fst (opt_step k r o X Y t)) = p_out (fst t).
Proof. unfold opt_step, tstep. destruct (pupdate _ _ _ _ _ _ _) as ((? & ?) & ?). cbn. auto. Qed.
Lemma one_epochs_any k o (X Y : rpm) U r : length X = r -> forall n t q, convex_pair k (fst t) -> p_out (fst t) = o ->
  fst (ptrain_on (K := RNum) k o [t] U q (repeat (X, Y) n)) = [Nat.iter n (opt_step k r o X Y) t].
Proof.
  intros HX. induction n as [|n IH]; intros t q HK Ho; [reflexivity|]. cbn [repeat ptrain_on].
  destruct t as (p, po). rewrite (one_batch_any k o p po X Y U q r HK Ho HX). fold (opt_step k r o X Y (p, po)).
  destruct (opt_step_like k r o X Y (p, po)) as (E1 & E2 & E3). cbn [fst] in *.
  rewrite (IH (opt_step k r o X Y (p, po))); [now rewrite <- iter_shift| |congruence]. unfold convex_pair in *. now rewrite E1.
Qed.
Lemma iter_like k r o X Y t n : p_kind (fst (Nat.iter n (opt_step k r o X Y) t)) = p_kind (fst t) /\ p_in (fst (Nat.iter n (opt_step k r o X Y) t)) = p_in (fst t) /\ p_out (fst (Nat.iter n (opt_step k r o X Y) t)) = p_out (fst t).
Proof.
  induction n as [|n (H1 & H2 & H3)]; [auto|]. cbn [Nat.iter nat_rect]. destruct (opt_step_like k r o X Y (Nat.iter n (opt_step k r o X Y) t)) as (E1 & E2 & E3).
  rewrite <- H1, <- H2, <- H3. auto.
Qed.
(** ** Fit with whole batches, any optimizer *)
Definition loss_of (k : losskind) (n o : nat) (Y : rpm) : rpm -> R := match k with MSE => msePhi n o Y | _ => cePhi n o Y end.
Lemma fit_iterates s m e x i o k mx rsx y rsy n (X Y : rpm) epochs bs xv yv :
  (0 <= bs)%Z -> (bs = 0 \/ Z.of_nat n <= bs)%Z -> (Z.of_nat n + bs <= 2 ^ 52)%Z -> (1 <= n)%nat -> (1 <= epochs)%Z ->
  trainable s m [e] [x] i o k -> data_ok s [e] mx rsx y rsy n i o X Y -> convex_pair k (e_p e) ->
  returns (Fit m mx y epochs bs xv yv 0) s (fun _ s' => exists e' x',
    trainable s' m [e'] [x'] i o k /\ same_place e e' /\ p_in (e_p e) = i /\ p_out (e_p e) = o /\ (1 <= o)%nat /\
    (e_p e', x_po x') = Nat.iter (Z.to_nat epochs) (opt_step k n o X Y) (e_p e, x_po x)).
Proof.
  intros Hb Hb2 H52 Hn He HT HD HK.
  destruct (fit_trains s m [e] [x] i o k mx rsx y rsy n X Y epochs bs xv yv RNum_min_faithful Hb H52 Hn HT HD) as ([] & s' & E & nn & _ & (es' & xs' & HT' & HPl & HP2 & Htr & _) & _).
  exists tt, s'. split; [exact E|].
  inversion HPl as [|e0 e' ? l1 He' Hn1]; subst. inversion Hn1; subst. inversion HP2 as [|x0 x' ? l2 Hx' Hn2]; subst. inversion Hn2; subst.
  exists e', x'. split; [exact HT'|]. split; [exact He'|].
  destruct HT as ((_ & _ & _ & _ & Hch & Hok) & _). cbn [net map chain] in Hch. destruct Hch as (Hpi & Hpo).
  assert (Ho1 : (1 <= o)%nat). { inversion Hok as [|? ? Hlok _]; subst. destruct Hlok as (l & _ & HL). destruct HL as (_ & _ & _ & _ & _ & _ & Ho & _). exact Ho. }
  split; [exact Hpi|]. split; [exact Hpo|]. split; [exact Ho1|].
  destruct HD as (HX & HY & _ & _). pose proof (own_shape _ _ _ _ _ _ HX) as (HXl & _). pose proof (own_shape _ _ _ _ _ _ HY) as (HYl & _).
  unfold epochs_of in Htr.
  rewrite !chunks_whole in Htr; cycle 1.
  1,3: destruct X, Y; simpl in *; try discriminate; lia.
  1,2: unfold batch_rows; destruct (Z.eqb_spec bs 0); lia.
  cbn [combine] in Htr. rewrite concat_repeat1 in Htr.
  pose proof (eq_trans Htr (one_epochs_any k o X Y (r_uni (h_rng s)) n HXl (Z.to_nat epochs) (e_p e, x_po x) (r_upos (h_rng s)) HK Hpo)) as Hep.
  injection Hep as Hep. exact Hep.
Qed.
(** What makes the objective convex and smooth. *)
Lemma cePhi_pos r c Y Z : (1 <= r)%nat -> one_hot r c Y -> 0 <= cePhi r c Y Z.
Proof.
  intros Hr (lab & Hlab). assert (Hc : (1 <= c)%nat) by (destruct (Hlab 0%nat ltac:(lia)) as (? & _); lia).
  rewrite (cePhi_eq r c Y Hc lab Z Hlab). apply rsum_nonneg. intros i Hi. destruct (Hlab i Hi) as (Hl & _).
  apply Rmult_le_pos; [|left; apply Rinv_0_lt_compat, lt_0_INR; lia]. unfold lse.
  assert (H : exp (entry Z i (lab i)) <= rsum c (fun j => exp (entry Z i j))).
  { apply (rsum_term_le c (fun j => exp (entry Z i j)) (lab i)); [intros; left; apply exp_pos|exact Hl]. }
  assert (ln (exp (entry Z i (lab i))) <= ln (rsum c (fun j => exp (entry Z i j)))).
  { destruct H as [H|H]; [left; apply ln_increasing; [apply exp_pos|exact H]|right; now rewrite H]. }
  rewrite ln_exp in H0. lra.
Qed.
Lemma msePhi_pos r c Y Z : 0 <= msePhi r c Y Z.
Proof.
  unfold msePhi. apply rsum_nonneg. intros i Hi. apply Rmult_le_pos; [apply rsum_nonneg; intros; apply pow2_ge_0|].
  destruct c; [simpl; rewrite Rinv_0; lra|]. left. apply Rinv_0_lt_compat, lt_0_INR. lia.
Qed.

Lemma loss_facts k n o Y p : (1 <= n)%nat -> (1 <= o)%nat -> convex_pair k p -> (k = CE -> one_hot n o Y) ->
  (forall Z Z', loss_of k n o Y Z + inner n o (one_gr k n o Y p Z) (delta n o Z Z') <= loss_of k n o Y Z') /\
  (forall Z Z', loss_of k n o Y Z' <= loss_of k n o Y Z + inner n o (one_gr k n o Y p Z) (delta n o Z Z') + smoothness k n o / 2 * sqnorm n o (delta n o Z Z')) /\
  (forall Z, 0 <= loss_of k n o Y Z) /\ 0 <= smoothness k n o.
Proof.
  intros Hn Ho HK Hone. split; [|split; [|split]].
  - destruct HK as [(-> & _)|(-> & _)]; intros Z Z'; [apply mse_convex; auto|apply ce_convex; auto].
  - destruct HK as [(-> & _)|(-> & _)]; intros Z Z'; [apply mse_smooth; auto|apply ce_smooth; auto].
  - destruct HK as [(-> & _)|(-> & _)]; intros Z; [apply msePhi_pos|apply cePhi_pos; auto].
  - assert (0 < INR n) by (apply lt_0_INR; lia). assert (0 < INR o) by (apply lt_0_INR; lia).
    destruct k; simpl; (apply Rmult_le_pos; [lra|left; now apply Rinv_0_lt_compat]).
Qed.

(** ** Momentum *)
Definition velocities (po : popt RNum) : rpm * rpm := (po_wm po, po_bm po).
Definition mom_keep (lr mu : R) (po : popt RNum) : Prop := po_kind po = SGD /\ po_usedecay po = false /\ po_usemom po = true /\ po_rate po = lr /\ po_mom po = mu.
Lemma mom_v r c (M D : rpm) lr mu : mk (K := RNum) r c (fun i j => entry M i j * mu - entry D i j * lr) = mk (K := RNum) r c (fun i j => mu * entry M i j + - lr * entry D i j).
Proof. apply mk_ext. intros i j Hi Hj. toR. ring. Qed.
Lemma mom_w r c (W M D : rpm) lr mu : mk (K := RNum) r c (fun i j => entry W i j + entry (mk (K := RNum) r c (fun i j => entry M i j * mu - entry D i j * lr)) i j) =
  mk (K := RNum) r c (fun i j => 1 * entry W i j + 1 * entry (mk (K := RNum) r c (fun i j => mu * entry M i j + - lr * entry D i j)) i j).
Proof. rewrite mom_v. apply mk_ext. intros i j Hi Hj. toR. ring. Qed.
Lemma mom_tstep lr mu r X Y k o p po : mom_keep lr mu po -> p_out p = o ->
  let t := opt_step k r o X Y (p, po) in
  (wb (fst t), velocities (snd t)) = hb r (p_in p) o X (one_gr k r o Y p) lr mu (wb p, velocities po) /\ mom_keep lr mu (snd t).
Proof.
  intros (H1 & H2 & H3 & H4 & H5) Ho. cbv zeta. unfold opt_step, tstep, pupdate, pupd1. cbn [fst snd]. rewrite H1, H3. cbn [fst snd].
  split.
  - unfold hb, wb, velocities, po_after. cbn [fst snd p_w p_b po_wm po_bm]. unfold lin. cbn [fst snd].
    unfold next_rate. rewrite H2, H4, H5, Ho. unfold pmap2, vel1. cbn [fst snd].
    apply f_equal2; apply f_equal2; first [apply mom_w|apply mom_v].
  - unfold mom_keep, po_after, next_rate. cbn. rewrite H2. auto.
Qed.
Lemma mom_iter lr mu r X Y k o p po n : mom_keep lr mu po -> p_out p = o ->
  let t := Nat.iter n (opt_step k r o X Y) (p, po) in
  (wb (fst t), velocities (snd t)) = Nat.iter n (hb r (p_in p) o X (one_gr k r o Y p) lr mu) (wb p, velocities po) /\ mom_keep lr mu (snd t).
Proof.
  intros HM Ho. induction n as [|n (IH & HK)]; [split; [reflexivity|exact HM]|]. cbv zeta. cbn [Nat.iter nat_rect].
  destruct (iter_like k r o X Y (p, po) n) as (E1 & E2 & E3). cbn [fst] in *.
  change (nat_rect _ (p, po) (fun _ => opt_step k r o X Y) n) with (Nat.iter n (opt_step k r o X Y) (p, po)).
  destruct (Nat.iter n (opt_step k r o X Y) (p, po)) as (pn, pon) eqn:En. cbn [fst snd] in *.
  destruct (mom_tstep lr mu r X Y k o pn pon HK ltac:(congruence)) as (A & B). split; [|exact B]. rewrite A, E2.
  replace (one_gr k r o Y pn) with (one_gr k r o Y p) by (destruct k; reflexivity). now rewrite IH.
Qed.
Lemma dist_ip i o (w v : rpm * rpm) : ip i o (lin i o 1 w (-1) v) (lin i o 1 w (-1) v) = sqdist i o (fst w) (fst v) + sqdist 1 o (snd w) (snd v).
Proof.
  rewrite ip_split. unfold lin. cbn [fst snd]. unfold sqnorm, sqdist. f_equal; apply rsum_ext; intros a Ha; apply rsum_ext; intros b Hb; rewrite entry_mk by auto; toR; f_equal; ring.
Qed.
Lemma fit_momentum s m e x i o k mx rsx y rsy n (X Y : rpm) epochs bs xv yv lr mu L :
  (0 <= bs)%Z -> (bs = 0 \/ Z.of_nat n <= bs)%Z -> (Z.of_nat n + bs <= 2 ^ 52)%Z -> (1 <= n)%nat -> (1 <= epochs)%Z ->
  trainable s m [e] [x] i o k -> data_ok s [e] mx rsx y rsy n i o X Y -> convex_problem k (p_kind (e_p e)) n o Y L ->
  fresh_momentum lr mu i o (x_po x) -> 0 < lr -> 0 <= mu < 1 -> lr * L * (sqnorm n i X + INR n) <= 1 - mu ->
  returns (Fit m mx y epochs bs xv yv 0) s (fun _ s' => exists e' x',
    trainable s' m [e'] [x'] i o k /\ same_place e e' /\
    objective k n o Y (pnet [e_p e'] n X) <= objective k n o Y (pnet [e_p e] n X) /\
    forall W B, objective k n o Y (pnet [e_p e'] n X) <= objective k n o Y (pnet [with_params (e_p e) W B] n X) +
      ((1 - mu) * (sqdist i o (p_w (e_p e)) W + sqdist 1 o (p_b (e_p e)) B) / (2 * lr) +
       6 * objective k n o Y (pnet [e_p e] n X) / (1 - mu) ^ 2) / IZR epochs).
Proof.
  intros Hb Hb2 H52 Hn He HT HD HC HP Hlr Hmu Hrate. destruct (problem_pair k (e_p e) n o Y L HC) as (HK & Hone & ->).
  destruct (fit_iterates s m e x i o k mx rsx y rsy n X Y epochs bs xv yv Hb Hb2 H52 Hn He HT HD HK) as ([] & s' & E & e' & x' & HT' & HPl & Hpi & Hpo & Ho & Hit).
  exists tt, s'. split; [exact E|]. exists e', x'. split; [exact HT'|]. split; [exact HPl|].
  destruct (loss_facts k n o Y (e_p e) Hn Ho HK Hone) as (F1 & F2 & F3 & F4).
  destruct HP as (P1 & P2 & P3 & P4 & P5 & P6 & P7).
  destruct (mom_iter lr mu n X Y k o (e_p e) (x_po x) (Z.to_nat epochs) ltac:(repeat split; auto) Hpo) as (HI & _). cbv zeta in HI.
  destruct (iter_like k n o X Y (e_p e, x_po x) (Z.to_nat epochs)) as (E1 & E2 & E3).
  rewrite <- Hit in HI, E1, E2, E3. cbn [fst snd] in *.
  assert (HK' : convex_pair k (e_p e')) by (unfold convex_pair; rewrite E1; exact HK).
  rewrite (one_objective k n o X Y (e_p e')), (one_objective k n o X Y (e_p e)), E2, Hpi by (auto; congruence).
  fold (loss_of k n o Y). rewrite Hpi in HI.
  assert (HV : velocities (x_po x) = still i o). { unfold velocities, still. rewrite P6, P7. reflexivity. }
  rewrite HV in HI. apply (f_equal fst) in HI. cbn [fst] in HI. rewrite HI.
  pose proof (fun V => run_bound n i o X (loss_of k n o Y) (one_gr k n o Y (e_p e)) (smoothness k n o) lr mu F1 F2 F3 Hlr Hmu Hrate F4 (wb (e_p e)) V (Z.to_nat epochs)) as HR.
  split; [exact (proj1 (HR (wb (e_p e))))|]. intros W B. destruct (HR (W, B)) as (_ & H). rewrite dist_ip in H. cbn [fst snd wb] in H.
  rewrite (one_objective k n o X Y (with_params (e_p e) W B)) by auto. fold (loss_of k n o Y). simpl p_in. rewrite Hpi. change (wb (with_params (e_p e) W B)) with (W, B).
  replace (IZR epochs) with (INR (Z.to_nat epochs)) by (rewrite INR_IZR_INZ; f_equal; lia).
  assert (HN : 0 < INR (Z.to_nat epochs)) by (apply lt_0_INR; lia).
  apply (Rmult_le_reg_l (INR (Z.to_nat epochs))); [exact HN|]. rewrite Rmult_plus_distr_l.
  match goal with |- _ <= _ + _ * (?q / _) => replace (INR (Z.to_nat epochs) * (q / INR (Z.to_nat epochs))) with q by (field; lra) end.
  lra.
Qed.

(** ** Decay *)
Lemma dec_w r c (W D : rpm) lr dc t : mk (K := RNum) r c (fun i j => entry W i j - entry D i j * (lr * (1 / (1 + dc * IZR (Z.of_nat t))))) =
  mk (K := RNum) r c (fun i j => entry W i j - lr / (1 + dc * INR t) * entry D i j).
Proof. apply mk_ext. intros i j Hi Hj. rewrite <- INR_IZR_INZ. unfold Rdiv. toR. ring. Qed.
Lemma decay_tstep lr dc t r X Y k o p po : decaying_sgd lr dc t po -> p_out p = o ->
  wb (fst (opt_step k r o X Y (p, po))) = gd r (p_in p) o X (one_gr k r o Y p) (lr / (1 + dc * INR t)) (wb p) /\ decaying_sgd lr dc (S t) (snd (opt_step k r o X Y (p, po))).
Proof.
  intros (H1 & H2 & H3 & H4 & H5 & H6) Ho. unfold opt_step, tstep, pupdate, pupd1. cbn [fst snd]. rewrite H1, H3. cbn [fst snd].
  split.
  - unfold gd, wb. cbn [fst snd p_w p_b]. unfold next_rate, rate_at. rewrite H2, H4, H5, H6, Ho. unfold pmap2, sgd1. cbn [fst snd].
    apply f_equal2; apply dec_w.
  - unfold decaying_sgd, po_after. cbn. repeat split; auto. rewrite H6. lia.
Qed.
Lemma decay_run lr dc t k n i o (X Y : rpm) p po V : (1 <= n)%nat -> (1 <= o)%nat -> convex_pair k p -> (k = CE -> one_hot n o Y) -> p_in p = i -> p_out p = o ->
  decaying_sgd lr dc t po -> 0 < lr -> 0 <= dc -> lr * smoothness k n o * (sqnorm n i X + INR n) <= 1 -> forall u,
  let w := wb (fst (Nat.iter u (opt_step k n o X Y) (p, po))) in let f := obj n i o X (loss_of k n o Y) in
  decaying_sgd lr dc (t + u) (snd (Nat.iter u (opt_step k n o X Y) (p, po))) /\
  f w <= f (wb p) /\ total_rate lr dc t u * (f w - f V) + dist i o w V / 2 <= dist i o (wb p) V / 2.
Proof.
  intros Hn Ho HK Hone Hi Hpo HP Hlr Hdc Hrate. destruct (loss_facts k n o Y p Hn Ho HK Hone) as (F1 & F2 & F3 & F4).
  induction u as [|u (IH1 & IH2 & IH3)]; cbv zeta in *.
  - split; [rewrite Nat.add_0_r; exact HP|]. split; [simpl; lra|]. unfold total_rate. rewrite rsum_0. simpl. lra.
  - cbn [Nat.iter nat_rect]. change (nat_rect _ (p, po) (fun _ => opt_step k n o X Y) u) with (Nat.iter u (opt_step k n o X Y) (p, po)).
    destruct (iter_like k n o X Y (p, po) u) as (E1 & E2 & E3). cbn [fst] in *.
    destruct (Nat.iter u (opt_step k n o X Y) (p, po)) as (pn, pon). cbn [fst snd] in *.
    destruct (decay_tstep lr dc (t + u) n X Y k o pn pon IH1 ltac:(congruence)) as (A & B). rewrite A. split; [rewrite <- plus_n_Sm; exact B|].
    rewrite E2, Hi. replace (one_gr k n o Y pn) with (one_gr k n o Y p) by (destruct k; reflexivity).
    unfold total_rate in *. rewrite rsum_S. set (rho := lr / (1 + dc * INR (t + u))).
    assert (H1 : 1 <= 1 + dc * INR (t + u)). { pose proof (pos_INR (t + u)). nra. }
    assert (Hr0 : 0 < rho) by (apply Rdiv_lt_0_compat; lra).
    assert (Hr1 : rho <= lr). { unfold rho. apply (Rmult_le_reg_r (1 + dc * INR (t + u))); [lra|]. unfold Rdiv. rewrite Rmult_assoc, Rinv_l by lra. nra. }
    assert (Hr2 : rho * smoothness k n o * (sqnorm n i X + INR n) <= 1).
    { eapply Rle_trans; [|exact Hrate]. rewrite !Rmult_assoc. apply Rmult_le_compat_r; [|exact Hr1]. apply Rmult_le_pos; [exact F4|]. pose proof (sqnorm_nonneg n i X). pose proof (pos_INR n). lra. }
    pose proof (step_falls n i o X (loss_of k n o Y) (one_gr k n o Y p) (smoothness k n o) rho F2 Hr0 Hr2 F4 (wb pn)) as S1.
    pose proof (step_compare n i o X (loss_of k n o Y) (one_gr k n o Y p) (smoothness k n o) rho F1 F2 Hr0 Hr2 F4 (wb pn) V) as S2.
    pose proof (gnorm_nonneg n i o X (one_gr k n o Y p) (wb pn)) as S3.
    set (w' := gd n i o X (one_gr k n o Y p) rho (wb pn)) in *. set (f := obj n i o X (loss_of k n o Y)) in *.
    assert (Hd : f w' <= f (wb pn)) by nra. split; [lra|].
    set (T := rsum u _) in *. assert (HT : 0 <= T).
    { apply rsum_nonneg. intros a Ha. left. apply Rdiv_lt_0_compat; [exact Hlr|]. pose proof (pos_INR (t + a)). nra. }
    assert (S4 : rho * f w' <= rho * f V + (dist i o (wb pn) V - dist i o w' V) / 2).
    { replace (rho * f V + (dist i o (wb pn) V - dist i o w' V) / 2) with (rho * (f V + (dist i o (wb pn) V - dist i o w' V) / (2 * rho))) by (field; lra).
      apply Rmult_le_compat_l; lra. }
    assert (T * f w' <= T * f (wb pn)) by (apply Rmult_le_compat_l; lra). lra.
Qed.
Lemma fit_decay s m e x i o k mx rsx y rsy n (X Y : rpm) epochs bs xv yv lr dc t L :
  (0 <= bs)%Z -> (bs = 0 \/ Z.of_nat n <= bs)%Z -> (Z.of_nat n + bs <= 2 ^ 52)%Z -> (1 <= n)%nat -> (1 <= epochs)%Z ->
  trainable s m [e] [x] i o k -> data_ok s [e] mx rsx y rsy n i o X Y -> convex_problem k (p_kind (e_p e)) n o Y L ->
  decaying_sgd lr dc t (x_po x) -> 0 < lr -> 0 <= dc -> lr * L * (sqnorm n i X + INR n) <= 1 ->
  returns (Fit m mx y epochs bs xv yv 0) s (fun _ s' => exists e' x',
    trainable s' m [e'] [x'] i o k /\ same_place e e' /\ decaying_sgd lr dc (t + Z.to_nat epochs) (x_po x') /\
    objective k n o Y (pnet [e_p e'] n X) <= objective k n o Y (pnet [e_p e] n X) /\
    forall W B, objective k n o Y (pnet [e_p e'] n X) <= objective k n o Y (pnet [with_params (e_p e) W B] n X) +
      (sqdist i o (p_w (e_p e)) W + sqdist 1 o (p_b (e_p e)) B) / (2 * total_rate lr dc t (Z.to_nat epochs))).
Proof.
  intros Hb Hb2 H52 Hn He HT HD HC HP Hlr Hdc Hrate. destruct (problem_pair k (e_p e) n o Y L HC) as (HK & Hone & ->).
  destruct (fit_iterates s m e x i o k mx rsx y rsy n X Y epochs bs xv yv Hb Hb2 H52 Hn He HT HD HK) as ([] & s' & E & e' & x' & HT' & HPl & Hpi & Hpo & Ho & Hit).
  exists tt, s'. split; [exact E|]. exists e', x'. split; [exact HT'|]. split; [exact HPl|].
  pose proof (fun V => decay_run lr dc t k n i o X Y (e_p e) (x_po x) V Hn Ho HK Hone Hpi Hpo HP Hlr Hdc Hrate (Z.to_nat epochs)) as HR. cbv zeta in HR.
  destruct (iter_like k n o X Y (e_p e, x_po x) (Z.to_nat epochs)) as (E1 & E2 & E3).
  rewrite <- Hit in HR, E1, E2, E3. cbn [fst snd] in *. split; [exact (proj1 (HR (wb (e_p e))))|].
  assert (HK' : convex_pair k (e_p e')) by (unfold convex_pair; rewrite E1; exact HK).
  rewrite (one_objective k n o X Y (e_p e')), (one_objective k n o X Y (e_p e)), E2, Hpi by (auto; congruence).
  fold (loss_of k n o Y). split; [exact (proj1 (proj2 (HR (wb (e_p e)))))|]. intros W B. destruct (HR (W, B)) as (_ & _ & H).
  rewrite (one_objective k n o X Y (with_params (e_p e) W B)) by auto. fold (loss_of k n o Y). simpl p_in. rewrite Hpi. change (wb (with_params (e_p e) W B)) with (W, B).
  assert (HT0 : 0 < total_rate lr dc t (Z.to_nat epochs)).
  { unfold total_rate. destruct (Z.to_nat epochs) as [|u] eqn:Eu; [lia|]. rewrite rsum_S.
    assert (Hpp : forall a, 0 < lr / (1 + dc * INR (t + a))) by (intros a; apply Rdiv_lt_0_compat; [exact Hlr|pose proof (pos_INR (t + a)); nra]).
    assert (0 <= rsum u (fun a => lr / (1 + dc * INR (t + a)))) by (apply rsum_nonneg; intros; left; apply Hpp). pose proof (Hpp u). lra. }
  set (T := total_rate _ _ _ _) in *. pose proof (dist_nonneg i o (wb (e_p e')) (W, B)) as HD0.
  apply (Rmult_le_reg_l T); [exact HT0|]. rewrite Rmult_plus_distr_l.
  match goal with |- _ <= _ + T * (?q / _) => replace (T * (q / (2 * T))) with (q / 2) by (field; lra) end.
  unfold dist in H at 2. cbn [fst snd wb] in H. lra.
Qed.
