(** * MiniFit: Fit with mini-batches on a single linear layer. *)
From Coq Require Import String ZArith List Bool Arith Lia Reals Lra Psatz.
From Coquelicot Require Import Coquelicot.
From Verif Require Import Num NumR Heap Spec Matrix Loss Network Optimizers ModelGo PureSpec Repr HeapLemmas LoopLemmas MatrixFacts MiscFacts RSum LayerFacts LayerReal GradSpec Grad LossProofs LossReal LossCode OptSpec ModelSpec ModelProofs FitProofs FitFacts NetGradSpec NetGrad NetGradCode Converge ConvergeFit ConserveProofs MiniBatch.
Import ListNotations.
Open Scope R_scope.

Section Split.
Variables (i o : nat).
Notation batch := (rpm * rpm)%type.
Lemma paff_app_l (A B W V : rpm) a j : (a < length A)%nat -> (j < o)%nat ->
  entry (paff (length (A ++ B)) i o (A ++ B) W V) a j = entry (paff (length A) i o A W V) a j.
Proof.
  intros Ha Hj. rewrite !paff_entry by (rewrite ?app_length; lia). f_equal. apply rsum_ext. intros n Hn. now rewrite entry_app_l.
Qed.
Lemma paff_app_r (A B W V : rpm) a j : (a < length B)%nat -> (j < o)%nat ->
  entry (paff (length (A ++ B)) i o (A ++ B) W V) (length A + a) j = entry (paff (length B) i o B W V) a j.
Proof.
  intros Ha Hj. rewrite !paff_entry by (rewrite ?app_length; lia). f_equal. apply rsum_ext. intros n Hn. now rewrite entry_app_r.
Qed.
Lemma fb_app (A B Y Z : rpm) w : length Y = length A -> fb i o (A ++ B, Y ++ Z) w = fb i o (A, Y) w + fb i o (B, Z) w.
Proof.
  intros HL. unfold fb, obj, msePhi. cbn [fst snd]. rewrite (app_length A B) at 1. rewrite rsum_app. f_equal; apply rsum_ext; intros a Ha; f_equal; apply rsum_ext; intros j Hj.
  - rewrite paff_app_l, entry_app_l by lia. reflexivity.
  - rewrite paff_app_r by assumption. rewrite <- HL, entry_app_r. reflexivity.
Qed.
Definition paired (bs : list batch) : Prop := List.Forall (fun b : batch => length (snd b) = length (fst b)) bs.
Definition joined (bs : list batch) : batch := (concat (map fst bs), concat (map snd bs)).
Lemma total_joined bs w : paired bs -> total i o bs w = fb i o (joined bs) w.
Proof.
  unfold joined. induction bs as [|[A Y] bs IH]; intros H; [reflexivity|]. inversion H; subst. cbn [map concat fst snd total fold_right]. fold (total i o bs w).
  rewrite fb_app by assumption. rewrite IH by assumption. reflexivity.
Qed.
Definition mass (b : batch) : R := sqnorm (length (fst b)) i (fst b) + INR (length (fst b)).
Lemma mass_nonneg b : 0 <= mass b.
Proof. unfold mass. pose proof (sqnorm_nonneg (length (fst b)) i (fst b)). pose proof (pos_INR (length (fst b))). lra. Qed.
Lemma mass_app (A B Y Z : rpm) : mass (A ++ B, Y ++ Z) = mass (A, Y) + mass (B, Z).
Proof.
  unfold mass. cbn [fst]. rewrite (sqnorm_app i A B). rewrite (app_length A), plus_INR.
  set (q1 := sqnorm (length A) i A). set (q2 := sqnorm (length B) i B). clearbody q1 q2. ring.
Qed.
Lemma mass_part bs b : In b bs -> mass b <= mass (joined bs).
Proof.
  unfold joined. induction bs as [|[A Y] bs IH]; intros HI; [contradiction|]. cbn [map concat fst snd].
  rewrite mass_app. destruct HI as [<-|HI].
  - apply Rle_trans with (mass (A, Y) + 0); [apply Req_le; symmetry; apply Rplus_0_r|apply Rplus_le_compat_l, mass_nonneg].
  - eapply Rle_trans; [exact (IH HI)|]. eapply Rle_trans; [apply Req_le; symmetry; apply Rplus_0_l|apply Rplus_le_compat_r, mass_nonneg].
Qed.
Lemma solves_part W V bs b : paired bs -> solves (length (fst (joined bs))) i o (fst (joined bs)) (snd (joined bs)) W V -> In b bs ->
  solves (length (fst b)) i o (fst b) (snd b) W V.
Proof.
  unfold joined. induction bs as [|[A Y] bs IH]; intros HP HS HI; [contradiction|]. inversion HP as [|? ? HL HP']; subst. cbn [map concat fst snd] in HS, HL. destruct HI as [<-|HI].
  - intros a j Ha Hj. cbn [fst snd] in *. pose proof (HS a j ltac:(rewrite app_length; lia) Hj) as E. rewrite paff_app_l, entry_app_l in E by lia. exact E.
  - apply IH; [exact HP'| |exact HI]. cbn [fst snd]. intros a j Ha Hj. pose proof (HS (length A + a)%nat j ltac:(rewrite app_length; lia) Hj) as E.
    rewrite paff_app_r in E by assumption. rewrite <- HL, entry_app_r in E. exact E.
Qed.
Lemma okb_parts lr W V bs : 0 < lr -> (1 <= o)%nat -> paired bs -> lr * (2 / INR o) * mass (joined bs) <= 1 ->
  solves (length (fst (joined bs))) i o (fst (joined bs)) (snd (joined bs)) W V -> List.Forall (okb i o lr (W, V)) bs.
Proof.
  intros Hlr Ho HP HR HS. apply Forall_forall. intros b HI. split; [|exact (solves_part W V bs b HP HS HI)].
  eapply Rle_trans; [|exact HR]. apply Rmult_le_compat_l; [apply Rmult_le_pos; [lra|apply two_o; exact Ho]|]. exact (mass_part bs b HI).
Qed.
End Split.

Lemma combine_fst {A B} (l : list A) (l' : list B) : length l = length l' -> map fst (combine l l') = l.
Proof. revert l'. induction l as [|a l IH]; intros [|b l'] H; try discriminate; [reflexivity|]. simpl. f_equal. apply IH. now injection H. Qed.
Lemma combine_snd {A B} (l : list A) (l' : list B) : length l = length l' -> map snd (combine l l') = l'.
Proof. revert l'. induction l as [|a l IH]; intros [|b l'] H; try discriminate; [reflexivity|]. simpl. f_equal. apply IH. now injection H. Qed.
Lemma chunks_same {A B} b (X : list A) (Y : list B) : length X = length Y -> length (chunks b X) = length (chunks b Y).
Proof.
  intros H. unfold chunks. rewrite H. pose proof (chunks_lengths b (length Y) X Y H) as E. apply (f_equal (@length nat)) in E. now rewrite !map_length in E.
Qed.
Lemma joined_chunks b (X Y : rpm) : (1 <= b)%nat -> length X = length Y -> joined (combine (chunks b X) (chunks b Y)) = (X, Y) /\ paired (combine (chunks b X) (chunks b Y)).
Proof.
  intros Hb HL. unfold joined. rewrite combine_fst, combine_snd by (apply chunks_same; exact HL).
  rewrite (proj1 (chunks_partition b X Hb)), (proj1 (chunks_partition b Y Hb)). split; [reflexivity|].
  apply Forall_forall. intros [x y] HI. unfold chunks in HI. cbn [fst snd]. rewrite HL in HI. symmetry. eapply chunk_pairs; [exact HL|exact HI].
Qed.

(** Training is [run]. *)
Lemma train_run o lr U : forall bs p po q, p_kind p = Linear -> p_out p = o -> plain_sgd lr po ->
  exists p' po', fst (ptrain_on (K := RNum) MSE o [(p, po)] U q bs) = [(p', po')] /\ wb p' = run (p_in p) o lr bs (wb p) /\
    p_kind p' = Linear /\ p_out p' = o /\ p_in p' = p_in p /\ plain_sgd lr po'.
Proof.
  induction bs as [|[X Y] bs IH]; intros p po q HK Ho HP; [exists p, po; repeat split; auto; apply HP|].
  cbn [ptrain_on]. destruct (one_batch MSE o p po X Y U q lr (length X) (or_introl (conj eq_refl HK)) Ho eq_refl HP) as (po1 & E & HP1). rewrite E.
  set (p1 := gd_layer MSE (length X) o X Y lr p).
  destruct (IH p1 po1 (q + net_draws true (map fst [(p, po)]) (length X))%nat HK Ho HP1) as (p' & po' & E2 & E3 & HK' & Ho' & Hi' & HP').
  exists p', po'. split; [exact E2|]. split; [|auto]. rewrite E3. cbn [run fold_left]. change (p_in p1) with (p_in p). reflexivity.
Qed.
Lemma run_concat i o lr bs n w : run i o lr (concat (repeat bs n)) w = after i o lr bs w n.
Proof.
  unfold after. revert w. induction n as [|n IH]; intros w; [reflexivity|]. rewrite iter_shift. cbn [repeat concat]. unfold run at 1. rewrite fold_left_app. apply IH.
Qed.

Section Fit.
Context (s : state RNum) (m : model RNum) (e : lent RNum) (x : oent RNum) (i o : nat) (mx : matrix) (rsx : list nat) (y : matrix) (rsy : list nat) (n : nat) (X Y : rpm) (bs : Z) (xv yv : matrix) (lr : R).
Notation bt := (combine (chunks (batch_rows n bs) X) (chunks (batch_rows n bs) Y)).
Lemma fit_run epochs : (0 <= bs)%Z -> (Z.of_nat n + bs <= 2 ^ 52)%Z -> (1 <= n)%nat ->
  trainable s m [e] [x] i o MSE -> data_ok s [e] mx rsx y rsy n i o X Y -> p_kind (e_p e) = Linear -> plain_sgd lr (x_po x) ->
  returns (Fit m mx y epochs bs xv yv 0) s (fun _ s' => exists e' x',
    trainable s' m [e'] [x'] i o MSE /\ same_place e e' /\ wb (e_p e') = after i o lr bt (wb (e_p e)) (Z.to_nat epochs) /\
    objective MSE n o Y (pnet [e_p e'] n X) = total i o bt (after i o lr bt (wb (e_p e)) (Z.to_nat epochs))).
Proof.
  intros Hb H52 Hn HT HD HK HP.
  destruct (fit_trains s m [e] [x] i o MSE mx rsx y rsy n X Y epochs bs xv yv RNum_min_faithful Hb H52 Hn HT HD) as ([] & s' & E & nn & _ & (es' & xs' & HT' & HPl & HP2 & Htr & _) & _).
  exists tt, s'. split; [exact E|].
  inversion HPl as [|e0 e' ? l1 He' Hn1]; subst. inversion Hn1; subst. inversion HP2 as [|x0 x' ? l2 Hx' Hn2]; subst. inversion Hn2; subst.
  exists e', x'. split; [exact HT'|]. split; [exact He'|].
  destruct HT as ((_ & _ & _ & _ & Hch & _) & _). cbn [net map chain] in Hch. destruct Hch as (Hpi & Hpo).
  destruct HD as (HX & HY & _ & _). pose proof (own_shape _ _ _ _ _ _ HX) as (HXl & _). pose proof (own_shape _ _ _ _ _ _ HY) as (HYl & _).
  destruct (train_run o lr (r_uni (h_rng s)) (epochs_of (Z.to_nat epochs) (batch_rows n bs) X Y) (e_p e) (x_po x) (r_upos (h_rng s)) HK Hpo HP) as (p' & po' & E2 & E3 & HK' & Ho' & Hi' & _).
  pose proof (eq_trans Htr E2) as Hep'. injection Hep' as Hep _. unfold epochs_of in E3. rewrite run_concat, Hpi in E3. rewrite <- Hep in E3. split; [exact E3|].
  assert (Hbr : (1 <= batch_rows n bs)%nat) by (unfold batch_rows; destruct (Z.eqb_spec bs 0); lia).
  destruct (joined_chunks (batch_rows n bs) X Y Hbr (eq_trans HXl (eq_sym HYl))) as (J1 & J2).
  rewrite <- E3, (total_joined i o bt _ J2), J1. rewrite Hep. rewrite (one_objective MSE n o X Y p' (or_introl (conj eq_refl HK')) Ho').
  unfold fb. cbn [fst snd]. rewrite HXl, Hi', Hpi. reflexivity.
Qed.
Lemma width : trainable s m [e] [x] i o MSE -> (1 <= o)%nat.
Proof.
  intros ((_ & _ & _ & _ & Hch & Hok) & _). cbn [net map chain] in Hch. destruct Hch as (_ & <-). inversion Hok as [|? ? Hlok _]; subst. destruct Hlok as (l & _ & HL).
  destruct HL as (_ & _ & _ & _ & _ & _ & Ho & _). exact Ho.
Qed.
Lemma all_ok W B : (0 <= bs)%Z -> (1 <= n)%nat -> trainable s m [e] [x] i o MSE -> data_ok s [e] mx rsx y rsy n i o X Y ->
  0 < lr -> lr * (2 / INR o) * (sqnorm n i X + INR n) <= 1 -> solves n i o X Y W B -> List.Forall (okb i o lr (W, B)) bt.
Proof.
  intros Hb Hn HT (HX & HY & _ & _) Hlr HR HS. pose proof (own_shape _ _ _ _ _ _ HX) as (HXl & _). pose proof (own_shape _ _ _ _ _ _ HY) as (HYl & _).
  assert (Hbr : (1 <= batch_rows n bs)%nat) by (unfold batch_rows; destruct (Z.eqb_spec bs 0); lia).
  destruct (joined_chunks (batch_rows n bs) X Y Hbr (eq_trans HXl (eq_sym HYl))) as (J1 & J2).
  apply okb_parts; [exact Hlr|exact (width HT)|exact J2| |]; rewrite J1; unfold mass; cbn [fst snd]; rewrite HXl; assumption.
Qed.
Lemma never_further epochs : (0 <= bs)%Z -> (Z.of_nat n + bs <= 2 ^ 52)%Z -> (1 <= n)%nat ->
  trainable s m [e] [x] i o MSE -> data_ok s [e] mx rsx y rsy n i o X Y -> p_kind (e_p e) = Linear -> plain_sgd lr (x_po x) ->
  0 < lr -> lr * (2 / INR o) * (sqnorm n i X + INR n) <= 1 ->
  returns (Fit m mx y epochs bs xv yv 0) s (fun _ s' => exists e' x', trainable s' m [e'] [x'] i o MSE /\ same_place e e' /\
    forall W B, solves n i o X Y W B -> sqdist i o (p_w (e_p e')) W + sqdist 1 o (p_b (e_p e')) B <= sqdist i o (p_w (e_p e)) W + sqdist 1 o (p_b (e_p e)) B).
Proof.
  intros Hb H52 Hn HT HD HK HP Hlr HR. destruct (fit_run epochs Hb H52 Hn HT HD HK HP) as (a & s' & E & e' & x' & H1 & H2 & H3 & _).
  exists a, s'. split; [exact E|]. exists e', x'. split; [exact H1|]. split; [exact H2|]. intros W B HS.
  pose proof (after_approach i o lr bt (W, B) (width HT) Hlr (all_ok W B Hb Hn HT HD Hlr HR HS) (wb (e_p e)) (Z.to_nat epochs)) as H. rewrite <- H3 in H. exact H.
Qed.
Lemma minibatch_rate epochs W B : (0 <= bs)%Z -> (Z.of_nat n + bs <= 2 ^ 52)%Z -> (1 <= n)%nat -> (1 <= epochs)%Z ->
  trainable s m [e] [x] i o MSE -> data_ok s [e] mx rsx y rsy n i o X Y -> p_kind (e_p e) = Linear -> plain_sgd lr (x_po x) ->
  0 < lr -> lr * (2 / INR o) * (sqnorm n i X + INR n) <= 1 -> solves n i o X Y W B ->
  exists t, (1 <= t <= epochs)%Z /\
  returns (Fit m mx y t bs xv yv 0) s (fun _ s' => exists e' x', trainable s' m [e'] [x'] i o MSE /\ same_place e e' /\
    objective MSE n o Y (pnet [e_p e'] n X) <=
      INR (length (chunks (batch_rows n bs) X)) ^ 2 * (sqdist i o (p_w (e_p e)) W + sqdist 1 o (p_b (e_p e)) B) / (lr * IZR epochs)).
Proof.
  intros Hb H52 Hn He HT HD HK HP Hlr HR HS.
  destruct (small_objective i o lr bt (W, B) (width HT) Hlr (all_ok W B Hb Hn HT HD Hlr HR HS) (wb (e_p e)) (Z.to_nat epochs)) as (t & Ht & H); [lia|].
  exists (Z.of_nat t). split; [lia|]. destruct (fit_run (Z.of_nat t) Hb H52 Hn HT HD HK HP) as (a & s' & E & e' & x' & H1 & H2 & H3 & H4). rewrite Nat2Z.id in H3, H4.
  exists a, s'. split; [exact E|]. exists e', x'. split; [exact H1|]. split; [exact H2|]. rewrite H4. eapply Rle_trans; [exact H|]. apply Req_le.
  unfold C, dist, wb. cbn [fst snd]. rewrite combine_length.
  destruct HD as (HX & HY & _ & _). pose proof (own_shape _ _ _ _ _ _ HX) as (HXl & _). pose proof (own_shape _ _ _ _ _ _ HY) as (HYl & _).
  rewrite <- (chunks_same (batch_rows n bs) X Y (eq_trans HXl (eq_sym HYl))), Nat.min_id.
  replace (INR (Z.to_nat epochs)) with (IZR epochs) by (rewrite INR_IZR_INZ; f_equal; lia). assert (0 < IZR epochs) by (apply IZR_lt; lia). field. lra.
Qed.
Lemma minibatch_converges eps : (0 <= bs)%Z -> (Z.of_nat n + bs <= 2 ^ 52)%Z -> (1 <= n)%nat ->
  trainable s m [e] [x] i o MSE -> data_ok s [e] mx rsx y rsy n i o X Y -> p_kind (e_p e) = Linear -> plain_sgd lr (x_po x) ->
  0 < lr -> lr * (2 / INR o) * (sqnorm n i X + INR n) <= 1 -> (exists W B, solves n i o X Y W B) -> 0 < eps ->
  exists N, forall epochs, (N <= epochs)%Z ->
  returns (Fit m mx y epochs bs xv yv 0) s (fun _ s' => exists e' x', trainable s' m [e'] [x'] i o MSE /\ same_place e e' /\
    objective MSE n o Y (pnet [e_p e'] n X) < eps).
Proof.
  intros Hb H52 Hn HT HD HK HP Hlr HR (W & B & HS) He.
  destruct (objective_vanishes i o lr bt (W, B) (width HT) Hlr (all_ok W B Hb Hn HT HD Hlr HR HS) (wb (e_p e)) eps He) as (N & HN).
  exists (Z.of_nat N). intros epochs Hep. destruct (fit_run epochs Hb H52 Hn HT HD HK HP) as (a & s' & E & e' & x' & H1 & H2 & H3 & H4).
  exists a, s'. split; [exact E|]. exists e', x'. split; [exact H1|]. split; [exact H2|]. rewrite H4. apply HN. lia.
Qed.
End Fit.
