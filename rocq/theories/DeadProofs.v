(** * DeadProofs: dead units stay dead. *)
From Coq Require Import String ZArith List Bool Arith Lia Reals Lra.
From Flocq Require Import IEEE754.BinarySingleNaN IEEE754.Binary IEEE754.Bits.
From Verif Require Import Num NumR NumB64 Heap Spec Matrix Network Loss Optimizers ModelGo PureSpec Repr HeapLemmas RSum MiscProofs OptSpec OptFacts ModelSpec FitProofs FitLoop FitFacts CodecSpec Twins TwinsProofs Dead.
Import ListNotations.
Open Scope Z_scope.
Open Scope go_scope.

Section WithNum.
Context {K : Num}.
Fixpoint input_at (l : nat) (ps : list (player K)) (r : nat) (X : pm K) (U : nat -> K) (q : nat) : pm K :=
  match l, ps with
  | S l', p :: t => input_at l' t r (ptrain p r X (from U q)) U (q + pdraws p r)
  | _, _ => X
  end.
Lemma grads_dead k Y o a : forall l ps r X (U : nat -> K) q p1 p2,
  nth_error ps l = Some p1 -> nth_error ps (S l) = Some p2 -> p_kind p1 = Hidden -> p_in p2 = p_out p1 -> (a < p_out p1)%nat ->
  (forall i, (i < r)%nat -> fle (relu1 (pre_activation p1 a (nth i (input_at l ps r X U q) []))) f0 = true) ->
  exists dW1 dB1 dW2 dB2 G2, nth_error (snd (pbackprop k Y o ps r X U q)) l = Some (dW1, dB1) /\
    nth_error (snd (pbackprop k Y o ps r X U q)) (S l) = Some (dW2, dB2) /\
    (forall i, (i < p_in p1)%nat -> entry dW1 i a = fsum r (fun n => fmul (entry (input_at l ps r X U q) n i) f0)) /\
    entry dB1 0 a = fsum r (fun _ => f0) /\
    (forall j, (j < p_out p2)%nat -> entry dW2 a j = fsum r (fun n => fmul (relu1 (pre_activation p1 a (nth n (input_at l ps r X U q) []))) (entry G2 n j))).
Proof.
  induction l as [|l IH]; intros ps r X U q p1 p2 H1 H2 HK HE Ha HD.
  - destruct ps as [|p [|p' ps]]; try discriminate. simpl in H1, H2. injection H1 as ->. injection H2 as ->. cbn [input_at] in *.
    cbn [pbackprop]. set (O := ptrain p1 r X (from U q)).
    assert (HO : forall i, (i < r)%nat -> entry O i a = relu1 (pre_activation p1 a (nth i X []))).
    { intros i Hi. unfold O, ptrain, pforward, pact, act1. rewrite HK. unfold pmap. rewrite entry_mk by auto. unfold paffine, paff. rewrite entry_mk by auto. reflexivity. }
    destruct (pbackprop k Y o ps r (ptrain p2 r O (from U (q + pdraws p1 r))) U (q + pdraws p1 r + pdraws p2 r)) as [G gs].
    set (G2 := pre_grad k Y _ p2 r _ _ G). set (G1 := pre_grad k Y _ p1 r _ _ _).
    assert (HG1 : forall i, (i < r)%nat -> entry G1 i a = f0).
    { intros i Hi. unfold G1, pre_grad, pback. rewrite HK. unfold pmap2. rewrite entry_mk by auto. unfold relu_prime1. rewrite HO, HD by auto. reflexivity. }
    simpl. exists (pdW r (p_in p1) (p_out p1) X G1), (psum0 r (p_out p1) G1), (pdW r (p_in p2) (p_out p2) O G2), (psum0 r (p_out p2) G2), G2.
    split; [reflexivity|]. split; [reflexivity|]. split; [|split].
    + intros i Hi. unfold pdW, pdot. rewrite entry_mk by auto. apply fsum_ext. intros n Hn. rewrite HG1 by auto. unfold ptrans. rewrite entry_mk by auto. reflexivity.
    + unfold psum0. rewrite entry_mk by lia. apply fsum_ext. intros n Hn. apply HG1. exact Hn.
    + intros j Hj. unfold pdW, pdot. rewrite entry_mk by lia. apply fsum_ext. intros n Hn. f_equal. unfold ptrans. rewrite entry_mk by lia. apply HO. exact Hn.
  - destruct ps as [|p ps]; [discriminate|]. cbn [pbackprop input_at] in *.
    destruct (IH ps r (ptrain p r X (from U q)) U (q + pdraws p r)%nat p1 p2 H1 H2 HK HE Ha HD) as (dW1 & dB1 & dW2 & dB2 & G2 & E1 & E2 & A1 & A2 & A3).
    destruct (pbackprop k Y o ps r (ptrain p r X (from U q)) U (q + pdraws p r)) as [G gs]. simpl in *. exists dW1, dB1, dW2, dB2, G2. auto.
Qed.
Lemma kept_pre (p p' : player K) a row : kept_unit p p' a -> p_in p' = p_in p -> pre_activation p' a row = pre_activation p a row.
Proof.
  intros (H1 & H2) HE. unfold pre_activation. rewrite HE, H2. f_equal. apply fsum_ext. intros n Hn. now rewrite H1.
Qed.
End WithNum.

(** ** Exact arithmetic *)
Section Real.
Open Scope R_scope.
Notation rpm := (pm RNum).
Lemma upd1_still (po : popt RNum) r c (P dP m ch : rpm) i j : (i < r)%nat -> (j < c)%nat -> entry dP i j = 0 -> still po m i j ->
  let '(P', m', _) := pupd1 po r c P dP m ch in entry P' i j = entry P i j /\ still po m' i j.
Proof.
  intros Hi Hj HD HM. unfold still, pupd1 in *. destruct (po_kind po).
  - destruct (po_usemom po).
    + specialize (HM eq_refl). unfold pmap2. rewrite !entry_mk by auto. rewrite HM, HD. unfold vel1. simpl. split; [lra|]. intros _. lra.
    + unfold pmap2. rewrite entry_mk by auto. rewrite HD. unfold sgd1. simpl. split; [lra|discriminate].
  - unfold pmap2. rewrite !entry_mk by auto. rewrite HM, HD. unfold adam_m1, adam_p1. simpl.
    replace (0 * po_b1 po + 0 * (1 - po_b1 po)) with 0 by lra. split; [|lra]. unfold Rdiv. rewrite Rmult_0_l, Rmult_0_r, Rmult_0_l. lra.
Qed.
Lemma step_still_unit (t : player RNum * popt RNum) dW dB a : (a < p_out (fst t))%nat -> still_unit t a ->
  (forall i, (i < p_in (fst t))%nat -> entry dW i a = 0) -> entry dB 0 a = 0 ->
  kept_unit (fst t) (fst (tstep (K := RNum) t (dW, dB))) a /\ still_unit (tstep (K := RNum) t (dW, dB)) a.
Proof.
  intros Ha (H1 & H2) HW HB. destruct t as [p po]. unfold tstep, pupdate. simpl fst in *. simpl snd in *.
  assert (A : forall i, (i < p_in p)%nat -> _) by (intros i Hi; exact (upd1_still po (p_in p) (p_out p) (p_w p) dW (po_wm po) (po_wc po) i a Hi Ha (HW i Hi) (H1 i Hi))).
  pose proof (upd1_still po 1 (p_out p) (p_b p) dB (po_bm po) (po_bc po) 0 a Nat.lt_0_1 Ha HB H2) as B.
  destruct (pupd1 po (p_in p) (p_out p) (p_w p) dW (po_wm po) (po_wc po)) as [[W' wm] wc].
  destruct (pupd1 po 1 (p_out p) (p_b p) dB (po_bm po) (po_bc po)) as [[B' bm] bc].
  unfold kept_unit, still_unit. simpl. split; split; intros; try apply A; try apply B; auto.
Qed.
Lemma step_still_input (t : player RNum * popt RNum) dW dB a : (a < p_in (fst t))%nat -> still_input t a ->
  (forall j, (j < p_out (fst t))%nat -> entry dW a j = 0) ->
  kept_input (fst t) (fst (tstep (K := RNum) t (dW, dB))) a /\ still_input (tstep (K := RNum) t (dW, dB)) a.
Proof.
  intros Ha H1 HW. destruct t as [p po]. unfold tstep, pupdate. simpl fst in *. simpl snd in *.
  assert (A : forall j, (j < p_out p)%nat -> _) by (intros j Hj; exact (upd1_still po (p_in p) (p_out p) (p_w p) dW (po_wm po) (po_wc po) a j Ha Hj (HW j Hj) (H1 j Hj))).
  destruct (pupd1 po (p_in p) (p_out p) (p_w p) dW (po_wm po) (po_wc po)) as [[W' wm] wc].
  destruct (pupd1 po 1 (p_out p) (p_b p) dB (po_bm po) (po_bc po)) as [[B' bm] bc].
  unfold kept_input, still_input. simpl. split; intros; apply A; auto.
Qed.
Lemma relu_dead (z : R) : z <= 0 -> relu1 (K := RNum) z = 0.
Proof. intros H. unfold relu1. simpl. apply Rmax_right. exact H. Qed.
Lemma kept_spot_refl t1 t2 a : kept_spot t1 t2 t1 t2 a.
Proof. repeat split. Qed.
Lemma kept_spot_trans t1 t2 t1' t2' t1'' t2'' a : kept_spot t1 t2 t1' t2' a -> kept_spot t1' t2' t1'' t2'' a -> kept_spot t1 t2 t1'' t2'' a.
Proof.
  intros ((A1 & A2) & A3 & A4 & A5 & A6 & A7) ((B1 & B2) & B3 & B4 & B5 & B6 & B7). unfold kept_spot, kept_unit, kept_input in *.
  rewrite A4, A7 in *. repeat split; try congruence; intros; [rewrite B1, A1|rewrite B3, A3]; auto.
Qed.
Lemma batch_dead k o ts (X Y : rpm) U q l a t1 t2 : spot ts l a t1 t2 ->
  (forall i, (i < length X)%nat -> pre_activation (fst t1) a (nth i (input_at l (map fst ts) (length X) X U q) []) <= 0) ->
  exists t1' t2', spot (pbatch (K := RNum) k o ts X Y U q) l a t1' t2' /\ kept_spot t1 t2 t1' t2' a.
Proof.
  intros (E1 & E2 & HK & HE & Ha & HU & HI) HD.
  destruct (grads_dead (K := RNum) k Y o a l (map fst ts) (length X) X U q (fst t1) (fst t2)) as (dW1 & dB1 & dW2 & dB2 & G2 & F1 & F2 & A1 & A2 & A3); auto.
  { now apply map_nth_error. } { now apply map_nth_error. }
  { intros i Hi. rewrite relu_dead by (apply HD; exact Hi). apply r_leb_true. simpl. lra. }
  destruct (step_still_unit t1 dW1 dB1 a Ha HU) as [B1 B2].
  { intros i Hi. rewrite A1 by auto. etransitivity; [|exact (rsum_zero (length X))]. apply rsum_ext. intros n Hn. simpl. lra. }
  { rewrite A2. apply rsum_zero. }
  assert (Ha2 : (a < p_in (fst t2))%nat) by lia.
  destruct (step_still_input t2 dW2 dB2 a Ha2 HI) as [C1 C2].
  { intros j Hj. rewrite A3 by auto. etransitivity; [|exact (rsum_zero (length X))]. apply rsum_ext. intros n Hn. rewrite relu_dead by (apply HD; exact Hn). simpl. lra. }
  pose proof (step_like (K := RNum) t1 (dW1, dB1)) as (K1 & K2 & K3). pose proof (step_like (K := RNum) t2 (dW2, dB2)) as (K4 & K5 & K6).
  exists (tstep (K := RNum) t1 (dW1, dB1)), (tstep (K := RNum) t2 (dW2, dB2)). split.
  - unfold spot. rewrite K1, K3, K5. split; [apply nth_step; auto|]. split; [apply nth_step; auto|]. auto 10.
  - unfold kept_spot. auto 10.
Qed.
(** First layer. *)
Lemma train_dead_first k o a U : forall bs ts q t1 t2, spot ts 0 a t1 t2 ->
  List.Forall (fun XY => List.Forall (fun row => pre_activation (fst t1) a row <= 0) (fst XY)) bs ->
  exists t1' t2', spot (fst (ptrain_on (K := RNum) k o ts U q bs)) 0 a t1' t2' /\ kept_spot t1 t2 t1' t2' a.
Proof.
  induction bs as [|[X Y] bs IH]; intros ts q t1 t2 HS HB; [exists t1, t2; split; [exact HS|apply kept_spot_refl]|].
  inversion HB as [|? ? H1 H2]; subst. cbn [ptrain_on].
  destruct (batch_dead k o ts X Y U q 0 a t1 t2 HS) as (t1' & t2' & HS' & HKe).
  { intros i Hi. simpl. rewrite List.Forall_forall in H1. apply H1. apply nth_In. exact Hi. }
  destruct (IH (pbatch (K := RNum) k o ts X Y U q) (q + net_draws true (map fst ts) (length X))%nat t1' t2' HS') as (t1'' & t2'' & A & B).
  { eapply List.Forall_impl; [|exact H2]. intros XY HXY. eapply List.Forall_impl; [|exact HXY]. intros row Hr. cbv beta in *.
    rewrite (kept_pre (K := RNum) (fst t1) (fst t1') a row); [exact Hr|apply HKe|apply HKe]. }
  exists t1'', t2''. split; [exact A|]. eapply kept_spot_trans; eauto.
Qed.
(** A later layer, after ReLU: weights and bias of the unit are at most zero. *)
Lemma relu_nonneg (z : R) : 0 <= relu1 (K := RNum) z.
Proof. unfold relu1. simpl. apply Rmax_r. Qed.
Lemma input_nonneg : forall l ps r (X : rpm) U q p0 i n, nth_error ps l = Some p0 -> p_kind p0 = Hidden -> (i < r)%nat -> (n < p_out p0)%nat ->
  0 <= entry (input_at (K := RNum) (S l) ps r X U q) i n.
Proof.
  induction l as [|l IH]; intros [|p ps] r X U q p0 i n H HK Hi Hn; try discriminate.
  - injection H as ->. replace (input_at 1 (p0 :: ps) r X U q) with (ptrain p0 r X (from (K := RNum) U q)) by (simpl; destruct ps; reflexivity).
    unfold ptrain, pforward, pact, act1. rewrite HK. unfold pmap. rewrite entry_mk by auto. apply relu_nonneg.
  - change (input_at (S (S l)) (p :: ps) r X U q) with (input_at (K := RNum) (S l) ps r (ptrain p r X (from (K := RNum) U q)) U (q + pdraws p r)). eapply IH; eauto.
Qed.
Lemma negative_dead (p : player RNum) a (row : list R) : negative_unit p a -> (forall n, (n < p_in p)%nat -> 0 <= nth n row 0) -> pre_activation p a row <= 0.
Proof.
  intros (HW & HB) HR. unfold pre_activation. change (rsum (p_in p) (fun n => nth n row 0 * entry (p_w p) n a) + entry (p_b p) 0 a <= 0).
  assert (rsum (p_in p) (fun n => nth n row 0 * entry (p_w p) n a) <= rsum (p_in p) (fun _ => 0)).
  { apply rsum_le. intros n Hn. specialize (HW n Hn). specialize (HR n Hn). nra. }
  rewrite rsum_zero in H. lra.
Qed.
Lemma after_relu_batch k o ts X Y U q l t1 t1' : after_relu ts l t1 -> p_in (fst t1') = p_in (fst t1) -> (exists t, nth_error (pbatch (K := RNum) k o ts X Y U q) l = Some t) ->
  after_relu (pbatch (K := RNum) k o ts X Y U q) l t1'.
Proof.
  intros (t0 & E & HK & HO) HI (t & Et). exists t. split; [exact Et|]. unfold pbatch in Et. apply nth_error_split in Et as Et2. 
  assert (exists g, t = tstep (K := RNum) t0 g) as (g & ->).
  { rewrite nth_error_map in Et. destruct (nth_error (combine ts _) l) as [[ta g]|] eqn:EC; [|discriminate]. injection Et as <-. exists g. simpl.
    assert (ta = t0); [|now subst]. clear -EC E. revert l EC E. generalize (snd (pbackprop k Y o (map fst ts) (length X) X U q)) as gs.
    induction ts as [|b ts IH]; intros [|g0 gs] [|l] EC E; simpl in *; try discriminate; try congruence. eapply IH; eauto. }
  destruct (step_like (K := RNum) t0 g) as (-> & _ & ->). rewrite HI. auto.
Qed.
Lemma train_dead_deep k o a U l : forall bs ts q t1 t2, spot ts (S l) a t1 t2 -> after_relu ts l t1 -> negative_unit (fst t1) a ->
  exists t1' t2', spot (fst (ptrain_on (K := RNum) k o ts U q bs)) (S l) a t1' t2' /\ kept_spot t1 t2 t1' t2' a.
Proof.
  induction bs as [|[X Y] bs IH]; intros ts q t1 t2 HS HR HN; [exists t1, t2; split; [exact HS|apply kept_spot_refl]|].
  cbn [ptrain_on].
  destruct (batch_dead k o ts X Y U q (S l) a t1 t2 HS) as (t1' & t2' & HS' & HKe).
  { intros i Hi. apply negative_dead; [exact HN|]. intros n Hn. destruct HR as (t0 & E0 & HK0 & HO0).
    apply (input_nonneg l (map fst ts) (length X) X U q (fst t0) i n); auto; [now apply map_nth_error|lia]. }
  destruct (IH (pbatch (K := RNum) k o ts X Y U q) (q + net_draws true (map fst ts) (length X))%nat t1' t2' HS') as (t1'' & t2'' & A & B).
  { eapply after_relu_batch; [exact HR|apply HKe|]. destruct HS' as (E1 & _). destruct (nth_error (pbatch (K := RNum) k o ts X Y U q) l) as [t|] eqn:E; [eauto|].
    apply nth_error_None in E. assert (nth_error (pbatch (K := RNum) k o ts X Y U q) (S l) <> None) by congruence. apply nth_error_Some in H. lia. }
  { destruct HKe as ((W & Bb) & _ & HI & _). destruct HN as [N1 N2]. split; [rewrite HI; intros i Hi; rewrite W; auto|rewrite Bb; exact N2]. }
  exists t1'', t2''. split; [exact A|]. eapply kept_spot_trans; eauto.
Qed.

Lemma nth_trainer_batch (P : rpm -> Prop) (X Y : rpm) e b : (forall Z, In Z (chunks b X) -> P Z) -> List.Forall (fun XY => P (fst XY)) (epochs_of (K := RNum) e b X Y).
Proof.
  intros H. unfold epochs_of. apply Forall_concat. apply List.Forall_forall. intros l Hl. apply repeat_spec in Hl. subst l.
  apply List.Forall_forall. intros [X0 Y0] Hin. apply in_combine_l in Hin. apply H. exact Hin.
Qed.
Lemma fit_dead_first s (m : model RNum) es xs i o k x rsx y rsy n X Y epochs bs xv yv a t1 t2 :
  (0 <= bs)%Z -> (Z.of_nat n + bs <= 2 ^ 52)%Z -> (1 <= n)%nat ->
  trainable s m es xs i o k -> data_ok s es x rsx y rsy n i o X Y -> spot (trainer es xs) 0 a t1 t2 ->
  List.Forall (fun row => pre_activation (fst t1) a row <= 0) X ->
  returns (Fit m x y epochs bs xv yv 0) s (fun _ s' => exists es' xs' t1' t2', trainable s' m es' xs' i o k /\ Forall2 same_place es es' /\
    spot (trainer es' xs') 0 a t1' t2' /\ kept_spot t1 t2 t1' t2' a).
Proof.
  intros Hb Hn H1 HT HD HS HX. destruct (fit_trains s m es xs i o k x rsx y rsy n X Y epochs bs xv yv RNum_min_faithful Hb Hn H1 HT HD) as ([] & s' & E & nn & _ & (es' & xs' & A1 & A2 & _ & A3 & _) & _).
  destruct (train_dead_first k o a (r_uni (h_rng s)) (epochs_of (Z.to_nat epochs) (batch_rows n bs) X Y) (trainer es xs) (r_upos (h_rng s)) t1 t2 HS) as (t1' & t2' & B1 & B2).
  { apply (nth_trainer_batch (fun Z => List.Forall (fun row => pre_activation (fst t1) a row <= 0) Z)). intros Z HZ. rewrite List.Forall_forall in *. intros row Hr. apply HX. eapply chunks_incl; eauto. }
  exists tt, s'. split; [exact E|]. exists es', xs', t1', t2'. rewrite A3. auto.
Qed.
Lemma fit_dead_deep s (m : model RNum) es xs i o k x rsx y rsy n X Y epochs bs xv yv l a t1 t2 :
  (0 <= bs)%Z -> (Z.of_nat n + bs <= 2 ^ 52)%Z -> (1 <= n)%nat ->
  trainable s m es xs i o k -> data_ok s es x rsx y rsy n i o X Y -> spot (trainer es xs) (S l) a t1 t2 ->
  after_relu (trainer es xs) l t1 -> negative_unit (fst t1) a ->
  returns (Fit m x y epochs bs xv yv 0) s (fun _ s' => exists es' xs' t1' t2', trainable s' m es' xs' i o k /\ Forall2 same_place es es' /\
    spot (trainer es' xs') (S l) a t1' t2' /\ kept_spot t1 t2 t1' t2' a).
Proof.
  intros Hb Hn H1 HT HD HS HR HN. destruct (fit_trains s m es xs i o k x rsx y rsy n X Y epochs bs xv yv RNum_min_faithful Hb Hn H1 HT HD) as ([] & s' & E & nn & _ & (es' & xs' & A1 & A2 & _ & A3 & _) & _).
  destruct (train_dead_deep k o a (r_uni (h_rng s)) l (epochs_of (Z.to_nat epochs) (batch_rows n bs) X Y) (trainer es xs) (r_upos (h_rng s)) t1 t2 HS HR HN) as (t1' & t2' & B1 & B2).
  exists tt, s'. split; [exact E|]. exists es', xs', t1', t2'. rewrite A3. auto.
Qed.
End Real.

(** ** float64 *)
Section Float.
Context (L : libm).
Notation BN := (B64 L).
Definition b0 : binary64 := B754_zero 53 1024 false.
Lemma f0_b0 : (f0 : BN) = b0. Proof. reflexivity. Qed.
Lemma mul_zero (x : binary64) : b64_finite x = true -> exists sg, (fmul (x : BN) b0 : binary64) = B754_zero 53 1024 sg.
Proof. destruct x; try discriminate; intros _; eexists; reflexivity. Qed.
Lemma add_zero sg : (fadd (b0 : BN) (B754_zero 53 1024 sg : BN) : binary64) = b0.
Proof. destruct sg; reflexivity. Qed.
Lemma sum_zeros r (g : nat -> BN) : (forall n, (n < r)%nat -> exists sg, (g n : binary64) = B754_zero 53 1024 sg) -> fsum r g = (b0 : BN).
Proof.
  induction r as [|r IH]; intros H; [reflexivity|]. rewrite fsum_S, IH by (intros n Hn; apply H; lia). destruct (H r) as (sg & ->); [lia|]. apply add_zero.
Qed.
Lemma sgd_zero (rate p : binary64) : b64_finite rate = true -> Bsign 53 1024 rate = false -> b64_nan p = false -> sgd1 (rate : BN) (p : BN) (b0 : BN) = (p : BN).
Proof.
  intros H1 H2 H3. unfold sgd1. assert (E : fmul (b0 : BN) (rate : BN) = (b0 : BN)) by (destruct rate; try discriminate; simpl in H2; subst; reflexivity).
  rewrite E. destruct p as [[]|[]| |]; try discriminate; reflexivity.
Qed.
Lemma relu_le (z : binary64) : fle (z : BN) f0 = true -> fle (relu1 (z : BN)) f0 = true.
Proof.
  rewrite f0_b0. unfold relu1. rewrite f0_b0. destruct z as [[]|[]| |[] m e H]; try (intros; reflexivity); try discriminate.
Qed.
Lemma batch_dead_float k o ts (X Y : pm BN) U q lr a t1 : dead_first L ts lr a t1 -> b64_finite lr = true -> Bsign 53 1024 lr = false ->
  List.Forall (dead_row L (fst t1) a) X ->
  exists t1', dead_first L (pbatch (K := BN) k o ts X Y U q) lr a t1' /\ kept_unit (fst t1) (fst t1') a /\ p_in (fst t1') = p_in (fst t1).
Proof.
  intros (t2 & rest & -> & HK & HE & Ha & HP & HNW & HNB) HF HS HX. rewrite List.Forall_forall in HX.
  destruct (grads_dead (K := BN) k Y o a 0 (map fst (t1 :: t2 :: rest)) (length X) X U q (fst t1) (fst t2)) as (dW1 & dB1 & dW2 & dB2 & G2 & F1 & F2 & A1 & A2 & _); auto.
  { intros i Hi. apply relu_le. apply HX. apply nth_In. exact Hi. }
  assert (EG : nth_error (pbatch (K := BN) k o (t1 :: t2 :: rest) X Y U q) 0 = Some (tstep (K := BN) t1 (dW1, dB1))) by (apply nth_step; [reflexivity|exact F1]).
  assert (EG2 : nth_error (pbatch (K := BN) k o (t1 :: t2 :: rest) X Y U q) 1 = Some (tstep (K := BN) t2 (dW2, dB2))) by (apply nth_step; [reflexivity|exact F2]).
  assert (ZW : forall i, (i < p_in (fst t1))%nat -> entry dW1 i a = (b0 : BN)).
  { intros i Hi. rewrite A1 by auto. apply sum_zeros. intros n Hn. rewrite f0_b0. apply mul_zero. cbn [input_at].
    destruct (HX (nth n X []) (nth_In _ _ Hn)) as [_ HR]. unfold entry. destruct (nth_in_or_default i (nth n X []) (f0 : BN)) as [Hin | ->]; [|reflexivity].
    rewrite List.Forall_forall in HR. apply HR. exact Hin. }
  assert (ZB : entry dB1 0 a = (b0 : BN)) by (rewrite A2; apply sum_zeros; intros; exists false; reflexivity).
  destruct HP as (P1 & P2 & P3 & P4).
  assert (KU : kept_unit (fst t1) (fst (tstep (K := BN) t1 (dW1, dB1))) a).
  { destruct t1 as [p po]. unfold tstep, pupdate, pupd1. simpl fst in *. simpl snd in *. rewrite P1, P3. unfold kept_unit. simpl p_w. simpl p_b.
    split; [intros i Hi|]; unfold pmap2; rewrite entry_mk by (auto; lia); unfold next_rate; rewrite P2, P4.
    - rewrite ZW by auto. apply sgd_zero; auto. - rewrite ZB. apply sgd_zero; auto. }
  destruct (step_like (K := BN) t1 (dW1, dB1)) as (K1 & K2 & K3). destruct (step_like (K := BN) t2 (dW2, dB2)) as (_ & K5 & _).
  exists (tstep (K := BN) t1 (dW1, dB1)). split; [|split; [exact KU|exact K2]].
  destruct (pbatch (K := BN) k o (t1 :: t2 :: rest) X Y U q) as [|u1 [|u2 us]]; try discriminate. injection EG as ->. injection EG2 as ->.
  eexists _, us. split; [reflexivity|]. rewrite K1, K2, K3, K5. split; [exact HK|]. split; [exact HE|]. split; [exact Ha|]. split.
  - destruct t1 as [p po]. unfold tstep, pupdate. simpl fst. simpl snd in *.
    destruct (pupd1 po (p_in p) (p_out p) (p_w p) dW1 (po_wm po) (po_wc po)) as [[W' wm] wc]. destruct (pupd1 po 1 (p_out p) (p_b p) dB1 (po_bm po) (po_bc po)) as [[B' bm] bc].
    unfold plain_sgd. simpl. unfold po_after. simpl. unfold next_rate. rewrite P2. auto.
  - destruct KU as [KU1 KU2]. split; [intros i Hi; rewrite KU1 by exact Hi; auto|rewrite KU2; exact HNB].
Qed.
Lemma train_dead_float k o a U lr : b64_finite lr = true -> Bsign 53 1024 lr = false -> forall bs ts q t1, dead_first L ts lr a t1 ->
  List.Forall (fun XY => List.Forall (dead_row L (fst t1) a) (fst XY)) bs ->
  exists t1', dead_first L (fst (ptrain_on (K := BN) k o ts U q bs)) lr a t1' /\ kept_unit (fst t1) (fst t1') a /\ p_in (fst t1') = p_in (fst t1).
Proof.
  intros HF HSg. induction bs as [|[X Y] bs IH]; intros ts q t1 HS HB; [exists t1; split; [exact HS|repeat split]|].
  inversion HB as [|? ? H1 H2]; subst. cbn [ptrain_on].
  destruct (batch_dead_float k o ts X Y U q lr a t1 HS HF HSg H1) as (t1' & HS' & HKe & HI).
  destruct (IH (pbatch (K := BN) k o ts X Y U q) (q + net_draws true (map fst ts) (length X))%nat t1' HS') as (t1'' & A & (B1 & B2) & C).
  { eapply List.Forall_impl; [|exact H2]. intros XY HXY. eapply List.Forall_impl; [|exact HXY]. intros row [Hr1 Hr2]. split; [|exact Hr2].
    rewrite (kept_pre (K := BN) (fst t1) (fst t1') a row); auto. }
  exists t1''. split; [exact A|]. destruct HKe as [D1 D2]. split; [|congruence]. rewrite HI in B1. split; [intros i Hi; rewrite B1, D1; auto|congruence].
Qed.
Lemma fit_dead_float s (m : model BN) es xs i o k x rsx y rsy n X Y epochs bs xv yv lr a t1 :
  0 <= bs -> Z.of_nat n + bs <= 2 ^ 52 -> (1 <= n)%nat -> b64_finite lr = true -> Bsign 53 1024 lr = false ->
  trainable s m es xs i o k -> data_ok s es x rsx y rsy n i o X Y -> dead_first L (trainer es xs) lr a t1 -> List.Forall (dead_row L (fst t1) a) X ->
  returns (Fit m x y epochs bs xv yv 0) s (fun _ s' => exists es' xs' t1', trainable s' m es' xs' i o k /\ Forall2 same_place es es' /\
    dead_first L (trainer es' xs') lr a t1' /\ kept_unit (fst t1) (fst t1') a).
Proof.
  intros Hb Hn H1 HF HSg HT HD HS HX. destruct (fit_trains s m es xs i o k x rsx y rsy n X Y epochs bs xv yv (B64_min_faithful L) Hb Hn H1 HT HD) as ([] & s' & E & nn & _ & (es' & xs' & A1 & A2 & _ & A3 & _) & _).
  destruct (train_dead_float k o a (r_uni (h_rng s)) lr HF HSg (epochs_of (Z.to_nat epochs) (batch_rows n bs) X Y) (trainer es xs) (r_upos (h_rng s)) t1 HS) as (t1' & B1 & B2 & _).
  { unfold epochs_of. apply Forall_concat. apply List.Forall_forall. intros l Hl. apply repeat_spec in Hl. subst l.
    apply List.Forall_forall. intros [X0 Y0] Hin. apply in_combine_l in Hin. rewrite List.Forall_forall in *. intros row Hr. apply HX. eapply chunks_incl; eauto. }
  exists tt, s'. split; [exact E|]. exists es', xs', t1'. rewrite A3. auto.
Qed.
End Float.
