(** * Span: the first layer moves within the span of the inputs. *)
From Coq Require Import String ZArith List Bool Arith Lia Reals Lra.
From Verif Require Import Num NumR Heap Spec Matrix Loss Network Optimizers ModelGo PureSpec Repr HeapLemmas RSum OptSpec LossProofs ModelSpec ModelFacts FitFacts FitProofs TwinsProofs MiscProofs Conserve ConserveProofs Params SpanSpec.
Import ListNotations.
Open Scope R_scope.
Notation rpm := (pm RNum).

(** ** The gradient of the first layer *)
Lemma dW_entry r k c (X G : rpm) i j : (i < k)%nat -> (j < c)%nat -> entry (pdW (K := RNum) r k c X G) i j = rsum r (fun n => entry X n i * entry G n j).
Proof. intros Hi Hj. unfold pdW, pdot. rewrite entry_mk by auto. apply rsum_ext. intros n Hn. unfold ptrans. rewrite entry_mk by auto. reflexivity. Qed.
Lemma dW_along k c v (X G : rpm) j : (j < c)%nat -> unseen k v X -> along k v (pdW (K := RNum) (length X) k c X G) j = 0.
Proof.
  intros Hj HX. unfold along. rewrite (rsum_ext k _ (fun i => rsum (length X) (fun n => v i * entry X n i * entry G n j))).
  - rewrite rsum_swap. rewrite (rsum_ext _ _ (fun _ => 0)); [apply rsum_zero|]. intros n Hn. rewrite (rsum_scal_r k (entry G n j) (fun i => v i * entry X n i)).
    unfold unseen in HX. rewrite List.Forall_forall in HX. unfold entry at 1. setoid_rewrite (HX (nth n X []) (nth_In _ _ Hn)). ring.
  - intros i Hi. rewrite dW_entry, <- rsum_scal by auto. apply rsum_ext. intros n Hn. ring.
Qed.
Lemma dW_blank k c j (X G : rpm) b : (j < k)%nat -> (b < c)%nat -> blank j X -> entry (pdW (K := RNum) (length X) k c X G) j b = 0.
Proof.
  intros Hj Hb HX. rewrite dW_entry by auto. rewrite (rsum_ext _ _ (fun _ => 0)); [apply rsum_zero|]. intros n Hn. unfold blank in HX. rewrite List.Forall_forall in HX.
  unfold entry at 1. setoid_rewrite (HX (nth n X []) (nth_In _ _ Hn)). ring.
Qed.
(** ** Any property of the first layer that such gradients keep *)
Section First.
Variables (I : player RNum * popt RNum -> Prop) (C : rpm -> Prop).
Hypothesis Keep : forall t X G dB, I t -> C X -> I (tstep (K := RNum) t (pdW (K := RNum) (length X) (p_in (fst t)) (p_out (fst t)) X G, dB)).
Lemma train_first k o U : forall bs ts q t, nth_error ts 0 = Some t -> I t -> List.Forall (fun XY : rpm * rpm => C (fst XY)) bs ->
  exists t', nth_error (fst (ptrain_on (K := RNum) k o ts U q bs)) 0 = Some t' /\ I t'.
Proof.
  induction bs as [|[X Y] bs IH]; intros ts q t HE HI HC; [exists t; auto|]. inversion HC as [|? ? C1 C2]; subst. cbn [ptrain_on]. cbn [fst] in C1.
  destruct ts as [|t0 ts]; [discriminate|]. injection HE as ->.
  assert (G : exists G dB, nth_error (pbatch (K := RNum) k o (t :: ts) X Y U q) 0 = Some (tstep (K := RNum) t (pdW (K := RNum) (length X) (p_in (fst t)) (p_out (fst t)) X G, dB))).
  { unfold pbatch. cbn [map pbackprop]. destruct (pbackprop (K := RNum) k Y o (map fst ts) (length X) (ptrain (fst t) (length X) X (from U q)) U (q + pdraws (fst t) (length X))) as [G gs]. cbn [snd combine map nth_error fst]. eauto. }
  destruct G as (G & dB & EG). apply (IH _ _ _ EG); [now apply Keep|exact C2].
Qed.
Hypothesis Sub : forall X Z, C X -> (forall row, In row Z -> In row X) -> C Z.
Lemma fit_first s (m : model RNum) es xs i o k x rsx y rsy n X Y epochs bs xv yv t :
  (0 <= bs)%Z -> (Z.of_nat n + bs <= 2 ^ 52)%Z -> (1 <= n)%nat ->
  trainable s m es xs i o k -> data_ok s es x rsx y rsy n i o X Y -> nth_error (trainer es xs) 0 = Some t -> I t -> C X ->
  returns (Fit m x y epochs bs xv yv 0) s (fun _ s' => exists es' xs' t', trainable s' m es' xs' i o k /\ Forall2 same_place es es' /\ nth_error (trainer es' xs') 0 = Some t' /\ I t').
Proof.
  intros Hb Hn H1 HT HD HE HI HC.
  destruct (fit_trains s m es xs i o k x rsx y rsy n X Y epochs bs xv yv RNum_min_faithful Hb Hn H1 HT HD) as ([] & s' & E & nn & _ & (es' & xs' & A1 & A2 & _ & A3 & _) & _).
  destruct (train_first k o (r_uni (h_rng s)) (epochs_of (Z.to_nat epochs) (batch_rows n bs) X Y) (trainer es xs) (r_upos (h_rng s)) t HE HI) as (t' & B1 & B2).
  { unfold epochs_of. apply Forall_concat. apply List.Forall_forall. intros li Hl. apply repeat_spec in Hl. subst li.
    apply List.Forall_forall. intros [X0 Y0] Hin. cbn [fst]. apply in_combine_l in Hin. apply (Sub X X0 HC). intros row Hr. eapply chunks_incl; eauto. }
  exists tt, s'. split; [exact E|]. exists es', xs', t'. split; [exact A1|]. split; [exact A2|]. split; [|exact B2]. rewrite A3. exact B1.
Qed.
End First.

(** ** Directions *)
Section Direction.
Variables (p0 : player RNum) (v : nat -> R).
Definition kept (t : player RNum * popt RNum) : Prop := p_in (fst t) = p_in p0 /\ p_out (fst t) = p_out p0 /\ steady v t /\ forall c, (c < p_out p0)%nat -> along (p_in p0) v (p_w (fst t)) c = along (p_in p0) v (p_w p0) c.
Lemma upd1_along (po : popt RNum) r c (P dP m ch : rpm) b : po_kind po = SGD -> (b < c)%nat -> along r v dP b = 0 -> (po_usemom po = true -> along r v m b = 0) ->
  let '(P', m', _) := pupd1 po r c P dP m ch in along r v P' b = along r v P b /\ (po_usemom po = true -> along r v m' b = 0).
Proof.
  intros HK Hb HD HM. unfold pupd1. rewrite HK. unfold along in *. destruct (po_usemom po).
  - specialize (HM eq_refl).
    assert (E : rsum r (fun j => v j * entry (pmap2 (K := RNum) r c (vel1 (po_mom po) (next_rate po)) m dP) j b) = 0).
    { rewrite (rsum_ext r _ (fun j => po_mom po * (v j * entry m j b) - next_rate po * (v j * entry dP j b))).
      - rewrite rsum_minus, !rsum_scal, HM, HD. lra.
      - intros j Hj. unfold pmap2. rewrite entry_mk by auto. unfold vel1. cbn [fsub fmul RNum]. change (F RNum) with R in *. ring. }
    split; [|intros _; exact E].
    rewrite (rsum_ext r _ (fun j => v j * entry P j b + v j * entry (pmap2 (K := RNum) r c (vel1 (po_mom po) (next_rate po)) m dP) j b)).
    + rewrite rsum_plus, E. apply Rplus_0_r.
    + intros j Hj. unfold pmap2 at 1. rewrite entry_mk by auto. apply Rmult_plus_distr_l.
  - split; [|discriminate]. rewrite (rsum_ext r _ (fun j => v j * entry P j b - next_rate po * (v j * entry dP j b))).
    + rewrite rsum_minus, rsum_scal, HD, Rmult_0_r. apply Rminus_0_r.
    + intros j Hj. unfold pmap2. rewrite entry_mk by auto. unfold sgd1. cbn [fsub fmul RNum]. change (F RNum) with R in *. ring.
Qed.
Lemma step_kept t X G dB : kept t -> unseen (p_in p0) v X -> kept (tstep (K := RNum) t (pdW (K := RNum) (length X) (p_in (fst t)) (p_out (fst t)) X G, dB)).
Proof.
  intros (E1 & E2 & (HK & HM) & HW) HX. destruct t as [p po]. cbn [fst snd] in *. unfold tstep, pupdate. cbn [fst snd].
  assert (A : forall b, (b < p_out p)%nat -> _) by (intros b Hb; exact (upd1_along po (p_in p) (p_out p) (p_w p) (pdW (K := RNum) (length X) (p_in p) (p_out p) X G) (po_wm po) (po_wc po) b HK Hb
    (dW_along (p_in p) (p_out p) v X G b Hb (eq_ind_r (fun n => unseen n v X) HX E1)) (fun E => HM E b Hb))).
  destruct (pupd1 po (p_in p) (p_out p) (p_w p) (pdW (K := RNum) (length X) (p_in p) (p_out p) X G) (po_wm po) (po_wc po)) as [[W' wm] wc].
  destruct (pupd1 po 1 (p_out p) (p_b p) dB (po_bm po) (po_bc po)) as [[B' bm] bc].
  unfold kept, steady. cbn [fst snd reparam p_in p_out p_w po_after po_kind po_usemom po_wm]. split; [exact E1|]. split; [exact E2|]. split.
  - split; [exact HK|]. intros E c Hc. apply A; auto.
  - intros c Hc. rewrite <- HW by exact Hc. rewrite <- E1. apply A. now rewrite E2.
Qed.
End Direction.
Lemma fit_span s (m : model RNum) es xs i o k x rsx y rsy n X Y epochs bs xv yv t v :
  (0 <= bs)%Z -> (Z.of_nat n + bs <= 2 ^ 52)%Z -> (1 <= n)%nat ->
  trainable s m es xs i o k -> data_ok s es x rsx y rsy n i o X Y -> nth_error (trainer es xs) 0 = Some t -> steady v t -> unseen i v X ->
  returns (Fit m x y epochs bs xv yv 0) s (fun _ s' => exists es' xs' t', trainable s' m es' xs' i o k /\ Forall2 same_place es es' /\ nth_error (trainer es' xs') 0 = Some t' /\ steady v t' /\
    forall c, (c < p_out (fst t))%nat -> along i v (p_w (fst t')) c = along i v (p_w (fst t)) c).
Proof.
  intros Hb Hn H1 HT HD HE HS HX.
  assert (EI : p_in (fst t) = i).
  { pose proof (proj1 (proj2 (proj2 (proj2 (proj2 (proj1 HT)))))) as HC. destruct es as [|e es]; [discriminate|]. unfold trainer in HE. cbn [net map combine] in HE. destruct (map x_po xs); [discriminate|]. injection HE as <-. apply HC. }
  rewrite <- EI in HX. pose proof (fit_first (kept (fst t) v) (unseen (p_in (fst t)) v) (step_kept (fst t) v)) as F.
  assert (SUB : forall X Z : rpm, unseen (p_in (fst t)) v X -> (forall row, In row Z -> In row X) -> unseen (p_in (fst t)) v Z).
  { intros A Z HA Hin. unfold unseen in *. rewrite List.Forall_forall in *. auto. }
  destruct (F SUB s m es xs i o k x rsx y rsy n X Y epochs bs xv yv t Hb Hn H1 HT HD HE) as ([] & s' & E & es' & xs' & t' & A1 & A2 & A3 & (_ & _ & A4 & A5)).
  { repeat split; auto; apply HS. } { exact HX. }
  exists tt, s'. split; [exact E|]. exists es', xs', t'. do 4 (split; [assumption|]). rewrite <- EI. exact A5.
Qed.

(** ** Features that are always zero *)
Section Feature.
Variables (p0 : player RNum) (j : nat).
Hypothesis Hj : (j < p_in p0)%nat.
Definition same_row (t : player RNum * popt RNum) : Prop := p_in (fst t) = p_in p0 /\ p_out (fst t) = p_out p0 /\ row_rest j t /\ forall c, (c < p_out p0)%nat -> entry (p_w (fst t)) j c = entry (p_w p0) j c.
Lemma upd1_row (po : popt RNum) r c (P dP m ch : rpm) b : (j < r)%nat -> (b < c)%nat -> entry dP j b = 0 -> (match po_kind po with SGD => po_usemom po = true -> entry m j b = 0 | Adam => entry m j b = 0 end) ->
  let '(P', m', _) := pupd1 po r c P dP m ch in entry P' j b = entry P j b /\ (match po_kind po with SGD => po_usemom po = true -> entry m' j b = 0 | Adam => entry m' j b = 0 end).
Proof.
  intros Hr Hb HD HM. unfold pupd1. destruct (po_kind po).
  - destruct (po_usemom po).
    + specialize (HM eq_refl). assert (Z : entry (pmap2 (K := RNum) r c (vel1 (po_mom po) (next_rate po)) m dP) j b = 0).
      { unfold pmap2. rewrite entry_mk, HM, HD by assumption. unfold vel1. cbn [fsub fmul RNum]. change (F RNum) with R in *. ring. }
      split; [|intros _; exact Z]. unfold pmap2 at 1. rewrite entry_mk, Z by assumption. cbn [fadd RNum]. apply Rplus_0_r.
    + split; [|discriminate]. unfold pmap2. rewrite entry_mk, HD by assumption. unfold sgd1. cbn [fsub fmul RNum]. change (F RNum) with R in *. ring.
  - assert (Z : entry (pmap2 (K := RNum) r c (adam_m1 (po_b1 po)) m dP) j b = 0).
    { unfold pmap2. rewrite entry_mk, HM, HD by assumption. unfold adam_m1. cbn [fadd fsub fmul RNum]. change (F RNum) with R in *. ring. }
    split; [|exact Z]. rewrite entry_mk, Z by assumption. unfold adam_p1. cbn [fadd fsub fmul fdiv fneg RNum]. change (F RNum) with R in *. unfold Rdiv. ring.
Qed.
Lemma step_row t X G dB : same_row t -> blank j X -> same_row (tstep (K := RNum) t (pdW (K := RNum) (length X) (p_in (fst t)) (p_out (fst t)) X G, dB)).
Proof.
  intros (E1 & E2 & HR & HW) HX. destruct t as [p po]. cbn [fst snd] in *. unfold tstep, pupdate. cbn [fst snd]. rewrite <- E1 in Hj.
  assert (A : forall b, (b < p_out p)%nat -> _) by (intros b Hb; refine (upd1_row po (p_in p) (p_out p) (p_w p) (pdW (K := RNum) (length X) (p_in p) (p_out p) X G) (po_wm po) (po_wc po) b Hj Hb
    (dW_blank (p_in p) (p_out p) j X G b Hj Hb HX) _); unfold row_rest in HR; cbn [fst snd] in HR; destruct (po_kind po); [intros E; now apply HR|now apply HR]).
  destruct (pupd1 po (p_in p) (p_out p) (p_w p) (pdW (K := RNum) (length X) (p_in p) (p_out p) X G) (po_wm po) (po_wc po)) as [[W' wm] wc].
  destruct (pupd1 po 1 (p_out p) (p_b p) dB (po_bm po) (po_bc po)) as [[B' bm] bc].
  unfold same_row, row_rest in *. cbn [fst snd reparam p_in p_out p_w po_after po_kind po_usemom po_wm po_eps] in *. split; [exact E1|]. split; [exact E2|]. split.
  - destruct (po_kind po); [intros E c Hc; now apply A|]. split; [apply HR|]. intros c Hc. now apply A.
  - intros c Hc. rewrite <- HW by exact Hc. apply A. now rewrite E2.
Qed.
End Feature.
Lemma fit_blank s (m : model RNum) es xs i o k x rsx y rsy n X Y epochs bs xv yv t j :
  (0 <= bs)%Z -> (Z.of_nat n + bs <= 2 ^ 52)%Z -> (1 <= n)%nat ->
  trainable s m es xs i o k -> data_ok s es x rsx y rsy n i o X Y -> nth_error (trainer es xs) 0 = Some t -> (j < i)%nat -> row_rest j t -> blank j X ->
  returns (Fit m x y epochs bs xv yv 0) s (fun _ s' => exists es' xs' t', trainable s' m es' xs' i o k /\ Forall2 same_place es es' /\ nth_error (trainer es' xs') 0 = Some t' /\ row_rest j t' /\
    forall c, (c < p_out (fst t))%nat -> entry (p_w (fst t')) j c = entry (p_w (fst t)) j c).
Proof.
  intros Hb Hn H1 HT HD HE Hj HS HX.
  assert (EI : p_in (fst t) = i).
  { pose proof (proj1 (proj2 (proj2 (proj2 (proj2 (proj1 HT)))))) as HC. destruct es as [|e es]; [discriminate|]. unfold trainer in HE. cbn [net map combine] in HE. destruct (map x_po xs); [discriminate|]. injection HE as <-. apply HC. }
  rewrite <- EI in Hj. pose proof (fit_first (same_row (fst t) j) (blank j) (step_row (fst t) j Hj)) as F.
  assert (SUB : forall X Z : rpm, blank j X -> (forall row, In row Z -> In row X) -> blank j Z).
  { intros A Z HA Hin. unfold blank in *. rewrite List.Forall_forall in *. auto. }
  destruct (F SUB s m es xs i o k x rsx y rsy n X Y epochs bs xv yv t Hb Hn H1 HT HD HE) as ([] & s' & E & es' & xs' & t' & A1 & A2 & A3 & (_ & _ & A4 & A5)).
  { split; [reflexivity|]. split; [reflexivity|]. split; [exact HS|reflexivity]. } { exact HX. }
  exists tt, s'. split; [exact E|]. exists es', xs', t'. do 4 (split; [assumption|]). exact A5.
Qed.
