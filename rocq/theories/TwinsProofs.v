(** * TwinsProofs: training preserves twins. *)
From Coq Require Import String ZArith List Bool Arith Lia.
From Verif Require Import Num Heap Spec Matrix Network Loss Optimizers ModelGo PureSpec Repr HeapLemmas OptSpec OptFacts ModelSpec MiscProofs FitProofs FitLoop FitFacts Twins.
Import ListNotations.
Open Scope Z_scope.
Open Scope go_scope.

Section WithNum.
Context {K : Num}.
Lemma cols_mk r c f a b : (a < c)%nat -> (b < c)%nat -> (forall i, (i < r)%nat -> f i a = f i b :> K) -> same_cols r (mk r c f) a b.
Proof. intros Ha Hb H i Hi. rewrite !entry_mk by auto. apply H. exact Hi. Qed.
Lemma rows_mk r c f a b : (a < r)%nat -> (b < r)%nat -> (forall j, (j < c)%nat -> f a j = f b j :> K) -> same_rows c (mk r c f) a b.
Proof. intros Ha Hb H i Hi. rewrite !entry_mk by auto. apply H. exact Hi. Qed.
(** ** The optimizer *)
Lemma upd1_cols (po : popt K) r c P dP m ch a b : (a < c)%nat -> (b < c)%nat ->
  same_cols r P a b -> same_cols r dP a b -> same_cols r m a b -> same_cols r ch a b ->
  let '(P', m', ch') := pupd1 po r c P dP m ch in same_cols r P' a b /\ same_cols r m' a b /\ same_cols r ch' a b.
Proof.
  intros Ha Hb HP HD HM HC. unfold pupd1. destruct (po_kind po); [destruct (po_usemom po)|].
  - assert (H : same_cols r (pmap2 r c (vel1 (po_mom po) (next_rate po)) m dP) a b) by (apply cols_mk; auto; intros i Hi; rewrite HM, HD; auto).
    split; [|auto]. apply cols_mk; auto. intros i Hi. rewrite HP, H; auto.
  - split; [|auto]. apply cols_mk; auto. intros i Hi. rewrite HP, HD; auto.
  - assert (H : same_cols r (pmap2 r c (adam_m1 (po_b1 po)) m dP) a b) by (apply cols_mk; auto; intros i Hi; rewrite HM, HD; auto).
    assert (H2 : same_cols r (pmap2 r c (adam_c1 (po_b2 po)) ch dP) a b) by (apply cols_mk; auto; intros i Hi; rewrite HC, HD; auto).
    split; [|auto]. apply cols_mk; auto. intros i Hi. rewrite HP, H, H2; auto.
Qed.
Lemma upd1_rows (po : popt K) r c P dP m ch a b : (a < r)%nat -> (b < r)%nat ->
  same_rows c P a b -> same_rows c dP a b -> same_rows c m a b -> same_rows c ch a b ->
  let '(P', m', ch') := pupd1 po r c P dP m ch in same_rows c P' a b /\ same_rows c m' a b /\ same_rows c ch' a b.
Proof.
  intros Ha Hb HP HD HM HC. unfold pupd1. destruct (po_kind po); [destruct (po_usemom po)|].
  - assert (H : same_rows c (pmap2 r c (vel1 (po_mom po) (next_rate po)) m dP) a b) by (apply rows_mk; auto; intros i Hi; rewrite HM, HD; auto).
    split; [|auto]. apply rows_mk; auto. intros i Hi. rewrite HP, H; auto.
  - split; [|auto]. apply rows_mk; auto. intros i Hi. rewrite HP, HD; auto.
  - assert (H : same_rows c (pmap2 r c (adam_m1 (po_b1 po)) m dP) a b) by (apply rows_mk; auto; intros i Hi; rewrite HM, HD; auto).
    assert (H2 : same_rows c (pmap2 r c (adam_c1 (po_b2 po)) ch dP) a b) by (apply rows_mk; auto; intros i Hi; rewrite HC, HD; auto).
    split; [|auto]. apply rows_mk; auto. intros i Hi. rewrite HP, H, H2; auto.
Qed.
Lemma step_units (t : player K * popt K) dW dB a b : (a < p_out (fst t))%nat -> (b < p_out (fst t))%nat -> twin_units t a b ->
  same_cols (p_in (fst t)) dW a b -> same_cols 1 dB a b -> twin_units (tstep t (dW, dB)) a b.
Proof.
  intros Ha Hb (H1 & H2 & H3 & H4 & H5 & H6) HW HB. destruct t as [p po]. unfold tstep, pupdate. simpl fst in *. simpl snd in *.
  pose proof (upd1_cols po (p_in p) (p_out p) _ _ _ _ a b Ha Hb H1 HW H3 H4) as A.
  pose proof (upd1_cols po 1 (p_out p) _ _ _ _ a b Ha Hb H2 HB H5 H6) as B.
  destruct (pupd1 po (p_in p) (p_out p) (p_w p) dW (po_wm po) (po_wc po)) as [[W' wm] wc].
  destruct (pupd1 po 1 (p_out p) (p_b p) dB (po_bm po) (po_bc po)) as [[B' bm] bc].
  destruct A as (A1 & A2 & A3), B as (B1 & B2 & B3). unfold twin_units. simpl. auto 10.
Qed.
Lemma step_inputs (t : player K * popt K) dW dB a b : (a < p_in (fst t))%nat -> (b < p_in (fst t))%nat -> twin_inputs t a b ->
  same_rows (p_out (fst t)) dW a b -> twin_inputs (tstep t (dW, dB)) a b.
Proof.
  intros Ha Hb (H1 & H3 & H4) HW. destruct t as [p po]. unfold tstep, pupdate. simpl fst in *. simpl snd in *.
  pose proof (upd1_rows po (p_in p) (p_out p) _ _ _ _ a b Ha Hb H1 HW H3 H4) as A.
  destruct (pupd1 po (p_in p) (p_out p) (p_w p) dW (po_wm po) (po_wc po)) as [[W' wm] wc].
  destruct (pupd1 po 1 (p_out p) (p_b p) dB (po_bm po) (po_bc po)) as [[B' bm] bc].
  destruct A as (A1 & A2 & A3). unfold twin_inputs. simpl. auto.
Qed.
Lemma step_like (t : player K * popt K) g : p_kind (fst (tstep t g)) = p_kind (fst t) /\ p_in (fst (tstep t g)) = p_in (fst t) /\ p_out (fst (tstep t g)) = p_out (fst t).
Proof.
  destruct t as [p po], g as [dW dB]. unfold tstep, pupdate. simpl.
  destruct (pupd1 po (p_in p) (p_out p) (p_w p) dW (po_wm po) (po_wc po)) as [[W' wm] wc].
  destruct (pupd1 po 1 (p_out p) (p_b p) dB (po_bm po) (po_bc po)) as [[B' bm] bc]. auto.
Qed.
(** ** The gradients *)
Definition separate (p : player K) : Prop := p_kind p = Hidden \/ p_kind p = Leaky \/ p_kind p = Linear.
Lemma fwd_cols p r X (U : nat -> K) a b : separate p -> (a < p_out p)%nat -> (b < p_out p)%nat ->
  same_cols (p_in p) (p_w p) a b -> same_cols 1 (p_b p) a b -> same_cols r (ptrain p r X U) a b.
Proof.
  intros HK Ha Hb HW HB. assert (HA : same_cols r (paffine p r X) a b).
  { apply cols_mk; auto. intros i Hi. rewrite (HB 0%nat) by lia. f_equal. apply fsum_ext. intros n Hn. rewrite HW; auto. }
  unfold ptrain, pforward, pact. destruct HK as [-> | [-> | ->]]; try exact HA; apply cols_mk; auto; intros i Hi; rewrite HA; auto.
Qed.
Lemma back_cols p r (O M G : pm K) a b : separate p -> (a < p_out p)%nat -> (b < p_out p)%nat ->
  same_cols r O a b -> same_cols r G a b -> same_cols r (pback p r O M G) a b.
Proof.
  intros HK Ha Hb HO HG. unfold pback. destruct HK as [-> | [-> | ->]]; try exact HG; apply cols_mk; auto; intros i Hi; rewrite HO, HG; auto.
Qed.
Lemma grads_twins k Y o : forall l ps r X (U : nat -> K) q p1 p2 a b,
  nth_error ps l = Some p1 -> nth_error ps (S l) = Some p2 -> separate p1 -> p_in p2 = p_out p1 ->
  (a < p_out p1)%nat -> (b < p_out p1)%nat ->
  same_cols (p_in p1) (p_w p1) a b -> same_cols 1 (p_b p1) a b -> same_rows (p_out p2) (p_w p2) a b ->
  exists dW1 dB1 dW2 dB2, nth_error (snd (pbackprop k Y o ps r X U q)) l = Some (dW1, dB1) /\
    nth_error (snd (pbackprop k Y o ps r X U q)) (S l) = Some (dW2, dB2) /\
    same_cols (p_in p1) dW1 a b /\ same_cols 1 dB1 a b /\ same_rows (p_out p2) dW2 a b.
Proof.
  induction l as [|l IH]; intros ps r X U q p1 p2 a b H1 H2 HK HE Ha Hb HW HB HR.
  - destruct ps as [|p [|p' ps]]; try discriminate. simpl in H1, H2. injection H1 as ->. injection H2 as ->.
    cbn [pbackprop]. set (O := ptrain p1 r X (from U q)). assert (HO : same_cols r O a b) by (apply fwd_cols; auto).
    destruct (pbackprop k Y o ps r (ptrain p2 r O (from U (q + pdraws p1 r))) U (q + pdraws p1 r + pdraws p2 r)) as [G gs].
    set (G2 := pre_grad k Y _ p2 r _ _ G). set (G1 := pre_grad k Y _ p1 r _ _ _).
    assert (HG1 : same_cols r G1 a b).
    { unfold G1, pre_grad. apply back_cols; auto. unfold pdX. apply cols_mk; try lia. intros i Hi. apply fsum_ext. intros n Hn.
      f_equal. unfold ptrans. rewrite !entry_mk by lia. apply HR. exact Hn. }
    simpl. do 4 eexists. split; [reflexivity|]. split; [reflexivity|]. split; [|split].
    + unfold pdW. apply cols_mk; auto. intros i Hi. apply fsum_ext. intros n Hn. f_equal. apply HG1. exact Hn.
    + apply cols_mk; auto. intros i Hi. apply fsum_ext. intros n Hn. apply HG1. exact Hn.
    + unfold pdW. apply rows_mk; try lia. intros j Hj. apply fsum_ext. intros n Hn. f_equal. unfold ptrans. rewrite !entry_mk by lia. apply HO. exact Hn.
  - destruct ps as [|p ps]; [discriminate|]. cbn [pbackprop].
    destruct (IH ps r (ptrain p r X (from U q)) U (q + pdraws p r)%nat p1 p2 a b H1 H2 HK HE Ha Hb HW HB HR) as (dW1 & dB1 & dW2 & dB2 & E1 & E2 & A1 & A2 & A3).
    destruct (pbackprop k Y o ps r (ptrain p r X (from U q)) U (q + pdraws p r)) as [G gs]. simpl in *. exists dW1, dB1, dW2, dB2. auto.
Qed.
Lemma nth_step (ts : list (player K * popt K)) gs l t g : nth_error ts l = Some t -> nth_error gs l = Some g ->
  nth_error (map (fun tg => tstep (fst tg) (snd tg)) (combine ts gs)) l = Some (tstep t g).
Proof.
  revert gs l. induction ts as [|t0 ts IH]; intros [|g0 gs] [|l] H1 H2; try discriminate; simpl in *.
  - injection H1 as ->. injection H2 as ->. reflexivity.
  - apply IH; auto.
Qed.
Lemma batch_twins k o ts X Y (U : nat -> K) q l a b : twins ts l a b -> twins (pbatch k o ts X Y U q) l a b.
Proof.
  intros (t1 & t2 & E1 & E2 & HK & HE & Ha & Hb & HU & HI). pose proof HU as (HW & HB & _). pose proof HI as (HR & _).
  destruct (grads_twins k Y o l (map fst ts) (length X) X U q (fst t1) (fst t2) a b) as (dW1 & dB1 & dW2 & dB2 & G1 & G2 & A1 & A2 & A3); auto.
  { now apply map_nth_error. } { now apply map_nth_error. }
  exists (tstep t1 (dW1, dB1)), (tstep t2 (dW2, dB2)). destruct (step_like t1 (dW1, dB1)) as (-> & _ & ->). destruct (step_like t2 (dW2, dB2)) as (_ & -> & _).
  split; [apply nth_step; auto|]. split; [apply nth_step; auto|]. split; [exact HK|]. split; [exact HE|]. split; [exact Ha|]. split; [exact Hb|].
  split; [apply step_units; auto|apply step_inputs; auto; lia].
Qed.
Lemma train_twins k o l a b (U : nat -> K) : forall bs ts q, twins ts l a b -> twins (fst (ptrain_on k o ts U q bs)) l a b.
Proof. induction bs as [|[X Y] bs IH]; intros ts q H; [exact H|]. cbn [ptrain_on]. apply IH. apply batch_twins. exact H. Qed.
Lemma batch_features k o ts X Y (U : nat -> K) q a b : twin_features ts a b -> same_cols (length X) X a b -> twin_features (pbatch k o ts X Y U q) a b.
Proof.
  intros (t & E & Ha & Hb & HI) HX. destruct ts as [|t0 ts]; [discriminate|]. injection E as ->.
  unfold pbatch. cbn [map pbackprop].
  destruct (pbackprop k Y o (map fst ts) (length X) (ptrain (fst t) (length X) X (from U q)) U (q + pdraws (fst t) (length X))) as [G gs]. set (G1 := pre_grad k Y _ (fst t) _ _ _ G).
  simpl snd. cbn [combine map fst snd]. eexists. split; [reflexivity|].
  destruct (step_like t (pdW (length X) (p_in (fst t)) (p_out (fst t)) X G1, psum0 (length X) (p_out (fst t)) G1)) as (_ & -> & _). split; [exact Ha|]. split; [exact Hb|].
  apply step_inputs; auto. unfold pdW. apply rows_mk; auto. intros j Hj. apply fsum_ext. intros n Hn. f_equal. unfold ptrans. rewrite !entry_mk by lia. apply HX. exact Hn.
Qed.
Lemma train_features k o a b (U : nat -> K) : forall bs ts q, twin_features ts a b -> Forall (fun XY => same_cols (length (fst XY)) (fst XY) a b) bs ->
  twin_features (fst (ptrain_on k o ts U q bs)) a b.
Proof.
  induction bs as [|[X Y] bs IH]; intros ts q H HB; [exact H|]. inversion HB; subst. cbn [ptrain_on]. apply IH; [|assumption]. apply batch_features; assumption.
Qed.

(** ** Fit *)
Lemma fit_twins s (m : model K) es xs i o k x rsx y rsy n X Y epochs bs xv yv l a b :
  min_faithful K -> 0 <= bs -> Z.of_nat n + bs <= 2 ^ 52 -> (1 <= n)%nat ->
  trainable s m es xs i o k -> data_ok s es x rsx y rsy n i o X Y -> twins (trainer es xs) l a b ->
  returns (Fit m x y epochs bs xv yv 0) s (fun _ s' => exists es' xs', trainable s' m es' xs' i o k /\ Forall2 same_place es es' /\ twins (trainer es' xs') l a b).
Proof.
  intros HM Hb Hn H1 HT HD HW. destruct (fit_trains s m es xs i o k x rsx y rsy n X Y epochs bs xv yv HM Hb Hn H1 HT HD) as ([] & s' & E & nn & _ & (es' & xs' & A1 & A2 & _ & A3 & _) & _).
  exists tt, s'. split; [exact E|]. exists es', xs'. split; [exact A1|]. split; [exact A2|]. rewrite A3. apply train_twins. exact HW.
Qed.
Lemma cols_Forall (X : pm K) a b : same_cols (length X) X a b <-> Forall (fun row => nth a row f0 = nth b row f0) X.
Proof.
  unfold same_cols, entry. rewrite Forall_forall. split.
  - intros H row Hr. destruct (In_nth X row [] Hr) as (i & Hi & <-). apply H. exact Hi.
  - intros H i Hi. apply H. apply nth_In. exact Hi.
Qed.
Lemma chunks_incl {A} c : forall n (l : list A) Z, In Z (chunks_fuel n c l) -> forall x, In x Z -> In x l.
Proof.
  induction n as [|n IH]; intros l Z HZ x Hx; destruct l as [|y l]; try contradiction.
  cbn [chunks_fuel] in HZ. destruct HZ as [<-|HZ].
  - rewrite <- (firstn_skipn c (y :: l)). apply in_or_app. left. exact Hx.
  - rewrite <- (firstn_skipn c (y :: l)). apply in_or_app. right. exact (IH _ _ HZ x Hx).
Qed.
Lemma chunk_cols c (X : pm K) a b Z : same_cols (length X) X a b -> In Z (chunks c X) -> same_cols (length Z) Z a b.
Proof. rewrite !cols_Forall, !Forall_forall. intros H HZ row Hr. apply H. eapply chunks_incl; eauto. Qed.
Lemma fit_features s (m : model K) es xs i o k x rsx y rsy n X Y epochs bs xv yv a b :
  min_faithful K -> 0 <= bs -> Z.of_nat n + bs <= 2 ^ 52 -> (1 <= n)%nat ->
  trainable s m es xs i o k -> data_ok s es x rsx y rsy n i o X Y -> twin_features (trainer es xs) a b -> same_cols n X a b ->
  returns (Fit m x y epochs bs xv yv 0) s (fun _ s' => exists es' xs', trainable s' m es' xs' i o k /\ Forall2 same_place es es' /\ twin_features (trainer es' xs') a b).
Proof.
  intros HM Hb Hn H1 HT HD HW HX. destruct (fit_trains s m es xs i o k x rsx y rsy n X Y epochs bs xv yv HM Hb Hn H1 HT HD) as ([] & s' & E & nn & _ & (es' & xs' & A1 & A2 & _ & A3 & _) & _).
  exists tt, s'. split; [exact E|]. exists es', xs'. split; [exact A1|]. split; [exact A2|]. rewrite A3. apply train_features; [exact HW|].
  destruct HD as (HO & _). destruct (own_lengths _ _ _ _ _ _ HO) as [_ EL]. rewrite <- EL in HX.
  unfold epochs_of. apply Forall_concat. apply Forall_forall. intros l Hl. apply repeat_spec in Hl. subst l.
  apply Forall_forall. intros [X0 Y0] Hin. apply in_combine_l in Hin. eapply chunk_cols; eauto.
Qed.
(** Twins give the same output on every sample. *)
Lemma twins_output ts l a b r (X : pm K) t : twins ts l a b -> nth_error ts l = Some t -> same_cols r (pforward (fst t) r X) a b.
Proof.
  intros (t1 & t2 & E1 & _ & HK & _ & Ha & Hb & (HW & HB & _) & _) E. rewrite E in E1. injection E1 as <-.
  pose proof (fwd_cols (fst t) r X (fun _ => f0) a b HK Ha Hb HW HB) as H. unfold ptrain in H. destruct HK as [HK | [HK | HK]]; rewrite HK in H; exact H.
Qed.
End WithNum.
