(** * Mirror: turning the sign of input features and of their weights changes nothing else. *)
From Coq Require Import String ZArith List Bool Arith Lia.
From Verif Require Import Num Heap Spec Matrix Loss Network Optimizers ModelGo PureSpec Repr HeapLemmas MatrixFacts OptSpec LossProofs ModelSpec ModelFacts FitFacts FitProofs MiscProofs FlipSpec FlipNum Flip MirrorSpec.
From Verif Require ModelRefute.
Import ListNotations.

Section Mirror.
Context {K : Num} (HF : flip_laws K).
Notation tn := (turned (K := K)).
Lemma aff_m g (p q : player K) r (X X' : pm K) : lmirrored g p q -> cturned g r (p_in p) X X' -> mturned false r (p_out p) (paffine p r X) (paffine q r X').
Proof.
  intros (_ & _ & Ei & Eo & _ & _ & HW & HB) HX. unfold paffine, paff. rewrite Ei, Eo. apply mt_mk. intros n j Hn Hj. apply (fl_add K HF); [|apply HB; lia].
  apply (tsum HF). intros k Hk. replace false with (xorb (g k) (g k)) by (destruct (g k); reflexivity). apply (fl_mul K HF); [now apply HX|now apply HW].
Qed.
Lemma forward_m g p q r (X X' : pm K) : lmirrored g p q -> cturned g r (p_in p) X X' -> mturned false r (p_out p) (pforward p r X) (pforward q r X').
Proof.
  intros HL HX. pose proof (aff_m _ _ _ _ _ _ HL HX) as HA. pose proof HL as (HP & Ek & _ & Eo & Es & _). unfold pforward, pact, act1. rewrite Ek, Eo.
  destruct HP as [E|[E|[E|E]]]; rewrite E; try exact HA; unfold pmap; apply mt_mk; intros n j Hn Hj; rewrite ?Es; specialize (HA n j Hn Hj); [now apply (fl_relu K HF)|now apply (leaky_t HF)|now apply (fl_relu K HF)].
Qed.
Lemma train_m g p q r (X X' : pm K) U : lmirrored g p q -> cturned g r (p_in p) X X' -> mturned false r (p_out p) (ptrain p r X U) (ptrain q r X' U).
Proof.
  intros HL HX. pose proof (forward_m _ _ _ _ _ _ HL HX) as HA. pose proof (aff_m _ _ _ _ _ _ HL HX) as HZ. pose proof HL as (HP & Ek & _ & Eo & _ & Ed & _). unfold ptrain. rewrite Ek.
  destruct HP as [E|[E|[E|E]]]; rewrite E; try exact HA. unfold pforward_drop. rewrite Eo, Ed. apply mt_mk. intros n j Hn Hj.
  apply (fl_mul K HF false false); [|apply (fl_refl K HF)]. apply (fl_relu K HF). now apply HZ.
Qed.
Lemma back_m g p q r (O O' Mk G G' : pm K) : lmirrored g p q -> mturned false r (p_out p) O O' -> mturned false r (p_out p) G G' -> mturned false r (p_out p) (pback p r O Mk G) (pback q r O' Mk G').
Proof.
  intros (HP & Ek & _ & Eo & Es & _) HO HG. unfold pback. rewrite Ek, Eo, Es.
  assert (HR : forall A A' : pm K, mturned false r (p_out p) A A' -> mturned false r (p_out p) (pmap2 r (p_out p) relu_prime1 A O) (pmap2 r (p_out p) relu_prime1 A' O')).
  { intros A A' HA. unfold pmap2. apply mt_mk. intros n j Hn Hj. unfold relu_prime1. rewrite (fl_le K HF _ _ (HO n j Hn Hj)). destruct (fle _ _); [apply (fl_zero K HF)|now apply HA]. }
  destruct HP as [E|[E|[E|E]]]; rewrite E; [now apply HR| |apply HR|exact HG].
  - unfold pmap2. apply mt_mk. intros n j Hn Hj. unfold leaky_prime1. rewrite (fl_lt K HF _ _ (HO n j Hn Hj)). destruct (flt _ _); [|now apply HG]. exact (fl_mul K HF false false _ _ _ _ (HG n j Hn Hj) (fl_refl K HF _)).
  - unfold pmap2. apply mt_mk. intros n j Hn Hj. exact (fl_mul K HF false false _ _ _ _ (HG n j Hn Hj) (fl_refl K HF _)).
Qed.
Lemma mask_m (p q : player K) g r U : lmirrored g p q -> ptrain_mask q r U = ptrain_mask p r U.
Proof. intros (_ & Ek & _ & Eo & _ & Ed & _). unfold ptrain_mask. now rewrite Ek, Eo, Ed. Qed.
Lemma draws_m (p q : player K) g r : lmirrored g p q -> pdraws q r = pdraws p r.
Proof. intros (_ & Ek & _ & Eo & _). unfold pdraws. now rewrite Ek, Eo. Qed.
Lemma loss_m k r c (O O' Y : pm K) : k = MSE \/ k = MAE -> mturned false r c O O' -> mturned false r c (ploss_back k r c O Y) (ploss_back k r c O' Y).
Proof.
  intros [-> | ->] HO; unfold ploss_back, pmse_back, pmae_back; apply mt_mk; intros n j Hn Hj; pose proof (fl_sub K HF _ _ _ _ _ (HO n j Hn Hj) (fl_refl K HF (entry Y n j))) as HD.
  - exact (fl_mul K HF false false _ _ _ _ HD (fl_refl K HF _)).
  - cbv zeta. rewrite (fl_gt K HF _ _ HD), (fl_lt K HF _ _ HD). destruct (flt _ _); [apply (fl_refl K HF)|]. destruct (flt _ _); apply (fl_refl K HF).
Qed.
Definition gmirrored (g : nat -> bool) (k c : nat) (a b : pm K * pm K) : Prop := rturned g k c (fst a) (fst b) /\ mturned false 1 c (snd a) (snd b).
Fixpoint gsmirrored (g : nat -> bool) (ts : list (player K * popt K)) (gs hs : list (pm K * pm K)) : Prop :=
  match ts, gs, hs with
  | [], [], [] => True
  | t :: ts', a :: gs', b :: hs' => gmirrored g (p_in (fst t)) (p_out (fst t)) a b /\ gsmirrored (fun _ => false) ts' gs' hs'
  | _, _, _ => False
  end.
Lemma grads_m g r i c (X X' G G' W W' : pm K) : cturned g r i X X' -> mturned false r c G G' -> rturned g i c W W' ->
  cturned g r i (pdX r i c G W) (pdX r i c G' W') /\ gmirrored g i c (pdW r i c X G, psum0 r c G) (pdW r i c X' G', psum0 r c G').
Proof.
  intros HX HG HW. split; [|split; cbn [fst snd]; [|now apply (sum_t HF)]].
  - intros n j Hn Hj. unfold pdX, pdot, ptrans. rewrite !entry_mk by assumption. apply (tsum HF). intros k Hk. rewrite !entry_mk by assumption. replace (g j) with (xorb false (g j)) by (destruct (g j); reflexivity). apply (fl_mul K HF); [now apply HG|now apply HW].
  - intros n j Hn Hj. unfold pdW, pdot, ptrans. rewrite !entry_mk by assumption. apply (tsum HF). intros k Hk. rewrite !entry_mk by assumption. replace (g n) with (xorb (g n) false) by (destruct (g n); reflexivity). apply (fl_mul K HF); [now apply HX|now apply HG].
Qed.
Lemma backprop_m k o r (Y : pm K) U : k = MSE \/ k = MAE -> forall ts us g i q (X X' : pm K), mirrored g ts us -> chain i (map fst ts) o -> cturned g r i X X' ->
  cturned g r i (fst (pbackprop k Y o (map fst ts) r X U q)) (fst (pbackprop k Y o (map fst us) r X' U q)) /\
  gsmirrored g ts (snd (pbackprop k Y o (map fst ts) r X U q)) (snd (pbackprop k Y o (map fst us) r X' U q)).
Proof.
  intros Hk. induction ts as [|t ts IH]; intros [|u us] g i q X X' HM HC HX; try (destruct HM; fail).
  - cbn [map chain] in HC. subst o. cbn [map pbackprop fst snd]. split; [|exact I]. assert (HX' : mturned false r i X X') by (intros n j Hn Hj; rewrite <- (HM j); now apply HX).
    intros n j Hn Hj. rewrite (HM j). exact (loss_m k r i X X' Y Hk HX' n j Hn Hj).
  - destruct HM as (HL & _ & HM). destruct HC as (<- & HC). pose proof (train_m g _ _ r X X' (from U q) HL HX) as HO.
    specialize (IH us (fun _ => false) (p_out (fst t)) (q + pdraws (fst t) r)%nat _ _ HM HC HO). cbn [map pbackprop]. rewrite (draws_m _ _ _ r HL), (mask_m _ _ _ r (from U q) HL).
    destruct (pbackprop k Y o (map fst ts) r (ptrain (fst t) r X (from U q)) U (q + pdraws (fst t) r)) as [G gs]. destruct (pbackprop k Y o (map fst us) r (ptrain (fst u) r X' (from U q)) U (q + pdraws (fst t) r)) as [G' gs'].
    cbn [fst snd] in *. destruct IH as (HG & HGs). pose proof (back_m g _ _ r _ _ (ptrain_mask (fst t) r (from U q)) _ _ HL HO HG) as HB.
    pose proof HL as (HP & Ek & Ei & Eo & _ & _ & HW & _). rewrite Ei, Eo.
    assert (EP : forall last (p : player K) O M G, plain p -> pre_grad k Y last p r O M G = pback p r O M G).
    { intros last p O M G0 Hp. unfold pre_grad, fused. destruct last; [|reflexivity]. destruct Hk as [-> | ->]; reflexivity. }
    rewrite (EP _ (fst t)), (EP _ (fst u)); [|unfold plain; rewrite Ek; exact HP|exact HP].
    destruct (grads_m g r (p_in (fst t)) (p_out (fst t)) X X' _ _ _ _ HX HB HW) as (R1 & R2). split; [exact R1|]. split; [exact R2|exact HGs].
Qed.
(** ** Updates *)
Definition fturned (f : nat -> nat -> bool) (r c : nat) (A B : pm K) : Prop := forall n j, (n < r)%nat -> (j < c)%nat -> tn (f n j) (entry A n j) (entry B n j).
Lemma rate_m g k c (o1 o2 : popt K) : omirrored g k c o1 o2 -> next_rate o2 = next_rate o1.
Proof. intros (_ & _ & E2 & E3 & _ & E5 & E6 & E7 & _). unfold next_rate. now rewrite E2, E3, E5, E6, E7. Qed.
Lemma upd1_m g f k0 c0 o1 o2 r c (P P' D D' m m' w w' : pm K) : omirrored g k0 c0 o1 o2 -> fturned f r c P P' -> fturned f r c D D' -> fturned f r c m m' -> msame r c w w' ->
  exists Q n v Q' n' v', pupd1 o1 r c P D m w = (Q, n, v) /\ pupd1 o2 r c P' D' m' w' = (Q', n', v') /\ fturned f r c Q Q' /\ fturned f r c n n' /\ msame r c v v'.
Proof.
  intros HO HP HD Hm Hw. unfold pupd1. rewrite (rate_m _ _ _ _ _ HO). destruct HO as (K1 & K2 & _ & _ & E4 & _ & E6 & _ & E8 & E9 & E10 & E11 & _). rewrite K2, E4, E6, E8, E9, E10, E11.
  assert (HS : forall s (A A' : K) z, tn s A A' -> tn s (fmul A z) (fmul A' z)).
  { intros s A A' z H. replace s with (xorb s false) by (destruct s; reflexivity). apply (fl_mul K HF); [exact H|apply (fl_refl K HF)]. }
  assert (HS' : forall s (A A' : K) z, tn s A A' -> tn s (fmul z A) (fmul z A')).
  { intros s A A' z H. replace s with (xorb false s) by (destruct s; reflexivity). apply (fl_mul K HF); [apply (fl_refl K HF)|exact H]. }
  assert (HM : forall a b : nat -> nat -> K, (forall n j, (n < r)%nat -> (j < c)%nat -> tn (f n j) (a n j) (b n j)) -> fturned f r c (mk r c a) (mk r c b)).
  { intros a b H n j Hn Hj. rewrite !entry_mk by assumption. now apply H. }
  destruct (po_kind o1) eqn:EK; [destruct (po_usemom o1)|].
  - do 6 eexists. do 2 (split; [reflexivity|]).
    assert (HN : fturned f r c (pmap2 r c (vel1 (po_mom o1) (next_rate o1)) m D) (pmap2 r c (vel1 (po_mom o1) (next_rate o1)) m' D')).
    { unfold pmap2. apply HM. intros n j Hn Hj. unfold vel1. apply (fl_sub K HF); apply HS; [now apply Hm|now apply HD]. }
    split; [|split; [exact HN|exact Hw]]. unfold pmap2 at 1 3. apply HM. intros n j Hn Hj. apply (fl_add K HF); [now apply HP|now apply HN].
  - do 6 eexists. do 2 (split; [reflexivity|]). split; [|split; [exact Hm|exact Hw]]. unfold pmap2. apply HM. intros n j Hn Hj. unfold sgd1. apply (fl_sub K HF); [now apply HP|apply HS; now apply HD].
  - destruct K1 as [K1|HE]; [discriminate|]. do 6 eexists. do 2 (split; [reflexivity|]).
    assert (HN : fturned f r c (pmap2 r c (adam_m1 (po_b1 o1)) m D) (pmap2 r c (adam_m1 (po_b1 o1)) m' D')).
    { unfold pmap2. apply HM. intros n j Hn Hj. unfold adam_m1. apply (fl_add K HF); apply HS; [now apply Hm|now apply HD]. }
    assert (HV : msame r c (pmap2 r c (adam_c1 (po_b2 o1)) w D) (pmap2 r c (adam_c1 (po_b2 o1)) w' D')).
    { intros n j Hn Hj. unfold pmap2. rewrite !entry_mk by assumption. unfold adam_c1. apply (fl_same_add K HF); apply (fl_same_mul K HF); try apply same_refl; [now apply Hw|]. apply (HE (f n j)). now apply HD. }
    split; [|split; [exact HN|exact HV]]. apply HM. intros n j Hn Hj. unfold adam_p1. apply (fl_add K HF); [now apply HP|]. apply (fl_div K HF).
    + apply HS', HS. now apply HN.
    + apply (fl_same_add K HF); [|apply same_refl]. apply (fl_same_sqrt K HF), (fl_same_mul K HF); [now apply HV|apply same_refl].
Qed.
Lemma step_m g t u a b : lmirrored g (fst t) (fst u) -> omirrored g (p_in (fst t)) (p_out (fst t)) (snd t) (snd u) -> gmirrored g (p_in (fst t)) (p_out (fst t)) a b ->
  (lmirrored g (fst (tstep t a)) (fst (tstep u b)) /\ omirrored g (p_in (fst (tstep t a))) (p_out (fst (tstep t a))) (snd (tstep t a)) (snd (tstep u b))) /\ p_in (fst (tstep t a)) = p_in (fst t) /\ p_out (fst (tstep t a)) = p_out (fst t).
Proof.
  intros HL HO (HG1 & HG2). pose proof HL as (HP & Ek & Ei & Eo & Es & Ed & HW & HB). pose proof HO as (K1 & K2 & E2 & E3 & E4 & E5 & E6 & E7 & E8 & E9 & E10 & E11 & Hwm & Hbm & Hwc & Hbc).
  unfold tstep, pupdate. rewrite Ei, Eo.
  destruct (upd1_m g (fun n _ => g n) _ _ _ _ _ _ _ _ _ _ _ _ _ _ HO HW HG1 Hwm Hwc) as (Q & n & v & Q' & n' & v' & -> & -> & HQ & Hn & Hv).
  destruct (upd1_m g (fun _ _ => false) _ _ _ _ _ _ _ _ _ _ _ _ _ _ HO HB HG2 Hbm Hbc) as (V & l & w & V' & l' & w' & -> & -> & HV & Hl & Hw).
  split; [|cbn; auto]. pose proof (rate_m _ _ _ _ _ HO) as ER. split.
  - unfold lmirrored, reparam. cbn [fst p_kind p_in p_out p_w p_b p_slope p_drop]. split; [exact HP|]. do 5 (split; [assumption|]). split; [exact HQ|exact HV].
  - unfold omirrored, po_after, reparam. cbn [fst snd p_in p_out po_kind po_lr po_decay po_mom po_rate po_iter po_usedecay po_usemom po_eps po_b1 po_b2 po_wm po_bm po_wc po_bc]. rewrite E6.
    split; [exact K1|]. do 11 (split; [auto|]). split; [exact Hn|]. split; [exact Hl|]. split; [exact Hv|exact Hw].
Qed.
Lemma steps_m : forall ts us g gs hs, mirrored g ts us -> gsmirrored g ts gs hs ->
  let v := map (fun tg : (player K * popt K) * (pm K * pm K) => tstep (fst tg) (snd tg)) in mirrored g (v (combine ts gs)) (v (combine us hs)) /\ forall i o, chain i (map fst ts) o -> chain i (map fst (v (combine ts gs))) o.
Proof.
  cbv zeta. induction ts as [|t ts IH]; intros [|u us] g [|a gs] [|b hs] HM HG; try (destruct HM; fail); try (destruct HG; fail); [split; [exact HM|auto]|].
  destruct HM as (HL & HO & HM), HG as (HG & HGs). destruct (IH us (fun _ => false) gs hs HM HGs) as (IH1 & IH2). destruct (step_m g t u a b HL HO HG) as ((R1 & R2) & Ri & Ro).
  cbn [combine map fst snd]. split; [split; [exact R1|]; split; [exact R2|exact IH1]|]. intros i o (A & B). cbn [chain]. rewrite Ri, Ro. split; [exact A|exact (IH2 _ _ B)].
Qed.
Lemma net_draws_m r : forall ts us g, mirrored g ts us -> net_draws true (map fst us) r = net_draws (K := K) true (map fst ts) r.
Proof.
  induction ts as [|t ts IH]; intros [|u us] g HM; try (destruct HM; fail); [reflexivity|]. destruct HM as (HL & _ & HM). specialize (IH us _ HM). unfold net_draws in *. cbn [map fold_right]. unfold player_draws in *. now rewrite IH, (draws_m _ _ _ r HL).
Qed.
Lemma batch_m k o ts us g (X X' Y : pm K) U q i : k = MSE \/ k = MAE -> mirrored g ts us -> chain i (map fst ts) o -> length X' = length X -> cturned g (length X) i X X' ->
  mirrored g (pbatch k o ts X Y U q) (pbatch k o us X' Y U q) /\ chain i (map fst (pbatch k o ts X Y U q)) o.
Proof.
  intros Hk HM HC EL HX. unfold pbatch. rewrite EL. destruct (backprop_m k o (length X) Y U Hk ts us g i q X X' HM HC HX) as (_ & HG). destruct (steps_m ts us g _ _ HM HG) as (A & B). split; [exact A|exact (B _ _ HC)].
Qed.
(** ** Batches *)
Inductive mbatches (g : nat -> bool) (i : nat) : list (pm K * pm K) -> list (pm K * pm K) -> Prop :=
| mnil : mbatches g i [] []
| mcons X X' Y l l' : length X' = length X -> cturned g (length X) i X X' -> mbatches g i l l' -> mbatches g i ((X, Y) :: l) ((X', Y) :: l').
Lemma mbatches_app g i k k' l l' : mbatches g i k k' -> mbatches g i l l' -> mbatches g i (k ++ l) (k' ++ l').
Proof. intros H. induction H; intros HL; [exact HL|]. cbn [app]. constructor; auto. Qed.
Lemma train_on_m k o U g i bs bs' : k = MSE \/ k = MAE -> mbatches g i bs bs' -> forall ts us q, mirrored g ts us -> chain i (map fst ts) o ->
  mirrored g (fst (ptrain_on k o ts U q bs)) (fst (ptrain_on k o us U q bs')).
Proof.
  intros Hk H. induction H as [|X X' Y l l' EL HX HB IH]; intros ts us q HM HC; [exact HM|]. cbn [ptrain_on]. rewrite EL, (net_draws_m _ _ _ _ HM).
  destruct (batch_m k o ts us g X X' Y U q i Hk HM HC EL HX) as (A & B). now apply IH.
Qed.
Definition all_m (g : nat -> bool) (i : nat) (X X' : pm K) : Prop := length X' = length X /\ forall n j, (j < i)%nat -> tn (g j) (entry X n j) (entry X' n j).
Lemma all_intro_m g r i (X X' : pm K) : length X = r -> length X' = r -> cturned g r i X X' -> all_m g i X X'.
Proof.
  intros L1 L2 H. split; [congruence|]. intros n j Hj. destruct (Nat.lt_ge_cases n r) as [Hn|Hn]; [now apply H|].
  unfold entry. rewrite !nth_overflow with (l := X), !nth_overflow with (l := X') by lia. destruct j; apply (fl_zero K HF).
Qed.
Lemma chunks_m g i c : (1 <= c)%nat -> forall m (X X' Y : pm K), length X = length Y -> all_m g i X X' -> mbatches g i (combine (chunks_fuel m c X) (chunks_fuel m c Y)) (combine (chunks_fuel m c X') (chunks_fuel m c Y)).
Proof.
  intros Hc. induction m as [|m IH]; intros X X' Y HX HY.
  - destruct X, X'; constructor.
  - pose proof HY as (L & H). destruct X as [|x X], X' as [|x' X']; try discriminate L; [constructor|]. destruct Y as [|y Y]; [discriminate|]. cbn [chunks_fuel combine]. constructor.
    + rewrite !firstn_length, L. reflexivity.
    + intros n j Hn Hj. rewrite firstn_length in Hn. unfold entry. rewrite !nth_first by lia. apply H, Hj.
    + apply IH; [rewrite !skipn_length; cbn [length] in *; lia|]. split; [rewrite !skipn_length; lia|]. intros n j Hj. unfold entry. rewrite !nth_skip. apply H, Hj.
Qed.
Lemma epochs_m e c r g i (X X' Y : pm K) : (1 <= c)%nat -> length X = r -> length X' = r -> length Y = r -> cturned g r i X X' -> mbatches g i (epochs_of e c X Y) (epochs_of e c X' Y).
Proof.
  intros Hc L1 L2 LY HX. unfold epochs_of, chunks. rewrite LY, L1, L2. pose proof (chunks_m g i c Hc r X X' Y ltac:(congruence) (all_intro_m _ _ _ _ _ L1 L2 HX)) as HB.
  induction e as [|e IH]; [constructor|]. cbn [repeat concat]. now apply mbatches_app.
Qed.
Lemma fit_mirrored (HM : min_faithful K) s1 m1 es1 xs1 x1 rsx1 y1 rsy1 xv1 yv1 s2 m2 es2 xs2 x2 rsx2 y2 rsy2 xv2 yv2 g i o k n (X X' Y : pm K) epochs bs :
  (0 <= bs)%Z -> (Z.of_nat n + bs <= 2 ^ 52)%Z -> (1 <= n)%nat -> k = MSE \/ k = MAE ->
  trainable s1 m1 es1 xs1 i o k -> data_ok s1 es1 x1 rsx1 y1 rsy1 n i o X Y -> trainable s2 m2 es2 xs2 i o k -> data_ok s2 es2 x2 rsx2 y2 rsy2 n i o X' Y ->
  cturned g n i X X' -> mirrored g (trainer es1 xs1) (trainer es2 xs2) -> r_uni (h_rng s2) = r_uni (h_rng s1) -> r_upos (h_rng s2) = r_upos (h_rng s1) ->
  exists s1' s2' es1' xs1' es2' xs2', Fit m1 x1 y1 epochs bs xv1 yv1 0 s1 = (Ret tt, s1') /\ Fit m2 x2 y2 epochs bs xv2 yv2 0 s2 = (Ret tt, s2') /\
    trainable s1' m1 es1' xs1' i o k /\ Forall2 same_place es1 es1' /\ trainable s2' m2 es2' xs2' i o k /\ Forall2 same_place es2 es2' /\ mirrored g (trainer es1' xs1') (trainer es2' xs2').
Proof.
  intros Hb H52 Hn Hk HT1 HD1 HT2 HD2 HX HMi HU HP.
  destruct (fit_trains s1 m1 es1 xs1 i o k x1 rsx1 y1 rsy1 n X Y epochs bs xv1 yv1 HM Hb H52 Hn HT1 HD1) as ([] & s1' & E1 & nn1 & _ & (es1' & xs1' & HT1' & HPl1 & _ & Htr1 & _) & _).
  destruct (fit_trains s2 m2 es2 xs2 i o k x2 rsx2 y2 rsy2 n X' Y epochs bs xv2 yv2 HM Hb H52 Hn HT2 HD2) as ([] & s2' & E2 & nn2 & _ & (es2' & xs2' & HT2' & HPl2 & _ & Htr2 & _) & _).
  exists s1', s2', es1', xs1', es2', xs2'. do 6 (split; [assumption|]). rewrite Htr1, Htr2, HU, HP.
  assert (HBR : (1 <= batch_rows n bs)%nat) by (unfold batch_rows; destruct (Z.eqb_spec bs 0); lia).
  apply (train_on_m k o _ g i _ _ Hk); [|exact HMi|].
  - apply (epochs_m _ _ n); try assumption; [exact (proj1 (own_shape _ _ _ _ _ _ (proj1 HD1)))|exact (proj1 (own_shape _ _ _ _ _ _ (proj1 HD2)))|exact (proj1 (own_shape _ _ _ _ _ _ (proj1 (proj2 HD1))))].
  - rewrite (trainer_fst _ _ _ _ _ _ _ HT1). exact (proj1 (proj2 (proj2 (proj2 (proj2 (proj1 HT1)))))).
Qed.
Lemma pnet_m r : forall ts us g i o (X X' : pm K), mirrored g ts us -> chain i (map fst ts) o -> cturned g r i X X' -> mturned false r o (pnet (map fst ts) r X) (pnet (map fst us) r X').
Proof.
  induction ts as [|t ts IH]; intros [|u us] g i o X X' HM HC HX; try (destruct HM; fail).
  - cbn [map chain] in HC. subst o. intros n j Hn Hj. rewrite <- (HM j). now apply HX.
  - destruct HM as (HL & _ & HM). destruct HC as (<- & HC).
    change (pnet (map fst (t :: ts)) r X) with (pnet (map fst ts) r (pforward (fst t) r X)). change (pnet (map fst (u :: us)) r X') with (pnet (map fst us) r (pforward (fst u) r X')).
    apply (IH us _ _ o _ _ HM HC). exact (forward_m g _ _ r X X' HL HX).
Qed.
Lemma scan_m n (a b : nat -> K) : (forall j, (j < n)%nat -> tn false (a j) (b j)) -> fst (scan_max n b) = fst (scan_max n a) /\ tn false (snd (scan_max n a)) (snd (scan_max n b)).
Proof.
  unfold scan_max. induction n as [|n IH]; intros H; [split; [reflexivity|apply (fl_zero K HF)]|]. rewrite seq_S, !fold_left_app. cbn [fold_left plus].
  destruct (IH ltac:(intros; apply H; lia)) as (A & B). rewrite (fl_less K HF _ _ _ _ B (H n ltac:(lia))). destruct (flt _ _); [split; [reflexivity|apply H; lia]|split; assumption].
Qed.
Lemma ppredict_m a r o (P P' : pm K) : (0 <= a <= 2)%Z -> mturned false r o P P' -> let c := if (a =? 1)%Z then 1%nat else o in exists Q Q', ppredict a r o P = Some (c, Q) /\ ppredict a r o P' = Some (c, Q') /\ mturned false r c Q Q'.
Proof.
  intros Ha H. assert (E : a = 0%Z \/ a = 1%Z \/ a = 2%Z) by lia. destruct E as [-> | [-> | ->]]; cbv zeta; do 2 eexists; (split; [reflexivity|]); (split; [reflexivity|]); cbn [Z.eqb Pos.eqb].
  - exact H.
  - intros n j Hn Hj. unfold row_max. rewrite !entry_mk by assumption. rewrite (proj1 (scan_m o (entry P n) (entry P' n) ltac:(intros; now apply H))). apply (fl_refl K HF).
  - unfold pmap. apply mt_mk. intros n j Hn Hj. unfold binary1. rewrite (fl_less K HF _ _ _ _ (H n j Hn Hj) (fl_refl K HF _)). destruct (flt _ _); apply (fl_refl K HF).
Qed.
Lemma predict_mirrored s1 m1 es1 xs1 x1 rsx1 s2 m2 es2 xs2 x2 rsx2 g i o k r (X X' : pm K) :
  trainable s1 m1 es1 xs1 i o k -> trainable s2 m2 es2 xs2 i o k -> mirrored g (trainer es1 xs1) (trainer es2 xs2) ->
  (0 <= m_acctype m1 <= 2)%Z -> m_acctype m2 = m_acctype m1 -> (1 <= r)%nat -> own s1 x1 rsx1 r i X -> own s2 x2 rsx2 r i X' -> cturned g r i X X' ->
  exists P1 P2 s1' s2' rs1 rs2 A B, let c := if (m_acctype m1 =? 1)%Z then 1%nat else o in
    Predict m1 x1 s1 = (Ret P1, s1') /\ Predict m2 x2 s2 = (Ret P2, s2') /\ own s1' P1 rs1 r c A /\ own s2' P2 rs2 r c B /\ mturned false r c A B.
Proof.
  intros T1 T2 HMi A1 A2 Hr HX1 HX2 HX.
  pose proof (proj1 (proj2 (proj2 (proj2 (proj2 (proj1 T1)))))) as HC. rewrite <- (trainer_fst _ _ _ _ _ _ _ T1) in HC. pose proof (pnet_m r _ _ g i o _ _ HMi HC HX) as HP. rewrite (trainer_fst _ _ _ _ _ _ _ T1), (trainer_fst _ _ _ _ _ _ _ T2) in HP.
  destruct (ppredict_m (m_acctype m1) r o _ _ A1 HP) as (Q & Q' & E & E' & HQ).
  destruct (ModelRefute.predict_spec s1 m1 es1 i o x1 rsx1 r X _ Q (proj1 T1) (proj1 (proj2 (proj2 T1))) E HX1 Hr) as (P1 & s1' & E1 & rs1 & HO1 & _). rewrite <- A2 in E' at 1.
  destruct (ModelRefute.predict_spec s2 m2 es2 i o x2 rsx2 r X' _ Q' (proj1 T2) (proj1 (proj2 (proj2 T2))) E' HX2 Hr) as (P2 & s2' & E2 & rs2 & HO2 & _).
  exists P1, P2, s1', s2', rs1, rs2, Q, Q'. cbv zeta. do 4 (split; [assumption|]). exact HQ.
Qed.
End Mirror.
