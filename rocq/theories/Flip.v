(** * Flip: turning the sign of the targets and of the last layer turns the sign of the predictions and changes nothing else. *)
From Coq Require Import String ZArith List Bool Arith Lia.
From Verif Require Import Num Heap Spec Matrix Loss Network Optimizers ModelGo PureSpec Repr HeapLemmas MatrixFacts OptSpec LossProofs ModelSpec ModelFacts FitFacts FitProofs MiscProofs FlipSpec FlipNum.
From Verif Require ModelRefute.
Import ListNotations.

Section Flip.
Context {K : Num} (HF : flip_laws K).
Notation tn := (turned (K := K)).
Lemma tsum s n (f g : nat -> K) : (forall k, (k < n)%nat -> tn s (f k) (g k)) -> tn s (fsum n f) (fsum n g).
Proof.
  intros H. unfold fsum. induction n as [|n IH]; [apply (fl_zero K HF)|]. rewrite seq_S, !fold_left_app. cbn [fold_left plus]. apply (fl_add K HF); [apply IH; intros k Hk; apply H; lia|apply H; lia].
Qed.
Lemma mt_mk s r c (f g : nat -> nat -> K) : (forall n j, (n < r)%nat -> (j < c)%nat -> tn s (f n j) (g n j)) -> mturned s r c (mk r c f) (mk r c g).
Proof. intros H n j Hn Hj. rewrite !entry_mk by assumption. now apply H. Qed.
Lemma mt_refl r c (A : pm K) : mturned false r c A A.
Proof. intros n j _ _. apply (fl_refl K HF). Qed.
Lemma dot_t s t r k c (A A' B B' : pm K) : mturned s r k A A' -> mturned t k c B B' -> mturned (xorb s t) r c (pdot r k c A B) (pdot r k c A' B').
Proof. intros HA HB. unfold pdot. apply mt_mk. intros n j Hn Hj. apply tsum. intros q Hq. apply (fl_mul K HF); [now apply HA|now apply HB]. Qed.
Lemma trans_t s r c (A A' : pm K) : mturned s r c A A' -> mturned s c r (ptrans r c A) (ptrans r c A').
Proof. intros H. unfold ptrans. apply mt_mk. intros n j Hn Hj. now apply H. Qed.
Lemma sum_t s r c (G G' : pm K) : mturned s r c G G' -> mturned s 1 c (psum0 r c G) (psum0 r c G').
Proof. intros H. unfold psum0. apply mt_mk. intros n j Hn Hj. apply tsum. intros q Hq. now apply H. Qed.
Lemma aff_t s (p q : player K) r (X X' : pm K) : lturned s p q -> mturned false r (p_in p) X X' -> mturned s r (p_out p) (paffine p r X) (paffine q r X').
Proof.
  intros (_ & Ei & Eo & _ & _ & HW & HB) HX. unfold paffine, paff. rewrite Ei, Eo. apply mt_mk. intros n j Hn Hj. apply (fl_add K HF); [|apply HB; lia].
  apply tsum. intros k Hk. replace s with (xorb false s) by (destruct s; reflexivity). apply (fl_mul K HF); [now apply HX|now apply HW].
Qed.
Definition plain (p : player K) : Prop := p_kind p = Hidden \/ p_kind p = Leaky \/ p_kind p = Dropout \/ p_kind p = Linear.
Lemma leaky_t sl (x x' : K) : tn false x x' -> tn false (leaky1 sl x) (leaky1 sl x').
Proof. intros H. unfold leaky1. rewrite (fl_lt K HF _ _ H). destruct (flt x f0); [|exact H]. exact (fl_mul K HF false false _ _ _ _ H (fl_refl K HF sl)). Qed.
Lemma forward_t p q r (X X' : pm K) : plain p -> lturned false p q -> mturned false r (p_in p) X X' -> mturned false r (p_out p) (pforward p r X) (pforward q r X').
Proof.
  intros HP HL HX. pose proof (aff_t _ _ _ _ _ _ HL HX) as HA. pose proof HL as (Ek & _ & Eo & Es & _). unfold pforward, pact, act1. rewrite Ek, Eo.
  destruct HP as [E|[E|[E|E]]]; rewrite E; try exact HA; unfold pmap; apply mt_mk; intros n j Hn Hj; rewrite ?Es; specialize (HA n j Hn Hj); [now apply (fl_relu K HF)|now apply leaky_t|now apply (fl_relu K HF)].
Qed.
Lemma train_t p q r (X X' : pm K) U : plain p -> lturned false p q -> mturned false r (p_in p) X X' -> mturned false r (p_out p) (ptrain p r X U) (ptrain q r X' U).
Proof.
  intros HP HL HX. pose proof (forward_t _ _ _ _ _ HP HL HX) as HA. pose proof (aff_t _ _ _ _ _ _ HL HX) as HZ. pose proof HL as (Ek & _ & Eo & _ & Ed & _). unfold ptrain. rewrite Ek.
  destruct HP as [E|[E|[E|E]]]; rewrite E; try exact HA. unfold pforward_drop. rewrite Eo, Ed. apply mt_mk. intros n j Hn Hj.
  apply (fl_mul K HF false false); [|apply (fl_refl K HF)]. apply (fl_relu K HF). now apply HZ.
Qed.
Lemma linear_t s p q r (X X' : pm K) U : p_kind p = Linear -> lturned s p q -> mturned false r (p_in p) X X' ->
  mturned s r (p_out p) (ptrain p r X U) (ptrain q r X' U) /\ mturned s r (p_out p) (pforward p r X) (pforward q r X').
Proof.
  intros HK HL HX. pose proof (aff_t _ _ _ _ _ _ HL HX) as HA. pose proof HL as (Ek & _). unfold ptrain, pforward, pact. rewrite Ek, HK. split; exact HA.
Qed.
Lemma quot_one c : (Z.quot 1 (Z.of_nat c) = 1%Z /\ Z.quot (-1) (Z.of_nat c) = (-1)%Z) \/ (Z.quot 1 (Z.of_nat c) = 0%Z /\ Z.quot (-1) (Z.of_nat c) = 0%Z).
Proof.
  destruct c as [|[|c]]; [right; split; reflexivity|left; split; reflexivity|right]. rewrite (Z.quot_small 1) by lia. split; [reflexivity|].
  change (-1)%Z with (- (1))%Z. rewrite Z.quot_opp_l by lia. rewrite Z.quot_small by lia. reflexivity.
Qed.
Lemma loss_t k r c (O O' Y Y' : pm K) : k = MSE \/ k = MAE -> mturned true r c O O' -> mturned true r c Y Y' -> mturned true r c (ploss_back k r c O Y) (ploss_back k r c O' Y').
Proof.
  intros [-> | ->] HO HY; unfold ploss_back, pmse_back, pmae_back; apply mt_mk; intros n j Hn Hj; pose proof (fl_sub K HF _ _ _ _ _ (HO n j Hn Hj) (HY n j Hn Hj)) as HD.
  - exact (fl_mul K HF true false _ _ _ _ HD (fl_refl K HF _)).
  - cbv zeta. destruct (fl_cross K HF _ _ HD) as (C1 & C2). rewrite C1, C2. pose proof (fl_zero K HF true) as Z. destruct (fl_one K HF) as (U1 & U2).
    destruct (flt f0 (fsub (entry O n j) (entry Y n j))) eqn:L1; [rewrite (fl_anti K HF _ L1)|destruct (flt (fsub (entry O n j) (entry Y n j)) f0) eqn:L2; [|exact Z]];
      destruct (quot_one c) as [(-> & ->)|(-> & ->)]; assumption.
Qed.
(** ** Backpropagation *)
Definition gturned (s : bool) (k c : nat) (g h : pm K * pm K) : Prop := mturned s k c (fst g) (fst h) /\ mturned s 1 c (snd g) (snd h).
Lemma back_t p q r (O O' Mk G G' : pm K) : plain p -> lturned false p q -> mturned false r (p_out p) O O' -> mturned false r (p_out p) G G' -> mturned false r (p_out p) (pback p r O Mk G) (pback q r O' Mk G').
Proof.
  intros HP (Ek & _ & Eo & Es & _) HO HG. unfold pback. rewrite Ek, Eo, Es.
  assert (HR : forall A A' : pm K, mturned false r (p_out p) A A' -> mturned false r (p_out p) (pmap2 r (p_out p) relu_prime1 A O) (pmap2 r (p_out p) relu_prime1 A' O')).
  { intros A A' HA. unfold pmap2. apply mt_mk. intros n j Hn Hj. unfold relu_prime1. rewrite (fl_le K HF _ _ (HO n j Hn Hj)). destruct (fle _ _); [apply (fl_zero K HF)|now apply HA]. }
  destruct HP as [E|[E|[E|E]]]; rewrite E; [now apply HR| |apply HR|exact HG].
  - unfold pmap2. apply mt_mk. intros n j Hn Hj. unfold leaky_prime1. rewrite (fl_lt K HF _ _ (HO n j Hn Hj)). destruct (flt _ _); [|now apply HG]. exact (fl_mul K HF false false _ _ _ _ (HG n j Hn Hj) (fl_refl K HF _)).
  - unfold pmap2. apply mt_mk. intros n j Hn Hj. exact (fl_mul K HF false false _ _ _ _ (HG n j Hn Hj) (fl_refl K HF _)).
Qed.
Lemma mask_t (p q : player K) s r U : lturned s p q -> ptrain_mask q r U = ptrain_mask p r U.
Proof. intros (Ek & _ & Eo & _ & Ed & _). unfold ptrain_mask. now rewrite Ek, Eo, Ed. Qed.
Lemma draws_t (p q : player K) s r : lturned s p q -> pdraws q r = pdraws p r.
Proof. intros (Ek & _ & Eo & _). unfold pdraws. now rewrite Ek, Eo. Qed.
Fixpoint gflipped (ts : list (player K * popt K)) (gs hs : list (pm K * pm K)) : Prop :=
  match ts, gs, hs with
  | [t], [g], [h] => gturned true (p_in (fst t)) (p_out (fst t)) g h
  | t :: ts', g :: gs', h :: hs' => gturned false (p_in (fst t)) (p_out (fst t)) g h /\ gflipped ts' gs' hs'
  | _, _, _ => False
  end.
Lemma grads_t s t r i c (X X' G G' W W' : pm K) : mturned false r i X X' -> mturned s r c G G' -> mturned t i c W W' ->
  mturned (xorb s t) r i (pdX r i c G W) (pdX r i c G' W') /\ gturned s i c (pdW r i c X G, psum0 r c G) (pdW r i c X' G', psum0 r c G').
Proof.
  intros HX HG HW. split; [unfold pdX; apply dot_t; [exact HG|now apply trans_t]|]. split; cbn [fst snd]; [|now apply sum_t].
  unfold pdW. replace s with (xorb false s) by (destruct s; reflexivity). apply dot_t; [now apply trans_t|exact HG].
Qed.
Lemma flipped_one t us : flipped (K := K) [t] us -> exists u, us = [u] /\ p_kind (fst t) = Linear /\ tturned true t u.
Proof. destruct us as [|u [|u2 us]]; cbn [flipped]; intros H; [destruct H|exists u; split; [reflexivity|exact H]|destruct H as (_ & _ & [])]. Qed.
Lemma flipped_cons t t2 ts us : flipped (K := K) (t :: t2 :: ts) us -> exists u u2 us', us = u :: u2 :: us' /\ plain (fst t) /\ tturned false t u /\ flipped (t2 :: ts) (u2 :: us').
Proof.
  destruct us as [|u [|u2 us]]; intros H; [destruct H| |exists u, u2, us; split; [reflexivity|exact H]]. destruct H as (_ & _ & H). destruct ts; destruct H.
Qed.
Lemma backprop_t k o r (Y Y' : pm K) U : k = MSE \/ k = MAE -> mturned true r o Y Y' -> forall ts us i q (X X' : pm K), flipped ts us -> chain i (map fst ts) o -> mturned false r i X X' ->
  mturned false r i (fst (pbackprop k Y o (map fst ts) r X U q)) (fst (pbackprop k Y' o (map fst us) r X' U q)) /\
  gflipped ts (snd (pbackprop k Y o (map fst ts) r X U q)) (snd (pbackprop k Y' o (map fst us) r X' U q)).
Proof.
  intros Hk HY. induction ts as [|[p po] ts IH]; intros us i q X X' HFl HC HX; [destruct HFl|]. destruct ts as [|t2 ts].
  - apply flipped_one in HFl. destruct HFl as ([p' po'] & -> & HK & HL & _). cbn [fst] in HK, HL. destruct HC as (Hi & Ho). cbn [map chain fst] in Hi, Ho. subst i o.
    destruct (linear_t true p p' r X X' (from U q) HK HL HX) as (HO & _). pose proof (loss_t k r (p_out p) _ _ _ _ Hk HO HY) as HG.
    pose proof HL as (Ek & Ei & Eo & _ & _ & HW & _). cbn [map fst pbackprop]. unfold pre_grad, fused, pback. rewrite Ek, HK, Ei, Eo.
    replace (match k with CE => false | _ => false end) with false by (destruct k; reflexivity). cbn [fst snd]. exact (grads_t true true _ _ _ _ _ _ _ _ _ HX HG HW).
  - apply flipped_cons in HFl. destruct HFl as ([p' po'] & u2 & us' & -> & HP & (HL & _) & HFl). rename us' into us. cbn [fst] in HP, HL. destruct HC as (Hi & HC). cbn [fst] in Hi, HC. subst i.
    pose proof (train_t p p' r X X' (from U q) HP HL HX) as HO. specialize (IH (u2 :: us) (p_out p) (q + pdraws p r)%nat _ _ HFl HC HO).
    pose proof HL as (Ek & Ei & Eo & _ & _ & HW & _). change (map fst ((p, po) :: t2 :: ts)) with (p :: map fst (t2 :: ts)). change (map fst ((p', po') :: u2 :: us)) with (p' :: map fst (u2 :: us)).
    cbn [pbackprop]. rewrite (draws_t _ _ _ r HL), (mask_t _ _ _ r (from U q) HL). 
    destruct (pbackprop k Y o (map fst (t2 :: ts)) r (ptrain p r X (from U q)) U (q + pdraws p r)) as [G gs]. destruct (pbackprop k Y' o (map fst (u2 :: us)) r (ptrain p' r X' (from U q)) U (q + pdraws p r)) as [G' gs'].
    cbn [fst snd map] in *. destruct IH as (HG & HGs). unfold pre_grad. rewrite Ei, Eo.
    pose proof (back_t p p' r _ _ (ptrain_mask p r (from U q)) _ _ HP HL HO HG) as HB. destruct (grads_t false false r (p_in p) (p_out p) X X' _ _ _ _ HX HB HW) as (R1 & R2). split; [exact R1|]. split; [exact R2|exact HGs].
Qed.
(** ** Updates *)
Lemma rate_t s k c (o1 o2 : popt K) : oturned s k c o1 o2 -> next_rate o2 = next_rate o1.
Proof. intros (_ & _ & E2 & E3 & _ & E5 & E6 & E7 & _). unfold next_rate. now rewrite E2, E3, E5, E6, E7. Qed.
Lemma same_refl (x : K) : same x x.
Proof. left. reflexivity. Qed.
Lemma upd1_t s k0 c0 o1 o2 r c (P P' D D' m m' w w' : pm K) : oturned s k0 c0 o1 o2 -> mturned s r c P P' -> mturned s r c D D' -> mturned s r c m m' -> msame r c w w' ->
  exists Q n v Q' n' v', pupd1 o1 r c P D m w = (Q, n, v) /\ pupd1 o2 r c P' D' m' w' = (Q', n', v') /\ mturned s r c Q Q' /\ mturned s r c n n' /\ msame r c v v'.
Proof.
  intros HO HP HD Hm Hw. unfold pupd1. rewrite (rate_t _ _ _ _ _ HO). destruct HO as (K1 & K2 & _ & _ & E4 & _ & E6 & _ & E8 & E9 & E10 & E11 & _). rewrite K2, E4, E6, E8, E9, E10, E11.
  assert (HS : forall (A A' : K) z, tn s A A' -> tn s (fmul A z) (fmul A' z)).
  { intros A A' z H. replace s with (xorb s false) by (destruct s; reflexivity). apply (fl_mul K HF); [exact H|apply (fl_refl K HF)]. }
  assert (HS' : forall (A A' : K) z, tn s A A' -> tn s (fmul z A) (fmul z A')).
  { intros A A' z H. replace s with (xorb false s) by (destruct s; reflexivity). apply (fl_mul K HF); [apply (fl_refl K HF)|exact H]. }
  destruct (po_kind o1) eqn:EK; [destruct (po_usemom o1)|].
  - do 6 eexists. do 2 (split; [reflexivity|]).
    assert (HN : mturned s r c (pmap2 r c (vel1 (po_mom o1) (next_rate o1)) m D) (pmap2 r c (vel1 (po_mom o1) (next_rate o1)) m' D')).
    { unfold pmap2. apply mt_mk. intros n j Hn Hj. unfold vel1. apply (fl_sub K HF); apply HS; [now apply Hm|now apply HD]. }
    split; [|split; [exact HN|exact Hw]]. unfold pmap2 at 1 3. apply mt_mk. intros n j Hn Hj. apply (fl_add K HF); [now apply HP|now apply HN].
  - do 6 eexists. do 2 (split; [reflexivity|]). split; [|split; [exact Hm|exact Hw]]. unfold pmap2. apply mt_mk. intros n j Hn Hj. unfold sgd1. apply (fl_sub K HF); [now apply HP|apply HS; now apply HD].
  - destruct K1 as [K1|HE]; [discriminate|]. do 6 eexists. do 2 (split; [reflexivity|]).
    assert (HN : mturned s r c (pmap2 r c (adam_m1 (po_b1 o1)) m D) (pmap2 r c (adam_m1 (po_b1 o1)) m' D')).
    { unfold pmap2. apply mt_mk. intros n j Hn Hj. unfold adam_m1. apply (fl_add K HF); apply HS; [now apply Hm|now apply HD]. }
    assert (HV : msame r c (pmap2 r c (adam_c1 (po_b2 o1)) w D) (pmap2 r c (adam_c1 (po_b2 o1)) w' D')).
    { intros n j Hn Hj. unfold pmap2. rewrite !entry_mk by assumption. unfold adam_c1. apply (fl_same_add K HF); apply (fl_same_mul K HF); try apply same_refl; [now apply Hw|]. apply (HE s). now apply HD. }
    split; [|split; [exact HN|exact HV]]. apply mt_mk. intros n j Hn Hj. unfold adam_p1. apply (fl_add K HF); [now apply HP|]. apply (fl_div K HF).
    + apply HS', HS. now apply HN.
    + apply (fl_same_add K HF); [|apply same_refl]. apply (fl_same_sqrt K HF), (fl_same_mul K HF); [now apply HV|apply same_refl].
Qed.
Lemma step_t s t u g h : tturned s t u -> gturned s (p_in (fst t)) (p_out (fst t)) g h -> tturned s (tstep t g) (tstep u h) /\ p_kind (fst (tstep t g)) = p_kind (fst t) /\ p_in (fst (tstep t g)) = p_in (fst t) /\ p_out (fst (tstep t g)) = p_out (fst t).
Proof.
  intros (HL & HO) (HG1 & HG2). pose proof HL as (Ek & Ei & Eo & Es & Ed & HW & HB). pose proof HO as (K1 & K2 & E2 & E3 & E4 & E5 & E6 & E7 & E8 & E9 & E10 & E11 & Hwm & Hbm & Hwc & Hbc).
  unfold tstep, pupdate. rewrite Ei, Eo.
  destruct (upd1_t s _ _ _ _ _ _ _ _ _ _ _ _ _ _ HO HW HG1 Hwm Hwc) as (Q & n & v & Q' & n' & v' & -> & -> & HQ & Hn & Hv).
  destruct (upd1_t s _ _ _ _ _ _ _ _ _ _ _ _ _ _ HO HB HG2 Hbm Hbc) as (V & l & b & V' & l' & b' & -> & -> & HV & Hl & Hb).
  split; [|cbn; auto]. pose proof (rate_t _ _ _ _ _ HO) as ER. split.
  - unfold lturned, reparam. cbn [fst p_kind p_in p_out p_w p_b p_slope p_drop]. auto 10.
  - unfold oturned, po_after, reparam. cbn [fst snd p_in p_out po_kind po_lr po_decay po_mom po_rate po_iter po_usedecay po_usemom po_eps po_b1 po_b2 po_wm po_bm po_wc po_bc]. rewrite E6.
    split; [exact K1|]. do 11 (split; [auto|]). auto.
Qed.
Lemma steps_t : forall ts us gs hs, flipped ts us -> gflipped ts gs hs ->
  let v := map (fun tg : (player K * popt K) * (pm K * pm K) => tstep (fst tg) (snd tg)) in flipped (v (combine ts gs)) (v (combine us hs)) /\ forall i o, chain i (map fst ts) o -> chain i (map fst (v (combine ts gs))) o.
Proof.
  cbv zeta. induction ts as [|t ts IH]; intros us gs hs HFl HG; [destruct HFl|]. destruct ts as [|t2 ts].
  - apply flipped_one in HFl. destruct HFl as (u & -> & HK & HT). destruct gs as [|g [|]], hs as [|h [|]]; try contradiction; try (destruct HG as (_ & []); fail). cbn [combine map fst snd]. destruct (step_t true t u g h HT HG) as (R & Rk & Ri & Ro).
    split; [split; [congruence|exact R]|]. intros i o (A & B). cbn [chain map]. rewrite Ri, Ro. split; [exact A|exact B].
  - apply flipped_cons in HFl. destruct HFl as (u & u2 & us' & -> & HP & HT & HFl). rename us' into us. destruct gs as [|g gs], hs as [|h hs]; try contradiction. destruct HG as (HG & HGs).
    destruct (IH (u2 :: us) gs hs HFl HGs) as (IH1 & IH2). destruct (step_t false t u g h HT HG) as (R & Rk & Ri & Ro).
    destruct gs as [|g2 gs]; [destruct ts; contradiction|]. destruct hs as [|h2 hs]; [destruct ts; contradiction|].
    cbn [combine map fst snd] in *. split.
    + split; [rewrite Rk; exact HP|]. split; [exact R|exact IH1].
    + intros i o (A & B). cbn [chain] in *. rewrite Ri, Ro. split; [exact A|]. exact (IH2 _ _ B).
Qed.
Lemma net_draws_t r : forall ts us, flipped ts us -> net_draws true (map fst us) r = net_draws (K := K) true (map fst ts) r.
Proof.
  induction ts as [|t ts IH]; intros us HFl; [destruct HFl|]. destruct ts as [|t2 ts].
  - apply flipped_one in HFl. destruct HFl as (u & -> & _ & HL & _). unfold net_draws. cbn [map fold_right fst]. unfold player_draws. now rewrite (draws_t _ _ _ r HL).
  - apply flipped_cons in HFl. destruct HFl as (u & u2 & us' & -> & _ & (HL & _) & HFl). specialize (IH (u2 :: us') HFl). unfold net_draws in *. change (map fst (t :: t2 :: ts)) with (fst t :: map fst (t2 :: ts)). cbn [map fold_right] in *. unfold player_draws in *. now rewrite IH, (draws_t _ _ _ r HL).
Qed.
Lemma batch_t k o ts us (X Y Y' : pm K) U q i : k = MSE \/ k = MAE -> flipped ts us -> chain i (map fst ts) o -> mturned true (length X) o Y Y' ->
  flipped (pbatch k o ts X Y U q) (pbatch k o us X Y' U q) /\ chain i (map fst (pbatch k o ts X Y U q)) o.
Proof.
  intros Hk HFl HC HY. unfold pbatch. destruct (backprop_t k o (length X) Y Y' U Hk HY ts us i q X X HFl HC (mt_refl _ _ _)) as (_ & HG).
  destruct (steps_t ts us _ _ HFl HG) as (A & B). split; [exact A|exact (B _ _ HC)].
Qed.
(** ** Batches *)
Inductive batches : nat -> list (pm K * pm K) -> list (pm K * pm K) -> Prop :=
| bnil o : batches o [] []
| bcons o X Y Y' l l' : mturned true (length X) o Y Y' -> batches o l l' -> batches o ((X, Y) :: l) ((X, Y') :: l').
Lemma batches_app o k k' l l' : batches o k k' -> batches o l l' -> batches o (k ++ l) (k' ++ l').
Proof. intros H. induction H; intros HL; [exact HL|]. cbn [app]. constructor; auto. Qed.
Lemma train_on_t k o U i bs bs' : k = MSE \/ k = MAE -> batches o bs bs' -> forall ts us q, flipped ts us -> chain i (map fst ts) o ->
  flipped (fst (ptrain_on k o ts U q bs)) (fst (ptrain_on k o us U q bs')).
Proof.
  intros Hk H. induction H as [o|o X Y Y' l l' HY HB IH]; intros ts us q HFl HC; [exact HFl|]. cbn [ptrain_on]. rewrite (net_draws_t _ _ _ HFl).
  destruct (batch_t k o ts us X Y Y' U q i Hk HFl HC HY) as (A & B). now apply IH.
Qed.
Definition all_t (o : nat) (Y Y' : pm K) : Prop := length Y' = length Y /\ forall n j, (j < o)%nat -> tn true (entry Y n j) (entry Y' n j).
Lemma all_intro r o (Y Y' : pm K) : length Y = r -> length Y' = r -> mturned true r o Y Y' -> all_t o Y Y'.
Proof.
  intros L1 L2 H. split; [congruence|]. intros n j Hj. destruct (Nat.lt_ge_cases n r) as [Hn|Hn]; [now apply H|].
  unfold entry. rewrite !nth_overflow with (l := Y), !nth_overflow with (l := Y') by lia. destruct j; apply (fl_zero K HF).
Qed.
Lemma nth_skip {A} (d : A) : forall k n l, nth n (skipn k l) d = nth (k + n) l d.
Proof. induction k as [|k IH]; intros n l; [reflexivity|]. destruct l as [|x l]; [destruct n; reflexivity|]. cbn. apply IH. Qed.
Lemma nth_first {A} (d : A) : forall k n l, (n < k)%nat -> nth n (firstn k l) d = nth n l d.
Proof. induction k as [|k IH]; intros n l Hn; [lia|]. destruct l as [|x l]; [reflexivity|]. destruct n; [reflexivity|]. cbn. apply IH. lia. Qed.
Lemma chunks_t o c : (1 <= c)%nat -> forall m (X Y Y' : pm K), length X = length Y -> all_t o Y Y' -> batches o (combine (chunks_fuel m c X) (chunks_fuel m c Y)) (combine (chunks_fuel m c X) (chunks_fuel m c Y')).
Proof.
  intros Hc. induction m as [|m IH]; intros X Y Y' HX HY.
  - destruct X; constructor.
  - destruct X as [|x X]; [constructor|]. pose proof HY as (L & H). destruct Y as [|y Y]; [discriminate|]. destruct Y' as [|y' Y']; [discriminate|]. cbn [chunks_fuel combine]. constructor.
    + intros n j Hn Hj. rewrite firstn_length in Hn. unfold entry. rewrite !nth_first by lia. apply H, Hj.
    + apply IH; [rewrite !skipn_length; cbn [length] in *; lia|]. split; [rewrite !skipn_length; lia|]. intros n j Hj. unfold entry. rewrite !nth_skip. apply H, Hj.
Qed.
Lemma epochs_t e c r o (X Y Y' : pm K) : (1 <= c)%nat -> length X = r -> length Y = r -> length Y' = r -> mturned true r o Y Y' -> batches o (epochs_of e c X Y) (epochs_of e c X Y').
Proof.
  intros Hc LX L1 L2 HY. unfold epochs_of, chunks. rewrite LX, L1, L2. pose proof (chunks_t o c Hc r X Y Y' ltac:(congruence) (all_intro _ _ _ _ L1 L2 HY)) as HB.
  induction e as [|e IH]; [constructor|]. cbn [repeat concat]. now apply batches_app.
Qed.
Lemma trainer_fst (s : state K) m es xs i o k : trainable s m es xs i o k -> map fst (trainer es xs) = net es.
Proof.
  intros (_ & _ & _ & _ & _ & H & _). unfold trainer, net. apply Forall2_length in H. revert xs H.
  induction es as [|e es IH]; intros [|x xs] H; try discriminate; [reflexivity|]. cbn [map combine fst]. f_equal. apply IH. simpl in H. lia.
Qed.
Lemma fit_flipped (HM : min_faithful K) s1 m1 es1 xs1 x1 rsx1 y1 rsy1 xv1 yv1 s2 m2 es2 xs2 x2 rsx2 y2 rsy2 xv2 yv2 i o k n (X Y Y' : pm K) epochs bs :
  (0 <= bs)%Z -> (Z.of_nat n + bs <= 2 ^ 52)%Z -> (1 <= n)%nat -> k = MSE \/ k = MAE ->
  trainable s1 m1 es1 xs1 i o k -> data_ok s1 es1 x1 rsx1 y1 rsy1 n i o X Y -> trainable s2 m2 es2 xs2 i o k -> data_ok s2 es2 x2 rsx2 y2 rsy2 n i o X Y' ->
  mturned true n o Y Y' -> flipped (trainer es1 xs1) (trainer es2 xs2) -> r_uni (h_rng s2) = r_uni (h_rng s1) -> r_upos (h_rng s2) = r_upos (h_rng s1) ->
  exists s1' s2' es1' xs1' es2' xs2', Fit m1 x1 y1 epochs bs xv1 yv1 0 s1 = (Ret tt, s1') /\ Fit m2 x2 y2 epochs bs xv2 yv2 0 s2 = (Ret tt, s2') /\
    trainable s1' m1 es1' xs1' i o k /\ Forall2 same_place es1 es1' /\ trainable s2' m2 es2' xs2' i o k /\ Forall2 same_place es2 es2' /\ flipped (trainer es1' xs1') (trainer es2' xs2').
Proof.
  intros Hb H52 Hn Hk HT1 HD1 HT2 HD2 HY HFl HU HP.
  destruct (fit_trains s1 m1 es1 xs1 i o k x1 rsx1 y1 rsy1 n X Y epochs bs xv1 yv1 HM Hb H52 Hn HT1 HD1) as ([] & s1' & E1 & nn1 & _ & (es1' & xs1' & HT1' & HPl1 & _ & Htr1 & _) & _).
  destruct (fit_trains s2 m2 es2 xs2 i o k x2 rsx2 y2 rsy2 n X Y' epochs bs xv2 yv2 HM Hb H52 Hn HT2 HD2) as ([] & s2' & E2 & nn2 & _ & (es2' & xs2' & HT2' & HPl2 & _ & Htr2 & _) & _).
  exists s1', s2', es1', xs1', es2', xs2'. do 6 (split; [assumption|]). rewrite Htr1, Htr2, HU, HP.
  assert (HBR : (1 <= batch_rows n bs)%nat) by (unfold batch_rows; destruct (Z.eqb_spec bs 0); lia).
  apply (train_on_t k o _ i _ _ Hk); [|exact HFl|].
  - apply (epochs_t _ _ n); try assumption; [exact (proj1 (own_shape _ _ _ _ _ _ (proj1 HD1)))|exact (proj1 (own_shape _ _ _ _ _ _ (proj1 (proj2 HD1))))|exact (proj1 (own_shape _ _ _ _ _ _ (proj1 (proj2 HD2))))].
  - rewrite (trainer_fst _ _ _ _ _ _ _ HT1). exact (proj1 (proj2 (proj2 (proj2 (proj2 (proj1 HT1)))))).
Qed.
Lemma pnet_t r : forall ts us i o (X X' : pm K), flipped ts us -> chain i (map fst ts) o -> mturned false r i X X' -> mturned true r o (pnet (map fst ts) r X) (pnet (map fst us) r X').
Proof.
  induction ts as [|t ts IH]; intros us i o X X' HFl HC HX; [destruct HFl|]. destruct ts as [|t2 ts].
  - apply flipped_one in HFl. destruct HFl as (u & -> & HK & HL & _). destruct HC as (<- & <-). unfold pnet. cbn [map fold_left]. exact (proj2 (linear_t true _ _ r X X' (fun _ => f0) HK HL HX)).
  - apply flipped_cons in HFl. destruct HFl as (u & u2 & us' & -> & HP & (HL & _) & HFl). destruct HC as (<- & HC).
    change (pnet (map fst (t :: t2 :: ts)) r X) with (pnet (map fst (t2 :: ts)) r (pforward (fst t) r X)). change (pnet (map fst (u :: u2 :: us')) r X') with (pnet (map fst (u2 :: us')) r (pforward (fst u) r X')).
    apply (IH (u2 :: us') _ o _ _ HFl HC). now apply forward_t.
Qed.
Lemma predict_flipped s1 m1 es1 xs1 x1 rsx1 s2 m2 es2 xs2 x2 rsx2 i o k r (X : pm K) :
  trainable s1 m1 es1 xs1 i o k -> trainable s2 m2 es2 xs2 i o k -> flipped (trainer es1 xs1) (trainer es2 xs2) ->
  m_acctype m1 = 0%Z -> m_acctype m2 = 0%Z -> (1 <= r)%nat -> own s1 x1 rsx1 r i X -> own s2 x2 rsx2 r i X ->
  exists P1 P2 s1' s2' rs1 rs2 A B, Predict m1 x1 s1 = (Ret P1, s1') /\ Predict m2 x2 s2 = (Ret P2, s2') /\ own s1' P1 rs1 r o A /\ own s2' P2 rs2 r o B /\ mturned true r o A B.
Proof.
  intros T1 T2 HFl A1 A2 Hr HX1 HX2.
  destruct (ModelRefute.predict_spec s1 m1 es1 i o x1 rsx1 r X o (pnet (net es1) r X) (proj1 T1) (proj1 (proj2 (proj2 T1)))) as (P1 & s1' & E1 & rs1 & HO1 & _); [rewrite A1; reflexivity|exact HX1|exact Hr|].
  destruct (ModelRefute.predict_spec s2 m2 es2 i o x2 rsx2 r X o (pnet (net es2) r X) (proj1 T2) (proj1 (proj2 (proj2 T2)))) as (P2 & s2' & E2 & rs2 & HO2 & _); [rewrite A2; reflexivity|exact HX2|exact Hr|].
  exists P1, P2, s1', s2', rs1, rs2, (pnet (net es1) r X), (pnet (net es2) r X). do 4 (split; [assumption|]).
  pose proof (proj1 (proj2 (proj2 (proj2 (proj2 (proj1 T1)))))) as HC. rewrite <- (trainer_fst _ _ _ _ _ _ _ T1) in HC |- *. rewrite <- (trainer_fst _ _ _ _ _ _ _ T2). apply (pnet_t r _ _ i o _ _ HFl HC). apply mt_refl.
Qed.
End Flip.
