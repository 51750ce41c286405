(** * ZeroGrad: when training gets zero gradients (exact arithmetic). *)
From Coq Require Import String ZArith List Bool Arith Lia Reals Lra.
From Verif Require Import Num NumR Heap Spec Matrix Loss Network Optimizers ModelGo PureSpec Repr HeapLemmas MatrixFacts MiscFacts RSum LayerReal LossProofs OptSpec ModelSpec FitProofs FitFacts CodecSave.
Import ListNotations.
Open Scope R_scope.

Definition zero_on (r c : nat) (A : rpm) : Prop := forall i j, (i < r)%nat -> (j < c)%nat -> entry A i j = 0.
(** The optimizer has no momentum and no cache that could move a parameter by itself. *)
Definition quiet (po : popt RNum) (r c : nat) (m ch : rpm) : Prop :=
  match po_kind po with SGD => po_usemom po = true -> zero_on r c m | Adam => zero_on r c m /\ zero_on r c ch end.
Definition quiet_w (t : player RNum * popt RNum) : Prop := quiet (snd t) (p_in (fst t)) (p_out (fst t)) (po_wm (snd t)) (po_wc (snd t)).
Definition quiet_b (t : player RNum * popt RNum) : Prop := quiet (snd t) 1 (p_out (fst t)) (po_bm (snd t)) (po_bc (snd t)).

Lemma zero_mk r c f : (forall i j, (i < r)%nat -> (j < c)%nat -> f i j = 0) -> zero_on r c (mk (K := RNum) r c f).
Proof. intros H i j Hi Hj. rewrite entry_mk by auto. now apply H. Qed.
Lemma zero_sum n (g : nat -> R) : (forall i, (i < n)%nat -> g i = 0) -> fsum (K := RNum) n g = 0.
Proof. intros H. change (rsum n g = 0). rewrite <- (rsum_zero n). now apply rsum_ext. Qed.

(** ** Updates *)
Lemma quiet_update po r c (P dP m ch : rpm) : zero_on r c dP -> quiet po r c m ch -> shape r c P ->
  let '(P', m', ch') := pupd1 po r c P dP m ch in P' = P /\ quiet po r c m' ch'.
Proof.
  intros HD HQ HP. unfold quiet, pupd1 in *. destruct (po_kind po).
  - destruct (po_usemom po).
    + specialize (HQ eq_refl).
      assert (HV : zero_on r c (pmap2 r c (vel1 (po_mom po) (next_rate po)) m dP)).
      { apply zero_mk. intros i j Hi Hj. rewrite HQ, HD by auto. unfold vel1. simpl. lra. }
      split; [|auto]. etransitivity; [|exact (mk_entry _ _ _ HP)]. apply mk_ext. intros i j Hi Hj. rewrite HV by auto. simpl. lra.
    + split; [|discriminate]. etransitivity; [|exact (mk_entry _ _ _ HP)]. apply mk_ext. intros i j Hi Hj. rewrite HD by auto. unfold sgd1. simpl. lra.
  - destruct HQ as (HM & HC).
    assert (HM' : zero_on r c (pmap2 r c (adam_m1 (po_b1 po)) m dP)).
    { apply zero_mk. intros i j Hi Hj. rewrite HM, HD by auto. unfold adam_m1. simpl. lra. }
    split; [|split; [exact HM'|]].
    + etransitivity; [|exact (mk_entry _ _ _ HP)]. apply mk_ext. intros i j Hi Hj. rewrite HM' by auto. unfold adam_p1. simpl.
      unfold Rdiv. rewrite Rmult_0_l, Rmult_0_r, Rmult_0_l. lra.
    + apply zero_mk. intros i j Hi Hj. rewrite HC, HD by auto. unfold adam_c1. simpl.
      change 2%R with (IZR 2). rewrite r_pow_Z. simpl. lra.
Qed.
Definition shaped_p (p : player RNum) : Prop := shape (p_in p) (p_out p) (p_w p) /\ shape 1 (p_out p) (p_b p).
Lemma pupd1_shape po r c (P dP m ch : rpm) : shape r c (fst (fst (pupd1 po r c P dP m ch))).
Proof. unfold pupd1. destruct (po_kind po); [destruct (po_usemom po)|]; apply shape_mk. Qed.
Lemma step_shape t g : shaped_p (fst (tstep (K := RNum) t g)).
Proof.
  unfold tstep, pupdate.
  pose proof (pupd1_shape (snd t) (p_in (fst t)) (p_out (fst t)) (p_w (fst t)) (fst g) (po_wm (snd t)) (po_wc (snd t))) as H1.
  pose proof (pupd1_shape (snd t) 1 (p_out (fst t)) (p_b (fst t)) (snd g) (po_bm (snd t)) (po_bc (snd t))) as H2.
  destruct (pupd1 (snd t) (p_in (fst t)) _ _ _ _ _) as ((W & wm) & wc). destruct (pupd1 (snd t) 1 _ _ _ _ _) as ((B & bm) & bc). split; assumption.
Qed.
(** A zero weight gradient leaves the weights alone, a zero bias gradient the biases. *)
Lemma step_w t g : shaped_p (fst t) -> zero_on (p_in (fst t)) (p_out (fst t)) (fst g) -> quiet_w t ->
  p_w (fst (tstep (K := RNum) t g)) = p_w (fst t) /\ quiet_w (tstep (K := RNum) t g).
Proof.
  intros (HW & _) HZ HQ. unfold tstep, pupdate.
  pose proof (quiet_update (snd t) (p_in (fst t)) (p_out (fst t)) (p_w (fst t)) (fst g) (po_wm (snd t)) (po_wc (snd t)) HZ HQ HW) as H.
  destruct (pupd1 (snd t) (p_in (fst t)) _ _ _ _ _) as ((W & wm) & wc). destruct (pupd1 (snd t) 1 _ _ _ _ _) as ((B & bm) & bc). exact H.
Qed.
Lemma step_b t g : shaped_p (fst t) -> zero_on 1 (p_out (fst t)) (snd g) -> quiet_b t ->
  p_b (fst (tstep (K := RNum) t g)) = p_b (fst t) /\ quiet_b (tstep (K := RNum) t g).
Proof.
  intros (_ & HB) HZ HQ. unfold tstep, pupdate.
  pose proof (quiet_update (snd t) 1 (p_out (fst t)) (p_b (fst t)) (snd g) (po_bm (snd t)) (po_bc (snd t)) HZ HQ HB) as H.
  destruct (pupd1 (snd t) (p_in (fst t)) _ _ _ _ _) as ((W & wm) & wc). destruct (pupd1 (snd t) 1 _ _ _ _ _) as ((B & bm) & bc). exact H.
Qed.
Lemma step_like (t : player RNum * popt RNum) g : like (fst t) (fst (tstep (K := RNum) t g)).
Proof. unfold tstep. destruct (pupdate _ _ _ _ _ _ _) as ((? & ?) & ?). repeat split. Qed.
Lemma player_eq (p q : player RNum) : like p q -> p_w q = p_w p -> p_b q = p_b p -> q = p.
Proof. destruct p, q. unfold like. simpl. intros (-> & -> & -> & -> & ->) -> ->. reflexivity. Qed.

(** ** Backpropagation of zeros *)
Lemma zero_back (l : player RNum) r (O M G : rpm) : zero_on r (p_out l) G -> zero_on r (p_out l) (pback l r O M G).
Proof.
  intros H. unfold pback. destruct (p_kind l); try exact H; apply zero_mk; intros i j Hi Hj.
  - rewrite H by auto. unfold relu_prime1. now destruct (fle _ _).
  - rewrite H by auto. unfold leaky_prime1. destruct (flt _ _); simpl; lra.
  - apply zero_sum. intros n Hn. rewrite (H i n) by auto. simpl. lra.
  - unfold pmap2. rewrite entry_mk by auto. rewrite H by auto. unfold relu_prime1. destruct (fle _ _); simpl; lra.
Qed.
Lemma zero_dW_G r k c (X G : rpm) : zero_on r c G -> zero_on k c (pdW r k c X G).
Proof. intros H. apply zero_mk. intros i j Hi Hj. apply zero_sum. intros n Hn. rewrite (H n j) by auto. simpl. lra. Qed.
Lemma zero_dW_X r k c (X G : rpm) : zero_on r k X -> zero_on k c (pdW r k c X G).
Proof. intros H. apply zero_mk. intros i j Hi Hj. apply zero_sum. intros n Hn. unfold ptrans. rewrite entry_mk by auto. rewrite H by auto. simpl. lra. Qed.
Lemma zero_dX_G r k c (G W : rpm) : zero_on r c G -> zero_on r k (pdX r k c G W).
Proof. intros H. apply zero_mk. intros i j Hi Hj. apply zero_sum. intros n Hn. rewrite (H i n) by auto. simpl. lra. Qed.
Lemma zero_dX_W r k c (G W : rpm) : zero_on k c W -> zero_on r k (pdX r k c G W).
Proof. intros H. apply zero_mk. intros i j Hi Hj. apply zero_sum. intros n Hn. unfold ptrans. rewrite entry_mk by auto. rewrite H by auto. simpl. lra. Qed.
Lemma zero_sum0 r c (G : rpm) : zero_on r c G -> zero_on 1 c (psum0 r c G).
Proof. intros H. apply zero_mk. intros i j Hi Hj. apply zero_sum. intros n Hn. now apply H. Qed.
Definition zero_grad (p : player RNum) (g : rpm * rpm) : Prop := zero_on (p_in p) (p_out p) (fst g) /\ zero_on 1 (p_out p) (snd g).

(** ** Mean absolute error with several outputs *)
Lemma mae_zero r c (Yh Y : rpm) : (2 <= c)%nat -> zero_on r c (ploss_back MAE r c Yh Y).
Proof.
  intros Hc. apply zero_mk. intros i j Hi Hj. cbv zeta.
  replace (Z.quot 1 (Z.of_nat c)) with 0%Z by (symmetry; apply Z.quot_small; lia).
  replace (Z.quot (-1) (Z.of_nat c)) with 0%Z by (change (-1)%Z with (- (1))%Z; rewrite Z.quot_opp_l by lia; rewrite Z.quot_small by lia; reflexivity).
  destruct (flt _ _); [reflexivity|]. destruct (flt _ _); reflexivity.
Qed.
Lemma mae_backprop (Y : rpm) o U r : (2 <= o)%nat -> forall ps i q (X : rpm), chain i ps o ->
  zero_on r i (fst (pbackprop MAE Y o ps r X U q)) /\ Forall2 zero_grad ps (snd (pbackprop MAE Y o ps r X U q)).
Proof.
  intros Ho. induction ps as [|p t IH]; intros i q X HC.
  - simpl in HC. subst i. split; [now apply mae_zero|constructor].
  - destruct HC as (Hi & HC). cbn [pbackprop].
    specialize (IH (p_out p) (q + pdraws p r)%nat (ptrain p r X (from (K := RNum) U q)) HC).
    destruct (pbackprop MAE Y o t r (ptrain p r X (from U q)) U (q + pdraws p r)) as (G & gs). cbn [fst snd] in *. destruct IH as (HG & Hgs).
    set (G' := pre_grad MAE Y _ p r _ _ G).
    assert (HG' : zero_on r (p_out p) G').
    { unfold G', pre_grad. destruct t; [|now apply zero_back]. now apply zero_back. }
    subst i. split; [now apply zero_dX_G|]. constructor; [|exact Hgs]. split; [now apply zero_dW_G|now apply zero_sum0].
Qed.
(** Nothing moves under zero gradients. *)
Definition frozen (t : player RNum * popt RNum) : Prop := shaped_p (fst t) /\ quiet_w t /\ quiet_b t.
Lemma frozen_step t g : frozen t -> zero_grad (fst t) g -> fst (tstep (K := RNum) t g) = fst t /\ frozen (tstep (K := RNum) t g).
Proof.
  intros (HS & HW & HB) (Gw & Gb). destruct (step_w t g HS Gw HW) as (E1 & HW'). destruct (step_b t g HS Gb HB) as (E2 & HB').
  split; [now apply player_eq; [apply step_like| |]|]. split; [apply step_shape|]. split; assumption.
Qed.
Lemma frozen_batch k o ts (X Y : rpm) U q : List.Forall frozen ts -> Forall2 zero_grad (map fst ts) (snd (pbackprop k Y o (map fst ts) (length X) X U q)) ->
  map fst (pbatch (K := RNum) k o ts X Y U q) = map fst ts /\ List.Forall frozen (pbatch (K := RNum) k o ts X Y U q).
Proof.
  intros HF. unfold pbatch. generalize (snd (pbackprop (K := RNum) k Y o (map fst ts) (length X) X U q)) as gs.
  induction ts as [|t ts IH]; intros gs HZ; inversion HZ as [|p g ? gs' Hg Hgs]; subst; [split; constructor|].
  inversion HF as [|? ? Ht Hts]; subst. cbn [combine map fst snd].
  destruct (frozen_step t g Ht Hg) as (E & HF'). destruct (IH Hts gs' Hgs) as (E' & HF''). split; [congruence|constructor; assumption].
Qed.
Lemma mae_train o (bs : list (rpm * rpm)) U : (2 <= o)%nat -> forall ts i q, chain i (map fst ts) o -> List.Forall frozen ts ->
  map fst (fst (ptrain_on (K := RNum) MAE o ts U q bs)) = map fst ts.
Proof.
  intros Ho. induction bs as [|(X, Y) bs IH]; intros ts i q HC HF; [reflexivity|]. cbn [ptrain_on].
  destruct (frozen_batch MAE o ts X Y U q HF) as (E & HF'); [now apply mae_backprop with (i := i)|].
  rewrite (IH _ i _); [exact E|now rewrite E|exact HF'].
Qed.
(** ** Statement about Fit *)
Lemma trainable_shaped s m es xs i o k : trainable s m es xs i o k -> List.Forall (fun t => shaped_p (fst t)) (trainer es xs).
Proof.
  intros HT. destruct HT as ((_ & _ & _ & _ & _ & HL) & _). unfold trainer. rewrite Forall_forall in *. intros (p, po) Hin.
  apply in_combine_l in Hin. apply in_map_iff in Hin as (e & <- & He). destruct (HL e He) as (l & _ & Hl).
  destruct (lown_shapes _ _ _ _ _ Hl) as (H1 & H2 & _). split; assumption.
Qed.
Lemma trainer_fst (es : list (lent RNum)) xs : length xs = length es -> map fst (trainer es xs) = net es.
Proof. apply trainer_net. Qed.
Lemma mae_fit s m es xs i o x rsx y rsy n (X Y : rpm) epochs bs xv yv :
  (0 <= bs)%Z -> (Z.of_nat n + bs <= 2 ^ 52)%Z -> (1 <= n)%nat -> (2 <= o)%nat ->
  trainable s m es xs i o MAE -> data_ok s es x rsx y rsy n i o X Y ->
  List.Forall (fun t => quiet_w t /\ quiet_b t) (trainer es xs) ->
  returns (Fit m x y epochs bs xv yv 0) s (fun _ s' => exists es' xs',
    trainable s' m es' xs' i o MAE /\ Forall2 same_place es es' /\ net es' = net es).
Proof.
  intros H1 H2 Hn Ho HT HD HQ.
  destruct (fit_trains s m es xs i o MAE x rsx y rsy n X Y epochs bs xv yv RNum_min_faithful H1 H2 Hn HT HD)
    as ([] & s' & E & nn & _ & (es' & xs' & HT' & HPl & HP2 & Htr & _) & _).
  exists tt, s'. split; [exact E|]. exists es', xs'. split; [exact HT'|]. split; [exact HPl|].
  assert (HL : length xs = length es). { destruct HT as (_ & _ & _ & _ & _ & HO & _). symmetry. eapply Forall2_length; eauto. }
  assert (HL' : length xs' = length es'). { destruct HT' as (_ & _ & _ & _ & _ & HO & _). symmetry. eapply Forall2_length; eauto. }
  rewrite <- (trainer_net es' xs' HL'), <- (trainer_net es xs HL), Htr.
  apply mae_train with (i := i); [exact Ho|rewrite trainer_net by exact HL; apply HT|].
  pose proof (trainable_shaped _ _ _ _ _ _ _ HT) as HS. rewrite Forall_forall in *. intros t Ht. split; [now apply HS|now apply HQ].
Qed.

(** ** Networks that were never initialised *)
(** All weights and biases zero, and an activation that maps 0 to 0. *)
Definition blank (p : player RNum) : Prop :=
  zero_on (p_in p) (p_out p) (p_w p) /\ zero_on 1 (p_out p) (p_b p) /\ p_kind p <> SigmoidK /\ p_kind p <> SoftmaxK.
Lemma blank_aff r k c (X W B : rpm) : zero_on k c W -> zero_on 1 c B -> zero_on r c (paff r k c X W B).
Proof.
  intros HW HB. apply zero_mk. intros i j Hi Hj. rewrite HB by auto. rewrite zero_sum; [simpl; lra|]. intros n Hn. rewrite HW by auto. simpl. lra.
Qed.
Lemma relu0 : relu1 (K := RNum) 0 = 0.
Proof. unfold relu1. simpl. unfold Rmax. destruct (Rle_dec 0 0); reflexivity. Qed.
Lemma blank_train p r (X : rpm) u : blank p -> zero_on r (p_out p) (ptrain p r X u).
Proof.
  intros (HW & HB & H1 & H2). pose proof (blank_aff r _ _ X _ _ HW HB) as HA. fold (paffine p r X) in HA.
  unfold ptrain, pforward, pact, act1. destruct (p_kind p); try congruence.
  - apply zero_mk. intros i j Hi Hj. rewrite HA by auto. apply relu0.
  - exact HA.
  - apply zero_mk. intros i j Hi Hj. rewrite HA by auto. unfold leaky1. destruct (flt _ _); simpl; lra.
  - apply zero_mk. intros i j Hi Hj. rewrite HA by auto. rewrite relu0. simpl. lra.
Qed.
Lemma blank_backprop k (Y : rpm) o U r l : zero_on (p_in l) (p_out l) (p_w l) -> forall ps i q (X : rpm), chain i (ps ++ [l]) o ->
  List.Forall blank ps -> (ps = [] -> zero_on r (p_in l) X) ->
  let r' := pbackprop k Y o (ps ++ [l]) r X U q in
  zero_on r i (fst r') /\ exists gs g, snd r' = gs ++ [g] /\ Forall2 zero_grad ps gs /\ zero_on (p_in l) (p_out l) (fst g).
Proof.
  intros HW. induction ps as [|p t IH]; intros i q X HC HB HX.
  - destruct HC as (Hi & HC). subst i. cbn [app pbackprop fst snd]. split; [now apply zero_dX_W|].
    eexists [], _. split; [reflexivity|]. split; [constructor|]. cbn [fst]. now apply zero_dW_X, HX.
  - destruct HC as (Hi & HC). inversion HB as [|? ? Hp Ht]; subst. cbn [app pbackprop].
    specialize (IH (p_out p) (q + pdraws p r)%nat (ptrain p r X (from (K := RNum) U q)) HC Ht).
    assert (HX' : t = [] -> zero_on r (p_in l) (ptrain p r X (from (K := RNum) U q))).
    { intros ->. destruct HC as (-> & _). now apply blank_train. }
    specialize (IH HX'). cbv zeta in IH.
    destruct (pbackprop k Y o (t ++ [l]) r (ptrain p r X (from U q)) U (q + pdraws p r)) as (G & gs0). cbn [fst snd] in *.
    destruct IH as (HG & gs & g & -> & HF & Hg).
    set (G' := pre_grad k Y _ p r _ _ G).
    assert (HG' : zero_on r (p_out p) G').
    { unfold G', pre_grad. destruct (t ++ [l]) eqn:E; [now destruct t|]. now apply zero_back. }
    split; [now apply zero_dX_G|]. eexists (_ :: gs), g. split; [reflexivity|]. split; [|exact Hg]. constructor; [|exact HF].
    split; [now apply zero_dW_G|now apply zero_sum0].
Qed.
(** The last layer keeps zero weights. *)
Definition stuck (t : player RNum * popt RNum) : Prop := shaped_p (fst t) /\ quiet_w t /\ zero_on (p_in (fst t)) (p_out (fst t)) (p_w (fst t)).
Lemma stuck_step t g : stuck t -> zero_on (p_in (fst t)) (p_out (fst t)) (fst g) -> stuck (tstep (K := RNum) t g) /\ p_w (fst (tstep (K := RNum) t g)) = p_w (fst t).
Proof.
  intros (HS & HQ & HZ) Hg. destruct (step_w t g HS Hg HQ) as (E & HQ'). split; [|exact E]. split; [apply step_shape|]. split; [exact HQ'|].
  rewrite E. destruct (step_like t g) as (_ & -> & -> & _). exact HZ.
Qed.
Lemma combine_app {A C} (l1 l1' : list A) (l2 l2' : list C) : length l1 = length l2 -> combine (l1 ++ l1') (l2 ++ l2') = combine l1 l2 ++ combine l1' l2'.
Proof. revert l2. induction l1 as [|x l1 IH]; intros [|y l2] H; try discriminate; [reflexivity|]. simpl. f_equal. apply IH. simpl in H. lia. Qed.
Lemma blank_batch k o ts t (X Y : rpm) U q i : ts <> [] -> chain i (map fst (ts ++ [t])) o ->
  List.Forall frozen ts -> List.Forall (fun t => blank (fst t)) ts -> stuck t ->
  exists ts' t', pbatch (K := RNum) k o (ts ++ [t]) X Y U q = ts' ++ [t'] /\ map fst ts' = map fst ts /\ List.Forall frozen ts' /\
    stuck t' /\ like (fst t) (fst t') /\ p_w (fst t') = p_w (fst t).
Proof.
  intros Hne HC HF HB HT. unfold pbatch. rewrite map_app in *. cbn [map] in *.
  destruct (blank_backprop k Y o U (length X) (fst t) (proj2 (proj2 HT)) (map fst ts) i q X HC) as (_ & gs & g & E & HZ & Hg).
  { now rewrite Forall_map. } { destruct ts; [congruence|discriminate]. }
  cbv zeta in E. rewrite E. assert (HL : length (map fst ts) = length gs) by (eapply Forall2_length; eauto). rewrite map_length in HL. rewrite combine_app by exact HL. rewrite map_app. cbn [combine map fst snd].
  destruct (stuck_step t g HT Hg) as (HT' & EW).
  exists (map (fun tg => tstep (K := RNum) (fst tg) (snd tg)) (combine ts gs)), (tstep (K := RNum) t g).
  split; [reflexivity|]. assert (HH : map fst (map (fun tg => tstep (K := RNum) (fst tg) (snd tg)) (combine ts gs)) = map fst ts /\
    List.Forall frozen (map (fun tg => tstep (K := RNum) (fst tg) (snd tg)) (combine ts gs))).
  { clear -HF HZ. revert gs HZ. induction ts as [|t ts IH]; intros gs HZ; inversion HZ as [|p g ? gs' Hg Hgs]; subst; [split; constructor|].
    inversion HF as [|? ? Ht Hts]; subst. cbn [combine map fst snd].
    destruct (frozen_step t g Ht Hg) as (E & HF'). destruct (IH Hts gs' Hgs) as (E' & HF''). split; [congruence|constructor; assumption]. }
  destruct HH as (H1 & H2). split; [exact H1|]. split; [exact H2|]. split; [exact HT'|]. split; [apply step_like|exact EW].
Qed.
Lemma like_trans (p p' p'' : player RNum) : like p p' -> like p' p'' -> like p p''.
Proof. unfold like. intuition congruence. Qed.
Lemma chain_like i ps (l l' : player RNum) o : like l l' -> chain i (ps ++ [l]) o -> chain i (ps ++ [l']) o.
Proof.
  intros (_ & Hi & Ho & _). revert i. induction ps as [|p t IH]; intros i; simpl; [rewrite Hi, Ho; auto|]. intros (H1 & H2). split; auto.
Qed.
Lemma blank_run k o U (bs : list (rpm * rpm)) : forall ts t i q, ts <> [] -> chain i (map fst (ts ++ [t])) o ->
  List.Forall frozen ts -> List.Forall (fun t => blank (fst t)) ts -> stuck t ->
  exists ts' t', fst (ptrain_on (K := RNum) k o (ts ++ [t]) U q bs) = ts' ++ [t'] /\ map fst ts' = map fst ts /\ like (fst t) (fst t') /\ p_w (fst t') = p_w (fst t).
Proof.
  induction bs as [|(X, Y) bs IH]; intros ts t i q Hne HC HF HB HT.
  - exists ts, t. repeat split.
  - cbn [ptrain_on]. destruct (blank_batch k o ts t X Y U q i Hne HC HF HB HT) as (ts1 & t1 & E & E1 & HF1 & HT1 & HL1 & EW1). rewrite E.
    destruct (IH ts1 t1 i (q + net_draws true (map fst (ts ++ [t])) (length X))%nat) as (ts' & t' & E2 & E3 & HL & EW); auto.
    + intros ->. destruct ts; [congruence|discriminate].
    + rewrite map_app in *. cbn [map] in *. rewrite E1. now apply chain_like with (l := fst t).
    + rewrite <- Forall_map in *. now rewrite E1.
    + exists ts', t'. split; [exact E2|]. split; [congruence|]. split; [now apply like_trans with (fst t1)|congruence].
Qed.
(** The prediction of such a network does not depend on its input. *)
Lemma blank_forward p r (X : rpm) : blank p -> zero_on r (p_out p) (pforward p r X).
Proof.
  intros HB. pose proof (blank_train p r X (fun _ => 0) HB) as H. destruct HB as (HW & HB & H1 & H2).
  pose proof (blank_aff r _ _ X _ _ HW HB) as HA. fold (paffine p r X) in HA.
  unfold ptrain in H. destruct (p_kind p) eqn:E; try exact H. unfold pforward, pact, act1. rewrite E. apply zero_mk. intros i j Hi Hj. rewrite HA by auto. apply relu0.
Qed.
Lemma flat_forward (p : player RNum) r r' (X X' : rpm) i i' j : zero_on (p_in p) (p_out p) (p_w p) -> (i < r)%nat -> (i' < r')%nat -> (j < p_out p)%nat ->
  entry (pforward p r X) i j = entry (pforward p r' X') i' j.
Proof.
  intros HW Hi Hi' Hj.
  assert (HA : forall n, (n < p_out p)%nat -> entry (paffine p r X) i n = entry (paffine p r' X') i' n).
  { intros n Hn. unfold paffine, paff. rewrite !entry_mk by auto. f_equal. rewrite !zero_sum; auto; intros m Hm; rewrite HW by auto; simpl; lra. }
  unfold pforward, pact. destruct (p_kind p); unfold pmap, psoftmax; rewrite ?entry_mk by auto; rewrite ?HA by auto; try reflexivity.
  f_equal. apply fsum_ext. intros n Hn. now rewrite HA.
Qed.
Lemma pnet_last (ps : list (player RNum)) l r (X : rpm) : pnet (ps ++ [l]) r X = pforward l r (pnet ps r X).
Proof. unfold pnet. rewrite fold_left_app. reflexivity. Qed.
Lemma blank_fit s m es e xs i o k x rsx y rsy n (X Y : rpm) epochs bs xv yv :
  (0 <= bs)%Z -> (Z.of_nat n + bs <= 2 ^ 52)%Z -> (1 <= n)%nat -> es <> [] ->
  trainable s m (es ++ [e]) xs i o k -> data_ok s (es ++ [e]) x rsx y rsy n i o X Y ->
  List.Forall blank (net es) -> zero_on (p_in (e_p e)) (p_out (e_p e)) (p_w (e_p e)) ->
  List.Forall (fun t => quiet_w t /\ quiet_b t) (trainer (es ++ [e]) xs) ->
  returns (Fit m x y epochs bs xv yv 0) s (fun _ s' => exists es' e' xs',
    trainable s' m (es' ++ [e']) xs' i o k /\ Forall2 same_place (es ++ [e]) (es' ++ [e']) /\
    net es' = net es /\ p_w (e_p e') = p_w (e_p e) /\
    forall r1 r2 (X1 X2 : rpm) i1 i2 j, (i1 < r1)%nat -> (i2 < r2)%nat -> (j < o)%nat ->
      entry (pnet (net (es' ++ [e'])) r1 X1) i1 j = entry (pnet (net (es' ++ [e'])) r2 X2) i2 j).
Proof.
  intros H1 H2 Hn Hne HT HD HB HW HQ.
  destruct (fit_trains s m (es ++ [e]) xs i o k x rsx y rsy n X Y epochs bs xv yv RNum_min_faithful H1 H2 Hn HT HD)
    as ([] & s' & E & nn & _ & (es2 & xs' & HT' & HPl & HP2 & Htr & _) & _).
  exists tt, s'. split; [exact E|].
  assert (HL : length xs = length (es ++ [e])). { destruct HT as (_ & _ & _ & _ & _ & HO & _). symmetry. eapply Forall2_length; eauto. }
  assert (HL' : length xs' = length es2). { destruct HT' as (_ & _ & _ & _ & _ & HO & _). symmetry. eapply Forall2_length; eauto. }
  assert (HX : exists xs0 x0, xs = xs0 ++ [x0] /\ length xs0 = length es).
  { rewrite app_length in HL. cbn [length] in HL. destruct (exists_last (l := xs)) as (xs0 & x0 & ->); [intros ->; simpl in HL; lia|].
    exists xs0, x0. split; [reflexivity|]. rewrite app_length in HL. cbn [length] in HL. lia. }
  destruct HX as (xs0 & x0 & -> & HL0).
  assert (Etr : trainer (es ++ [e]) (xs0 ++ [x0]) = trainer es xs0 ++ [(e_p e, x_po x0)]).
  { unfold trainer, net. rewrite !map_app. rewrite combine_app by (now rewrite !map_length). reflexivity. }
  pose proof (trainable_shaped _ _ _ _ _ _ _ HT) as HS.
  assert (HF : List.Forall frozen (trainer (es ++ [e]) (xs0 ++ [x0]))).
  { rewrite Forall_forall in *. intros t Ht. split; [now apply HS|now apply HQ]. }
  rewrite Etr in HF. apply Forall_app in HF as (HF1 & HF2). inversion HF2 as [|? ? HF3 _]; subst.
  destruct (blank_run k o (r_uni (h_rng s)) (epochs_of (Z.to_nat epochs) (batch_rows n bs) X Y) (trainer es xs0) (e_p e, x_po x0) i (r_upos (h_rng s)))
    as (ts' & t' & E2 & E3 & HLk & EW).
  - destruct es; [congruence|]. destruct xs0; [discriminate|]. discriminate.
  - rewrite <- Etr, trainer_net by exact HL. apply HT.
  - exact HF1.
  - rewrite <- Forall_map. now rewrite trainer_net.
  - destruct HF3 as (A & B & _). split; [exact A|]. split; [exact B|exact HW].
  - rewrite Etr in Htr. rewrite E2 in Htr.
    assert (Hnet : net es2 = map fst ts' ++ [fst t']). { rewrite <- (trainer_net es2 xs' HL'), Htr, map_app. reflexivity. }
    destruct (exists_last (l := es2)) as (es' & e' & ->). { intros ->. destruct (map fst ts'); discriminate. }
    unfold net in Hnet. rewrite map_app in Hnet. cbn [map] in Hnet. apply app_inj_tail in Hnet as (Hn1 & Hn2).
    rewrite E3, trainer_net in Hn1 by exact HL0.
    exists es', e', xs'. split; [exact HT'|]. split; [exact HPl|]. split; [exact Hn1|]. split; [rewrite Hn2; exact EW|].
    intros r1 r2 X1 X2 i1 i2 j Hi1 Hi2 Hj. unfold net. rewrite map_app. cbn [map]. fold (net es'). rewrite !pnet_last.
    assert (Ho : p_out (e_p e') = o).
    { destruct HT' as ((_ & _ & _ & _ & HC & _) & _). unfold net in HC. rewrite map_app in HC. revert HC. generalize (map e_p es') as ps. clear.
      intros ps. revert i. induction ps as [|p t IH]; intros i; simpl; [intros (_ & <-); reflexivity|]. intros (_ & H). now apply (IH (p_out p)). }
    apply flat_forward; auto; [|lia]. rewrite Hn2. destruct HLk as (_ & -> & -> & _). rewrite EW. exact HW.
Qed.
