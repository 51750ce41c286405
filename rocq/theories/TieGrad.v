(** * TieGrad: training with tied weights descends along the gradient of the tied network. *)
From Coq Require Import String ZArith List Bool Arith Lia Reals Lra.
From Coquelicot Require Import Coquelicot.
From Verif Require Import Num NumR Heap Spec Matrix Loss Network Optimizers ModelGo PureSpec Repr HeapLemmas LoopLemmas MatrixFacts RSum LayerFacts LayerReal GradSpec Grad LossProofs OptSpec ModelSpec ModelProofs FitProofs FitLoop FitFacts NetGradSpec NetGrad LossRefute NetGradCode TieSpec Tie.
Import ListNotations.
Open Scope R_scope.

(** Sum of [f] over the gradients of the layers tagged [a]. *)
Fixpoint gsum (tags : list nat) (a : nat) (f : rpm * rpm -> R) (gs : list (rpm * rpm)) : R :=
  match tags, gs with
  | b :: tags, g :: gs => (if (b =? a)%nat then f g else 0) + gsum tags a f gs
  | _, _ => 0
  end.
Lemma gsum_ext tags a f f' gs : (forall g, f g = f' g) -> gsum tags a f gs = gsum tags a f' gs.
Proof. intros H. revert gs. induction tags as [|b t IH]; intros [|g gs]; simpl; auto. rewrite H, IH. reflexivity. Qed.

(** ** The loop with plain SGD *)
Definition uniform (L : list (tagged (K := RNum))) : Prop :=
  forall x y, In x L -> In y L -> fst x = fst y ->
    p_w (fst (snd x)) = p_w (fst (snd y)) /\ p_b (fst (snd x)) = p_b (fst (snd y)) /\
    p_in (fst (snd x)) = p_in (fst (snd y)) /\ p_out (fst (snd x)) = p_out (fst (snd y)).
Definition after (lr : R) (tags : list nat) (gs : list (rpm * rpm)) (x x' : tagged (K := RNum)) : Prop :=
  let p := fst (snd x) in let p' := fst (snd x') in
  fst x' = fst x /\ p_in p' = p_in p /\ p_out p' = p_out p /\
  (forall u v, (u < p_in p)%nat -> (v < p_out p)%nat -> (entry (p_w p') u v : R) = entry (p_w p) u v - lr * gsum tags (fst x) (fun g => entry (fst g) u v) gs) /\
  (forall v, (v < p_out p)%nat -> (entry (p_b p') 0 v : R) = entry (p_b p) 0 v - lr * gsum tags (fst x) (fun g => entry (snd g) 0 v) gs).
Definition mid (L : list (tagged (K := RNum))) (a : nat) (t' : player RNum * popt RNum) (x x1 : tagged (K := RNum)) : Prop :=
  let p := fst (snd x) in let p1 := fst (snd x1) in
  In x L /\ fst x1 = fst x /\ p_in p1 = p_in p /\ p_out p1 = p_out p /\
  (fst x = a -> p_w p1 = p_w (fst t') /\ p_b p1 = p_b (fst t')) /\ (fst x <> a -> p_w p1 = p_w p /\ p_b p1 = p_b p).
Lemma retie_mid L a t' x : In x L -> mid L a t' x (retie a t' x).
Proof.
  intros H. unfold mid, retie. destruct (Nat.eqb_spec (fst x) a); cbn [fst snd reparam p_w p_b p_in p_out]; repeat (split; [auto|]); try tauto.
Qed.
Lemma map_mid L a t' : forall l, incl l L -> Forall2 (mid L a t') l (map (retie a t') l).
Proof. induction l as [|x l IH]; intros H; simpl; constructor; [apply retie_mid, H; now left|apply IH; intros z Hz; apply H; now right]. Qed.
Lemma Forall2_in_r {A B} (P : A -> B -> Prop) l l' y : Forall2 P l l' -> In y l' -> exists x, In x l /\ P x y.
Proof. induction 1 as [|a b l l' H _ IH]; intros Hi; simpl in *; [contradiction|]. destruct Hi as [<-|Hi]; [exists a; auto|]. destruct (IH Hi) as (x & H1 & H2). exists x. auto. Qed.
Lemma Forall2_comp {A} (P Q S : A -> A -> Prop) : (forall x y z, P x y -> Q y z -> S x z) ->
  forall l1 l2 l3, Forall2 P l1 l2 -> Forall2 Q l2 l3 -> Forall2 S l1 l3.
Proof. intros H l1 l2 l3 H1. revert l3. induction H1; intros l3 H3; inversion H3; subst; constructor; eauto. Qed.
Lemma tied_sgd lr gs : forall done todo, length gs = length todo ->
  List.Forall (fun x => plain_sgd lr (snd (snd x))) todo -> uniform (done ++ todo) ->
  Forall2 (after lr (map fst todo) gs) (done ++ todo) (tied_loop done todo gs).
Proof.
  induction gs as [|g gs IH]; intros done todo HL HP HU.
  - destruct todo; [|discriminate]. simpl. rewrite app_nil_r. clear. induction done as [|x l IHl]; constructor; auto.
    unfold after. cbv zeta. do 3 (split; [reflexivity|]). split; intros; cbn [gsum map]; toR; lra.
  - destruct todo as [|[a t] todo]; [discriminate|]. cbn [tied_loop].
    inversion HP as [|? ? Hp HP']; subst. cbn [snd] in Hp. simpl in HL.
    set (t' := tstep t g). set (L := done ++ (a, t) :: todo) in *.
    assert (Ht : In (a, t) L) by (unfold L; apply in_or_app; simpl; auto).
    assert (Et : fst t' = with_params (fst t) (mk (K := RNum) (p_in (fst t)) (p_out (fst t)) (fun i j => entry (p_w (fst t)) i j - lr * entry (fst g) i j))
                (mk (K := RNum) 1 (p_out (fst t)) (fun i j => entry (p_b (fst t)) i j - lr * entry (snd g) i j))).
    { unfold t'. destruct t as [p po]. apply plain_tstep. exact Hp. }
    set (L1 := (map (retie a t') done ++ [(a, t')]) ++ map (retie a t') todo).
    assert (HM : Forall2 (mid L a t') L L1).
    { unfold L1, L at 2. rewrite <- app_assoc. apply Forall2_app; [apply map_mid; intros z Hz; unfold L; apply in_or_app; auto|].
      cbn [app]. constructor; [|apply map_mid; intros z Hz; unfold L; apply in_or_app; simpl; auto].
      unfold mid. cbn [fst snd]. split; [exact Ht|]. split; [reflexivity|]. rewrite Et. cbn [with_params p_in p_out].
      split; [reflexivity|]. split; [reflexivity|]. split; [auto|]. intros N. now destruct N. }
    assert (HU1 : uniform L1).
    { intros x1 y1 Hx1 Hy1 E. destruct (Forall2_in_r _ _ _ _ HM Hx1) as (x & Hx & (_ & X1 & X2 & X3 & X4 & X5)).
      destruct (Forall2_in_r _ _ _ _ HM Hy1) as (y & Hy & (_ & Y1 & Y2 & Y3 & Y4 & Y5)).
      assert (Exy : fst x = fst y) by congruence. destruct (HU x y Hx Hy Exy) as (U1 & U2 & U3 & U4).
      rewrite X2, X3, Y2, Y3. destruct (Nat.eq_dec (fst x) a) as [Ea|Na].
      - destruct (X4 Ea) as [-> ->]. rewrite Exy in Ea. destruct (Y4 Ea) as [-> ->]. auto.
      - destruct (X5 Na) as [-> ->]. rewrite Exy in Na. destruct (Y5 Na) as [-> ->]. auto. }
    assert (HI := IH (map (retie a t') done ++ [(a, t')]) (map (retie a t') todo)).
    assert (Etags : map fst (map (retie a t') todo) = map fst todo).
    { rewrite map_map. apply map_ext. intros x. unfold retie. destruct (fst x =? a)%nat; reflexivity. }
    rewrite Etags in HI. eapply Forall2_comp; [|exact HM|apply HI].
    + clear HI. intros x x1 x2 (Hx & M1 & M2 & M3 & M4 & M5) (A1 & A2 & A3 & A4 & A5).
      rewrite M1 in *. rewrite M2 in *. rewrite M3 in *. unfold after. cbv zeta. cbn [map fst gsum].
      split; [congruence|]. split; [congruence|]. split; [congruence|].
      rewrite (Nat.eqb_sym a (fst x)). destruct (Nat.eqb_spec (fst x) a) as [Ea|Na].
      * destruct (M4 Ea) as [W1 B1]. destruct (HU x (a, t) Hx Ht Ea) as (U1 & U2 & U3 & U4). cbn [fst snd] in U1, U2, U3, U4. split.
        -- intros u v Hu Hv. rewrite A4 by assumption. rewrite W1, Et. cbn [with_params p_w].
           rewrite <- U3, <- U4. rewrite entry_mk by assumption. rewrite U1. toR. lra.
        -- intros v Hv. rewrite A5 by assumption. rewrite B1, Et. cbn [with_params p_b].
           rewrite <- U4. rewrite entry_mk by (assumption || lia). rewrite U2. toR. lra.
      * destruct (M5 Na) as [W1 B1]. split.
        -- intros u v Hu Hv. rewrite A4 by assumption. rewrite W1. toR. lra.
        -- intros v Hv. rewrite A5 by assumption. rewrite B1. toR. lra.
    + rewrite map_length. injection HL as HL. exact HL.
    + rewrite List.Forall_map. eapply List.Forall_impl; [|exact HP']. intros x H. unfold retie. destruct (fst x =? a)%nat; exact H.
    + exact HU1.
Qed.

(** ** The derivative *)
Definition tcurve (tags : list nat) (a : nat) (c : (R -> rpm) * (R -> rpm)) (ps : list (player RNum)) :=
  map (fun bp => if (fst bp =? a)%nat then c else still (snd bp)) (combine tags ps).
Definition tderiv (tags : list nat) (a : nat) (d : rpm * rpm) (ps : list (player RNum)) :=
  map (fun bp => if (fst bp =? a)%nat then d else zero2 (snd bp)) (combine tags ps).
(** The layers tagged [a] have the shape and parameters of [p]. *)
Definition group (tags : list nat) (a : nat) (p : player RNum) (ps : list (player RNum)) : Prop :=
  forall p', In (a, p') (combine tags ps) -> p_w p' = p_w p /\ p_b p' = p_b p /\ p_in p' = p_in p /\ p_out p' = p_out p.
Lemma group_tail b tags a p q ps : group (b :: tags) a p (q :: ps) -> group tags a p ps.
Proof. intros H p' Hp. apply H. now right. Qed.
Lemma moves_tied a (p : player RNum) Wc Bc W' B' :
  Wc 0 = p_w p -> Bc 0 = p_b p -> mderiv (p_in p) (p_out p) Wc W' -> mderiv 1 (p_out p) Bc B' ->
  forall tags ps, length tags = length ps -> group tags a p ps ->
  moves ps (tcurve tags a (Wc, Bc) ps) (tderiv tags a (W', B') ps).
Proof.
  intros H1 H2 H3 H4. induction tags as [|b t IH]; intros [|q ps] HL HG; try discriminate; [exact I|].
  unfold tcurve, tderiv. cbn [combine map fst snd].
  assert (HR := IH ps ltac:(simpl in HL; lia) (group_tail _ _ _ _ _ _ HG)).
  destruct (Nat.eqb_spec b a) as [->|N].
  - destruct (HG q (or_introl eq_refl)) as (E1 & E2 & E3 & E4). cbn [moves fst snd]. rewrite E1, E2, E3, E4.
    do 4 (split; [assumption|]). exact HR.
  - cbn [moves still fst snd]. do 2 (split; [reflexivity|]). unfold zero2. cbn [fst snd]. do 2 (split; [apply mderiv_zmat|]). exact HR.
Qed.
Lemma moved_tied a Wc Bc t : forall tags ps, length tags = length ps ->
  moved ps (tcurve tags a (Wc, Bc) ps) t = set_tied tags a (Wc t) (Bc t) ps.
Proof.
  induction tags as [|b tl IH]; intros [|q ps] HL; try discriminate; [reflexivity|].
  unfold tcurve, set_tied. cbn [combine map moved fst snd]. f_equal; [|apply IH; simpl in HL; lia].
  destruct (b =? a)%nat; [reflexivity|]. now destruct q.
Qed.
Lemma predicted_tied a (p : player RNum) W' B' : forall tags ps gs, length tags = length ps -> length gs = length ps -> no_dropout ps ->
  group tags a p ps ->
  predicted ps gs (tderiv tags a (W', B') ps) = gsum tags a (fun g => inner (p_in p) (p_out p) (fst g) W' + inner 1 (p_out p) (snd g) B') gs.
Proof.
  induction tags as [|b t IH]; intros [|q ps] [|g gs] H1 H2 HD HG; try discriminate; [reflexivity|].
  unfold tderiv. cbn [combine map fst snd predicted gsum].
  rewrite scale_one by exact HD. fold (tderiv t a (W', B') ps).
  rewrite IH; [|simpl in *; lia|simpl in *; lia|intros z Hz; apply HD; now right|exact (group_tail _ _ _ _ _ _ HG)].
  f_equal. destruct (Nat.eqb_spec b a) as [->|N].
  - destruct (HG q (or_introl eq_refl)) as (_ & _ & E3 & E4). cbn [fst snd]. rewrite E3, E4. field.
  - unfold zero2. cbn [fst snd]. rewrite !inner_zmat. field.
Qed.
Lemma no_dropout_tied tags a W B ps : no_dropout ps -> no_dropout (set_tied tags a W B ps).
Proof.
  intros H p Hp. unfold set_tied in Hp. apply in_map_iff in Hp as ([b q] & <- & Hq). apply in_combine_r in Hq. cbn [fst snd].
  destruct (b =? a)%nat; simpl; apply H; exact Hq.
Qed.
Lemma tied_partials k (Y : rpm) o ps r U q i X tags a p : (1 <= r)%nat -> (1 <= o)%nat -> chain i ps o -> smooth_net k Y o ps r X U q ->
  length tags = length ps -> no_dropout ps -> (forall n, 0 <= U n) -> group tags a p ps -> shaped p ->
  let gs := snd (pbackprop (K := RNum) k Y o ps r X U q) in
  (forall u v, (u < p_in p)%nat -> (v < p_out p)%nat ->
     is_derive (fun t => objective k r o Y (pnet (K := RNum) (set_tied tags a (put (p_in p) (p_out p) (p_w p) u v t) (p_b p) ps) r X))
       (entry (p_w p) u v) (gsum tags a (fun g => entry (fst g) u v) gs)) /\
  (forall v, (v < p_out p)%nat ->
     is_derive (fun t => objective k r o Y (pnet (K := RNum) (set_tied tags a (p_w p) (put 1 (p_out p) (p_b p) 0 v t) ps) r X))
       (entry (p_b p) 0 v) (gsum tags a (fun g => entry (snd g) 0 v) gs)).
Proof.
  intros Hr Ho HC HS HL HD HU HG (HW & HB) gs.
  assert (HM := net_motion k Y o ps r U q i X Hr Ho HC HS). fold gs in HM.
  assert (Lg : length gs = length ps) by apply backprop_len.
  split.
  - intros u v Hu Hv. apply d_shift.
    specialize (HM _ _ (moves_tied a p _ (fun _ => p_b p) _ _ (put_same _ _ _ u v HW) eq_refl (mderiv_put _ _ _ u v HW Hu Hv) (mderiv_const _ _ _) tags ps HL HG)).
    rewrite (predicted_tied a p) in HM by assumption.
    eapply d_eq; [|eapply d_ext; [|exact HM]].
    + apply gsum_ext. intros g. rewrite inner_zero, inner_mk_delta by auto. toR. apply Rplus_0_r.
    + intros t. cbv beta. rewrite moved_tied by exact HL. rewrite tnet_inference; auto. now apply no_dropout_tied.
  - intros v Hv. apply d_shift. assert (H01 : (0 < 1)%nat) by lia.
    specialize (HM _ _ (moves_tied a p (fun _ => p_w p) _ _ _ eq_refl (put_same _ _ _ 0 v HB) (mderiv_const _ _ _) (mderiv_put _ _ _ 0 v HB H01 Hv) tags ps HL HG)).
    rewrite (predicted_tied a p) in HM by assumption.
    eapply d_eq; [|eapply d_ext; [|exact HM]].
    + apply gsum_ext. intros g. rewrite inner_zero, inner_mk_delta by auto. toR. apply Rplus_0_l.
    + intros t. cbv beta. rewrite moved_tied by exact HL. rewrite tnet_inference; auto. now apply no_dropout_tied.
Qed.

(** ** One full-batch epoch *)
Lemma own_rows_eq {K : Num} (s : state K) w w' rs r c r' c' (A A' : pm K) : own s w rs r c A -> own s w' rs r' c' A' -> A = A'.
Proof.
  intros (_ & _ & _ & _ & _ & H) (_ & _ & _ & _ & _ & H'). revert A' H'. induction H as [|x row rs A Hx _ IH]; intros A' H'; inversion H'; subst; [reflexivity|].
  f_equal; [congruence|]. now apply IH.
Qed.
(** Tied layers always hold the same weights and biases. *)
Lemma tied_equal {K : Num} (s : state K) tags es a e e' : List.Forall (lok s) es -> tied tags es ->
  In (a, e) (combine tags es) -> In (a, e') (combine tags es) ->
  p_w (e_p e') = p_w (e_p e) /\ p_b (e_p e') = p_b (e_p e) /\ p_in (e_p e') = p_in (e_p e) /\ p_out (e_p e') = p_out (e_p e).
Proof.
  intros HL (_ & _ & HT) H1 H2. specialize (HT _ _ _ _ H1 H2). rewrite Nat.eqb_refl in HT. destruct HT as (E1 & E2 & E3 & E4).
  rewrite List.Forall_forall in HL.
  destruct (HL e (in_combine_r _ _ _ _ H1)) as (l & _ & (_ & _ & _ & _ & _ & _ & _ & A8 & A9)).
  destruct (HL e' (in_combine_r _ _ _ _ H2)) as (l' & _ & (_ & _ & _ & _ & _ & _ & _ & B8 & B9)).
  rewrite E1 in B8. rewrite E2 in B9. split; [eapply own_rows_eq; eauto|]. split; [eapply own_rows_eq; eauto|]. auto.
Qed.
Lemma combine_nth_tag {A} (tags : list nat) (l : list A) j d : length tags = length l -> (j < length l)%nat -> In (nth j tags 0%nat, nth j l d) (combine tags l).
Proof. intros HL Hj. rewrite <- combine_nth by exact HL. apply nth_In. rewrite combine_length. lia. Qed.
Lemma in_combine_map {A B} (f : A -> B) (tags : list nat) (l : list A) a q : In (a, q) (combine tags (map f l)) -> exists e, In (a, e) (combine tags l) /\ q = f e.
Proof.
  revert l. induction tags as [|b t IH]; intros [|e l] H; simpl in *; try contradiction. destruct H as [E|H].
  - injection E as -> <-. exists e. auto.
  - destruct (IH _ H) as (e' & H1 & H2). exists e'. auto.
Qed.
Lemma Forall2_nth_ {A B} (P : A -> B -> Prop) l l' j d d' : Forall2 P l l' -> (j < length l)%nat -> P (nth j l d) (nth j l' d').
Proof. intros H. revert j. induction H; intros [|j] Hj; simpl in *; try lia; auto. apply IHForall2. lia. Qed.

Lemma tied_descends s m tags es xs i o k x rsx y rsy n (X Y : rpm) xv yv lr : (1 <= n)%nat -> (Z.of_nat n <= 2 ^ 52)%Z ->
  tied_trainable s m tags es xs i o k -> data_ok s es x rsx y rsy n i o X Y ->
  smooth_net k Y o (net es) n X (r_uni (h_rng s)) (r_upos (h_rng s)) -> no_dropout (net es) -> (forall z, 0 <= r_uni (h_rng s) z) ->
  List.Forall (fun x => plain_sgd lr (x_po x)) xs -> lr <> 0 ->
  returns (Fit m x y 1 0 xv yv 0) s (fun _ s' => exists es' xs', tied_trainable s' m tags es' xs' i o k /\ Forall2 same_place es es' /\
    forall j, (j < length es)%nat ->
      let a := nth j tags 0%nat in let p := nth j (net es) (no_layer (K := RNum)) in let p' := nth j (net es') (no_layer (K := RNum)) in
      (forall u v, (u < p_in p)%nat -> (v < p_out p)%nat ->
         is_derive (fun t => objective k n o Y (pnet (K := RNum) (set_tied tags a (put (p_in p) (p_out p) (p_w p) u v t) (p_b p) (net es)) n X))
           (entry (p_w p) u v) ((entry (p_w p) u v - entry (p_w p') u v) / lr)) /\
      (forall v, (v < p_out p)%nat ->
         is_derive (fun t => objective k n o Y (pnet (K := RNum) (set_tied tags a (p_w p) (put 1 (p_out p) (p_b p) 0 v t) (net es)) n X))
           (entry (p_b p) 0 v) ((entry (p_b p) 0 v - entry (p_b p') 0 v) / lr))).
Proof.
  intros Hn H52 HT HData HS HD HU HP Hlr.
  destruct (tied_fit s m tags es xs i o k x rsx y rsy n X Y 1 0 xv yv RNum_min_faithful ltac:(lia) ltac:(lia) Hn HT HData) as ([] & s' & E & nn & _ & (es' & xs' & HT' & HPl & _ & Htr & _)).
  exists tt, s'. split; [exact E|]. exists es', xs'. split; [exact HT'|]. split; [exact HPl|].
  assert (HTi : tied tags es) by apply HT. assert (LT : length tags = length es) by apply HTi.
  assert (HLx : length xs = length es).
  { destruct HT as (_ & _ & _ & _ & _ & _ & HO & _). symmetry. eapply Forall2_length; eauto. }
  assert (HLe : length es' = length es) by (symmetry; eapply Forall2_length; eauto).
  assert (HLx' : length xs' = length es').
  { destruct HT' as (_ & _ & _ & _ & _ & _ & HO & _). symmetry. eapply Forall2_length; eauto. }
  assert (Lnet : length (net es) = length es) by (unfold net; apply map_length).
  destruct HData as (HX & HY & _ & _). pose proof (own_shape _ _ _ _ _ _ HX) as (HXl & _). pose proof (own_shape _ _ _ _ _ _ HY) as (HYl & _).
  pose proof HT as ((_ & _ & _ & _ & Hch & Hok) & _ & _ & Hlen & _). pose proof (lok_shaped _ _ Hok) as Hsh.
  assert (Ho : (1 <= o)%nat) by (apply (chain_out (net es) i o Hch); [lia|exact Hsh]).
  set (gs := snd (pbackprop (K := RNum) k Y o (net es) n X (r_uni (h_rng s)) (r_upos (h_rng s)))).
  assert (Htr' : trainer es' xs' = map snd (tied_loop [] (combine tags (trainer es xs)) gs)).
  { rewrite Htr. unfold epochs_of, batch_rows. change ((0 =? 0)%Z) with true. cbv iota.
    change (Z.to_nat 1) with 1%nat. cbn [repeat concat].
    rewrite !chunks_whole; try (destruct X, Y; simpl in *; try discriminate; lia).
    cbn [combine app tied_train fst]. unfold tied_batch. rewrite (trainer_net es xs HLx), HXl. reflexivity. }
  assert (Ltr : length (trainer es xs) = length es) by (unfold trainer; rewrite combine_length, map_length, Lnet; lia).
  assert (Etag : map fst (combine tags (trainer es xs)) = tags).
  { clear - Ltr LT. assert (H : length tags = length (trainer es xs)) by lia. revert H. generalize (trainer es xs). clear. induction tags as [|b t IH]; intros [|z l] H; try discriminate; simpl; auto. f_equal. apply IH. simpl in H. lia. }
  assert (HUn : uniform (combine tags (trainer es xs))).
  { intros [a1 [p1 q1]] [a2 [p2 q2]] I1 I2 Ea. cbn [fst snd] in *. subst a2.
    assert (Hin : forall pp qq, In (a1, (pp, qq)) (combine tags (trainer es xs)) -> In (a1, pp) (combine tags (net es))).
    { intros pp qq. unfold trainer. clear. revert tags xs. generalize (net es). induction l as [|p l IHl]; intros [|b t] [|x xs] H; simpl in *; try contradiction.
      destruct H as [E|H]; [injection E as E1 E2 _; subst; auto|right; eapply IHl; eauto]. }
    apply Hin in I1. apply Hin in I2. unfold net in I1, I2. apply in_combine_map in I1 as (e1 & I1 & ->). apply in_combine_map in I2 as (e2 & I2 & ->).
    exact (tied_equal s tags es a1 e2 e1 Hok HTi I2 I1). }
  assert (HA := tied_sgd lr gs [] (combine tags (trainer es xs))). cbn [app] in HA. rewrite Etag in HA.
  specialize (HA ltac:(unfold gs; rewrite backprop_len, combine_length, Ltr, Lnet; lia)).
  assert (HPl2 : List.Forall (fun x => plain_sgd lr (snd (snd x))) (combine tags (trainer es xs))).
  { rewrite List.Forall_forall. intros [b [pp qq]] Hz. apply in_combine_r in Hz. unfold trainer in Hz. apply in_combine_r in Hz. cbn [snd].
    apply in_map_iff in Hz as (xx & <- & Hxx). rewrite List.Forall_forall in HP. now apply HP. }
  specialize (HA HPl2 HUn).
  intros j Hj a p p'.
  assert (Hgr : group tags a p (net es)).
  { intros q Hq. unfold net in Hq. apply in_combine_map in Hq as (e2 & I2 & ->).
    pose proof (combine_nth_tag tags (net es) j (no_layer (K := RNum)) ltac:(lia) ltac:(lia)) as I1. fold a p in I1.
    unfold net in I1. apply in_combine_map in I1 as (e1 & I1 & ->). exact (tied_equal s tags es a e1 e2 Hok HTi I1 I2). }
  assert (Hshp : shaped p).
  { rewrite List.Forall_forall in Hsh. apply Hsh. apply nth_In. lia. }
  destruct (tied_partials k Y o (net es) n (r_uni (h_rng s)) (r_upos (h_rng s)) i X tags a p Hn Ho Hch HS ltac:(lia) HD HU Hgr Hshp) as (D1 & D2).
  fold gs in D1, D2.
  assert (Hpd : exists pd : popt RNum, True) by (destruct xs as [|x0 xt]; [simpl in HLx; lia|exists (x_po x0); exact I]).
  destruct Hpd as [pd _]. set (d := (0%nat, (no_layer (K := RNum), pd)) : tagged (K := RNum)).
  assert (HAj := Forall2_nth_ _ _ _ j d d HA). specialize (HAj ltac:(pose proof (combine_length tags (trainer es xs)) as Lc; rewrite Ltr, LT, Nat.min_id in Lc; refine (eq_ind_r (fun z => (j < z)%nat) Hj Lc))).
  assert (E1 : nth j (combine tags (trainer es xs)) d = (a, (p, nth j (map x_po xs) pd))).
  { unfold d. rewrite combine_nth by lia. unfold trainer. rewrite combine_nth by (rewrite Lnet, map_length; lia). reflexivity. }
  assert (E2 : fst (snd (nth j (tied_loop [] (combine tags (trainer es xs)) gs) d)) = p').
  { transitivity (fst (nth j (trainer es' xs') (no_layer (K := RNum), pd))).
    - apply (f_equal fst). refine (eq_trans _ (f_equal (fun l => nth j l (no_layer (K := RNum), pd)) (eq_sym Htr'))). symmetry.
      exact (map_nth (@snd nat (player RNum * popt RNum)) (tied_loop [] (combine tags (trainer es xs)) gs) d j).
    - unfold trainer. rewrite combine_nth by (unfold net; rewrite !map_length; lia). reflexivity. }
  assert (HAj' : after lr tags gs (a, (p, nth j (map x_po xs) pd)) (nth j (tied_loop [] (combine tags (trainer es xs)) gs) d)).
  { exact (eq_ind _ (fun z => after lr tags gs z (nth j (tied_loop [] (combine tags (trainer es xs)) gs) d)) HAj _ E1). }
  destruct HAj' as (_ & _ & _ & W0 & B0). cbn [fst snd] in W0, B0.
  assert (W1 : forall u v, (u < p_in p)%nat -> (v < p_out p)%nat -> (entry (p_w p') u v : R) = entry (p_w p) u v - lr * gsum tags a (fun g => entry (fst g) u v) gs)
    by (rewrite <- E2; exact W0).
  assert (B1 : forall v, (v < p_out p)%nat -> (entry (p_b p') 0 v : R) = entry (p_b p) 0 v - lr * gsum tags a (fun g => entry (snd g) 0 v) gs)
    by (rewrite <- E2; exact B0).
  split.
  - intros u v Hu Hv. eapply d_eq; [|exact (D1 u v Hu Hv)]. rewrite (W1 u v Hu Hv). toR. field. exact Hlr.
  - intros v Hv. eapply d_eq; [|exact (D2 v Hv)]. rewrite (B1 v Hv). toR. field. exact Hlr.
Qed.
