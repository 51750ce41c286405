(** * Parts: gradients of the parts of a batch. *)
From Coq Require Import String ZArith List Bool Arith Lia Reals Lra.
From Verif Require Import Num NumR Heap Spec Matrix Loss Network Optimizers ModelGo PureSpec Repr HeapLemmas MatrixFacts MiscFacts MiscProofs RSum LayerReal LossProofs OptSpec OptFacts ModelSpec ModelProofs ModelFacts FitProofs FitLoop FitFacts Params Twins TwinsProofs ConserveProofs BalanceSpec BalanceProofs StillSpec Still MiniBatch PartsSpec.
Import ListNotations.
Open Scope R_scope.

Section Seg.
(** [n] rows of [N], from row [a] on. *)
Variables (N n a : nat).
Hypothesis Hn : (1 <= n)%nat.
Hypothesis Ha : (a + n <= N)%nat.
Definition seg (t : R) (k : nat) (A A' : rpm) : Prop := forall i j, (i < n)%nat -> (j < k)%nat -> entry A' i j = t * entry A (a + i) j.
Lemma seg_mk t k (f f' : nat -> nat -> R) : (forall i j, (i < n)%nat -> (j < k)%nat -> f' i j = t * f (a + i)%nat j) -> seg t k (mk (K := RNum) N k f) (mk (K := RNum) n k f').
Proof. intros H i j Hi Hj. rewrite !entry_mk by lia. now apply H. Qed.
Lemma sone {k A A'} : seg 1 k A A' -> forall i j, (i < n)%nat -> (j < k)%nat -> entry A' i j = entry A (a + i) j.
Proof. intros H i j Hi Hj. rewrite H by assumption. apply Rmult_1_l. Qed.
Lemma seg_mk1 k (f f' : nat -> nat -> R) : (forall i j, (i < n)%nat -> (j < k)%nat -> f' i j = f (a + i)%nat j) -> seg 1 k (mk (K := RNum) N k f) (mk (K := RNum) n k f').
Proof. intros H. apply seg_mk. intros i j Hi Hj. rewrite H by assumption. symmetry. apply Rmult_1_l. Qed.
Lemma sg_aff i k (X X' W B : rpm) : seg 1 i X X' -> seg 1 k (paff N i k X W B) (paff n i k X' W B).
Proof. intros H. apply seg_mk1. intros b j Hb Hj. f_equal. apply fsum_ext. intros m Hm. now rewrite (sone H). Qed.
Lemma sg_map k f (A A' : rpm) : seg 1 k A A' -> seg 1 k (pmap N k f A) (pmap n k f A').
Proof. intros H. apply seg_mk1. intros i j Hi Hj. now rewrite (sone H). Qed.
Lemma sg_softmax k (A A' : rpm) : seg 1 k A A' -> seg 1 k (psoftmax N k A) (psoftmax n k A').
Proof. intros H. apply seg_mk1. intros i j Hi Hj. rewrite (sone H) by auto. f_equal. apply fsum_ext. intros m Hm. now rewrite (sone H). Qed.
Lemma sg_forward (l : player RNum) (X X' : rpm) : seg 1 (p_in l) X X' -> seg 1 (p_out l) (pforward l N X) (pforward l n X').
Proof.
  intros H. unfold pforward, pact. pose proof (sg_aff (p_in l) (p_out l) X X' (p_w l) (p_b l) H) as HA. fold (paffine l n X') (paffine l N X) in HA.
  destruct (p_kind l); first [exact HA|now apply sg_map|now apply sg_softmax].
Qed.
Lemma sg_train (l : player RNum) (X X' : rpm) u u' : p_kind l <> Dropout -> seg 1 (p_in l) X X' -> seg 1 (p_out l) (ptrain l N X u) (ptrain l n X' u').
Proof. intros HK H. unfold ptrain. destruct (p_kind l); try now apply sg_forward. congruence. Qed.
Lemma sg_clipped b k (A A' : rpm) : seg 1 k A A' -> seg 1 k (clipped b N k A) (clipped b n k A').
Proof. intros H. unfold clipped. destruct b; [now apply sg_map|exact H]. Qed.
Lemma sg_softmax_back t k (O O' G G' : rpm) : seg 1 k O O' -> seg t k G G' -> seg t k (psoftmax_back N k O G) (psoftmax_back n k O' G').
Proof.
  intros H1 H2. apply seg_mk. intros i j Hi Hj.
  change (rsum k (fun m => (( if (j =? m)%nat then entry O' i j else 0) - (0 + entry O' i j * entry O' i m)) * entry G' i m) =
    t * rsum k (fun m => (( if (j =? m)%nat then entry O (a + i) j else 0) - (0 + entry O (a + i) j * entry O (a + i) m)) * entry G (a + i) m)).
  rewrite <- rsum_scal. apply rsum_ext. intros m Hm. rewrite !(sone H1), H2 by auto. ring.
Qed.
Lemma sg_back t (l : player RNum) (O O' G G' M M' : rpm) : p_kind l <> Dropout -> seg 1 (p_out l) O O' -> seg t (p_out l) G G' -> seg t (p_out l) (pback l N O M G) (pback l n O' M' G').
Proof.
  intros HK H1 H2. unfold pback. destruct (p_kind l); try exact H2; try congruence; try (now apply sg_softmax_back); apply seg_mk; intros i j Hi Hj; rewrite (sone H1), H2 by auto.
  - unfold relu_prime1. destruct (fle _ _); [change (0 = t * 0); lra|reflexivity].
  - unfold leaky_prime1. destruct (flt _ _); [|reflexivity]. change ((t * entry G (a + i) j) * p_slope l = t * (entry G (a + i) j * p_slope l)). ring.
Qed.
Definition factor (k : losskind) : R := match k with MSE | MAE => 1 | _ => INR N / INR n end.
Lemma seg_div (v : R) : v / IZR (Z.of_nat n) = INR N / INR n * (v / IZR (Z.of_nat N)).
Proof. rewrite <- !INR_IZR_INZ. assert (0 < INR n) by (apply lt_0_INR; lia). assert (0 < INR N) by (apply lt_0_INR; lia). field. lra. Qed.
Lemma sg_loss_back k o (A A' Y Y' : rpm) : seg 1 o A A' -> seg 1 o Y Y' -> seg (factor k) o (ploss_back k N o A Y) (ploss_back k n o A' Y').
Proof.
  intros H1 H2. destruct k; apply seg_mk; intros i j Hi Hj; rewrite (sone H1), (sone H2) by auto; cbn [factor].
  - apply eq_sym, Rmult_1_l.
  - apply eq_sym, Rmult_1_l.
  - exact (seg_div _).
  - exact (seg_div _).
Qed.
Lemma sg_pre k (last : bool) (l : player RNum) o (Y Y' O O' G G' M M' : rpm) : p_kind l <> Dropout -> (last = true -> p_out l = o) ->
  seg 1 o Y Y' -> seg 1 (p_out l) O O' -> seg (factor k) (p_out l) G G' -> seg (factor k) (p_out l) (pre_grad k Y last l N O M G) (pre_grad k Y' last l n O' M' G').
Proof.
  intros HK HL HY HO HG. unfold pre_grad. destruct last; [|now apply sg_back]. rewrite <- (HL eq_refl) in HY.
  destruct (fused k l) eqn:E; [|apply sg_back; auto; now apply sg_clipped].
  destruct k; try discriminate E. apply seg_mk; intros i j Hi Hj; rewrite (sone HO), (sone HY) by auto. exact (seg_div _).
Qed.
Lemma sg_dX t k o (G G' W : rpm) : seg t o G G' -> seg t k (pdX N k o G W) (pdX n k o G' W).
Proof.
  intros H. apply seg_mk. intros i j Hi Hj.
  change (rsum o (fun m => entry G' i m * entry (ptrans k o W) m j) = t * rsum o (fun m => entry G (a + i) m * entry (ptrans k o W) m j)).
  rewrite <- rsum_scal. apply rsum_ext. intros m Hm. rewrite H by auto. ring.
Qed.
Lemma dW_seg t k o (X X' G G' : rpm) : seg 1 k X X' -> seg t o G G' -> forall i j, (i < k)%nat -> (j < o)%nat ->
  entry (pdW n k o X' G') i j = t * rsum n (fun m => entry X (a + m) i * entry G (a + m) j).
Proof.
  intros H1 H2 i j Hi Hj. unfold pdW, pdot. rewrite entry_mk by assumption.
  change (rsum n (fun m => entry (ptrans n k X') i m * entry G' m j) = t * rsum n (fun m => entry X (a + m) i * entry G (a + m) j)).
  rewrite <- rsum_scal. apply rsum_ext. intros m Hm. unfold ptrans. rewrite !entry_mk by lia. rewrite (sone H1), H2 by auto. ring.
Qed.
Lemma sum_seg t o (G G' : rpm) : seg t o G G' -> forall j, (j < o)%nat -> entry (psum0 n o G') 0 j = t * rsum n (fun m => entry G (a + m) j).
Proof.
  intros H j Hj. unfold psum0. rewrite entry_mk by lia. change (rsum n (fun i => entry G' i j) = t * rsum n (fun m => entry G (a + m) j)).
  rewrite <- rsum_scal. apply rsum_ext. intros m Hm. now apply H.
Qed.
End Seg.

(** ** Two parts *)
Section Two.
Variables (n1 n2 : nat).
Hypothesis H1 : (1 <= n1)%nat.
Hypothesis H2 : (1 <= n2)%nat.
Notation N := (n1 + n2)%nat.
Notation S1 := (seg n1 0).
Notation S2 := (seg n2 n1).
Definition mixed_grad (k : losskind) (p : player RNum) (g g1 g2 : rpm * rpm) : Prop :=
  (forall i j, (i < p_in p)%nat -> (j < p_out p)%nat -> entry (fst g) i j = weight k n1 n2 * entry (fst g1) i j + weight k n2 n1 * entry (fst g2) i j) /\
  (forall j, (j < p_out p)%nat -> entry (snd g) 0 j = weight k n1 n2 * entry (snd g1) 0 j + weight k n2 n1 * entry (snd g2) 0 j).
Fixpoint all_mixed k (ps : list (player RNum)) (gs gs1 gs2 : list (rpm * rpm)) : Prop :=
  match ps, gs, gs1, gs2 with
  | [], [], [], [] => True
  | p :: ps, g :: gs, g1 :: gs1, g2 :: gs2 => mixed_grad k p g g1 g2 /\ all_mixed k ps gs gs1 gs2
  | _, _, _, _ => False
  end.
Lemma weight_1 k : weight k n1 n2 * factor N n1 k = 1.
Proof. unfold weight, factor. rewrite plus_INR. assert (0 < INR n1) by (apply lt_0_INR; lia). assert (0 < INR n2) by (apply lt_0_INR; lia). destruct k; try lra; field; lra. Qed.
Lemma weight_2 k : weight k n2 n1 * factor N n2 k = 1.
Proof. unfold weight, factor. rewrite plus_INR. assert (0 < INR n1) by (apply lt_0_INR; lia). assert (0 < INR n2) by (apply lt_0_INR; lia). destruct k; try lra; field; lra. Qed.
Lemma mix_sum k f : rsum N f = weight k n1 n2 * (factor N n1 k * rsum n1 (fun m => f (0 + m)%nat)) + weight k n2 n1 * (factor N n2 k * rsum n2 (fun m => f (n1 + m)%nat)).
Proof. rewrite <- !Rmult_assoc, weight_1, weight_2, !Rmult_1_l. apply rsum_app. Qed.
Lemma mixed_backprop k o (Y Y1 Y2 : rpm) U U1 U2 : S1 1 o Y Y1 -> S2 1 o Y Y2 -> forall ps i q q1 q2 (X X1 X2 : rpm), chain i ps o -> List.Forall (fun l => p_kind l <> Dropout) ps -> S1 1 i X X1 -> S2 1 i X X2 ->
  S1 (factor N n1 k) i (fst (pbackprop k Y o ps N X U q)) (fst (pbackprop k Y1 o ps n1 X1 U1 q1)) /\
  S2 (factor N n2 k) i (fst (pbackprop k Y o ps N X U q)) (fst (pbackprop k Y2 o ps n2 X2 U2 q2)) /\
  all_mixed k ps (snd (pbackprop k Y o ps N X U q)) (snd (pbackprop k Y1 o ps n1 X1 U1 q1)) (snd (pbackprop k Y2 o ps n2 X2 U2 q2)).
Proof.
  intros HY1 HY2. induction ps as [|l t IH]; intros i q q1 q2 X X1 X2 HC HF HX1 HX2.
  - simpl in HC. subst i. split; [|split; [|exact I]]; apply sg_loss_back; assumption || lia.
  - destruct HC as (Hi & HC). inversion HF as [|? ? Hl Ht]; subst. cbn [pbackprop].
    pose proof (sg_train N n1 0 ltac:(lia) ltac:(lia) l X X1 (from (K := RNum) U q) (from (K := RNum) U1 q1) Hl HX1) as HO1.
    pose proof (sg_train N n2 n1 ltac:(lia) ltac:(lia) l X X2 (from (K := RNum) U q) (from (K := RNum) U2 q2) Hl HX2) as HO2.
    specialize (IH (p_out l) (q + pdraws l N)%nat (q1 + pdraws l n1)%nat (q2 + pdraws l n2)%nat _ _ _ HC Ht HO1 HO2).
    destruct (pbackprop k Y o t N (ptrain l N X (from U q)) U (q + pdraws l N)) as (G & gs).
    destruct (pbackprop k Y1 o t n1 (ptrain l n1 X1 (from U1 q1)) U1 (q1 + pdraws l n1)) as (G1 & gs1).
    destruct (pbackprop k Y2 o t n2 (ptrain l n2 X2 (from U2 q2)) U2 (q2 + pdraws l n2)) as (G2 & gs2).
    cbn [fst snd] in *. destruct IH as (HG1 & HG2 & Hgs).
    assert (HL : (match t with [] => true | _ => false end) = true -> p_out l = o) by (destruct t; [intros _; exact HC|discriminate]).
    pose proof (sg_pre N n1 0 ltac:(lia) ltac:(lia) k _ l o Y Y1 _ _ G G1 (ptrain_mask l N (from (K := RNum) U q)) (ptrain_mask l n1 (from (K := RNum) U1 q1)) Hl HL HY1 HO1 HG1) as P1.
    pose proof (sg_pre N n2 n1 ltac:(lia) ltac:(lia) k _ l o Y Y2 _ _ G G2 (ptrain_mask l N (from (K := RNum) U q)) (ptrain_mask l n2 (from (K := RNum) U2 q2)) Hl HL HY2 HO2 HG2) as P2.
    cbv zeta. cbn [fst snd all_mixed].
    split; [apply sg_dX; [lia|lia|exact P1]|]. split; [apply sg_dX; [lia|lia|exact P2]|]. split; [|exact Hgs]. split; cbn [fst snd].
    + intros b j Hb Hj. rewrite (dW_seg N n1 0 ltac:(lia) ltac:(lia) _ _ _ _ _ _ _ HX1 P1 b j Hb Hj), (dW_seg N n2 n1 ltac:(lia) ltac:(lia) _ _ _ _ _ _ _ HX2 P2 b j Hb Hj).
      unfold pdW, pdot. rewrite entry_mk by assumption. change (fsum (K := RNum) ?nn ?g) with (rsum nn g).
      rewrite (rsum_ext N _ (fun m => entry X m b * entry (pre_grad k Y match t with [] => true | _ => false end l N (ptrain l N X (from (K := RNum) U q)) (ptrain_mask l N (from (K := RNum) U q)) G) m j)).
      * apply (mix_sum k).
      * intros m Hm. unfold ptrans. rewrite entry_mk by assumption. reflexivity.
    + intros j Hj. rewrite (sum_seg N n1 0 ltac:(lia) ltac:(lia) _ _ _ _ P1 j Hj), (sum_seg N n2 n1 ltac:(lia) ltac:(lia) _ _ _ _ P2 j Hj). unfold psum0. rewrite entry_mk by lia. change (fsum (K := RNum) ?nn ?g) with (rsum nn g). apply (mix_sum k).
Qed.
End Two.

(** ** One step *)
Lemma step_mixed n1 n2 k (x : player RNum * popt RNum) g g1 g2 : simple_sgd x -> mixed_grad n1 n2 k (fst x) g g1 g2 ->
  mixed (weight k n1 n2) (weight k n2 n1) (fst x) (fst (tstep (K := RNum) x g1)) (fst (tstep (K := RNum) x g2)) (fst (tstep (K := RNum) x g)).
Proof.
  intros (K1 & K2) (M1 & M2). destruct g as [dW dB], g1 as [dW1 dB1], g2 as [dW2 dB2]. cbn [fst snd] in *.
  destruct (step_sgd x dW dB K1 K2) as (_ & _ & _ & _ & _ & A1 & A2 & _). destruct (step_sgd x dW1 dB1 K1 K2) as (_ & _ & _ & _ & _ & B1 & B2 & _). destruct (step_sgd x dW2 dB2 K1 K2) as (_ & _ & _ & _ & _ & C1 & C2 & _).
  split; [intros a b Ha Hb; rewrite A1, B1, C1, M1 by assumption|intros b Hb; rewrite A2, B2, C2, M2 by assumption]; change (F RNum) with R in *; ring.
Qed.
Lemma steps_mixed n1 n2 k : forall (ts : list (player RNum * popt RNum)) gs gs1 gs2, List.Forall simple_sgd ts -> all_mixed n1 n2 k (map fst ts) gs gs1 gs2 ->
  forall l p p1 p2 p', nth_error (map fst ts) l = Some p -> 
  nth_error (map fst (map (fun tg => tstep (K := RNum) (fst tg) (snd tg)) (combine ts gs1))) l = Some p1 ->
  nth_error (map fst (map (fun tg => tstep (K := RNum) (fst tg) (snd tg)) (combine ts gs2))) l = Some p2 ->
  nth_error (map fst (map (fun tg => tstep (K := RNum) (fst tg) (snd tg)) (combine ts gs))) l = Some p' -> mixed (weight k n1 n2) (weight k n2 n1) p p1 p2 p'.
Proof.
  induction ts as [|x ts IH]; intros [|g gs] [|g1 gs1] [|g2 gs2] HS HM; try (destruct HM; fail); intros l p p1 p2 p' E E1 E2 E'; [destruct l; discriminate|].
  destruct HM as (M1 & M2). inversion HS; subst. destruct l as [|l]; cbn [map combine nth_error fst snd] in *.
  - injection E as <-. injection E1 as <-. injection E2 as <-. injection E' as <-. now apply step_mixed.
  - eapply IH; eauto.
Qed.

(** ** Fit *)
Lemma seg_left (A B : rpm) k : seg (length A) 0 1 k (A ++ B) A.
Proof. intros i j Hi _. unfold entry. rewrite app_nth1 by exact Hi. symmetry. apply Rmult_1_l. Qed.
Lemma seg_right (A B : rpm) k : seg (length B) (length A) 1 k (A ++ B) B.
Proof. intros i j Hi _. unfold entry. rewrite app_nth2 by lia. replace (length A + i - length A)%nat with i by lia. symmetry. apply Rmult_1_l. Qed.
Lemma whole_epoch n (X Y : rpm) : (1 <= n)%nat -> length X = n -> length Y = n -> epochs_of (Z.to_nat 1) (batch_rows n 0) X Y = [(X, Y)].
Proof. intros H1 L1 L2. unfold epochs_of, batch_rows. change (Z.to_nat 1) with 1%nat. cbn [Z.eqb repeat concat]. rewrite (one_chunk n X), (one_chunk n Y) by lia. reflexivity. Qed.
Section Fit.
Variables (s : state RNum) (m : model RNum) (es : list (lent RNum)) (xs : list (oent RNum)) (x : matrix) (rsx : list nat) (y : matrix) (rsy : list nat) (xv yv : matrix).
Variables (s1 : state RNum) (m1 : model RNum) (es1 : list (lent RNum)) (xs1 : list (oent RNum)) (x1 : matrix) (rsx1 : list nat) (y1 : matrix) (rsy1 : list nat) (xv1 yv1 : matrix).
Variables (s2 : state RNum) (m2 : model RNum) (es2 : list (lent RNum)) (xs2 : list (oent RNum)) (x2 : matrix) (rsx2 : list nat) (y2 : matrix) (rsy2 : list nat) (xv2 yv2 : matrix).
Variables (i o : nat) (k : losskind) (n1 n2 : nat) (X1 Y1 X2 Y2 : rpm).
Hypothesis HN : (Z.of_nat (n1 + n2) <= 2 ^ 52)%Z.
Hypothesis H1 : (1 <= n1)%nat.
Hypothesis H2 : (1 <= n2)%nat.
Hypothesis HT : trainable s m es xs i o k.
Hypothesis HD : data_ok s es x rsx y rsy (n1 + n2) i o (X1 ++ X2) (Y1 ++ Y2).
Hypothesis HT1 : trainable s1 m1 es1 xs1 i o k.
Hypothesis HD1 : data_ok s1 es1 x1 rsx1 y1 rsy1 n1 i o X1 Y1.
Hypothesis HT2 : trainable s2 m2 es2 xs2 i o k.
Hypothesis HD2 : data_ok s2 es2 x2 rsx2 y2 rsy2 n2 i o X2 Y2.
Hypothesis HND : List.Forall (fun e => p_kind (e_p e) <> Dropout) es.
Hypothesis HS : List.Forall simple_sgd (trainer es xs).
Hypothesis HE1 : trainer es1 xs1 = trainer es xs.
Hypothesis HE2 : trainer es2 xs2 = trainer es xs.
Lemma fit_parts : exists s' s1' s2' es' xs' es1' xs1' es2' xs2',
    Fit m x y 1 0 xv yv 0 s = (Ret tt, s') /\ Fit m1 x1 y1 1 0 xv1 yv1 0 s1 = (Ret tt, s1') /\ Fit m2 x2 y2 1 0 xv2 yv2 0 s2 = (Ret tt, s2') /\
    trainable s' m es' xs' i o k /\ Forall2 same_place es es' /\ trainable s1' m1 es1' xs1' i o k /\ Forall2 same_place es1 es1' /\ trainable s2' m2 es2' xs2' i o k /\ Forall2 same_place es2 es2' /\
    forall l p p1 p2 p', nth_error (net es) l = Some p -> nth_error (net es1') l = Some p1 -> nth_error (net es2') l = Some p2 -> nth_error (net es') l = Some p' ->
      mixed (weight k n1 n2) (weight k n2 n1) p p1 p2 p'.
Proof.
  destruct (fit_trains s m es xs i o k x rsx y rsy (n1 + n2) _ _ 1 0 xv yv RNum_min_faithful ltac:(lia) ltac:(lia) ltac:(lia) HT HD) as ([] & s' & E & nn & _ & (es' & xs' & A1 & A2 & _ & A3 & _) & _).
  destruct (fit_trains s1 m1 es1 xs1 i o k x1 rsx1 y1 rsy1 n1 _ _ 1 0 xv1 yv1 RNum_min_faithful ltac:(lia) ltac:(lia) H1 HT1 HD1) as ([] & s1' & E1 & nn1 & _ & (es1' & xs1' & B1 & B2 & _ & B3 & _) & _).
  destruct (fit_trains s2 m2 es2 xs2 i o k x2 rsx2 y2 rsy2 n2 _ _ 1 0 xv2 yv2 RNum_min_faithful ltac:(lia) ltac:(lia) H2 HT2 HD2) as ([] & s2' & E2 & nn2 & _ & (es2' & xs2' & C1 & C2 & _ & C3 & _) & _).
  exists s', s1', s2', es', xs', es1', xs1', es2', xs2'. do 9 (split; [assumption|]).
  destruct (own_lengths _ _ _ _ _ _ (proj1 HD1)) as (_ & LX1). destruct (own_lengths _ _ _ _ _ _ (proj1 (proj2 HD1))) as (_ & LY1).
  destruct (own_lengths _ _ _ _ _ _ (proj1 HD2)) as (_ & LX2). destruct (own_lengths _ _ _ _ _ _ (proj1 (proj2 HD2))) as (_ & LY2).
  assert (TN : forall s m es xs, trainable (K := RNum) s m es xs i o k -> net es = map fst (trainer es xs)).
  { intros s0 m0 es0 xs0 H. symmetry. apply FitProofs.trainer_net. symmetry. exact (f2len _ _ _ (proj1 (proj2 (proj2 (proj2 (proj2 (proj2 H))))))). }
  rewrite whole_epoch in A3, B3, C3 by (rewrite ?app_length; lia). cbn [ptrain_on fst] in A3, B3, C3.
  rewrite (TN _ _ _ _ A1), (TN _ _ _ _ B1), (TN _ _ _ _ C1), (TN _ _ _ _ HT), A3, B3, C3, HE1, HE2. unfold pbatch. apply steps_mixed; [exact HS|].
  rewrite app_length, LX1, LX2. apply (mixed_backprop n1 n2 H1 H2 k o (Y1 ++ Y2) Y1 Y2 _ _ _) with (i := i).
  - rewrite <- LY1. apply seg_left.
  - rewrite <- LY1, <- LY2. apply seg_right.
  - rewrite <- (TN _ _ _ _ HT). apply HT.
  - rewrite <- (TN _ _ _ _ HT). unfold net. now apply List.Forall_map.
  - rewrite <- LX1. apply seg_left.
  - rewrite <- LX1, <- LX2. apply seg_right.
Qed.
End Fit.

(** ** Samples that fit already *)
Lemma upd1_same (po : popt RNum) r c (P dP dP' m ch : rpm) : (forall i j, (i < r)%nat -> (j < c)%nat -> entry dP i j = entry dP' i j) -> pupd1 po r c P dP m ch = pupd1 po r c P dP' m ch.
Proof.
  intros H. assert (E : forall f (A : rpm), pmap2 (K := RNum) r c f A dP = pmap2 r c f A dP') by (intros f A; unfold pmap2; apply mk_ext; intros i j Hi Hj; now rewrite H).
  unfold pupd1. now rewrite !E.
Qed.
Lemma steps_spare n1 n2 k : k = MSE \/ k = MAE -> forall (ts : list (player RNum * popt RNum)) gs gs1 gs2, all_mixed n1 n2 k (map fst ts) gs gs1 gs2 ->
  Forall2 (fun p g => zero (p_in p) (p_out p) (fst g) /\ zero 1 (p_out p) (snd g)) (map fst ts) gs2 ->
  map (fun tg => tstep (K := RNum) (fst tg) (snd tg)) (combine ts gs) = map (fun tg => tstep (K := RNum) (fst tg) (snd tg)) (combine ts gs1).
Proof.
  intros HK. assert (W1 : weight k n1 n2 = 1) by (destruct HK as [-> | ->]; reflexivity).
  induction ts as [|x ts IH]; intros [|g gs] [|g1 gs1] [|g2 gs2] HM HZ; try (destruct HM; fail); [reflexivity|].
  destruct HM as ((M1 & M2) & M3). inversion HZ as [|? ? ? ? (Z1 & Z2) HZ']; subst. cbn [combine map fst snd]. f_equal; [|eapply IH; eauto].
  unfold tstep, pupdate. rewrite (upd1_same _ _ _ _ (fst g) (fst g1)), (upd1_same _ _ _ _ (snd g) (snd g1)); [reflexivity| |].
  - intros a b Ha Hb. assert (a = 0)%nat by lia. subst a. rewrite M2, (Z2 0%nat b), W1 by (lia || exact Hb). change (F RNum) with R in *. ring.
  - intros a b Ha Hb. rewrite M1, (Z1 a b), W1 by assumption. change (F RNum) with R in *. ring.
Qed.
Section Spare.
Variables (s : state RNum) (m : model RNum) (es : list (lent RNum)) (xs : list (oent RNum)) (x : matrix) (rsx : list nat) (y : matrix) (rsy : list nat) (xv yv : matrix).
Variables (s1 : state RNum) (m1 : model RNum) (es1 : list (lent RNum)) (xs1 : list (oent RNum)) (x1 : matrix) (rsx1 : list nat) (y1 : matrix) (rsy1 : list nat) (xv1 yv1 : matrix).
Variables (i o : nat) (k : losskind) (n1 n2 : nat) (X1 Y1 X2 Y2 : rpm).
Hypothesis HN : (Z.of_nat (n1 + n2) <= 2 ^ 52)%Z.
Hypothesis H1 : (1 <= n1)%nat.
Hypothesis H2 : (1 <= n2)%nat.
Hypothesis HK : k = MSE \/ k = MAE.
Hypothesis HT : trainable s m es xs i o k.
Hypothesis HD : data_ok s es x rsx y rsy (n1 + n2) i o (X1 ++ X2) (Y1 ++ Y2).
Hypothesis HT1 : trainable s1 m1 es1 xs1 i o k.
Hypothesis HD1 : data_ok s1 es1 x1 rsx1 y1 rsy1 n1 i o X1 Y1.
Hypothesis HL : length X2 = n2 /\ length Y2 = n2.
Hypothesis HND : List.Forall (fun e => p_kind (e_p e) <> Dropout) es.
Hypothesis HE1 : trainer es1 xs1 = trainer es xs.
Hypothesis HF : pnet (net es) n2 X2 = Y2.
Lemma fit_spare : exists s' s1' es' xs' es1' xs1',
    Fit m x y 1 0 xv yv 0 s = (Ret tt, s') /\ Fit m1 x1 y1 1 0 xv1 yv1 0 s1 = (Ret tt, s1') /\
    trainable s' m es' xs' i o k /\ Forall2 same_place es es' /\ trainable s1' m1 es1' xs1' i o k /\ Forall2 same_place es1 es1' /\ trainer es' xs' = trainer es1' xs1'.
Proof.
  destruct (fit_trains s m es xs i o k x rsx y rsy (n1 + n2) _ _ 1 0 xv yv RNum_min_faithful ltac:(lia) ltac:(lia) ltac:(lia) HT HD) as ([] & s' & E & nn & _ & (es' & xs' & A1 & A2 & _ & A3 & _) & _).
  destruct (fit_trains s1 m1 es1 xs1 i o k x1 rsx1 y1 rsy1 n1 _ _ 1 0 xv1 yv1 RNum_min_faithful ltac:(lia) ltac:(lia) H1 HT1 HD1) as ([] & s1' & E1 & nn1 & _ & (es1' & xs1' & B1 & B2 & _ & B3 & _) & _).
  exists s', s1', es', xs', es1', xs1'. do 6 (split; [assumption|]).
  destruct (own_lengths _ _ _ _ _ _ (proj1 HD1)) as (_ & LX1). destruct (own_lengths _ _ _ _ _ _ (proj1 (proj2 HD1))) as (_ & LY1). destruct HL as (LX2 & LY2).
  assert (TN : net es = map fst (trainer es xs)).
  { symmetry. apply FitProofs.trainer_net. symmetry. exact (f2len _ _ _ (proj1 (proj2 (proj2 (proj2 (proj2 (proj2 HT))))))). }
  assert (HC : chain i (map fst (trainer es xs)) o) by (rewrite <- TN; apply HT).
  assert (HF' : List.Forall (fun p => p_kind p <> Dropout) (map fst (trainer es xs))) by (rewrite <- TN; unfold net; now apply List.Forall_map).
  rewrite whole_epoch in A3, B3 by (rewrite ?app_length; lia). cbn [ptrain_on fst] in A3, B3.
  rewrite A3, B3, HE1. unfold pbatch. rewrite TN in HF.
  destruct (grads_zero k Y2 o n2 (r_uni (h_rng s)) HK _ i 0%nat X2 HC HF' HF) as (_ & HZ).
  apply (steps_spare n1 n2 k HK) with (gs2 := snd (pbackprop (K := RNum) k Y2 o (map fst (trainer es xs)) n2 X2 (r_uni (h_rng s)) 0)); [|exact HZ].
  rewrite app_length, LX1, LX2. apply (mixed_backprop n1 n2 H1 H2 k o (Y1 ++ Y2) Y1 Y2 _ _ _) with (i := i).
  - rewrite <- LY1. apply seg_left.
  - rewrite <- LY1, <- LY2. apply seg_right.
  - exact HC.
  - exact HF'.
  - rewrite <- LX1. apply seg_left.
  - rewrite <- LX1, <- LX2. apply seg_right.
Qed.
End Spare.
