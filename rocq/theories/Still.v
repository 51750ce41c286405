(** * Still: training does not move a model that fits its data. *)
From Coq Require Import String ZArith List Bool Arith Lia Reals Lra.
From Verif Require Import Num NumR Heap Spec Matrix Loss Network Optimizers ModelGo PureSpec Repr HeapLemmas MatrixFacts MiscFacts MiscProofs RSum LayerReal LossProofs OptSpec OptFacts ModelSpec ModelProofs ModelFacts FitProofs FitLoop FitFacts Params Twins TwinsProofs StillSpec.
Import ListNotations.
Open Scope R_scope.
Notation rpm := (pm RNum).

(** ** Rows *)
Lemma pnet_pick ps (X Y : rpm) : length X = length Y -> (forall a, (a < length X)%nat -> pnet ps 1 [nth a X []] = [nth a Y []]) -> length (pnet ps (length X) X) = length X -> pnet ps (length X) X = Y.
Proof.
  intros HL H HN. apply (nth_ext _ _ [] []); [congruence|]. intros a Ha. rewrite HN in Ha. specialize (H a Ha). rewrite (pnet_row ps (length X) X a Ha) in H. congruence.
Qed.
Lemma pnet_len ps r : forall (X : rpm), length X = r -> length (pnet ps r X) = r.
Proof.
  induction ps as [|p ps IH]; intros X H; [exact H|]. unfold pnet in *. cbn [fold_left]. apply IH. unfold pforward, pact, psoftmax, pmap, paffine, paff. destruct (p_kind p); apply length_mk.
Qed.
(** Samples that fit. *)
Definition fits_all ps (X Y : rpm) : Prop := length X = length Y /\ forall x y, In (x, y) (combine X Y) -> pnet (K := RNum) ps 1 [x] = [y].
Lemma fits_whole ps (X Y : rpm) : length X = length Y -> pnet ps (length X) X = Y -> fits_all ps X Y.
Proof.
  intros HL H. split; [exact HL|]. intros x y Hin. destruct (In_nth _ _ ([], []) Hin) as (a & Ha & E). rewrite combine_length in Ha. rewrite combine_nth in E by exact HL. injection E as E1 E2. rewrite <- E1, <- E2.
  etransitivity; [exact (pnet_row ps (length X) X a ltac:(lia))|]. now rewrite H.
Qed.
Lemma fits_back ps (X Y : rpm) : fits_all ps X Y -> pnet ps (length X) X = Y.
Proof.
  intros (HL & H). apply pnet_pick; [exact HL| |apply pnet_len; reflexivity]. intros a Ha. apply H. rewrite <- (combine_nth X Y a [] []) by exact HL. apply nth_In. rewrite combine_length. lia.
Qed.
Lemma combine_firstn_ {A B} n : forall (l : list A) (l' : list B), combine (firstn n l) (firstn n l') = firstn n (combine l l').
Proof. induction n as [|n IH]; intros [|a l] [|b l']; simpl; try reflexivity. now rewrite IH. Qed.
Lemma combine_skipn_ {A B} n : forall (l : list A) (l' : list B), length l = length l' -> combine (skipn n l) (skipn n l') = skipn n (combine l l').
Proof. induction n as [|n IH]; intros [|a l] [|b l'] H; simpl in *; try discriminate; auto. Qed.
Lemma in_firstn {A} n (l : list A) x : In x (firstn n l) -> In x l.
Proof. intros H. rewrite <- (firstn_skipn n l). apply in_or_app. now left. Qed.
Lemma in_skipn {A} n (l : list A) x : In x (skipn n l) -> In x l.
Proof. intros H. rewrite <- (firstn_skipn n l). apply in_or_app. now right. Qed.
Lemma fits_chunks ps b : forall n (X Y : rpm), fits_all ps X Y -> forall Z, In Z (combine (chunks_fuel n b X) (chunks_fuel n b Y)) -> fits_all ps (fst Z) (snd Z).
Proof.
  induction n as [|n IH]; intros X Y (HL & H) Z HZ; [destruct X, Y; simpl in HZ; contradiction|].
  destruct X as [|x X], Y as [|y Y]; try discriminate; [contradiction|]. cbn [chunks_fuel combine] in HZ. destruct HZ as [<-|HZ].
  - split; [cbn [fst snd]; rewrite !firstn_length; now rewrite HL|]. intros u v Huv. cbn [fst snd] in Huv. rewrite combine_firstn_ in Huv. apply H. eapply in_firstn; eauto.
  - apply (IH (skipn b (x :: X)) (skipn b (y :: Y))); [|exact HZ]. split; [rewrite !skipn_length; now rewrite HL|]. intros u v Huv. rewrite combine_skipn_ in Huv by exact HL. apply H. eapply in_skipn; eauto.
Qed.

(** ** Gradients *)
Lemma rsum_zeros n f : (forall i, (i < n)%nat -> f i = 0) -> rsum n f = 0.
Proof. intros H. rewrite (rsum_ext n f (fun _ => 0)) by exact H. apply rsum_zero. Qed.
Lemma loss_zero k r o (Y : rpm) : k = MSE \/ k = MAE -> zero r o (ploss_back k r o Y Y).
Proof.
  intros HK i j Hi Hj. destruct HK as [-> | ->]; unfold ploss_back.
  - unfold pmse_back. rewrite entry_mk by assumption. cbn [fmul fsub fdiv ofZ RNum]. rewrite Rminus_diag_eq by reflexivity. apply Rmult_0_l.
  - unfold pmae_back. rewrite entry_mk by assumption. cbv zeta. unfold f0. cbn [flt fsub ofZ RNum]. rewrite Rminus_diag_eq by reflexivity. unfold r_ltb. destruct (Rlt_dec 0 0); [lra|reflexivity].
Qed.
Lemma back_zero p r O M G : p_kind p <> Dropout -> zero r (p_out p) G -> zero r (p_out p) (pback p r O M G).
Proof.
  intros HK HG i j Hi Hj. unfold pback. destruct (p_kind p); try contradiction; try (apply HG; assumption).
  - unfold pmap2. rewrite entry_mk by assumption. rewrite HG by assumption. unfold relu_prime1. destruct (fle _ _); reflexivity.
  - unfold pmap2. rewrite entry_mk by assumption. rewrite HG by assumption. unfold leaky_prime1. destruct (flt _ _); [cbn [fmul RNum]; apply Rmult_0_l|reflexivity].
  - unfold psoftmax_back. rewrite entry_mk by assumption. apply rsum_zeros. intros n Hn. rewrite HG by assumption. cbn [fmul RNum]. apply Rmult_0_r.
Qed.
Lemma pre_zero k (Y : rpm) last p r O M G : k = MSE \/ k = MAE -> p_kind p <> Dropout -> zero r (p_out p) G -> zero r (p_out p) (pre_grad k Y last p r O M G).
Proof.
  intros HK HD HG. unfold pre_grad, fused. destruct HK as [-> | ->]; destruct last; apply back_zero; assumption.
Qed.
Lemma dX_zero r k c (G W : rpm) : zero r c G -> zero r k (pdX r k c G W).
Proof. intros HG i j Hi Hj. unfold pdX, pdot. rewrite entry_mk by assumption. apply rsum_zeros. intros n Hn. rewrite HG by assumption. cbn [fmul RNum]. apply Rmult_0_l. Qed.
Lemma dW_zero r k c (X G : rpm) : zero r c G -> zero k c (pdW r k c X G).
Proof. intros HG i j Hi Hj. unfold pdW, pdot. rewrite entry_mk by assumption. apply rsum_zeros. intros n Hn. rewrite HG by assumption. cbn [fmul RNum]. apply Rmult_0_r. Qed.
Lemma dB_zero r c (G : rpm) : zero r c G -> zero 1 c (psum0 r c G).
Proof. intros HG i j Hi Hj. unfold psum0. rewrite entry_mk by assumption. apply rsum_zeros. intros n Hn. apply HG; assumption. Qed.
Lemma grads_zero k (Y : rpm) o r U : k = MSE \/ k = MAE -> forall ps i q (X : rpm), chain i ps o -> List.Forall (fun p => p_kind p <> Dropout) ps -> pnet ps r X = Y ->
  zero r i (fst (pbackprop (K := RNum) k Y o ps r X U q)) /\
  Forall2 (fun p g => zero (p_in p) (p_out p) (fst g) /\ zero 1 (p_out p) (snd g)) ps (snd (pbackprop (K := RNum) k Y o ps r X U q)).
Proof.
  intros HK. induction ps as [|p ps IH]; intros i q X HC HD HN.
  - cbn [pbackprop fst snd]. simpl in HC. subst. change (pnet [] r X) with X. split; [apply loss_zero; exact HK|constructor].
  - destruct HC as (Hi & HC). subst i. inversion HD as [|? ? D1 D2]; subst. cbn [pbackprop].
    assert (ET : ptrain (K := RNum) p r X (from U q) = pforward p r X) by (unfold ptrain; destruct (p_kind p); congruence).
    rewrite ET. destruct (IH (p_out p) (q + pdraws p r)%nat (pforward p r X) HC D2 eq_refl) as (Z1 & Z2).
    change (pnet (p :: ps) r X) with (pnet ps r (pforward p r X)) in *.
    destruct (pbackprop (K := RNum) k (pnet ps r (pforward p r X)) o ps r (pforward p r X) U (q + pdraws p r)) as [G gs]. cbn [fst snd] in *.
    set (G' := pre_grad k _ _ p r _ _ G). assert (HG : zero r (p_out p) G') by (apply pre_zero; [exact HK|exact D1|exact Z1]).
    split; [apply dX_zero; exact HG|]. constructor; [|exact Z2]. split; [apply dW_zero; exact HG|apply dB_zero; exact HG].
Qed.

(** ** Steps *)
Lemma mk_self r c (A : rpm) (f : nat -> nat -> R) : shape (K := RNum) r c A -> (forall i j, (i < r)%nat -> (j < c)%nat -> f i j = entry A i j) -> mk (K := RNum) r c f = A.
Proof. intros HS H. rewrite <- (Spec.mk_entry r c A HS). apply mk_ext. exact H. Qed.
Definition quiet (po : popt RNum) r c (m : rpm) : Prop := match po_kind po with SGD => po_usemom po = true -> zero r c m | Adam => zero r c m end.
Lemma upd1_still (po : popt RNum) r c (P dP m ch : rpm) : shape (K := RNum) r c P -> zero r c dP -> quiet po r c m ->
  let '(P', m', _) := pupd1 po r c P dP m ch in P' = P /\ quiet po r c m'.
Proof.
  intros HS HG HM. unfold quiet, pupd1 in *. destruct (po_kind po).
  - destruct (po_usemom po).
    + specialize (HM eq_refl).
      assert (Z : zero r c (pmap2 (K := RNum) r c (vel1 (po_mom po) (next_rate po)) m dP)).
      { intros i j Hi Hj. unfold pmap2. rewrite entry_mk by assumption. rewrite HM, HG by assumption. unfold vel1. cbn [fsub fmul RNum]. change (F RNum) with R in *. ring. }
      split; [|intros _; exact Z]. apply mk_self; [exact HS|]. intros i j Hi Hj. rewrite Z by assumption. cbn [fadd RNum]. apply Rplus_0_r.
    + split; [|discriminate]. apply mk_self; [exact HS|]. intros i j Hi Hj. rewrite HG by assumption. unfold sgd1. cbn [fsub fmul RNum]. change (F RNum) with R in *. ring.
  - assert (Z : zero r c (pmap2 (K := RNum) r c (adam_m1 (po_b1 po)) m dP)).
    { intros i j Hi Hj. unfold pmap2. rewrite entry_mk by assumption. rewrite HM, HG by assumption. unfold adam_m1. cbn [fadd fsub fmul RNum]. change (F RNum) with R in *. ring. }
    split; [|exact Z]. apply mk_self; [exact HS|]. intros i j Hi Hj. rewrite Z by assumption. unfold adam_p1. cbn [fadd fsub fmul fdiv fneg RNum]. change (F RNum) with R in *. unfold Rdiv. ring.
Qed.
Definition sized (p : player RNum) : Prop := shape (K := RNum) (p_in p) (p_out p) (p_w p) /\ shape (K := RNum) 1 (p_out p) (p_b p).
Lemma step_still (t : player RNum * popt RNum) g : sized (fst t) -> at_rest t -> zero (p_in (fst t)) (p_out (fst t)) (fst g) -> zero 1 (p_out (fst t)) (snd g) ->
  fst (tstep (K := RNum) t g) = fst t /\ at_rest (tstep (K := RNum) t g).
Proof.
  intros (S1 & S2) HR GW GB. destruct t as [p po], g as [dW dB]. cbn [fst snd] in *. unfold tstep, pupdate. cbn [fst snd].
  assert (QW : quiet po (p_in p) (p_out p) (po_wm po)) by (unfold quiet, at_rest in *; cbn [fst snd] in HR; destruct (po_kind po); [intros E; apply (HR E)|apply HR]).
  assert (QB : quiet po 1 (p_out p) (po_bm po)) by (unfold quiet, at_rest in *; cbn [fst snd] in HR; destruct (po_kind po); [intros E; apply (HR E)|apply HR]).
  pose proof (upd1_still po (p_in p) (p_out p) (p_w p) dW (po_wm po) (po_wc po) S1 GW QW) as A.
  pose proof (upd1_still po 1 (p_out p) (p_b p) dB (po_bm po) (po_bc po) S2 GB QB) as B.
  destruct (pupd1 po (p_in p) (p_out p) (p_w p) dW (po_wm po) (po_wc po)) as [[W' wm] wc]. destruct (pupd1 po 1 (p_out p) (p_b p) dB (po_bm po) (po_bc po)) as [[B' bm] bc].
  destruct A as (-> & A2), B as (-> & B2). cbn [fst snd]. split; [destruct p; reflexivity|].
  unfold at_rest, quiet in *. cbn [fst snd po_after po_kind po_usemom po_eps po_wm po_bm reparam p_in p_out] in *.
  destruct (po_kind po); [intros E; split; [apply A2|apply B2]; exact E|]. split; [apply HR|]. split; assumption.
Qed.
Lemma steps_still : forall (ts : list (player RNum * popt RNum)) gs, List.Forall (fun t => sized (fst t) /\ at_rest t) ts ->
  Forall2 (fun p g => zero (p_in p) (p_out p) (fst g) /\ zero 1 (p_out p) (snd g)) (map fst ts) gs ->
  map fst (map (fun tg => tstep (K := RNum) (fst tg) (snd tg)) (combine ts gs)) = map fst ts /\
  List.Forall (fun t => sized (fst t) /\ at_rest t) (map (fun tg => tstep (K := RNum) (fst tg) (snd tg)) (combine ts gs)).
Proof.
  induction ts as [|t ts IH]; intros gs HT HG; inversion HG as [|? g ? gs' (G1 & G2) HG']; subst; [split; [reflexivity|constructor]|].
  inversion HT as [|? ? (T1 & T2) HT']; subst. cbn [combine map fst snd]. destruct (step_still t g T1 T2 G1 G2) as (E & R). destruct (IH gs' HT' HG') as (IE & IR).
  split; [f_equal; assumption|]. constructor; [|exact IR]. split; [now rewrite E|exact R].
Qed.
Lemma train_still k o i U : k = MSE \/ k = MAE -> forall bs (ts : list (player RNum * popt RNum)) q, chain i (map fst ts) o -> List.Forall (fun p => p_kind p <> Dropout) (map fst ts) ->
  List.Forall (fun t => sized (fst t) /\ at_rest t) ts -> List.Forall (fun XY => fits_all (map fst ts) (fst XY) (snd XY)) bs ->
  map fst (fst (ptrain_on (K := RNum) k o ts U q bs)) = map fst ts /\ List.Forall (fun t => sized (fst t) /\ at_rest t) (fst (ptrain_on (K := RNum) k o ts U q bs)).
Proof.
  intros HK. induction bs as [|[X Y] bs IH]; intros ts q HC HD HT HB; [split; [reflexivity|exact HT]|]. inversion HB as [|? ? F1 F2]; subst. cbn [fst snd] in F1. cbn [ptrain_on].
  destruct (grads_zero k Y o (length X) U HK (map fst ts) i q X HC HD (fits_back _ _ _ F1)) as (_ & HG). destruct (steps_still ts _ HT HG) as (E & R).
  fold (pbatch (K := RNum) k o ts X Y U q) in E, R. destruct (IH (pbatch (K := RNum) k o ts X Y U q) (q + net_draws true (map fst ts) (length X))%nat) as (E2 & R2); rewrite ?E; auto.
  split; [congruence|exact R2].
Qed.
Lemma sized_net s m es xs i o k : trainable (K := RNum) s m es xs i o k -> List.Forall sized (net es).
Proof.
  intros ((_ & _ & _ & _ & _ & H) & _). unfold net. apply List.Forall_map. eapply List.Forall_impl; [|exact H]. intros e HL.
  destruct HL as (l & _ & _ & _ & _ & _ & _ & _ & _ & HW & HB). split; eauto using own_shape.
Qed.

(** ** Fit *)
Lemma fit_still s (m : model RNum) es xs i o k x rsx y rsy n X Y epochs bs xv yv :
  (0 <= bs)%Z -> (Z.of_nat n + bs <= 2 ^ 52)%Z -> (1 <= n)%nat -> k = MSE \/ k = MAE ->
  trainable s m es xs i o k -> data_ok s es x rsx y rsy n i o X Y -> List.Forall (fun e => p_kind (e_p e) <> Dropout) es -> List.Forall at_rest (trainer es xs) -> pnet (net es) n X = Y ->
  returns (Fit m x y epochs bs xv yv 0) s (fun _ s' => exists es' xs', trainable s' m es' xs' i o k /\ Forall2 same_place es es' /\ net es' = net es /\ List.Forall at_rest (trainer es' xs')).
Proof.
  intros Hb Hn H1 HK HT HD HDr HR HF.
  destruct (fit_trains s m es xs i o k x rsx y rsy n X Y epochs bs xv yv RNum_min_faithful Hb Hn H1 HT HD) as ([] & s' & E & nn & _ & (es' & xs' & A1 & A2 & _ & A3 & _) & _).
  destruct (own_lengths _ _ _ _ _ _ (proj1 HD)) as (_ & L1). destruct (own_lengths _ _ _ _ _ _ (proj1 (proj2 HD))) as (_ & L2).
  pose proof (FitProofs.trainer_net es xs (eq_sym (f2len _ _ _ (proj1 (proj2 (proj2 (proj2 (proj2 (proj2 HT)))))))))  as TN.
  destruct (train_still k o i (r_uni (h_rng s)) HK (epochs_of (Z.to_nat epochs) (batch_rows n bs) X Y) (trainer es xs) (r_upos (h_rng s))) as (B1 & B2).
  - rewrite TN. apply HT.
  - rewrite TN. unfold net. now apply List.Forall_map.
  - apply List.Forall_and; [|exact HR]. apply (proj1 (List.Forall_map fst sized (trainer es xs))). rewrite TN. exact (sized_net _ _ _ _ _ _ _ HT).
  - rewrite TN. apply List.Forall_forall. intros Z HZ. unfold epochs_of in HZ. apply in_concat in HZ. destruct HZ as (l & Hl & HZ). apply repeat_spec in Hl. subst l.
    unfold chunks in HZ. rewrite L1, L2 in HZ. apply (fits_chunks _ _ _ _ _ (fits_whole (net es) X Y ltac:(congruence) ltac:(rewrite L1; exact HF)) Z HZ).
  - exists tt, s'. split; [exact E|]. exists es', xs'. split; [exact A1|]. split; [exact A2|]. rewrite <- (FitProofs.trainer_net es' xs' (eq_sym (f2len _ _ _ (proj1 (proj2 (proj2 (proj2 (proj2 (proj2 A1))))))))), A3, B1, TN. split; [reflexivity|].
    eapply List.Forall_impl; [|exact B2]. intros t Ht. apply Ht.
Qed.
