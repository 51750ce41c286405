(** * FloatGlue: the float64 ranges for the code. *)
From Coq Require Import String ZArith List Bool Arith Lia Reals Lra.
From Flocq Require Import IEEE754.Bits IEEE754.BinarySingleNaN.
From Verif Require Import Num NumB64 Heap Spec Matrix Network Loss Optimizers ModelGo PureSpec OptSpec ModelSpec Repr HeapLemmas MatrixFacts LayerProofs LayerFacts LayerGlue
  LossProofs LossMore OptProofs OptFacts EvalProofs FitProofs FitFacts SoftFloat FloatSigns FloatRange.
Import ListNotations.
Open Scope Z_scope.

Section Float.
Context (L : libm).
Notation BN := (B64 L).
(** What the labels must be, and what is assumed of math.Pow and math.Log. *)
Definition loss_ok (k : losskind) (r c : nat) (Y : pm BN) : Prop :=
  match k with
  | MSE => square_nonneg L
  | MAE => True
  | CE => log_nonpos L /\ hot L r c Y
  | BCE => log_nonpos L /\ forall i j, (i < r)%nat -> (j < c)%nat -> in_unit (entry Y i j)
  end.
Lemma ploss_range k r c (Yh Y : pm BN) : loss_ok k r c Y -> nonneg (ploss k r c Yh Y).
Proof.
  intros HO. destruct k; cbn [ploss loss_ok] in *.
  - apply mse_nonneg, HO. - apply mae_nonneg. - apply ce_nonneg; apply HO. - apply bce_nonneg; apply HO.
Qed.
Lemma loss_range (s : state BN) k yhat rs y rsy r c (Yh Y : pm BN) : loss_args s yhat rs y rsy r c Yh Y -> loss_ok k r c Y ->
  returns (Loss_Forward (MkLoss k (Z.of_nat c)) yhat y) s (fun v _ => b64_lt v (b64_ofZ 0) = false).
Proof.
  intros HA HO. destruct (loss_forward s k yhat rs y rsy r c Yh Y HA) as (v & s' & E & -> & _). exists (ploss k r c Yh Y), s'. split; [exact E|]. apply ploss_range, HO.
Qed.
Lemma layer_range (s : state BN) lref l rw rb (p : player BN) x rsx r X : exp_nonneg L -> (p_kind p = Dropout -> in_unit (p_drop p)) ->
  nth_error (h_layers s) lref = Some l -> lown s l rw rb p -> own s x rsx r (p_in p) X -> (1 <= r)%nat ->
  returns (Layer_Forward lref x) s (fun out s' => exists rs O, own s' out rs r (p_out p) O /\
    forall i j, (i < r)%nat -> (j < p_out p)%nat -> out_ok (p_kind p) (entry O i j)).
Proof.
  intros HE HD Hl Hlo HX Hr. pose proof (wp_forward_train s lref l rw rb p x rsx r X Hl Hlo HX Hr) as H. apply wp_ex in H.
  destruct H as (out & s' & E & rs & rsm & l' & ((HO & _) & _)). exists out, s'. split; [exact E|].
  exists rs, (ptrain p r X (uniforms s)). split; [exact HO|]. intros i j Hi Hj. unfold ptrain.
  destruct (p_kind p) eqn:EK; try (rewrite <- EK; apply forward_range; assumption).
  cbn [out_ok]. apply dropout_range; auto.
Qed.
Lemma model_loss_range (s : state BN) m es i o k x rsx y rsy r X Y :
  consistent s m es i o -> (1 <= length es)%nat -> m_loss m = Some (MkLoss k (Z.of_nat o)) -> own s x rsx r i X -> own s y rsy r o Y -> (1 <= r)%nat -> loss_ok k r o Y ->
  returns (CalculateLoss m x y) s (fun v _ => b64_lt v (b64_ofZ 0) = false).
Proof.
  intros H1 H2 H3 H4 H5 H6 H7. pose proof (wp_CalculateLoss s m es i o k x rsx y rsy r X Y H1 H2 H3 H4 H5 H6) as H. apply wp_ex in H.
  destruct H as (v & s' & E & -> & _). exists (ploss k r o (pnet (net es) r X) Y), s'. split; [exact E|]. apply ploss_range, H7.
Qed.
(** Adam's second-moment estimates during Fit. *)
Definition adam_ok (t : player BN * popt BN) : Prop := in_unit (po_b2 (snd t)) /\ caches_ok L (snd t) (p_in (fst t)) (p_out (fst t)).
Lemma tstep_adam t g : square_nonneg L -> adam_ok t -> adam_ok (tstep t g).
Proof.
  intros HS [H1 H2]. pose proof (pupdate_caches L (snd t) (p_in (fst t)) (p_out (fst t)) (p_w (fst t)) (p_b (fst t)) (fst g) (snd g) HS H1 H2) as H.
  unfold adam_ok, tstep.
  assert (E : po_b2 (fst (fst (pupdate (snd t) (p_in (fst t)) (p_out (fst t)) (p_w (fst t)) (p_b (fst t)) (fst g) (snd g)))) = po_b2 (snd t))
    by (unfold pupdate; destruct (pupd1 (snd t) (p_in (fst t)) _ _ _ _ _) as [[? ?] ?]; destruct (pupd1 (snd t) 1 _ _ _ _ _) as [[? ?] ?]; reflexivity).
  destruct (pupdate _ _ _ _ _ _ _) as [[po W] B]. cbn [fst snd reparam p_in p_out] in *. rewrite E. split; assumption.
Qed.
Lemma train_adam k o U bs : square_nonneg L -> forall ts q, Forall adam_ok ts -> Forall adam_ok (fst (ptrain_on k o ts U q bs)).
Proof.
  intros HS. induction bs as [|[X Y] bs IH]; intros ts q H; [exact H|]. cbn [ptrain_on]. apply IH. unfold pbatch.
  apply Forall_forall. intros t Ht. apply in_map_iff in Ht as ((t0 & g) & <- & Hin). apply tstep_adam; [exact HS|].
  apply in_combine_l in Hin. exact (proj1 (Forall_forall _ _) H t0 Hin).
Qed.
Lemma fit_adam (s : state BN) m es xs i o k x rsx y rsy n X Y epochs bs xv yv :
  square_nonneg L -> 0 <= bs -> Z.of_nat n + bs <= 2 ^ 52 -> (1 <= n)%nat ->
  trainable s m es xs i o k -> data_ok s es x rsx y rsy n i o X Y -> Forall adam_ok (trainer es xs) ->
  returns (Fit m x y epochs bs xv yv 0) s (fun _ s' => exists es' xs', trainable s' m es' xs' i o k /\ Forall adam_ok (trainer es' xs')).
Proof.
  intros HS Hb H52 Hn HT HD HA.
  destruct (fit_trains s m es xs i o k x rsx y rsy n X Y epochs bs xv yv (B64_min_faithful L) Hb H52 Hn HT HD) as ([] & s2 & E2 & n2 & Q2 & (es' & xs' & A1 & A2 & A3 & A4 & A5) & _).
  exists tt, s2. split; [exact E2|]. exists es', xs'. split; [exact A1|]. rewrite A4. apply train_adam; assumption.
Qed.
End Float.
