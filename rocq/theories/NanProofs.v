(** * NanProofs: NaNs spread and never disappear. *)
From Coq Require Import String ZArith List Bool Arith Lia.
From Flocq Require Import IEEE754.BinarySingleNaN IEEE754.Binary IEEE754.Bits.
From Verif Require Import Num NumB64 Heap Spec Matrix Network Loss Optimizers ModelGo PureSpec Repr HeapLemmas MiscProofs LossProofs OptSpec OptFacts ModelSpec ModelProofs FitProofs FitLoop FitFacts ModelFacts CodecSpec Twins TwinsProofs ModelRefute BinomialProofs Nan.
Import ListNotations.
Open Scope Z_scope.
Open Scope go_scope.

(** ** Operations *)
Notation nan x := (b64_nan x = true).
Lemma nan_add_l x y : nan x -> nan (b64_plus mode_NE x y).
Proof. destruct x; try discriminate. intros _. destruct y; reflexivity. Qed.
Lemma nan_sub_l x y : nan x -> nan (b64_minus mode_NE x y).
Proof. destruct x; try discriminate. intros _. destruct y; reflexivity. Qed.
Lemma nan_sub_r x y : nan y -> nan (b64_minus mode_NE x y).
Proof. destruct y; try discriminate. intros _. destruct x; reflexivity. Qed.
Lemma nan_mul_l x y : nan x -> nan (b64_mult mode_NE x y).
Proof. destruct x; try discriminate. intros _. destruct y; reflexivity. Qed.
Lemma nan_div_l x y : nan x -> nan (b64_div mode_NE x y).
Proof. destruct x; try discriminate. intros _. destruct y; reflexivity. Qed.
Lemma nan_div_r x y : nan y -> nan (b64_div mode_NE x y).
Proof. destruct y; try discriminate. intros _. destruct x; reflexivity. Qed.
Lemma nan_opp x : nan x -> nan (b64_opp x).
Proof. destruct x; try discriminate. reflexivity. Qed.
Lemma inf_add x y : b64_finite x = false -> b64_finite (b64_plus mode_NE x y) = false.
Proof. destruct x as [s|s|s|s]; try discriminate; intros _; destruct y as [s'|s'|s'|s']; try reflexivity; destruct s, s'; reflexivity. Qed.
Lemma inf_sub x y : b64_finite x = false -> b64_finite (b64_minus mode_NE x y) = false.
Proof. destruct x as [s|s|s|s]; try discriminate; intros _; destruct y as [s'|s'|s'|s']; try reflexivity; destruct s, s'; reflexivity. Qed.

Section Nan.
Context (L : libm) (HL : exp_nan L).
Notation BN := (B64 L).

Lemma fsum_nan n (g : nat -> BN) k : (k < n)%nat -> nan (g k) -> nan (fsum n g).
Proof.
  induction n as [|n IH]; intros Hk H; [lia|]. rewrite fsum_S. destruct (Nat.eq_dec k n) as [->|].
  - apply plus_nan. exact H.
  - apply nan_add_l. apply IH; [lia|exact H].
Qed.
Lemma relu_nan (x : BN) : nan x -> nan (relu1 x).
Proof. destruct x; try discriminate. intros _. reflexivity. Qed.
Lemma leaky_nan (s x : BN) : nan x -> nan (leaky1 s x).
Proof. intros H. unfold leaky1. cbn [flt B64]. rewrite b64_lt_nan_l by exact H. exact H. Qed.
Lemma clip_nan (x : BN) : nan x -> nan (clip1 x).
Proof.
  intros H. unfold clip1. cbn [flt B64]. rewrite b64_lt_nan_l by exact H. rewrite b64_lt_nan_r by exact H. exact H.
Qed.
Lemma relu_prime_nan (d x : BN) : nan d -> nan x -> nan (relu_prime1 d x).
Proof. intros Hd Hx. unfold relu_prime1. destruct x; try discriminate. exact Hd. Qed.
Lemma leaky_prime_nan (s d x : BN) : nan d -> nan (leaky_prime1 s d x).
Proof. intros Hd. unfold leaky_prime1. destruct (flt x f0); [|exact Hd]. apply nan_mul_l. exact Hd. Qed.

Definition row_nan (c : nat) (A : pm BN) (a : nat) : Prop := forall j, (j < c)%nat -> nan (entry A a j).

Lemma affine_nan (p : player BN) r (X : pm BN) a f : (a < r)%nat -> (f < p_in p)%nat -> nan (entry X a f) -> row_nan (p_out p) (paffine p r X) a.
Proof.
  intros Ha Hf H j Hj. unfold paffine, paff. rewrite entry_mk by auto. apply nan_add_l. apply (fsum_nan _ _ f Hf). apply nan_mul_l. exact H.
Qed.
Lemma act_nan (p : player BN) r Z a : (a < r)%nat -> row_nan (p_out p) Z a -> row_nan (p_out p) (pact p r Z) a.
Proof.
  intros Ha H j Hj. specialize (H j Hj). unfold pact, act1. destruct (p_kind p).
  all: try (unfold pmap; rewrite entry_mk by auto).
  all: try exact H. 
  all: try (apply relu_nan; exact H).
  all: try (apply leaky_nan; exact H).
  2:{ unfold psoftmax. rewrite entry_mk by auto. apply nan_div_l. apply HL. exact H. }
  unfold sigmoid1. apply nan_div_r. apply plus_nan. apply HL. apply nan_opp. exact H.
Qed.
Lemma train_nan (p : player BN) r (X : pm BN) u a f : (a < r)%nat -> (f < p_in p)%nat -> nan (entry X a f) -> row_nan (p_out p) (ptrain p r X u) a.
Proof.
  intros Ha Hf H. pose proof (affine_nan p r X a f Ha Hf H) as HA. unfold ptrain.
  destruct (p_kind p); try (apply act_nan; assumption).
  intros j Hj. unfold pforward_drop. rewrite entry_mk by auto. apply nan_mul_l. apply relu_nan. apply HA. exact Hj.
Qed.
Lemma forward_nan (p : player BN) r (X : pm BN) a f : (a < r)%nat -> (f < p_in p)%nat -> nan (entry X a f) -> row_nan (p_out p) (pforward p r X) a.
Proof. intros Ha Hf H. apply act_nan; [exact Ha|]. eapply affine_nan; eauto. Qed.
Lemma loss_nan k r c Yh Y a : k <> MAE -> (a < r)%nat -> row_nan c Yh a -> row_nan c (ploss_back (K := BN) k r c Yh Y) a.
Proof.
  intros Hk Ha H j Hj. specialize (H j Hj). destruct k; try congruence; cbn [ploss_back].
  all: unfold pce_loss_back, pbce_back, pmse_back; rewrite entry_mk by auto.
  all: try (apply nan_div_l, nan_div_r; exact H).
  all: try (apply nan_mul_l, nan_sub_l; exact H).
  cbn zeta. apply nan_div_l, nan_div_l, nan_opp, nan_sub_l, nan_div_r, clip_nan. exact H.
Qed.
Lemma back_nan (p : player BN) r O Mask G a : (a < r)%nat -> row_nan (p_out p) O a -> row_nan (p_out p) G a -> row_nan (p_out p) (pback p r O Mask G) a.
Proof.
  intros Ha HO HG j Hj. specialize (HO j Hj). unfold pback. destruct (p_kind p).
  all: try (apply HG; exact Hj).
  all: unfold pmap2; try (rewrite entry_mk by auto).
  all: try (apply relu_prime_nan; [|exact HO]).
  all: try (rewrite entry_mk by auto).
  all: try (apply nan_mul_l; apply HG; exact Hj).
  all: try (apply HG; exact Hj).
  - apply leaky_prime_nan. apply HG. exact Hj.
  - unfold psoftmax_back. rewrite entry_mk by auto. apply (fsum_nan _ _ j Hj). apply mult_nan. apply HG. exact Hj.
Qed.
Lemma clipped_nan b r c O a : (a < r)%nat -> row_nan c O a -> row_nan c (clipped (K := BN) b r c O) a.
Proof.
  intros Ha H j Hj. unfold clipped. destruct b; [|apply H; exact Hj]. unfold pmap. rewrite entry_mk by auto. apply clip_nan, H. exact Hj.
Qed.
Lemma pre_nan k Y last (p : player BN) r O Mask G a : (a < r)%nat -> row_nan (p_out p) O a -> row_nan (p_out p) G a ->
  row_nan (p_out p) (pre_grad k Y last p r O Mask G) a.
Proof.
  intros Ha HO HG. unfold pre_grad. destruct last; [|apply back_nan; assumption]. destruct (fused k p).
  - intros j Hj. unfold pce_back. rewrite entry_mk by auto. apply nan_div_l. destruct (feq (entry Y a j) f1); [apply nan_sub_l|]; apply HO; exact Hj.
  - apply back_nan; [exact Ha| |exact HG]. apply clipped_nan; assumption.
Qed.

Definition grad_nan (p : player BN) (g : pm BN * pm BN) : Prop :=
  (forall i j, (i < p_in p)%nat -> (j < p_out p)%nat -> nan (entry (fst g) i j)) /\ (forall j, (j < p_out p)%nat -> nan (entry (snd g) 0 j)).
Definition wide (p : player BN) : Prop := (1 <= p_in p)%nat /\ (1 <= p_out p)%nat.

Lemma backprop_nan k Y o : k <> MAE -> forall ps r (X : pm BN) U q i a f, (a < r)%nat -> chain i ps o -> ps <> [] -> Forall wide ps ->
  (f < i)%nat -> nan (entry X a f) ->
  row_nan i (fst (pbackprop (K := BN) k Y o ps r X U q)) a /\ Forall2 grad_nan ps (snd (pbackprop (K := BN) k Y o ps r X U q)).
Proof.
  intros Hk. induction ps as [|p ps IH]; intros r X U q i a f Ha HC HE HW Hf H; [congruence|].
  destruct HC as [HI HC]. inversion HW as [|? ? [W1 W2] HW']; subst. cbn [pbackprop].
  set (O := ptrain p r X (from U q)).
  assert (HO : row_nan (p_out p) O a) by (exact (train_nan p r X (from U q) a f Ha Hf H)).
  assert (HG : row_nan (p_out p) (fst (pbackprop (K := BN) k Y o ps r O U (q + pdraws p r))) a /\ Forall2 grad_nan ps (snd (pbackprop (K := BN) k Y o ps r O U (q + pdraws p r)))).
  { destruct ps as [|p' ps'].
    - cbn [pbackprop fst snd]. simpl in HC. rewrite HC in *. split; [apply loss_nan; assumption|constructor].
    - apply (IH r O U (q + pdraws p r)%nat (p_out p) a 0%nat); auto; try congruence. }
  destruct (pbackprop (K := BN) k Y o ps r O U (q + pdraws p r)) as [G gs]. cbn [fst snd] in HG. destruct HG as [HG HGs]. cbn [fst snd].
  set (G' := pre_grad k Y _ p r O _ G).
  assert (HG' : row_nan (p_out p) G' a) by (apply pre_nan; assumption).
  split.
  - intros j Hj. unfold pdX, pdot. rewrite entry_mk by auto. apply (fsum_nan _ _ 0%nat); [lia|]. apply nan_mul_l. apply HG'. lia.
  - constructor; [|exact HGs]. split; cbn [fst snd].
    + intros n j Hn Hj. unfold pdW, pdot. rewrite entry_mk by auto. apply (fsum_nan _ _ a Ha). apply mult_nan. apply HG'. exact Hj.
    + intros j Hj. unfold psum0. rewrite entry_mk by (auto; lia). apply (fsum_nan _ _ a Ha). apply HG'. exact Hj.
Qed.

(** ** Updates *)
Lemma upd1_bad (po : popt BN) r c (P dP m ch : pm BN) i j : (i < r)%nat -> (j < c)%nat ->
  let P' := fst (fst (pupd1 po r c P dP m ch)) in
  (nan (entry P i j) -> nan (entry P' i j)) /\ (b64_finite (entry P i j) = false -> b64_finite (entry P' i j) = false) /\
  (nan (entry dP i j) -> nan (entry P' i j)).
Proof.
  intros Hi Hj. unfold pupd1. destruct (po_kind po); [destruct (po_usemom po)|]; cbn [fst]; unfold pmap2.
  - rewrite !entry_mk by auto. unfold vel1. split; [apply nan_add_l|]. split; [apply inf_add|].
    intros H. apply plus_nan, nan_sub_r, nan_mul_l. exact H.
  - rewrite !entry_mk by auto. unfold sgd1. split; [apply nan_sub_l|]. split; [apply inf_sub|].
    intros H. apply nan_sub_r, nan_mul_l. exact H.
  - rewrite !entry_mk by auto. unfold adam_p1. split; [apply nan_add_l|]. split; [apply inf_add|].
    intros H. apply plus_nan, nan_div_l, mult_nan, nan_mul_l. unfold adam_m1. apply plus_nan, nan_mul_l. exact H.
Qed.
Lemma step_bad (t : player BN * popt BN) g : bad_kept L (fst t) (fst (tstep t g)) /\ (grad_nan (fst t) g -> all_nan L (fst (tstep t g))).
Proof.
  destruct t as [p po], g as [dW dB]. destruct (step_like (K := BN) (p, po) (dW, dB)) as (S1 & S2 & S3). cbn [fst] in *.
  assert (E : p_w (fst (tstep (p, po) (dW, dB))) = fst (fst (pupd1 po (p_in p) (p_out p) (p_w p) dW (po_wm po) (po_wc po))) /\
              p_b (fst (tstep (p, po) (dW, dB))) = fst (fst (pupd1 po 1 (p_out p) (p_b p) dB (po_bm po) (po_bc po)))).
  { unfold tstep, pupdate. cbn [fst snd].
    destruct (pupd1 po (p_in p) (p_out p) (p_w p) dW (po_wm po) (po_wc po)) as [[W' wm] wc]. destruct (pupd1 po 1 (p_out p) (p_b p) dB (po_bm po) (po_bc po)) as [[B' bm] bc].
    split; reflexivity. }
  destruct E as [E1 E2]. split.
  - split; [exact S1|]. split; [exact S2|]. split; [exact S3|]. rewrite E1, E2. split.
    + intros i j Hi Hj. destruct (upd1_bad po (p_in p) (p_out p) (p_w p) dW (po_wm po) (po_wc po) i j Hi Hj) as (A & B & _). split; assumption.
    + intros j Hj. destruct (upd1_bad po 1 (p_out p) (p_b p) dB (po_bm po) (po_bc po) 0 j (Nat.lt_0_1) Hj) as (A & B & _). split; assumption.
  - intros [G1 G2]. unfold all_nan. rewrite S2, S3, E1, E2. split.
    + intros i j Hi Hj. apply (upd1_bad po (p_in p) (p_out p) (p_w p) dW (po_wm po) (po_wc po) i j Hi Hj). apply G1; assumption.
    + intros j Hj. apply (upd1_bad po 1 (p_out p) (p_b p) dB (po_bm po) (po_bc po) 0 j (Nat.lt_0_1) Hj). apply G2; assumption.
Qed.
Lemma bad_refl p : bad_kept L p p.
Proof. repeat split; auto. Qed.
Lemma bad_trans p p' p'' : bad_kept L p p' -> bad_kept L p' p'' -> bad_kept L p p''.
Proof.
  intros (A1 & A2 & A3 & A4 & A5) (B1 & B2 & B3 & B4 & B5). rewrite A2, A3 in *. split; [congruence|]. split; [congruence|]. split; [congruence|]. split.
  - intros i j Hi Hj. destruct (A4 i j Hi Hj), (B4 i j Hi Hj). auto.
  - intros j Hj. destruct (A5 j Hj), (B5 j Hj). auto.
Qed.
Lemma bad_all p p' : bad_kept L p p' -> all_nan L p -> all_nan L p'.
Proof.
  intros (A1 & A2 & A3 & A4 & A5) [H1 H2]. unfold all_nan. rewrite A2, A3. split.
  - intros i j Hi Hj. apply A4; auto. - intros j Hj. apply A5; auto.
Qed.
Lemma backprop_length k Y o : forall ps r X U q, length (snd (pbackprop (K := BN) k Y o ps r X U q)) = length ps.
Proof.
  induction ps as [|p ps IH]; intros r X U q; [reflexivity|]. cbn [pbackprop].
  specialize (IH r (ptrain p r X (from U q)) U (q + pdraws p r)%nat).
  destruct (pbackprop (K := BN) k Y o ps r (ptrain p r X (from U q)) U (q + pdraws p r)) as [G gs]. simpl in *. lia.
Qed.
Lemma batch_bad k o (ts : list (player BN * popt BN)) X Y U q :
  Forall2 (bad_kept L) (map fst ts) (map fst (pbatch k o ts X Y U q)).
Proof.
  unfold pbatch. assert (HL' := backprop_length k Y o (map fst ts) (length X) X U q). rewrite map_length in HL'.
  revert HL'. generalize (snd (pbackprop (K := BN) k Y o (map fst ts) (length X) X U q)) as gs. clear.
  induction ts as [|t ts IH]; intros [|g gs] H; try discriminate; [constructor|]. cbn [combine map fst]. constructor; [apply step_bad|]. apply IH. simpl in H. lia.
Qed.
Lemma batch_destroy k o (ts : list (player BN * popt BN)) X Y U q i : k <> MAE -> chain i (map fst ts) o -> ts <> [] -> Forall wide (map fst ts) ->
  some_nan L (length X) i X -> Forall (all_nan L) (map fst (pbatch k o ts X Y U q)).
Proof.
  intros Hk HC HE HW (a & f & Ha & Hf & H). unfold pbatch.
  destruct (backprop_nan k Y o Hk (map fst ts) (length X) X U q i a f) as [_ HG]; auto. { destruct ts; [congruence|discriminate]. }
  revert HG. generalize (snd (pbackprop (K := BN) k Y o (map fst ts) (length X) X U q)) as gs. clear.
  induction ts as [|t ts IH]; intros gs H; [constructor|]. cbn [map] in H. inversion H; subst. cbn [combine map fst]. constructor; [apply step_bad; assumption|]. apply IH. assumption.
Qed.
Lemma forall2_trans {A} (R : A -> A -> Prop) : (forall x y z, R x y -> R y z -> R x z) -> forall l1 l2 l3, Forall2 R l1 l2 -> Forall2 R l2 l3 -> Forall2 R l1 l3.
Proof. intros HT. induction l1 as [|x l1 IH]; intros l2 l3 H1 H2; inversion H1; subst; inversion H2; subst; constructor; eauto. Qed.
Lemma train_bad k o U : forall bs (ts : list (player BN * popt BN)) q, Forall2 (bad_kept L) (map fst ts) (map fst (fst (ptrain_on k o ts U q bs))).
Proof.
  induction bs as [|[X Y] bs IH]; intros ts q.
  - cbn. induction (map fst ts); constructor; [apply bad_refl|assumption].
  - cbn [ptrain_on]. eapply forall2_trans; [exact bad_trans|apply batch_bad|apply IH].
Qed.
Lemma all_kept ps ps' : Forall2 (bad_kept L) ps ps' -> Forall (all_nan L) ps -> Forall (all_nan L) ps'.
Proof. induction 1; intros HF; [constructor|]. inversion HF; subst. constructor; [eapply bad_all; eauto|auto]. Qed.
Lemma shape_kept ps ps' : Forall2 (bad_kept L) ps ps' -> forall i o, (chain i ps o -> chain i ps' o) /\ (Forall wide ps -> Forall wide ps').
Proof.
  induction 1 as [|p p' ps ps' (A1 & A2 & A3 & _) _ IH]; intros i o; [split; auto|]. destruct (IH (p_out p) o) as [I1 I2]. split.
  - cbn [chain]. rewrite A2, A3. intros [H1 H2]. split; auto.
  - intros HF. inversion HF as [|? ? [W1 W2]]; subst. constructor; [unfold wide; rewrite A2, A3; split; assumption|]. apply I2. assumption.
Qed.
Lemma train_destroy k o U i : k <> MAE -> forall bs (ts : list (player BN * popt BN)) q, chain i (map fst ts) o -> ts <> [] -> Forall wide (map fst ts) ->
  Exists (fun XY => some_nan L (length (fst XY)) i (fst XY)) bs -> Forall (all_nan L) (map fst (fst (ptrain_on k o ts U q bs))).
Proof.
  intros Hk. induction bs as [|[X Y] bs IH]; intros ts q HC HE HW HX; [inversion HX|]. cbn [ptrain_on].
  destruct (shape_kept _ _ (batch_bad k o ts X Y U q) i o) as [K1 K2].
  inversion HX as [? ? H|? ? H]; subst.
  - eapply all_kept; [apply train_bad|]. eapply batch_destroy; eauto.
  - apply IH; auto. pose proof (batch_bad k o ts X Y U q) as B. intros E. rewrite E in B. destruct ts; [congruence|]. inversion B.
Qed.

(** ** Batches *)
Lemma entry_row (X : pm BN) a f : entry X a f = nth f (nth a X []) f0.
Proof. reflexivity. Qed.
Lemma chunks_nan b i (X Y : pm BN) : (1 <= b)%nat -> length X = length Y -> some_nan L (length X) i X ->
  Exists (fun XY => some_nan L (length (fst XY)) i (fst XY)) (combine (chunks b X) (chunks b Y)).
Proof.
  intros Hb HL' (a & f & Ha & Hf & H). rewrite entry_row in H.
  assert (Hin : In (nth a X []) (concat (chunks b X))) by (rewrite (proj1 (chunks_partition b X Hb)); apply nth_In; exact Ha).
  apply in_concat in Hin. destruct Hin as (Z & HZ & Hr).
  assert (HN : some_nan L (length Z) i Z).
  { destruct (In_nth Z (nth a X []) [] Hr) as (a' & Ha' & Ea'). exists a', f. split; [exact Ha'|]. split; [exact Hf|]. rewrite entry_row, Ea'. exact H. }
  assert (EL : length (chunks b X) = length (chunks b Y)).
  { unfold chunks. rewrite <- HL'. rewrite <- (map_length (@length _) (chunks_fuel (length X) b X)), <- (map_length (@length _) (chunks_fuel (length X) b Y)).
    f_equal. apply chunks_lengths. exact HL'. }
  revert EL HZ. generalize (chunks b Y) as ys. generalize (chunks b X) as zs. induction zs as [|z zs IH]; intros ys EL HZ; [destruct HZ|].
  destruct ys as [|y ys]; [discriminate|]. cbn [combine]. destruct HZ as [->|HZ]; [left; exact HN|right]. apply IH; [simpl in EL; injection EL as EL; exact EL|exact HZ].
Qed.
Lemma epochs_nan e b i (X Y : pm BN) : (1 <= e)%nat -> (1 <= b)%nat -> length X = length Y -> some_nan L (length X) i X ->
  Exists (fun XY => some_nan L (length (fst XY)) i (fst XY)) (epochs_of e b X Y).
Proof.
  intros He Hb HL' H. destruct e as [|e]; [lia|]. unfold epochs_of. cbn [repeat concat]. apply Exists_app. left. apply chunks_nan; assumption.
Qed.

(** ** Fit *)
Lemma consistent_wide (s : state BN) m es i o : consistent s m es i o -> Forall wide (net es).
Proof.
  intros (_ & _ & _ & _ & _ & H). unfold net. apply Forall_map. eapply Forall_impl; [|exact H]. intros e (l & _ & HO).
  destruct HO as (_ & _ & _ & _ & _ & H1 & H2 & _). split; assumption.
Qed.
Lemma trainer_net (s : state BN) m es xs i o k : trainable s m es xs i o k -> map fst (trainer es xs) = net es.
Proof.
  intros (_ & _ & _ & _ & _ & H & _). unfold trainer, net. apply Forall2_length in H. revert xs H.
  induction es as [|e es IH]; intros [|x xs] H; try discriminate; [reflexivity|]. cbn [map combine fst]. f_equal. apply IH. simpl in H. lia.
Qed.
Lemma fit_bad s (m : model BN) es xs i o k x rsx y rsy n X Y epochs bs xv yv :
  0 <= bs -> Z.of_nat n + bs <= 2 ^ 52 -> (1 <= n)%nat -> trainable s m es xs i o k -> data_ok s es x rsx y rsy n i o X Y ->
  returns (Fit m x y epochs bs xv yv 0) s (fun _ s' => exists es' xs', trainable s' m es' xs' i o k /\ Forall2 same_place es es' /\
    Forall2 (bad_kept L) (net es) (net es')).
Proof.
  intros Hb Hn H1 HT HD. destruct (fit_trains s m es xs i o k x rsx y rsy n X Y epochs bs xv yv (B64_min_faithful L) Hb Hn H1 HT HD) as ([] & s' & E & nn & _ & (es' & xs' & A1 & A2 & _ & A3 & _) & _).
  exists tt, s'. split; [exact E|]. exists es', xs'. split; [exact A1|]. split; [exact A2|].
  rewrite <- (trainer_net _ _ _ _ _ _ _ HT), <- (trainer_net _ _ _ _ _ _ _ A1), A3. apply train_bad.
Qed.
Lemma fit_destroy s (m : model BN) es xs i o k x rsx y rsy n X Y epochs bs xv yv : k <> MAE -> 1 <= epochs -> some_nan L n i X ->
  0 <= bs -> Z.of_nat n + bs <= 2 ^ 52 -> (1 <= n)%nat -> trainable s m es xs i o k -> data_ok s es x rsx y rsy n i o X Y ->
  returns (Fit m x y epochs bs xv yv 0) s (fun _ s' => exists es' xs', trainable s' m es' xs' i o k /\ Forall2 same_place es es' /\
    Forall (all_nan L) (net es')).
Proof.
  intros Hk He HX Hb Hn H1 HT HD. destruct (fit_trains s m es xs i o k x rsx y rsy n X Y epochs bs xv yv (B64_min_faithful L) Hb Hn H1 HT HD) as ([] & s' & E & nn & _ & (es' & xs' & A1 & A2 & _ & A3 & _) & _).
  exists tt, s'. split; [exact E|]. exists es', xs'. split; [exact A1|]. split; [exact A2|].
  rewrite <- (trainer_net _ _ _ _ _ _ _ A1), A3.
  destruct HD as (D1 & D2 & _).
  assert (LX : length X = n) by apply D1. assert (LY : length Y = n) by apply D2.
  apply (train_destroy k o _ i Hk).
  - rewrite (trainer_net _ _ _ _ _ _ _ HT). apply HT.
  - intros E0. pose proof (trainer_net _ _ _ _ _ _ _ HT) as T. rewrite E0 in T. destruct HT as (_ & _ & HL1 & _). unfold net in T. destruct es; [simpl in HL1; lia|discriminate].
  - rewrite (trainer_net _ _ _ _ _ _ _ HT). eapply consistent_wide. apply HT.
  - apply epochs_nan; try congruence; try lia. unfold batch_rows. destruct (bs =? 0) eqn:E1; [exact H1|]. apply Z.eqb_neq in E1. lia.
Qed.

(** ** Predictions *)
Lemma aff_nan_params (p : player BN) r X a : (a < r)%nat -> all_nan L p -> row_nan (p_out p) (paffine p r X) a.
Proof. intros Ha [_ HB] j Hj. unfold paffine, paff. rewrite entry_mk by auto. apply plus_nan. apply HB. exact Hj. Qed.
Lemma net_nan : forall ps r X i o a, (a < r)%nat -> chain i ps o -> ps <> [] -> Forall (all_nan L) ps -> row_nan o (pnet (K := BN) ps r X) a.
Proof.
  induction ps as [|p ps IH]; intros r X i o a Ha HC HE HF; [congruence|]. inversion HF; subst. destruct HC as [_ HC]. cbn [pnet fold_left].
  destruct ps as [|p' ps'].
  - simpl in HC. rewrite <- HC. cbn [fold_left]. apply act_nan; [exact Ha|]. apply aff_nan_params; assumption.
  - apply (IH r (pforward p r X) (p_out p) o a); auto. discriminate.
Qed.
Lemma scan_nan c (g : nat -> BN) : (forall j, (j < c)%nat -> nan (g j)) -> fst (scan_max c g) = 0%nat.
Proof.
  intros H. unfold scan_max.
  assert (G : forall l, (forall j, In j l -> nan (g j)) -> fold_left (fun best j => if flt (snd best) (g j) then (j, g j) else best) l (0%nat, f0 : BN) = (0%nat, f0)).
  { induction l as [|j l IH]; intros Hl; [reflexivity|]. cbn [fold_left snd]. replace (flt (f0 : BN) (g j)) with false.
    - apply IH. intros j' Hj'. apply Hl. right. exact Hj'.
    - symmetry. apply b64_lt_nan_r. apply Hl. left. reflexivity. }
  rewrite G; [reflexivity|]. intros j Hj. apply H. apply in_seq in Hj. lia.
Qed.
Lemma predict_nan s (m : model BN) es i o x rsx r X : consistent s m es i o -> (1 <= length es)%nat -> 0 <= m_acctype m <= 2 ->
  own s x rsx r i X -> (1 <= r)%nat -> Forall (all_nan L) (net es) ->
  returns (Predict m x) s (fun out s' => exists rs c P, own s' out rs r c P /\ (1 <= c)%nat /\ nan_answer L (m_acctype m) r c P).
Proof.
  intros HC H1 HA HO Hr HF.
  assert (HN : forall a, (a < r)%nat -> row_nan o (pnet (K := BN) (net es) r X) a).
  { intros a Ha. apply (net_nan (net es) r X i o a Ha); [apply HC| |exact HF]. unfold net. destruct es; [simpl in H1; lia|discriminate]. }
  assert (Ho : (1 <= o)%nat).
  { pose proof (consistent_wide _ _ _ _ _ HC) as W. destruct HC as (_ & _ & _ & _ & C & _). revert C W. unfold net. clear -H1.
    revert i. induction es as [|e es IH]; intros i C W; [simpl in H1; lia|]. simpl in C. destruct C as [_ C]. inversion W as [|? ? [? ?]]; subst.
    destruct es as [|e' es']; [simpl in C; lia|]. eapply IH; eauto. simpl. lia. }
  assert (HP : exists c P, ppredict (m_acctype m) r o (pnet (net es) r X) = Some (c, P) /\ (1 <= c)%nat /\ nan_answer L (m_acctype m) r c P).
  { assert (T : m_acctype m = 0 \/ m_acctype m = 1 \/ m_acctype m = 2) by lia. unfold ppredict, nan_answer. destruct T as [-> | [-> | ->]]; cbn [Z.eqb Pos.eqb].
    - eexists _, _. split; [reflexivity|]. split; [exact Ho|]. intros a j Ha Hj. apply HN; assumption.
    - eexists _, _. split; [reflexivity|]. split; [lia|]. intros a j Ha Hj. unfold row_max. rewrite entry_mk by auto. rewrite scan_nan; [reflexivity|]. intros j' Hj'. apply HN; assumption.
    - eexists _, _. split; [reflexivity|]. split; [exact Ho|]. intros a j Ha Hj. unfold pmap. rewrite entry_mk by auto. unfold binary1. cbn [flt B64]. rewrite b64_lt_nan_l; [reflexivity|]. apply HN; assumption. }
  destruct HP as (c & P & HP & Hc & HNA).
  destruct (predict_spec s m es i o x rsx r X c P HC H1 HP HO Hr) as (out & s' & E & rs & A & _).
  exists out, s'. split; [exact E|]. exists rs, c, P. auto.
Qed.
End Nan.
