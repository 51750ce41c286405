(** * CodecResume: training a reloaded model. *)
From Coq.Strings Require Import Byte.
From Coq Require Import String Ascii ZArith List Bool Arith Lia Permutation.
From Verif Require Import Num Heap Spec Matrix Network Loss Optimizers ModelGo LayerData ModelData PureSpec Repr OptSpec ModelSpec HeapLemmas LoopLemmas
  MatrixProofs LayerProofs ModelProofs OptFacts OptProofs EvalProofs MatrixFacts ModelFacts FitLoop FitProofs FitFacts
  CodecSpec CodecBytes CodecLoad CodecModel CodecSave CodecFacts CodecMore.
Import ListNotations.
Open Scope Z_scope.
Open Scope go_scope.

Section WithNum.
Context {K : Num} (B : FBits K).
Implicit Types (s : state K) (m : model K) (es : list (lent K)) (ps : list (player K)) (o : optimizer K) (p : player K).

(** ** Layers that differ only in unused hyper-parameters train alike *)
Lemma ptrain_stored p r X u : ptrain (stored p) r X u = ptrain p r X u.
Proof.
  unfold ptrain. change (p_kind (stored p)) with (p_kind p). destruct (p_kind p) eqn:E; try apply pforward_stored.
  unfold pforward_drop, stored, stored_drop. cbn. rewrite E. reflexivity.
Qed.
Lemma ptrain_mask_stored p r u : ptrain_mask (stored p) r u = ptrain_mask p r u.
Proof. unfold ptrain_mask, stored, stored_drop. cbn. destruct (p_kind p); reflexivity. Qed.
Lemma pback_stored p r O M G : pback (stored p) r O M G = pback p r O M G.
Proof. unfold pback, stored, stored_drop, stored_slope. cbn. destruct (p_kind p); reflexivity. Qed.
Lemma pre_grad_stored k Y lst p r O M G : pre_grad k Y lst (stored p) r O M G = pre_grad k Y lst p r O M G.
Proof. unfold pre_grad, fused. change (p_kind (stored p)) with (p_kind p). change (p_out (stored p)) with (p_out p). now rewrite !pback_stored. Qed.
Lemma pbackprop_stored k Y (o : nat) ps : forall r X U q, pbackprop k Y o (map stored ps) r X U q = pbackprop k Y o ps r X U q.
Proof.
  induction ps as [|p ps IH]; intros r X U q; [reflexivity|]. cbn [map pbackprop]. rewrite ptrain_stored, ptrain_mask_stored, IH.
  change (pdraws (stored p) r) with (pdraws p r). destruct (pbackprop k Y o ps r (ptrain p r X (from U q)) U (q + pdraws p r)) as [G gs].
  change (p_in (stored p)) with (p_in p). change (p_out (stored p)) with (p_out p). change (p_w (stored p)) with (p_w p).
  rewrite pre_grad_stored. destruct ps; reflexivity.
Qed.
Lemma net_draws_stored t ps r : net_draws t (map stored ps) r = net_draws (K := K) t ps r.
Proof. unfold net_draws. induction ps as [|p ps IH]; [reflexivity|]. cbn [map fold_right]. rewrite IH. reflexivity. Qed.

Definition alike (lr : K) (t t' : player K * popt K) : Prop := stored (fst t) = stored (fst t') /\ plain_sgd lr (snd t) /\ plain_sgd lr (snd t').
Lemma stored_reparam p p' W C : stored p = stored p' -> stored (reparam p W C) = stored (reparam p' W C).
Proof.
  unfold stored, reparam, stored_slope, stored_drop. cbn. intros E. injection E as E1 E2 E3 _ _ E6 E7. rewrite E1, E2, E3 in *. congruence.
Qed.
Lemma pupd1_plain lr (po : popt K) r c P dP a b : plain_sgd lr po -> pupd1 po r c P dP a b = (pmap2 r c (sgd1 lr) P dP, a, b).
Proof. intros (H1 & H2 & H3 & H4). unfold pupd1, next_rate. now rewrite H1, H2, H3, H4. Qed.
Lemma tstep_plain lr t g : plain_sgd lr (snd t) ->
  fst (tstep t g) = reparam (fst t) (pmap2 (p_in (fst t)) (p_out (fst t)) (sgd1 lr) (p_w (fst t)) (fst g)) (pmap2 1 (p_out (fst t)) (sgd1 lr) (p_b (fst t)) (snd g)) /\
  plain_sgd lr (snd (tstep (K := K) t g)).
Proof.
  intros H. unfold tstep, pupdate. rewrite !(pupd1_plain lr) by exact H. cbn [fst snd]. split; [reflexivity|].
  destruct H as (H1 & H2 & H3 & H4). unfold plain_sgd, po_after, next_rate. cbn. rewrite H2. auto.
Qed.
Lemma tstep_alike lr t t' g : alike lr t t' -> alike lr (tstep t g) (tstep t' g).
Proof.
  intros (H1 & H2 & H3). destruct (tstep_plain lr t g H2) as (E1 & P1). destruct (tstep_plain lr t' g H3) as (E2 & P2). split; [|auto]. rewrite E1, E2.
  assert (EI : p_in (fst t) = p_in (fst t')) by exact (f_equal p_in H1). assert (EO : p_out (fst t) = p_out (fst t')) by exact (f_equal p_out H1).
  assert (EW : p_w (fst t) = p_w (fst t')) by exact (f_equal p_w H1). assert (EB : p_b (fst t) = p_b (fst t')) by exact (f_equal p_b H1).
  rewrite EI, EO, EW, EB. now apply stored_reparam.
Qed.
Lemma alike_nets lr ts ts' : Forall2 (alike lr) ts ts' -> map stored (map fst ts) = map stored (map fst ts').
Proof. induction 1 as [|t t' ts ts' (H & _) _ IH]; [reflexivity|]. cbn [map]. now rewrite H, IH. Qed.
Lemma pbatch_alike lr k (o : nat) ts ts' X Y U q : Forall2 (alike lr) ts ts' -> Forall2 (alike lr) (pbatch k o ts X Y U q) (pbatch k o ts' X Y U q).
Proof.
  intros H. unfold pbatch. rewrite <- (pbackprop_stored k Y o (map fst ts)), <- (pbackprop_stored k Y o (map fst ts')), (alike_nets _ _ _ H).
  generalize (snd (pbackprop k Y o (map stored (map fst ts')) (length X) X U q)). intros gs. revert gs.
  induction H as [|t t' ts ts' Ht _ IH]; intros gs; [constructor|]. destruct gs as [|g gs]; [constructor|]. cbn [combine map fst snd]. constructor; [now apply tstep_alike|apply IH].
Qed.
Lemma ptrain_on_alike lr k (o : nat) U : forall bs ts ts' q, Forall2 (alike lr) ts ts' ->
  Forall2 (alike lr) (fst (ptrain_on k o ts U q bs)) (fst (ptrain_on k o ts' U q bs)) /\ snd (ptrain_on k o ts U q bs) = snd (ptrain_on k o ts' U q bs).
Proof.
  induction bs as [|[X Y] bs IH]; intros ts ts' q H; [auto|]. cbn [ptrain_on].
  assert (E : net_draws true (map fst ts) (length X) = net_draws true (map fst ts') (length X)).
  { rewrite <- (net_draws_stored true (map fst ts)), <- (net_draws_stored true (map fst ts')), (alike_nets _ _ _ H). reflexivity. }
  rewrite E. apply IH. now apply pbatch_alike.
Qed.

(** ** Fit *)
Lemma trainer_fst es (xs : list (oent K)) : length es = length xs -> map fst (trainer es xs) = net es.
Proof.
  unfold trainer. intros H. assert (H' : length (net es) = length (map x_po xs)) by (unfold net; now rewrite !map_length). revert H'. generalize (net es) (map x_po xs).
  intros l. induction l as [|a l IH]; intros [|b t] H'; cbn in *; try lia; [reflexivity|]. f_equal. apply IH. lia.
Qed.
Lemma trainable_lengths s m es xs i (o : nat) k : trainable s m es xs i o k -> length es = length xs.
Proof. intros (_ & _ & _ & _ & _ & H & _). clear - H. induction H; cbn; auto. Qed.
Lemma alike_start lr es es' (xs xs' : list (oent K)) : net es' = map stored (net es) -> length es = length xs -> length es' = length xs' ->
  Forall (plain_sgd lr) (map x_po xs) -> Forall (plain_sgd lr) (map x_po xs') -> Forall2 (alike lr) (trainer es xs) (trainer es' xs').
Proof.
  intros HN H1 H2 P1 P2. unfold trainer. rewrite HN. assert (L1 : length (net es) = length (map x_po xs)) by (unfold net; now rewrite !map_length).
  assert (L2 : length (net es) = length (map x_po xs')).
  { assert (E : length (net es') = length (net es)) by (rewrite HN; apply map_length). rewrite <- E. unfold net. now rewrite !map_length. }
  revert L1 L2 P1 P2. generalize (net es) (map x_po xs) (map x_po xs'). clear. intros ps. induction ps as [|p ps IH]; intros [|a l] [|b t] L1 L2 P1 P2; cbn in *; try lia; constructor.
  - split; [|split; [now apply Forall_inv in P1|now apply Forall_inv in P2]]. cbn [fst]. unfold stored, stored_slope, stored_drop. cbn. destruct (p_kind p); reflexivity.
  - apply IH; try lia; [now apply Forall_inv_tail in P1|now apply Forall_inv_tail in P2].
Qed.
Lemma new_opts_plain n o es : o_kind o = SGD -> feq (o_decay o) f0 = true -> feq (o_momentum o) f0 = true -> Forall (plain_sgd (o_lr o)) (map x_po (new_opts n o es)).
Proof.
  intros H1 H2 H3. unfold new_opts. rewrite map_map. apply Forall_forall. intros po Hp. apply in_map_iff in Hp as ((a & e) & <- & _). cbn [x_po fst snd].
  unfold plain_sgd, clone. rewrite H1. cbn. rewrite H2, H3. auto.
Qed.
Lemma train_result_net s s' m es xs i (o : nat) k ts n ls : train_result s s' m es xs i o k ts n ls ->
  exists es' xs', trainable s' m es' xs' i o k /\ Forall2 same_place es es' /\ trainer es' xs' = ts /\ net es' = map fst ts.
Proof.
  intros (es' & xs' & HT & HP & _ & Hts & _). exists es', xs'. split; [exact HT|]. split; [exact HP|]. split; [exact Hts|]. rewrite <- Hts. symmetry. apply trainer_fst. eapply trainable_lengths; eauto.
Qed.
Lemma resume_plain s m es xs i k l o s' m' es' n x rsx y rsy x' rsx' y' rsy' rr X Y epochs bs xv yv xv' yv' :
  min_faithful K -> 0 <= bs -> Z.of_nat rr + bs <= 2 ^ 52 -> (1 <= rr)%nat ->
  trainable s m es xs i k l -> Forall (plain_sgd (o_lr o)) (map x_po xs) ->
  o_kind o = SGD -> feq (o_decay o) f0 = true -> feq (o_momentum o) f0 = true ->
  represents s' m' es' n (described m (net es) l o) -> i = first_in (net es) -> k = last_out (net es) ->
  data_ok s es x rsx y rsy rr i k X Y -> data_ok s' es' x' rsx' y' rsy' rr i k X Y ->
  r_uni (h_rng s') = r_uni (h_rng s) -> r_upos (h_rng s') = r_upos (h_rng s) ->
  exists s1 s1' es1 xs1 es1' xs1', Fit m x y epochs bs xv yv 0 s = (Ret tt, s1) /\ Fit m' x' y' epochs bs xv' yv' 0 s' = (Ret tt, s1') /\
    trainable s1 m es1 xs1 i k l /\ Forall2 same_place es es1 /\ Forall (plain_sgd (o_lr o)) (map x_po xs1) /\
    trainable s1' m' es1' xs1' i k l /\ Forall2 same_place es' es1' /\
    map stored (net es1) = map stored (net es1').
Proof.
  intros HM Hb Hn Hr HT HP K1 K2 K3 HR -> -> HD HD' HU HQ.
  assert (Hnet := represents_net _ _ _ _ _ HR). cbn [described d_layers] in Hnet.
  assert (HT' : trainable s' m' es' (new_opts n o es') (first_in (net es)) (last_out (net es)) l).
  { assert (G := represents_trainable s' m' es' n _ HR). cbn [described d_layers d_opt d_loss] in G. rewrite first_in_stored, last_out_stored in G. apply G.
    - destruct HT as (_ & _ & HT & _). apply (f_equal (@length _)) in Hnet. unfold net in Hnet. rewrite !map_length in Hnet. lia.
    - destruct HT as (_ & _ & _ & _ & _ & _ & _ & _ & _ & HK). rewrite Forall_map. unfold net. rewrite Forall_map. exact HK. }
  assert (HA : Forall2 (alike (o_lr o)) (trainer es xs) (trainer es' (new_opts n o es'))).
  { apply alike_start; auto; [eapply trainable_lengths; eauto|eapply trainable_lengths; eauto|now apply new_opts_plain]. }
  destruct (fit_trains s m es xs _ _ l x rsx y rsy rr X Y epochs bs xv yv HM Hb Hn Hr HT HD) as ([] & s1 & E1 & nn & _ & R1 & _).
  destruct (fit_trains s' m' es' (new_opts n o es') _ _ l x' rsx' y' rsy' rr X Y epochs bs xv' yv' HM Hb Hn Hr HT' HD') as ([] & s1' & E1' & nn' & _ & R1' & _).
  rewrite HU, HQ in R1'. destruct (ptrain_on_alike (o_lr o) l (last_out (net es)) (r_uni (h_rng s)) (epochs_of (Z.to_nat epochs) (batch_rows rr bs) X Y) _ _ (r_upos (h_rng s)) HA) as (HA2 & _).
  destruct (train_result_net _ _ _ _ _ _ _ _ _ _ _ R1) as (es1 & xs1 & T1 & P1 & N0 & N1). destruct (train_result_net _ _ _ _ _ _ _ _ _ _ _ R1') as (es1' & xs1' & T1' & P1' & _ & N1').
  exists s1, s1', es1, xs1, es1', xs1'. split; [exact E1|]. split; [exact E1'|]. split; [exact T1|]. split; [exact P1|]. split.
  - assert (EP : map snd (trainer es1 xs1) = map x_po xs1).
    { unfold trainer. assert (L : length (net es1) = length (map x_po xs1)) by (unfold net; rewrite !map_length; eapply trainable_lengths; eauto). revert L. generalize (net es1) (map x_po xs1). clear.
      intros a. induction a as [|p a IH]; intros [|q t] L; cbn in *; try lia; [reflexivity|]. f_equal. apply IH. lia. }
    rewrite <- EP, N0. rewrite Forall_map. clear - HA2. induction HA2 as [|t t' ts ts' (_ & H & _) _ IH]; constructor; auto.
  - split; [exact T1'|]. split; [exact P1'|]. rewrite N1, N1'. eapply alike_nets; eauto.
Qed.
End WithNum.
