(** * Track: float64 training stays as close to exact training as [TNum] says. *)
From Coq Require Import String ZArith QArith Qreals List Bool Arith Lia Reals Lra.
From Flocq Require Import IEEE754.Binary IEEE754.Bits.
From Verif Require Import Num NumR NumQ NumB64 Heap Spec Matrix Loss Network Optimizers ModelGo PureSpec Repr LossProofs OptSpec ModelSpec FitFacts FitProofs ModelRefute TrackSpec TrackSim TrackNum.
Import ListNotations.
Open Scope R_scope.
Open Scope go_scope.

Lemma map_map_id {A} (l : list (list A)) : map (map (fun x => x)) l = l.
Proof. rewrite (map_ext _ (fun x => x)) by (intros; apply map_id). apply map_id. Qed.
Lemma mat_id {K : Num} (A : pm K) : carry_mat (fun x => x) A = A.
Proof. apply map_map_id. Qed.
Lemma carry_id {K : Num} (t : player K * popt K) : carry (fun x => x) t = t.
Proof. destruct t as (p, po). destruct p, po. unfold carry, carry_layer, carry_opt, carry_mat. cbn. rewrite !map_map_id. reflexivity. Qed.

Section Track.
Context (L : libm).
Notation BN := (B64 L).
Definition rhoB : BN -> tracked -> Prop := rho_B.
Definition rhoR : RNum -> tracked -> Prop := rho_R.
Lemma exactly_B (x : BN) : rhoB x (exactly x).
Proof. intros H. split; [exact H|]. cbn [t_val t_err exactly]. rewrite <- b64_Q_R, Rminus_eq_0, Rabs_R0, RMicromega.Q2R_0. lra. Qed.
Lemma exactly_R (x : BN) : rhoR (b64_R x) (exactly x).
Proof. intros _. symmetry. apply b64_Q_R. Qed.
Notation exact_t := (carry (K1 := BN) (K2 := RNum) b64_R).
Notation track_t := (carry (K1 := BN) (K2 := TNum) exactly).
Notation exact_m := (carry_mat (K1 := BN) (K2 := RNum) b64_R).
Notation track_m := (carry_mat (K1 := BN) (K2 := TNum) exactly).
Lemma self_B : (forall A, mrel rhoB A (track_m A)) /\ (forall t, trel rhoB t (track_t t)).
Proof.
  destruct (carry_rel rhoB (K0 := BN) (fun x => x) exactly exactly_B) as (H1 & H2). split.
  - intros A. specialize (H1 A). now rewrite mat_id in H1.
  - intros t. specialize (H2 t). now rewrite carry_id in H2.
Qed.
Lemma self_R : (forall A, mrel rhoR (exact_m A) (track_m A)) /\ (forall t, trel rhoR (exact_t t) (track_t t)).
Proof. exact (carry_rel rhoR (K0 := BN) b64_R exactly exactly_R). Qed.
Lemma rel_map {A B C} (R : B -> C -> Prop) (f : A -> B) (g : A -> C) l : (forall a, R (f a) (g a)) -> Forall2 R (map f l) (map g l).
Proof. intros H. induction l; simpl; constructor; auto. Qed.

Lemma close_of A E T : mrel rhoB A T -> mrel rhoR E T -> close A E T.
Proof.
  intros HB HR i j HO. pose proof (entry_rel rhoB B_ofZ A T i j HB HO) as (F & D). pose proof (entry_rel rhoR R_ofZ E T i j HR HO) as V.
  split; [exact F|]. rewrite <- V. exact D.
Qed.
Lemma close_net_of ts es us : Forall2 (trel rhoB) ts us -> Forall2 (trel rhoR) es us -> close_net (map fst ts) (map fst es) (map fst us).
Proof.
  intros HB. revert es. induction HB as [|t u ts us (HP & _) HB IH]; intros es HR; inversion HR as [|e u' es' us' (HE & _) HR']; subst; simpl; constructor.
  - apply close_of; [apply HP|apply HE].
  - apply close_of; [apply HP|apply HE].
  - apply IH. exact HR'.
Qed.
Lemma pnet_close r ts es us (X : pm BN) : Forall2 (trel rhoB) ts us -> Forall2 (trel rhoR) es us -> sure_net (map fst us) r (track_m X) = true ->
  close (pnet (map fst ts) r X) (pnet (map fst es) r (exact_m X)) (pnet (map fst us) r (track_m X)).
Proof.
  intros HB HR HS. apply close_of.
  - apply (pnet_rel rhoB B_add B_mul B_max B_ofZ B_lt); [|apply self_B|exact HS]. clear -HB. induction HB; simpl; constructor; [apply H|assumption].
  - apply (pnet_rel rhoR R_add R_mul R_max R_ofZ R_lt); [|apply self_R|exact HS]. clear -HR. induction HR; simpl; constructor; [apply H|assumption].
Qed.
(** The run of the training in the three arithmetics. *)
Lemma train_both o (ts : list (player BN * popt BN)) U q U' q' e b (X Y : pm BN) :
  sure_train o (map track_t ts) (epochs_of e b (track_m X) (track_m Y)) = true ->
  let us := fst (ptrain_on MSE o (map track_t ts) (fun _ => f0) 0 (epochs_of e b (track_m X) (track_m Y))) in
  Forall2 (trel rhoB) (fst (ptrain_on MSE o ts U q (epochs_of e b X Y))) us /\
  Forall2 (trel rhoR) (fst (ptrain_on (K := RNum) MSE o (map exact_t ts) U' q' (epochs_of e b (exact_m X) (exact_m Y)))) us.
Proof.
  intros HS us. split.
  - apply (ptrain_rel rhoB B_add B_sub B_mul B_div B_neg B_max B_ofZ B_unknown B_le B_lt); [apply epochs_rel; apply self_B| |exact HS].
    clear. induction ts; simpl; constructor; [apply self_B|assumption].
  - apply (ptrain_rel rhoR R_add R_sub R_mul R_div R_neg R_max R_ofZ R_unknown R_le R_lt); [apply epochs_rel; apply self_R| |exact HS].
    clear. induction ts; simpl; constructor; [apply self_R|assumption].
Qed.
Lemma net_trainer (s : state BN) m es xs i o k : trainable s m es xs i o k -> map fst (trainer es xs) = net es.
Proof.
  intros (_ & _ & _ & _ & _ & HF & _). unfold trainer. assert (E : length (net es) = length (map x_po xs)).
  { unfold net. rewrite !map_length. clear -HF. induction HF; simpl; congruence. }
  revert E. generalize (net es) (map x_po xs). induction l as [|p l IH]; intros [|y m'] E; try discriminate; [reflexivity|]. simpl. f_equal. apply IH. now injection E.
Qed.
Lemma fit_tracked (s : state BN) m es xs i o x rsx y rsy n (X Y : pm BN) epochs bs xv yv U q :
  (0 <= bs)%Z -> (Z.of_nat n + bs <= 2 ^ 52)%Z -> (1 <= n)%nat -> trainable s m es xs i o MSE -> data_ok s es x rsx y rsy n i o X Y -> m_acctype m = 0%Z ->
  let b := batch_rows n bs in let e := Z.to_nat epochs in
  let T := fst (ptrain_on MSE o (map track_t (trainer es xs)) (fun _ => f0) 0 (epochs_of e b (track_m X) (track_m Y))) in
  let E := fst (ptrain_on (K := RNum) MSE o (map exact_t (trainer es xs)) U q (epochs_of e b (exact_m X) (exact_m Y))) in
  sure_train o (map track_t (trainer es xs)) (epochs_of e b (track_m X) (track_m Y)) = true ->
  returns (Fit m x y epochs bs xv yv 0) s (fun _ s' => exists es' xs', trainable s' m es' xs' i o MSE /\ Forall2 same_place es es' /\
    close_net (net es') (map fst E) (map fst T) /\
    forall x2 rs2 r X2, own s' x2 rs2 r i X2 -> (1 <= r)%nat -> sure_net (map fst T) r (track_m X2) = true ->
      returns (Predict m x2) s' (fun out s2 => exists rs P, own s2 out rs r o P /\ close P (pnet (map fst E) r (exact_m X2)) (pnet (map fst T) r (track_m X2)))).
Proof.
  intros H1 H2 H3 HT HD HA b e T E HS. destruct (fit_trains (K := BN) s m es xs i o MSE x rsx y rsy n X Y epochs bs xv yv (B64_min_faithful L) H1 H2 H3 HT HD) as (u & s' & EQ & nn & _ & HR & _ & _).
  exists u, s'. split; [exact EQ|]. destruct HR as (es' & xs' & HT' & HP & _ & HTr & _). exists es', xs'.
  destruct (train_both o (trainer es xs) (r_uni (h_rng s)) (r_upos (h_rng s)) U q e b X Y HS) as (GB & GR). fold T in GB, GR. fold E in GR.
  change (Forall2 (trel rhoB) (fst (ptrain_on MSE o (trainer es xs) (r_uni (h_rng s)) (r_upos (h_rng s)) (epochs_of (Z.to_nat epochs) (batch_rows n bs) X Y))) T) in GB. rewrite <- HTr in GB.
  pose proof (net_trainer s' m es' xs' i o MSE HT') as EN.
  split; [exact HT'|]. split; [exact HP|]. split.
  - rewrite <- EN. apply close_net_of; assumption.
  - intros x2 rs2 r X2 HO Hr HSn. destruct HT' as (HC & _ & HL & _).
    destruct (predict_spec s' m es' i o x2 rs2 r X2 o (pnet (net es') r X2) HC HL) as (out & s2 & EP & rs & HOut & _); [rewrite HA; reflexivity|exact HO|exact Hr|].
    exists out, s2. split; [exact EP|]. exists rs, (pnet (net es') r X2). split; [exact HOut|]. rewrite <- EN. apply pnet_close; assumption.
Qed.
End Track.
