(** * EvalProofs: Predict, CalculateLoss, CalculateAccuracy. *)
From Coq Require Import String ZArith List Bool Arith Lia.
From Verif Require Import Num Heap Spec Matrix Activation Misc Accuracy Loss Network Optimizers ModelGo PureSpec Repr HeapLemmas LoopLemmas MatrixProofs MatrixFacts ActivationProofs LayerProofs LayerFacts LossProofs LossCode OptSpec OptProofs OptFacts ModelSpec ModelProofs.
Import ListNotations.
Open Scope Z_scope.
Open Scope go_scope.

Section WithNum.
Context {K : Num}.
Implicit Types (s : state K) (p : player K) (ps : list (player K)) (es : list (lent K)).

Lemma pend_inference ps r : forall X U q, pend false ps r X U q = pnet ps r X.
Proof. induction ps as [|p ps IH]; intros X U q; [reflexivity|]. simpl. apply IH. Qed.
Lemma net_draws_inference ps r : net_draws false ps r = O.
Proof. induction ps as [|p ps IH]; [reflexivity|]. simpl. exact IH. Qed.

(** An inference pass through a model with at least one layer yields a fresh output. *)
Lemma wp_infer s m es i o x rsx r X :
  consistent s m es i o -> (1 <= length es)%nat -> own s x rsx r i X -> (1 <= r)%nat ->
  wp (Forward m x false) s (fun outs s' => exists out rs,
    (forall s2, go_nth (K := K) outs (m_size m) s2 = (Ret out, s2)) /\ own s' out rs r o (pnet (net es) r X) /\
    fresh s rs /\ NoDup rs /\ (1 <= o)%nat /\ forward_effect (map e_ref es) 0 s s').
Proof.
  intros HC HL HX Hr. eapply wp_conseq; [eapply wp_Forward; eauto; discriminate|].
  intros outs s' (outs' & rss & -> & HR & HF & HN & HO & HE).
  destruct HC as (_ & Hs & _ & _ & Hch & Hok).
  destruct (list_snoc _ HL) as (es0 & e & ->).
  destruct (fwd_rep_snoc _ _ _ _ _ _ _ _ _ _ HR) as (outs0 & out & rss0 & rs & rsm & -> & -> & HR0 & HRe).
  rewrite net_draws_inference in HE. rewrite pend_inference in HRe.
  simpl in HRe. destruct HRe as (HOw & HNd & _ & _).
  rewrite net_app in Hch. apply chain_snoc in Hch. destruct Hch as (_ & Ho).
  exists out, rs. split.
  { intros s2. rewrite Hs. apply go_nth_app' with (l1 := x :: outs0) (l2 := []); auto.
    rewrite app_length. simpl. destruct (fwd_rep_length _ _ _ _ _ _ _ _ _ HR0). lia. }
  split; [rewrite net_app; unfold pnet in *; rewrite fold_left_app; simpl; rewrite <- Ho; exact HOw|].
  assert (Hinc : forall y, In y rs -> In y (orow_all (rss0 ++ [(rs, rsm)]))).
  { intros y Hy. rewrite orow_all_app. apply in_or_app. right. unfold orow_all. simpl. rewrite app_nil_r. apply in_or_app. auto. }
  split; [unfold fresh in *; rewrite Forall_forall in *; auto|].
  split; [exact HNd|]. split; [|exact HE].
  rewrite Forall_forall in Hok. destruct (Hok e) as (l & _ & Hl); [apply in_or_app; simpl; auto|].
  rewrite <- Ho. apply Hl.
Qed.

Lemma forward_effect_frame0 refs s s1 rs s2 : forward_effect refs 0 s s1 -> fresh s rs ->
  frame (among rs) s1 s2 -> rest s1 s2 -> forward_effect refs 0 s s2.
Proof.
  intros (F & R2 & L & G) HF F' (Rl & Ro & Rg & Rk & Rg').
  split; [eapply frame_trans; [exact F|exact F'|]; intros y Hy [[]|Hy2]; unfold fresh in HF; rewrite Forall_forall in HF; specialize (HF y Hy2); lia|].
  split; [destruct R2 as (A & B & C); split; [congruence|]; split; congruence|].
  split; [|congruence].
  destruct L as (Ln & Lk). split; [congruence|]. intros n l Hn. rewrite Rl. apply Lk; auto.
Qed.
Lemma forward_effect_ext0 refs s s1 s2 : forward_effect refs 0 s s1 -> ext s1 s2 -> forward_effect refs 0 s s2.
Proof. intros H [F R]. eapply forward_effect_frame0 with (rs := []); eauto. constructor. Qed.

Lemma wp_CalculateLoss s m es i o k x rsx y rsy r X Y :
  consistent s m es i o -> (1 <= length es)%nat -> m_loss m = Some (MkLoss k (Z.of_nat o)) ->
  own s x rsx r i X -> own s y rsy r o Y -> (1 <= r)%nat ->
  wp (CalculateLoss m x y) s (fun v s' => v = ploss k r o (pnet (net es) r X) Y /\
    forward_effect (map e_ref es) 0 s s').
Proof.
  intros HC HL Hlo HX HY Hr. unfold CalculateLoss. apply wp_bind.
  eapply wp_conseq; [eapply wp_infer; eauto|]. intros outs s1 (out & rs & Hg & HO & HF & HN & Ho & HE).
  apply wp_bind. eapply wp_eq; [apply Hg|]. rewrite Hlo.
  assert (HY1 : own s1 y rsy r o Y) by (eapply own_frame; [eauto|apply HE|]; intros ? ? []).
  eapply wp_conseq.
  { eapply wp_Loss_Forward; eauto. apply disjoint_sym. eapply disjoint_old_fresh; eauto. eapply own_old; eauto. }
  intros v s2 (-> & _ & F & R). split; [reflexivity|].
  eapply forward_effect_frame0; eauto.
  destruct (fwd_clips k); [exact F|apply frame_nothing; exact F].
Qed.

Lemma wp_CalculateAccuracy s m es i o x rsx y rsy r X Y a :
  int_faithful K -> Z.of_nat o <= 2 ^ 53 ->
  consistent s m es i o -> (1 <= length es)%nat ->
  paccuracy (m_acctype m) (m_prec m) r o (pnet (net es) r X) Y = Some a ->
  own s x rsx r i X -> own s y rsy r o Y -> (1 <= r)%nat ->
  wp (CalculateAccuracy m x y) s (fun v s' => v = a /\ forward_effect (map e_ref es) 0 s s').
Proof.
  intros HI Ho53 HC HL Ha HX HY Hr. unfold CalculateAccuracy. apply wp_bind.
  eapply wp_conseq; [eapply wp_infer; eauto|]. intros outs s1 (out & rs & Hg & HO & HF & HN & Ho & HE).
  assert (HY1 : own s1 y rsy r o Y) by (eapply own_frame; [eauto|apply HE|]; intros ? ? []).
  assert (HD : disjoint rsy rs) by (eapply disjoint_old_fresh; eauto; eapply own_old; eauto).
  unfold paccuracy in Ha. destruct (m_acctype m =? 0).
  { injection Ha as <-. apply wp_bind. eapply wp_eq; [apply Hg|]. eapply wp_eq; [eapply RegressionAccuracy_run; eauto|]. auto. }
  destruct (m_acctype m =? 1).
  { injection Ha as <-. apply wp_bind. eapply wp_eq; [apply Hg|]. eapply wp_conseq; [eapply wp_CategoricalAccuracy; eauto|].
    intros v s2 (-> & E). split; auto. eapply forward_effect_ext0; eauto. }
  destruct (m_acctype m =? 2); [|discriminate].
  injection Ha as <-. apply wp_bind. eapply wp_eq; [apply Hg|]. eapply wp_conseq; [eapply wp_BinaryCategoricalAccuracy; eauto|].
  intros v s2 (-> & _ & F & R). split; auto. eapply forward_effect_frame0; eauto.
Qed.

Lemma wp_Predict s m es i o x rsx r X c P :
  consistent s m es i o -> (1 <= length es)%nat ->
  ppredict (m_acctype m) r o (pnet (net es) r X) = Some (c, P) ->
  own s x rsx r i X -> (1 <= r)%nat ->
  wp (Predict m x) s (fun out s' => exists rs, own s' out rs r c P /\ fresh s rs /\ NoDup rs /\
    forward_effect (map e_ref es) 0 s s').
Proof.
  intros HC HL Ha HX Hr. unfold Predict. apply wp_bind.
  eapply wp_conseq; [eapply wp_infer; eauto|]. intros outs s1 (out & rs & Hg & HO & HF & HN & Ho & HE).
  unfold ppredict in Ha. destruct (m_acctype m =? 0).
  { injection Ha as <- <-. eapply wp_eq; [apply Hg|]. exists rs. auto. }
  destruct (m_acctype m =? 1).
  { injection Ha as <- <-. apply wp_bind. eapply wp_eq; [apply Hg|]. eapply wp_conseq; [eapply wp_RowMax; eauto|].
    intros v s2 (rs2 & (HO2 & HF2 & HN2 & _) & E). exists rs2. split; auto.
    split; [eapply fresh_mono; [|exact HF2]; eapply frame_nrows; apply HE|]. split; auto. eapply forward_effect_ext0; eauto. }
  destruct (m_acctype m =? 2); [|discriminate].
  injection Ha as <- <-. apply wp_bind. eapply wp_eq; [apply Hg|]. eapply wp_conseq; [eapply wp_OutputBinaryValues; eauto|].
  intros v s2 (-> & HO2 & F & R). exists rs. split; auto. split; auto. split; auto. eapply forward_effect_frame0; eauto.
Qed.

End WithNum.
