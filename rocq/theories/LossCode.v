(** * LossCode: gradients returned by the loss methods; concrete counterexamples. *)
From Coq Require Import String ZArith List Bool Arith Lia Reals Lra.
From Coquelicot Require Import Coquelicot.
From Verif Require Import Num NumR Heap Matrix Network Loss Spec PureSpec Repr RSum HeapLemmas LoopLemmas MatrixProofs LayerProofs MatrixFacts MiscFacts ActFacts LayerFacts LayerReal LossProofs LossReal GradSpec Grad GradCode.
Import ListNotations.
Open Scope R_scope.
Open Scope go_scope.

Lemma vjp_loss L f p r (X G dW dB dX : rpm) : is_vjp f p r X G dW dB dX -> is_grad r (p_out p) L (f p X) G -> is_loss_grad L f p r X dW dB dX.
Proof.
  intros HV HG Wc Bc Xc W' B' X' HW0 HB0 HX0 HW HB HX.
  destruct (HV Wc Bc Xc W' B' X' HW0 HB0 HX0 HW HB HX) as (O' & HO & E). rewrite Rmult_1_l in E. rewrite <- E.
  apply (HG (fun t => f (with_params p (Wc t) (Bc t)) (Xc t))); [|exact HO].
  cbv beta. rewrite HW0, HB0, HX0. destruct p; reflexivity.
Qed.

(** ** Softmax followed by cross-entropy *)
Definition uce (r c : nat) (Y A : rpm) : R := rsum r (fun i => - ln (rsum c (fun j => entry A i j * entry Y i j)) / INR r).
Lemma uce_grad r c (Yh Y : rpm) : (1 <= r)%nat -> one_hot r c Y -> (forall i j, (i < r)%nat -> (j < c)%nat -> 0 < entry Yh i j) ->
  is_grad r c (uce r c Y) Yh (pce_loss_back r c Yh Y).
Proof.
  intros Hr (lab & Hlab) H01 Ac A' H0 HD. unfold inner, uce. pose proof (INR_pos r Hr).
  apply (d_rsum r (fun i t => - ln (rsum c (fun j => entry (Ac t) i j * entry Y i j)) / INR r)). intros i Hi.
  destruct (Hlab i Hi) as (Hl & HY). pose proof (H01 i _ Hi Hl) as Hp.
  apply (d_ext (fun t => - ln (entry (Ac t) i (lab i)) / INR r)).
  { intros t. now rewrite (onehot_dot c (fun j => entry Y i j) (lab i) (fun j => entry (Ac t) i j) Hl HY). }
  assert (E : entry (Ac 0) i (lab i) = entry Yh i (lab i)) by now rewrite H0.
  eapply d_eq; [|apply d_div, d_opp; apply (d_ln (fun t => entry (Ac t) i (lab i))); [rewrite E; lra|apply HD; auto]].
  rewrite E.
  rewrite (rsum_ext c _ (fun j => - (entry A' i j / entry Yh i j) / INR r * entry Y i j)).
  - rewrite (onehot_dot c (fun j => entry Y i j) (lab i) (fun j => - (entry A' i j / entry Yh i j) / INR r) Hl HY). toR. field. lra.
  - intros j Hj. unfold pce_loss_back. rewrite entry_mk by auto. cbn [fdiv fneg ofZ RNum]. rewrite R_Zofnat. pose proof (H01 i j Hi Hj).
    toR. field. lra.
Qed.
Lemma softmax_range r c (A : rpm) i j : (i < r)%nat -> (j < c)%nat -> 0 < entry (psoftmax r c A) i j <= 1.
Proof.
  intros Hi Hj. split; [apply R_softmax_pos; auto|].
  rewrite <- (R_softmax_sum r c A i Hi ltac:(lia)). apply (rsum_term_le c (fun k => entry (psoftmax r c A) i k)); [|exact Hj].
  intros k Hk. left. apply R_softmax_pos; auto.
Qed.
Lemma pce_softmax r c (Y Z : rpm) : pce r c (psoftmax r c Z) Y = uce r c Y (psoftmax r c Z).
Proof.
  rewrite R_pce. unfold uce. apply rsum_ext. intros i Hi. f_equal. f_equal. f_equal. apply rsum_ext. intros j Hj. f_equal.
  apply clipR_id. pose proof (softmax_range r c Z i j Hi Hj). lra.
Qed.
Lemma fused_back r c (Y Z : rpm) : one_hot r c Y ->
  psoftmax_back r c (psoftmax r c Z) (pce_loss_back r c (psoftmax r c Z) Y) = pce_back r c Y (psoftmax r c Z).
Proof.
  intros (lab & Hlab). set (O := psoftmax r c Z). unfold psoftmax_back, pce_back. apply mk_ext. intros i j Hi Hj.
  destruct (Hlab i Hi) as (Hl & HY).
  assert (HP : forall n, (n < c)%nat -> 0 < entry O i n) by (intros n Hn; apply R_softmax_pos; auto).
  assert (Hr : 0 < INR r) by (apply INR_pos; lia).
  transitivity (rsum c (fun n => - ((if (j =? n)%nat then 1 else 0) - entry O i j) / INR r * entry Y i n)).
  { apply rsum_ext. intros n Hn. unfold pce_loss_back. rewrite entry_mk by auto. unfold f0. cbn [fmul fsub fadd fdiv fneg ofZ RNum].
    rewrite R_Zofnat. pose proof (HP n Hn). destruct (Nat.eqb_spec j n) as [->|]; toR; field; lra. }
  rewrite (onehot_dot c (fun j => entry Y i j) (lab i) (fun n => - ((if (j =? n)%nat then 1 else 0) - entry O i j) / INR r) Hl HY).
  rewrite HY by auto. unfold f1. cbn [feq fsub fdiv ofZ RNum]. rewrite R_Zofnat. unfold r_eqb.
  destruct (Nat.eqb_spec j (lab i)) as [Ej|Ej].
  - rewrite Ej, Nat.eqb_refl. destruct (Req_EM_T 1 1); [|lra]. toR. field. lra.
  - destruct (Nat.eqb_spec (lab i) j); [congruence|]. destruct (Req_EM_T 0 1); [lra|]. toR. field. lra.
Qed.

Lemma fresh_mat_keep {K : Num} (s s1 s2 : state K) m rs r c A : fresh_mat s s1 m rs r c A -> frame nothing s1 s2 -> fresh_mat s s2 m rs r c A.
Proof. intros (H1&H2&H3&H4) HF. split; [|auto]. eapply own_frame; [exact H1|exact HF|intros ? _ []]. Qed.
Lemma bwd_result_keep {K : Num} (s s1 s2 : state K) g k c r A B C :
  bwd_result s s1 g k c r A B C -> frame nothing s1 s2 -> bwd_result s s2 g k c r A B C.
Proof.
  intros (a&b&x&Ha&Hb&Hx&D) HF. exists a, b, x. split; [|split; [|split; [|exact D]]]; eapply fresh_mat_keep; eauto.
Qed.
Definition fused_prog (lref : nat) (size : Z) (x y : matrix) : M RNum (grads3 * grads3) :=
  (out <- Layer_Forward lref x ;;
   g1 <- BackwardCrossEntropy lref x y out ;;
   d <- Loss_Backward (MkLoss CE size) out y ;;
   g2 <- Layer_Backward lref x d ;;
   ret (g1, g2)).
Lemma wp_fused s lref l rw rb p x rsx r (X : rpm) y rsy (Y : rpm) :
  nth_error (h_layers s) lref = Some l -> lown s l rw rb p -> p_kind p = SoftmaxK ->
  own s x rsx r (p_in p) X -> (1 <= r)%nat -> own s y rsy r (p_out p) Y ->
  wp (fused_prog lref (Z.of_nat (p_out p)) x y) s (fun gg s' =>
    let O := pforward p r X in
    let G1 := pce_back r (p_out p) Y O in
    let G2 := psoftmax_back r (p_out p) O (pce_loss_back r (p_out p) O Y) in
    bwd_result s s' (fst gg) (p_in p) (p_out p) r (pdW r (p_in p) (p_out p) X G1) (psum0 r (p_out p) G1) (pdX r (p_in p) (p_out p) G1 (p_w p)) /\
    bwd_result s s' (snd gg) (p_in p) (p_out p) r (pdW r (p_in p) (p_out p) X G2) (psum0 r (p_out p) G2) (pdX r (p_in p) (p_out p) G2 (p_w p))).
Proof.
  intros Hl HL Hk HX Hr HY. unfold fused_prog. assert (Hc : (1 <= p_out p)%nat) by apply HL.
  apply wp_bind. eapply wp_conseq; [eapply wp_forward_train; eauto|]. cbv beta.
  intros out s1 (rs & rsm & l' & HM & Hfm & Hnm & Hdm & HC & HF & HR2 & HLs & (mk0 & El') & HG).
  assert (EO : ptrain p r X (uniforms s) = pforward p r X) by (unfold ptrain; now rewrite Hk).
  rewrite EO in *. assert (HO1 := proj1 HM).
  assert (HX1 : own s1 x rsx r (p_in p) X) by (eapply own_frame; [exact HX|exact HF|intros ? _ []]).
  assert (HY1 : own s1 y rsy r (p_out p) Y) by (eapply own_frame; [exact HY|exact HF|intros ? _ []]).
  assert (Hl1 : nth_error (h_layers s1) lref = Some l'). { rewrite HLs. eapply nth_error_upd_same; eauto. }
  assert (HL1 : lown s1 l' rw rb p). { subst l'. eapply lown_after_forward; eauto. }
  apply wp_bind. eapply wp_conseq; [eapply wp_BackwardCrossEntropy; [exact Hl1|exact HL1|exact HX1|exact Hr|exact HY1|exact HO1]|].
  cbv beta. intros g1 s2 (HB1 & HE2).
  assert (HO2 := own_ext _ _ _ _ _ _ _ HO1 HE2). assert (HY2 := own_ext _ _ _ _ _ _ _ HY1 HE2).
  apply wp_bind. eapply wp_conseq; [eapply (wp_CE_Backward s2 out y rs rsy r r (p_out p)); eauto|]. cbv beta. intros d s3 (rsd & HMd & HE3).
  assert (HE13 := ext_trans _ _ _ HE2 HE3).
  assert (Hl3 : nth_error (h_layers s3) lref = Some l'). { destruct HE13 as (_ & (E & _)). now rewrite E. }
  assert (HL3 : lown s3 l' rw rb p) by (eapply lown_frame; [exact HL1|apply HE13|intros ? ? []]).
  assert (HX3 := own_ext _ _ _ _ _ _ _ HX1 HE13).
  assert (HC3 : cache_ok s3 l' p r rs rsm (pforward p r X) (ptrain_mask p r (uniforms s))).
  { unfold cache_ok in *. rewrite Hk in *. exact (own_ext _ _ _ _ _ _ _ HC HE13). }
  assert (Hno : (nrows s <= nrows s1)%nat) by (eapply frame_nrows; eauto).
  apply wp_bind. eapply wp_conseq.
  { eapply (wp_backward s3 lref l' rw rb p x rsx r X d rsd (pce_loss_back r (p_out p) (pforward p r X) Y) rs [] (pforward p r X) []); auto.
    - congruence.
    - apply HMd.
    - apply HMd.
    - unfold cache_ok. rewrite Hk. unfold cache_ok in HC3. rewrite Hk in HC3. exact HC3.
    - eapply disjoint_old_fresh; [eapply own_old; eapply own_ext; [exact HX1|exact HE2]|apply HMd].
    - eapply disjoint_old_fresh; [|apply HMd]. destruct HL1 as (_&_&_&_&_&_&_&HW&_). eapply own_old. eapply own_ext; [exact HW|exact HE2].
    - eapply disjoint_old_fresh; [|apply HMd]. destruct HL1 as (_&_&_&_&_&_&_&_&HB). eapply own_old. eapply own_ext; [exact HB|exact HE2].
    - eapply disjoint_old_fresh; [eapply own_old; exact HO2|apply HMd].
    - intros ? []. }
  cbv beta. intros g2 s4 (HB2 & (HF4 & HR4) & _). apply wp_ret. cbv zeta. simpl fst. simpl snd.
  assert (HF24 : frame nothing s2 s4).
  { apply frame_fresh with (rs := rsd); [|apply HMd]. eapply frame_trans; [apply HE3|exact HF4|]. intros ? _ [[]|H]; exact H. }
  split.
  - eapply bwd_result_keep; [|exact HF24]. eapply bwd_result_mono; [exact HF|exact HB1].
  - replace (pback p r (pforward p r X) ([] : rpm) (pce_loss_back r (p_out p) (pforward p r X) Y)) with (psoftmax_back r (p_out p) (pforward p r X) (pce_loss_back r (p_out p) (pforward p r X) Y)) in HB2 by (unfold pback; now rewrite Hk).
    eapply bwd_result_mono; [|exact HB2]. eapply (frame_trans nothing nothing nothing); [exact HF|apply HE13|]. intros ? _ [[]|[]].
Qed.
Lemma fused_correct s lref l rw rb p x rsx r (X : rpm) y rsy (Y : rpm) :
  nth_error (h_layers s) lref = Some l -> lown s l rw rb p -> p_kind p = SoftmaxK ->
  own s x rsx r (p_in p) X -> (1 <= r)%nat -> own s y rsy r (p_out p) Y -> one_hot r (p_out p) Y ->
  returns (fused_prog lref (Z.of_nat (p_out p)) x y) s (fun gg s' => exists dW dB dX,
    bwd_result s s' (fst gg) (p_in p) (p_out p) r dW dB dX /\ bwd_result s s' (snd gg) (p_in p) (p_out p) r dW dB dX /\
    is_loss_grad (fun A => pce r (p_out p) A Y) (fun q A => pforward q r A) p r X dW dB dX).
Proof.
  intros Hl HL Hk HX Hr HY H1. apply returns_wp. eapply wp_conseq; [eapply wp_fused; eauto|]. cbv beta zeta.
  assert (EF : forall W B A, pforward (with_params p W B) r A = psoftmax r (p_out p) (paffine (with_params p W B) r A)).
  { intros. unfold pforward, pact. simpl. now rewrite Hk. }
  assert (EP : pforward p r X = psoftmax r (p_out p) (paffine p r X)) by (unfold pforward, pact; now rewrite Hk).
  intros gg s' (HB1 & HB2). rewrite EP in *. rewrite (fused_back r (p_out p) Y (paffine p r X) H1) in HB2.
  do 3 eexists. split; [exact HB1|]. split; [exact HB2|].
  assert (HV : is_vjp (fun q A => pforward q r A) p r X (pce_loss_back r (p_out p) (pforward p r X) Y)
     (pdW r (p_in p) (p_out p) X (pce_back r (p_out p) Y (pforward p r X))) (psum0 r (p_out p) (pce_back r (p_out p) Y (pforward p r X))) (pdX r (p_in p) (p_out p) (pce_back r (p_out p) Y (pforward p r X)) (p_w p))).
  { assert (Hs : smooth_at p r X) by (unfold smooth_at; now rewrite Hk).
    pose proof (vjp_plain p r X (pce_loss_back r (p_out p) (pforward p r X) Y) ltac:(congruence) ltac:(congruence) Hs) as H. cbv zeta in H.
    replace (pback p r (pforward p r X) [] (pce_loss_back r (p_out p) (pforward p r X) Y)) with (pce_back r (p_out p) Y (pforward p r X)) in H; [exact H|].
    unfold pback. rewrite Hk, EP. symmetry. now apply fused_back. }
  assert (HG : is_grad r (p_out p) (uce r (p_out p) Y) (pforward p r X) (pce_loss_back r (p_out p) (pforward p r X) Y)).
  { apply uce_grad; auto. intros i j Hi Hj. rewrite EP. apply R_softmax_pos; auto. }
  pose proof (vjp_loss _ _ _ _ _ _ _ _ _ HV HG) as HLG. rewrite EP in HLG.
  intros Wc Bc Xc W' B' X' HW0 HB0 HX0 HW HB HX'.
  eapply d_ext; [|exact (HLG Wc Bc Xc W' B' X' HW0 HB0 HX0 HW HB HX')]. intros t. cbv beta. rewrite EF. symmetry. apply pce_softmax.
Qed.
