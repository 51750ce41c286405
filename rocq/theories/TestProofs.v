(** * TestProofs: the unit tests pass, whatever the random numbers. *)
From Coq Require Import String ZArith List Bool Arith Lia.
From Verif Require Import Num NumB64 LayerData Heap Spec Matrix Activation Misc Accuracy Network Loss Optimizers ModelGo PureSpec Repr HeapLemmas LoopLemmas
  MatrixFacts MatrixProofs MatrixGlue MiscFacts LayerProofs LayerFacts LayerGlue LossProofs MiscProofs Tests.
Import ListNotations.
Open Scope Z_scope.
Open Scope go_scope.

Section AnyNum.
Context {K : Num}.
Implicit Types s : state K.
Lemma wp_must {A} (m : M K A) k s Q : wp m s (fun a s' => wp (k a) s' Q) -> wp (must m k) s Q.
Proof. intros H. unfold must. apply wp_bind. apply wp_catch. eapply wp_conseq; [exact H|]. auto. Qed.
Lemma lit_rows_run (rows : list (list K)) : forall s, lit_rows rows s = (Ret (seq (S (nrows s)) (length rows)), with_rows s (h_rows s ++ rows)).
Proof.
  induction rows as [|r t IH]; intros s; simpl.
  - rewrite app_nil_r. destruct s; reflexivity.
  - unfold bind, alloc_row. rewrite IH. cbn. unfold nrows. rewrite app_length. simpl. rewrite Nat.add_1_r, <- app_assoc. reflexivity.
Qed.
(** A literal matrix. *)
Definition header (sl : slice) (r c : nat) : matrix := MkMatrix (Z.of_nat r) (Z.of_nat c) sl.
Lemma wp_lit (A : pm K) r c s : shape r c A ->
  wp (lit A) s (fun sl s' => exists rs, fresh_mat s s' (header sl r c) rs r c A /\ ext s s').
Proof.
  intros HS. pose proof HS as (HL & HF). unfold lit. apply wp_bind. eapply wp_eq; [apply lit_rows_run|].
  set (rs := seq (S (nrows s)) (length A)).
  unfold alloc_out. eapply wp_eq; [reflexivity|].
  exists rs. split; [|split; [|repeat split]].
  - split; [|split; [|split]].
    + split; [reflexivity|]. split; [reflexivity|]. split; [simpl; unfold rs; now rewrite seq_length|]. split; [exact HS|]. split.
      * exists rs. simpl. split; [rewrite nth_error_app2 by lia; now rewrite Nat.sub_diag|]. split; [lia|]. now rewrite firstn_all.
      * unfold rs, nrows. generalize [seq (S (length (h_rows s))) (length A)]. intros x.
        enough (H : forall pre B, Forall2 (fun ref row => row_at (with_outs (with_rows s (pre ++ B)) (h_outs (with_rows s (h_rows s ++ A)) ++ x)) ref = Some row) (seq (S (length pre)) (length B)) B) by apply H.
        intros pre B. revert pre. induction B as [|b B IH]; intros pre; [constructor|]. cbn [length seq]. constructor.
        -- simpl. rewrite nth_error_app2 by lia. now rewrite Nat.sub_diag.
        -- specialize (IH (pre ++ [b])). rewrite app_length in IH. cbn [length] in IH. rewrite Nat.add_1_r, <- app_assoc in IH. exact IH.
    + unfold fresh. apply Forall_forall. intros x Hx. unfold rs in Hx. apply in_seq in Hx. lia.
    + apply seq_NoDup.
    + simpl. unfold nouts. lia.
  - split; [|split; [|split]].
    + intros o0 arr. destruct o0; [auto|]. simpl. intros H. rewrite nth_error_app1; [exact H|]. apply nth_error_Some. congruence.
    + intros x row. destruct x; [auto|]. simpl. intros H _. rewrite nth_error_app1; [exact H|]. apply nth_error_Some. congruence.
    + intros x row. destruct x; simpl; [eauto|]. intros H. exists row. rewrite nth_error_app1; [auto|]. apply nth_error_Some. congruence.
    + unfold nrows. simpl. rewrite app_length. lia.
Qed.
Lemma from_slice s sl rs r c A : own s (header sl r c) rs r c A -> (1 <= r)%nat -> (1 <= c)%nat ->
  NewMatrixFromSlice sl s = (Ret (header sl r c), s).
Proof.
  intros HO Hr Hc. pose proof (own_slice_view _ _ _ _ _ _ HO) as HV. simpl in HV. rewrite (NewMatrixFromSlice_run s sl rs A HV).
  destruct HO as (_ & _ & _ & (HL & HF) & _). destruct A as [|row0 A]; simpl in HL; [lia|]. inversion HF; subst.
  destruct (Nat.ltb_spec (length row0) 1); [lia|]. reflexivity.
Qed.
Lemma wp_mat_ (A : pm K) r c s : shape r c A -> (1 <= r)%nat -> (1 <= c)%nat ->
  wp (mat_ A) s (fun m s' => exists rs, fresh_mat s s' m rs r c A /\ ext s s').
Proof.
  intros HS Hr Hc. unfold mat_. apply wp_bind. eapply wp_conseq; [apply wp_lit; exact HS|]. cbv beta. intros sl s' (rs & HM & HE).
  apply wp_ignore_err. eapply wp_eq; [eapply from_slice; [apply HM|exact Hr|exact Hc]|]. exists rs. auto.
Qed.
(** A new layer object. *)
Lemma wp_obj (new : M K (layer K)) s k i o sl d : (1 <= i)%nat -> (1 <= o)%nat -> returns new s (new_layer s k i o sl d) ->
  wp (obj new) s (fun lref s' => exists l rw rb, nth_error (h_layers s') lref = Some l /\
    lown s' l rw rb (PL k i o (mk i o (fun _ _ => f0)) (mk 1 o (fun _ _ => f0)) sl d) /\ NoDup rw /\ NoDup rb /\ disjoint rw rb).
Proof.
  intros Hi Ho H. apply wp_ex in H. unfold obj. apply wp_bind. apply wp_ignore_err. eapply wp_conseq; [exact H|]. cbv beta.
  intros l s1 (E1 & E2 & E3 & E4 & E5 & rw & rb & HW & HB & HD & HE). unfold alloc_layer. eapply wp_eq; [reflexivity|].
  exists l, rw, rb. split; [simpl; rewrite nth_error_app2 by lia; now rewrite Nat.sub_diag|].
  split; [|split; [apply HW|split; [apply HB|exact HD]]]. unfold lown. simpl. repeat (split; [assumption|]). split; [apply HW|apply HB].
Qed.
(** A new layer object after Init. *)
Definition inited (k : lkind) (i o : nat) (sl d : K) s : player K := PL k i o (pinit i o (normals s)) (mk 1 o (fun _ _ => f0)) sl d.
Lemma wp_init_layer s lref l rw rb k i o W B sl d : nth_error (h_layers s) lref = Some l -> lown s l rw rb (PL k i o W B sl d) -> NoDup rw -> disjoint rw rb ->
  wp (Init lref) s (fun _ s' => nth_error (h_layers s') lref = Some l /\ lown s' l rw rb (PL k i o (pinit i o (normals s)) B sl d)).
Proof.
  intros Hl HL HN HD. eapply wp_conseq; [eapply wp_Init; eauto|]. cbv beta. intros u s' (HW & HF & HR & HLs & HG). simpl in *.
  split; [now rewrite HLs|]. destruct HL as (E1 & E2 & E3 & E4 & E5 & E6 & E7 & _ & HB). unfold lown. simpl in *.
  repeat (split; [assumption|]). eapply own_frame; [exact HB|exact HF|]. intros x Hx Hw. exact (HD x Hw Hx).
Qed.
Lemma lown_ext s s' l rw rb p : lown s l rw rb p -> ext s s' -> lown s' l rw rb p.
Proof. intros H (HF & _). eapply lown_frame; [exact H|exact HF|intros ? ? []]. Qed.
Lemma layers_ext s s' lref (l : layer K) : ext s s' -> nth_error (h_layers s) lref = Some l -> nth_error (h_layers s') lref = Some l.
Proof. intros (_ & E & _) H. now rewrite E. Qed.
Lemma cache_ext s s' l p r rso rsm (O Mask : pm K) : cache_ok s l p r rso rsm O Mask -> ext s s' -> cache_ok s' l p r rso rsm O Mask.
Proof.
  intros H HE. unfold cache_ok in *. destruct (p_kind p); auto; try (eapply own_ext; eassumption).
  destruct H as (H1 & H2). split; eapply own_ext; eassumption.
Qed.
Lemma lkind_dec (a b : lkind) : {a = b} + {a <> b}.
Proof. decide equality. Qed.
Lemma layer_test_passes (new : M K (layer K)) s k i o sl d r (X DV : pm K) :
  (1 <= i)%nat -> (1 <= o)%nat -> (1 <= r)%nat -> shape r i X -> shape r o DV -> (k = SigmoidK -> (i < o)%nat) ->
  returns new s (new_layer s k i o sl d) -> wp (layer_test new X DV) s (fun b _ => b = true).
Proof.
  intros Hi Ho Hr SX SD Hk Hnew. unfold layer_test. apply wp_bind. eapply wp_conseq; [apply (wp_obj _ _ _ _ _ _ _ Hi Ho Hnew)|]. cbv beta.
  intros lref s1 (l & rw & rb & Hl1 & HL1 & NW & NB & DWB). apply wp_bind. eapply wp_conseq; [apply (wp_init_layer _ _ _ _ _ _ _ _ _ _ _ _ Hl1 HL1 NW DWB)|]. cbv beta.
  intros u s2 (Hl2 & HL2). set (p := PL k i o _ _ sl d) in HL2.
  apply wp_bind. eapply wp_conseq; [apply (wp_lit _ _ _ _ SX)|]. cbv beta. intros sx s3 (rsx & HX3 & HE3).
  apply wp_must. eapply wp_eq; [eapply from_slice; [apply HX3|exact Hr|exact Hi]|]. set (x := header sx r i) in *.
  assert (Hl3 := layers_ext _ _ _ _ HE3 Hl2). assert (HL3 := lown_ext _ _ _ _ _ _ HL2 HE3).
  apply wp_must. eapply wp_conseq; [eapply (wp_forward_train s3 lref l rw rb p x rsx r X Hl3 HL3); [apply HX3|exact Hr]|]. cbv beta.
  intros out s4 (rso & rsm & l4 & HM4 & Hfm & Hnm & Hdm & HC4 & HF4 & HR4 & HLs4 & (mk0 & El4) & HG4).
  assert (HX4 : own s4 x rsx r (p_in p) X) by (eapply own_frame; [apply HX3|exact HF4|intros ? _ []]).
  assert (Hl4 : nth_error (h_layers s4) lref = Some l4) by (rewrite HLs4; eapply nth_error_upd_same; eauto).
  assert (HL4 : lown s4 l4 rw rb p) by (subst l4; eapply lown_after_forward; eauto).
  assert (HO4 : cache_ok s4 l4 p r rso rsm (ptrain p r X (uniforms s3)) (ptrain_mask p r (uniforms s3))) by exact HC4.
  apply wp_bind. eapply wp_conseq; [apply (wp_mat_ _ _ _ _ SD Hr Ho)|]. cbv beta. intros dv s5 (rsd & HD5 & HE5).
  assert (Hl5 := layers_ext _ _ _ _ HE5 Hl4). assert (HL5 := lown_ext _ _ _ _ _ _ HL4 HE5). assert (HX5 := own_ext _ _ _ _ _ _ _ HX4 HE5).
  assert (HC5 := cache_ext _ _ _ _ _ _ _ _ _ HO4 HE5). clear HO4.
  assert (OX : disjoint rsx rsd) by (eapply disjoint_old_fresh; [eapply own_old; exact HX4|apply HD5]).
  assert (OW : disjoint rw rsd) by (eapply disjoint_old_fresh; [eapply own_old; apply HL4|apply HD5]).
  assert (OB : disjoint rb rsd) by (eapply disjoint_old_fresh; [eapply own_old; apply HL4|apply HD5]).
  apply wp_must. destruct (lkind_dec k SigmoidK) as [E|E].
  - eapply wp_conseq; [apply (Sigmoid_Backward_wide s5 lref l4 rw rb p x rsx r X dv rsd DV Hl5 HL5 E (Hk E) Hr HX5 (proj1 HD5))|].
    + apply HX3.
    + intros a Ha Hb. exact (OX a Hb Ha).
    + eapply disjoint_old_fresh; [eapply own_old; apply HL2|apply HX3].
    + eapply disjoint_old_fresh; [eapply own_old; apply HL2|apply HX3].
    + intros g s6 _. now apply wp_ret.
  - assert (HD : disjoint rso rsd) by (eapply disjoint_old_fresh; [eapply own_old; exact (proj1 HM4)|apply HD5]).
    destruct (lkind_dec k Dropout) as [E2|E2].
    + assert (HD2 : disjoint rsm rsd).
      { eapply disjoint_old_fresh; [|apply HD5]. unfold cache_ok in HC4. simpl p_kind in HC4. rewrite E2 in HC4. eapply own_old. apply HC4. }
      eapply wp_conseq; [apply (wp_backward s5 lref l4 rw rb p x rsx r X dv rsd DV rso rsm (ptrain p r X (uniforms s3)) (ptrain_mask p r (uniforms s3)) Hl5 HL5 E HX5 Hr (proj1 HD5)); auto; apply HD5|].
      intros g s6 _. now apply wp_ret.
    + assert (HC6 : cache_ok s5 l4 p r rso [] (ptrain p r X (uniforms s3)) []).
      { unfold cache_ok in *. simpl p_kind in *. destruct k; auto. congruence. }
      eapply wp_conseq; [apply (wp_backward s5 lref l4 rw rb p x rsx r X dv rsd DV rso [] (ptrain p r X (uniforms s3)) [] Hl5 HL5 E HX5 Hr (proj1 HD5)); auto; [apply HD5|intros ? []]|].
      intros g s6 _. now apply wp_ret.
Qed.
(** The softmax layer with its fused cross-entropy gradient. *)
Lemma softmax_ce_test_passes s (X Y : pm K) r : (1 <= r)%nat -> shape r 3 X -> shape r 5 Y -> wp (softmax_ce_test X Y) s (fun b _ => b = true).
Proof.
  intros Hr SX SY. unfold softmax_ce_test. apply wp_bind.
  assert (Hnew : returns (NewSoftmaxLayer 3 5) s (new_layer s SoftmaxK 3 5 f0 f0)) by (apply (C20_new_layer_proof K s 3 5); lia).
  eapply wp_conseq; [apply (wp_obj _ s SoftmaxK 3 5 f0 f0 ltac:(lia) ltac:(lia) Hnew)|]. cbv beta.
  intros lref s1 (l & rw & rb & Hl1 & HL1 & NW & NB & DWB). apply wp_bind. apply wp_ignore_err. eapply wp_eq; [reflexivity|].
  apply wp_bind. eapply wp_conseq; [apply (wp_init_layer _ _ _ _ _ _ _ _ _ _ _ _ Hl1 HL1 NW DWB)|]. cbv beta.
  intros u s2 (Hl2 & HL2). set (p := PL SoftmaxK 3 5 _ _ f0 f0) in HL2.
  apply wp_bind. eapply wp_conseq; [apply (wp_lit _ _ _ _ SX)|]. cbv beta. intros sx s3 (rsx & HX3 & HE3).
  apply wp_must. eapply wp_eq; [eapply from_slice; [apply HX3|exact Hr|lia]|]. set (x := header sx r 3) in *.
  assert (Hl3 := layers_ext _ _ _ _ HE3 Hl2). assert (HL3 := lown_ext _ _ _ _ _ _ HL2 HE3).
  apply wp_bind. eapply wp_conseq; [apply (wp_lit _ _ _ _ SY)|]. cbv beta. intros sy s4 (rsy & HY4 & HE4).
  apply wp_must. eapply wp_eq; [eapply from_slice; [apply HY4|exact Hr|lia]|]. set (y := header sy r 5) in *.
  assert (Hl4 := layers_ext _ _ _ _ HE4 Hl3). assert (HL4 := lown_ext _ _ _ _ _ _ HL3 HE4).
  assert (HX4 := own_ext _ _ _ _ _ _ _ (proj1 HX3) HE4).
  apply wp_must. eapply wp_conseq; [eapply (wp_forward_train s4 lref l rw rb p x rsx r X Hl4 HL4); [exact HX4|exact Hr]|]. cbv beta.
  intros out s5 (rso & rsm & l5 & HM5 & Hfm & Hnm & Hdm & HC5 & HF5 & HR5 & HLs5 & (mk0 & El5) & HG5).
  assert (HX5 : own s5 x rsx r (p_in p) X) by (eapply own_frame; [exact HX4|exact HF5|intros ? _ []]).
  assert (HY5 : own s5 y rsy r (p_out p) Y) by (eapply own_frame; [apply HY4|exact HF5|intros ? _ []]).
  assert (Hl5 : nth_error (h_layers s5) lref = Some l5) by (rewrite HLs5; eapply nth_error_upd_same; eauto).
  assert (HL5 : lown s5 l5 rw rb p) by (subst l5; eapply lown_after_forward; eauto).
  assert (D : forall old, Forall (fun a => (a <= nrows s4)%nat) old -> disjoint old rso) by (intros; eapply disjoint_old_fresh; [eassumption|apply HM5]).
  apply wp_must. eapply wp_conseq; [apply (wp_Loss_Forward s5 CE out y rso rsy r 5 _ _ (proj1 HM5) HY5); [apply HM5| |exact Hr|lia]|].
  { intros a Ha Hb. exact (D rsy (own_old _ _ _ _ _ _ (proj1 HY4)) a Hb Ha). }
  cbv beta. intros v s6 (_ & HO6 & HF6 & HR6).
  assert (U : forall old, disjoint old rso -> forall a, In a old -> ~ clip_rows (fwd_clips CE) rso a).
  { intros old Hd a Ha. simpl. exact (Hd a Ha). }
  assert (Hl6 : nth_error (h_layers s6) lref = Some l5) by (now rewrite (proj1 HR6)).
  assert (HL6 : lown s6 l5 rw rb p).
  { destruct HL4 as (_&_&_&_&_&_&_&W4&B4). eapply lown_frame; [exact HL5|exact HF6|]. intros a Ha.
    destruct Ha; (eapply U; [|eassumption]); apply D; eapply own_old; eassumption. }
  assert (HX6 : own s6 x rsx r (p_in p) X) by (eapply own_frame; [exact HX5|exact HF6|apply U, D; eapply own_old; exact HX4]).
  assert (HY6 : own s6 y rsy r (p_out p) Y) by (eapply own_frame; [exact HY5|exact HF6|apply U, D; eapply own_old; apply HY4]).
  apply wp_must. eapply wp_conseq; [apply (wp_BackwardCrossEntropy s6 lref l5 rw rb p x rsx r X y rsy Y out rso _ Hl6 HL6 HX6 Hr HY6 HO6)|].
  intros g s7 _. now apply wp_ret.
Qed.
Lemma loss_test_passes k c r s (Yh Y : pm K) : (1 <= r)%nat -> (1 <= c)%nat -> shape r c Yh -> shape r c Y -> wp (loss_test k (Z.of_nat c) Yh Y) s (fun b _ => b = true).
Proof.
  intros Hr Hc S1 S2. unfold loss_test. apply wp_bind. apply wp_ignore_err.
  assert (E : NewLoss k (Z.of_nat c) s = (Ret (MkLoss k (Z.of_nat c)), s)).
  { unfold NewLoss. destruct k; destruct (Z.ltb_spec (Z.of_nat c) 1); try lia; reflexivity. }
  eapply wp_eq; [exact E|].
  apply wp_bind. eapply wp_conseq; [apply (wp_mat_ _ _ _ _ S1 Hr Hc)|]. cbv beta. intros yh s1 (rsh & H1 & HE1).
  apply wp_bind. eapply wp_conseq; [apply (wp_mat_ _ _ _ _ S2 Hr Hc)|]. cbv beta. intros y s2 (rsy & H2 & HE2).
  assert (H3 := own_ext _ _ _ _ _ _ _ (proj1 H1) HE2).
  assert (D : disjoint rsh rsy) by (eapply disjoint_old_fresh; [eapply own_old; apply H1|apply H2]).
  apply wp_must. eapply wp_conseq; [apply (wp_Loss_Forward s2 k yh y rsh rsy r c _ _ H3 (proj1 H2)); auto; apply H1|]. cbv beta.
  intros v s3 (_ & HO & HF & HR).
  assert (HY : own s3 y rsy r c Y).
  { eapply own_frame; [apply H2|exact HF|]. intros a Ha. destruct (fwd_clips k); simpl; [|tauto]. intros Hb. exact (D a Hb Ha). }
  apply wp_must. eapply wp_conseq; [apply (wp_Loss_Backward s3 k yh y rsh rsy r c _ _ HO HY); auto; apply H1|]. intros m s4 _. now apply wp_ret.
Qed.
Lemma shuffle_test_passes r c d s (X Y : pm K) : (1 <= r)%nat -> (1 <= c)%nat -> (1 <= d)%nat -> shape r c X -> shape r d Y -> wp (shuffle_test X Y) s (fun b _ => b = true).
Proof.
  intros Hr Hc Hd SX SY. unfold shuffle_test.
  apply wp_bind. eapply wp_conseq; [apply (wp_mat_ _ _ _ _ SX Hr Hc)|]. cbv beta. intros x s1 (rsx & H1 & HE1).
  apply wp_bind. eapply wp_conseq; [apply (wp_mat_ _ _ _ _ SY Hr Hd)|]. cbv beta. intros y s2 (rsy & H2 & HE2).
  apply wp_bind. eapply wp_conseq; [apply (wp_ShuffleDataset s2 x y rsx rsy r c d X Y (own_ext _ _ _ _ _ _ _ (proj1 H1) HE2) (proj1 H2))|].
  - destruct H2 as (_ & _ & _ & HN). assert (sl_loc (mdata x) <= nouts s1)%nat; [|lia].
    destruct H1 as ((_ & _ & _ & _ & (arr & Ha & _) & _) & _). destruct (sl_loc (mdata x)); [lia|]. simpl in Ha. unfold nouts.
    enough (n < length (h_outs s1))%nat by lia. apply nth_error_Some. congruence.
  - intros XY s3 _. now apply wp_ret.
Qed.
End AnyNum.
