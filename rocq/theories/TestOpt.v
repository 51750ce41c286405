(** * TestOpt: optimizers_test.go passes. *)
From Coq Require Import String ZArith List Bool Arith Lia Permutation.
From Verif Require Import Num LayerData Heap Spec Matrix Activation Misc Accuracy Network Loss Optimizers ModelGo ModelData
  PureSpec Repr HeapLemmas MatrixProofs MatrixFacts LayerProofs LayerFacts LayerGlue LossProofs OptSpec OptProofs OptFacts ModelSpec ModelProofs ModelFacts FitProofs FitLoop
  CodecSpec Session SessionProofs Tests TestProofs TestModels HandSpec TestLoop.
Import ListNotations.
Open Scope Z_scope.
Open Scope go_scope.

Section AnyNum.
Context {K : Num}.
Implicit Types s : state K.

Lemma wp_made_layer {A} (new : M K (layer K)) s k i o sl d (F : nat -> M K A) (Q : A -> state K -> Prop) :
  (1 <= i)%nat -> (1 <= o)%nat -> returns new s (new_layer s k i o sl d) ->
  (forall e l s', e_ref e = length (h_layers s) -> e_p e = PL k i o (pinit i o (normals s)) (mk 1 o (fun _ _ => f0)) sl d -> lok s' e ->
    fresh s (e_rw e ++ e_rb e) -> NoDup (e_rw e ++ e_rb e) -> frame nothing s s' -> h_layers s' = h_layers s ++ [l] -> rest2 s s' -> wp (F (e_ref e)) s' Q) ->
  wp (l <- obj new ;; Init l ;; F l) s Q.
Proof.
  intros Hi Ho H HQ. apply wp_ex in H. apply wp_bind. unfold obj. apply wp_bind. apply wp_ignore_err. eapply wp_conseq; [exact H|]. cbv beta.
  intros l s1 (E1 & E2 & E3 & E4 & E5 & rw & rb & HW & HB & HD & HE). unfold alloc_layer. eapply wp_eq; [reflexivity|]. set (s2 := with_layers s1 _).
  set (p0 := PL k i o (mk i o (fun _ _ => f0)) (mk 1 o (fun _ _ => f0)) sl d).
  assert (HL : lown s2 l rw rb p0).
  { unfold lown. simpl. repeat (split; [assumption|]). split; [apply HW|apply HB]. }
  assert (Hl : nth_error (h_layers s2) (length (h_layers s1)) = Some l) by (simpl; rewrite nth_error_app2 by lia; now rewrite Nat.sub_diag).
  assert (LS : length (h_layers s1) = length (h_layers s)) by (destruct HE as (_ & -> & _); reflexivity).
  apply wp_bind. eapply wp_conseq; [eapply wp_Init; [exact Hl|exact HL|apply HW]|]. cbv beta.
  intros u s3 (HWn & HF3 & HR3 & HLs & HG). rewrite LS in Hl |- *.
  pose proof HE as (HF & P1 & P2 & P3 & P4 & P5).
  apply (HQ (LE (length (h_layers s)) rw rb (PL k i o (pinit i o (normals s)) (mk 1 o (fun _ _ => f0)) sl d)) l s3); cbn [e_ref e_p e_rw e_rb]; auto.
  - exists l. cbn [e_ref e_p e_rw e_rb]. split; [rewrite HLs; exact Hl|].
    unfold lown in HL |- *. simpl in HL |- *. destruct HL as (Z1 & Z2 & Z3 & Z4 & Z5 & Z6 & Z7 & _). repeat (split; [assumption|]). split.
    + replace (normals s) with (normals s2) by (unfold normals; simpl; now rewrite P3). exact HWn.
    + eapply own_frame; [apply HB|exact HF3|]. intros w Hw Hw'. exact (HD w Hw' Hw).
  - apply Forall_app. split; [apply HW|apply HB].
  - apply NoDup_app_; [apply HW|apply HB|exact HD].
  - eapply (frame_trans nothing (among rw)); [exact HF|exact HF3|]. intros w Hw [[]|Hw']. destruct HW as (_ & HW & _). pose proof (fresh_in _ _ _ HW Hw'). lia.
  - rewrite HLs. simpl. now rewrite P1.
  - destruct HR3 as (A1 & A2 & A3). simpl in *. split; [|split]; congruence.
Qed.
Lemma wp_objo {A} (new_opt : M K (optimizer K)) opt s (F : nat -> M K A) (Q : A -> state K -> Prop) : (forall s, new_opt s = (Ret opt, s)) ->
  wp (F (length (h_opts s))) (with_opts s (h_opts s ++ [opt])) Q -> wp (o <- objo new_opt ;; F o) s Q.
Proof. intros HN H. apply wp_bind. unfold objo. apply wp_bind. apply wp_ignore_err. eapply wp_eq; [apply HN|]. eapply wp_eq; [reflexivity|]. exact H. Qed.

Lemma optimizer_test_passes new_opt (opt : optimizer K) half n epochs s : (forall s, new_opt s = (Ret opt, s)) -> o_wm opt = matrix0 -> (1 <= n)%nat ->
  wp (optimizer_test new_opt half n epochs) s (fun b _ => b = true).
Proof.
  intros HN HW Hn. unfold optimizer_test.
  apply (wp_objo _ opt _ _ _ HN). apply (wp_objo _ opt _ _ _ HN). apply (wp_objo _ opt _ _ _ HN). cbn [h_opts with_opts].
  set (o1 := length (h_opts s)). set (o2 := length (h_opts s ++ [opt])). set (o3 := length ((h_opts s ++ [opt]) ++ [opt])). set (sa := with_opts _ _).
  apply (wp_made_layer (NewLayer 1 8) sa Hidden 1 8 f0 f0); [lia|lia|apply (C20_new_layer_proof K sa 1 8); lia|].
  intros e1 l1 sb R1 E1 L1 F1 N1 FR1 HL1 RS1.
  apply (wp_made_layer (NewLayer 8 8) sb Hidden 8 8 f0 f0); [lia|lia|apply (C20_new_layer_proof K sb 8 8); lia|].
  intros e2 l2 sc R2 E2 L2 F2 N2 FR2 HL2 RS2.
  apply (wp_made_layer (NewSoftmaxLayer 8 2) sc SoftmaxK 8 2 f0 f0); [lia|lia|apply (C20_new_layer_proof K sc 8 2); lia|].
  intros e3 l3 sd R3 E3 L3 F3 N3 FR3 HL3 RS3.
  apply wp_bind. apply wp_ignore_err. eapply wp_eq; [reflexivity|].
  apply wp_bind. eapply wp_conseq; [apply (wp_test_data half n sd Hn)|]. cbv zeta beta. set (X := mk n 1 _). set (Y := labels half n X).
  intros [x y] se (rsx & rsy & HX & HY & FX & FY & NX & NY & DXY & FR4 & RS4 & HL4 & _). cbn [fst snd] in *.
  set (x1 := OE o1 [] (new_po opt 1 8)). set (x2 := OE o2 [] (new_po opt 8 8)). set (x3 := OE o3 [] (new_po opt 8 2)).
  set (m := MkModel (K := K) 3 1 2 2 (Some (MkLoss CE 2)) 0 f0 0 [] [e_ref e1; e_ref e2; e_ref e3] [o1; o2; o3]).
  assert (HO : h_opts se = ((h_opts s ++ [opt]) ++ [opt]) ++ [opt]).
  { destruct RS4 as (-> & _). destruct RS3 as (-> & _). destruct RS2 as (-> & _). destruct RS1 as (-> & _). reflexivity. }
  assert (NN1 := frame_nrows _ _ _ FR1). assert (NN2 := frame_nrows _ _ _ FR2). assert (NN3 := frame_nrows _ _ _ FR3). assert (NN4 := frame_nrows _ _ _ FR4).
  assert (up : forall (t t' : state K) e, lok t e -> frame nothing t t' -> (exists more, h_layers t' = h_layers t ++ more) -> lok t' e).
  { intros t t' e (l & Hl & Ho) HF (more & HM). exists l. split; [rewrite HM; rewrite nth_error_app1; [exact Hl|apply nth_error_Some; congruence]|]. eapply SessionProofs.lown_ext; eauto. }
  assert (L1c : lok sc e1) by (eapply up; [exact L1|exact FR2|eauto]).
  assert (L1d : lok sd e1) by (eapply up; [exact L1c|exact FR3|eauto]). assert (L2d : lok sd e2) by (eapply up; [exact L2|exact FR3|eauto]).
  assert (HM0 : exists more, h_layers se = h_layers sd ++ more) by (exists []; rewrite app_nil_r; exact HL4).
  assert (Old : forall (t : state K) e w, lok t e -> In w (e_rw e ++ e_rb e) -> (w <= nrows t)%nat) by (intros t e w (l & _ & Ho) Hw; apply in_app_iff in Hw; eapply lown_old; eauto).
  assert (HLd : Forall (lok sd) [e1; e2; e3]) by (repeat constructor; auto).
  assert (HT : trainable se m [e1; e2; e3] [x1; x2; x3] 1 2 CE).
  { split; [|split; [|split; [|split; [|split; [|split; [|split; [|split; [|split]]]]]]]].
    - split; [reflexivity|]. split; [reflexivity|]. split; [reflexivity|]. split; [reflexivity|]. split; [cbn; rewrite E1, E2, E3; cbn; auto|].
      eapply Forall_impl; [|exact HLd]. intros e He. eapply up; [exact He|exact FR4|exact HM0].
    - split.
      + cbn [map]. rewrite R1, R2, R3, HL2, HL1, !app_length. simpl. repeat constructor; simpl; lia.
      + unfold prows. cbn [map concat]. rewrite app_nil_r. apply NoDup_app_; [exact N1|apply NoDup_app_; [exact N2|exact N3|]|].
        * intros w Hw Hw'. pose proof (Old _ _ _ L2 Hw). pose proof (fresh_in _ _ _ F3 Hw'). lia.
        * intros w Hw Hw'. pose proof (Old _ _ _ L1 Hw) as H1. apply in_app_iff in Hw' as [Hw'|Hw']; [pose proof (fresh_in _ _ _ F2 Hw')|pose proof (fresh_in _ _ _ F3 Hw')]; lia.
    - simpl; lia.
    - reflexivity.
    - cbn [map x_ref x1 x2 x3]. unfold o1, o2, o3. rewrite !app_length. simpl. repeat constructor; simpl; lia.
    - assert (OK : forall e r i o, p_in (e_p e) = i -> p_out (e_p e) = o -> nth_error (h_opts se) r = Some opt -> ook se e (OE r [] (new_po opt i o))).
      { intros e r i o <- <- Hr. exists opt. split; [exact Hr|]. cbn [x_ro x_po]. apply new_oown. exact HW. }
      repeat constructor; apply OK; rewrite ?E1, ?E2, ?E3; try reflexivity; rewrite HO; unfold o1, o2, o3.
      + rewrite <- !app_assoc, nth_error_app2, Nat.sub_diag by lia. reflexivity.
      + rewrite <- !app_assoc, app_length, nth_error_app2 by (simpl; lia). simpl. replace (_ - _)%nat with 1%nat by lia. reflexivity.
      + rewrite nth_error_app2, Nat.sub_diag by lia. reflexivity.
    - intros w _ [].
    - reflexivity.
    - reflexivity.
    - repeat constructor; rewrite ?E1, ?E2, ?E3; discriminate. }
  assert (HDt : data_ok se [e1; e2; e3] x rsx y rsy n 1 2 X Y).
  { split; [exact HX|]. split; [exact HY|]. assert (D : forall rs, fresh sd rs -> disjoint rs (prows [e1; e2; e3])).
    { intros rs Hrs w Hw Hw'. pose proof (prows_old _ _ _ HLd Hw'). pose proof (fresh_in _ _ _ Hrs Hw). lia. }
    auto. }
  eapply wp_conseq; [eapply (wp_hand_epochs epochs se m e1 e2 e3 x1 x2 x3 1 2 x rsx y rsy n X Y HT)|]; [rewrite E3; reflexivity|exact HDt|exact Hn|].
  cbv beta. intros b s' (H & _). exact H.
Qed.
End AnyNum.
