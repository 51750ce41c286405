(** * Tie: training networks with shared weights. *)
From Coq Require Import String ZArith List Bool Arith Lia.
From Verif Require Import Num Heap Spec Matrix Loss Network Optimizers ModelGo PureSpec Repr HeapLemmas LoopLemmas MatrixProofs MatrixFacts LayerProofs LayerFacts LossProofs LossCode MiscProofs OptSpec OptProofs OptFacts ModelSpec ModelProofs EvalProofs FitProofs FitLoop TieSpec.
Import ListNotations.
Open Scope Z_scope.
Open Scope go_scope.

Section WithNum.
Context {K : Num}.
Implicit Types (s : state K) (p : player K) (ps : list (player K)) (es : list (lent K)) (xs : list (oent K)).

(** ** Setting the parameters of all layers with one tag *)
Definition tset (b a : nat) (W B : pm K) (e : lent K) : lent K :=
  if (b =? a)%nat then LE (e_ref e) (e_rw e) (e_rb e) (reparam (e_p e) W B) else e.
Fixpoint tmap (a : nat) (W B : pm K) (tags : list nat) es : list (lent K) :=
  match tags, es with
  | b :: tags, e :: es => tset b a W B e :: tmap a W B tags es
  | _, _ => []
  end.
Lemma tmap_app a W B tags1 : forall es1 tags2 es2, length tags1 = length es1 ->
  tmap a W B (tags1 ++ tags2) (es1 ++ es2) = tmap a W B tags1 es1 ++ tmap a W B tags2 es2.
Proof. induction tags1 as [|b t IH]; intros [|e es1] tags2 es2 H; try discriminate; simpl; auto. f_equal. apply IH. simpl in H. lia. Qed.
Lemma tset_place b a W B e : same_place e (tset b a W B e).
Proof. unfold tset, same_place, like. destruct (b =? a)%nat; simpl; auto 10. Qed.
Lemma tmap_place a W B tags : forall es, length tags = length es -> Forall2 same_place es (tmap a W B tags es).
Proof. induction tags as [|b t IH]; intros [|e es] H; try discriminate; simpl; constructor; [apply tset_place|apply IH; simpl in H; lia]. Qed.
Lemma tmap_length a W B tags : forall es, length tags = length es -> length (tmap a W B tags es) = length es.
Proof. intros es H. symmetry. eapply Forall2_length. apply tmap_place, H. Qed.
Lemma in_tmap a W B tags : forall es e', In e' (tmap a W B tags es) -> exists b e, In (b, e) (combine tags es) /\ e' = tset b a W B e.
Proof.
  induction tags as [|b t IH]; intros [|e es] e' H; simpl in *; try contradiction.
  destruct H as [<-|H]; [exists b, e; auto|]. destruct (IH _ _ H) as (b' & e1 & H1 & H2). exists b', e1. auto.
Qed.
Lemma in_combine_place (tags : list nat) : forall es es' b e', Forall2 same_place es es' -> In (b, e') (combine tags es') ->
  exists e, In (b, e) (combine tags es) /\ same_place e e'.
Proof.
  induction tags as [|a t IH]; intros es es' b e' HF H; simpl in *; [contradiction|].
  destruct HF as [|e1 e1' es es' Hp HF]; simpl in *; [contradiction|].
  destruct H as [E|H]; [injection E as <- <-; exists e1; auto|]. destruct (IH _ _ _ _ HF H) as (e & H1 & H2). exists e. auto.
Qed.
Lemma tied_same tags es es' : tied tags es -> Forall2 same_place es es' -> tied tags es'.
Proof.
  intros (HL & HN & HT) HF. split; [|split].
  - rewrite HL. eapply Forall2_length; eauto.
  - clear - HN HF. induction HF as [|e e' es es' (H1 & H2 & H3 & _) _ IH]; [constructor|]. inversion HN; subst.
    constructor; [rewrite H2, H3; assumption|auto].
  - intros a e b e' H1 H2. destruct (in_combine_place _ _ _ _ _ HF H1) as (e1 & I1 & (_ & P1 & P2 & (_ & P3 & P4 & _))).
    destruct (in_combine_place _ _ _ _ _ HF H2) as (e2 & I2 & (_ & Q1 & Q2 & (_ & Q3 & Q4 & _))).
    specialize (HT _ _ _ _ I1 I2). destruct (a =? b)%nat; unfold shares, apart in *.
    + rewrite P1, P2, P3, P4, Q1, Q2, Q3, Q4. exact HT.
    + rewrite P1, P2, Q1, Q2. exact HT.
Qed.
Lemma in_combine_l_snd {A B} (l : list A) (l' : list B) y : length l = length l' -> In y l' -> exists x, In (x, y) (combine l l').
Proof.
  revert l'. induction l as [|a l IH]; intros [|b l'] H Hi; try discriminate; simpl in *; [contradiction|].
  destruct Hi as [->|Hi]; [exists a; auto|]. destruct (IH l' ltac:(lia) Hi) as (x & Hx). exists x. auto.
Qed.
Lemma trainer_tmap a (t : player K * popt K) tags : forall es xs, length tags = length es -> length xs = length es ->
  combine tags (trainer (tmap a (p_w (fst t)) (p_b (fst t)) tags es) xs) = map (retie a t) (combine tags (trainer es xs)).
Proof.
  induction tags as [|b tl IH]; intros [|e es] [|x xs] H1 H2; try discriminate; simpl in *; auto.
  unfold trainer in *. cbn [net map combine]. f_equal.
  - unfold tset, retie. simpl. destruct (b =? a)%nat; reflexivity.
  - apply IH; lia.
Qed.
Lemma own_same_rows W s s1 w w1 rs r c (A A1 : pm K) : own s w1 rs r c A1 -> frame W s s1 -> own s1 w rs r c A -> own s1 w1 rs r c A.
Proof.
  intros (H1 & H2 & H3 & _ & H5 & _) HF (_ & _ & _ & G4 & _ & G6). unfold own.
  repeat (split; [now eauto using slice_refs_frame|]). exact G6.
Qed.
Lemma orows_in x xs z : In x xs -> In z (x_ro x) -> In z (orows xs).
Proof. intros H1 H2. unfold orows. apply in_concat. exists (x_ro x). split; [now apply in_map|exact H2]. Qed.
Lemma prows_in e es z : In e es -> In z (e_rw e ++ e_rb e) -> In z (prows es).
Proof. intros H1 H2. unfold prows. apply in_concat. exists (e_rw e ++ e_rb e). split; [apply in_map_iff; eauto|exact H2]. Qed.
Lemma same_slots_disjoint s es xs xs' : Forall (lok s) es -> disjoint (prows es) (orows xs) -> same_slots s xs xs' -> disjoint (prows es) (orows xs').
Proof.
  intros HL HD HS z Hz Hz'. unfold orows in Hz'. apply in_concat in Hz' as (zs & Hzs & Hz'). apply in_map_iff in Hzs as (x' & <- & Hx').
  unfold same_slots in HS. clear - HL HD HS Hz Hz' Hx'. induction HS as [|x x1 xs xs1 [H1 H2] HS IH]; [contradiction|].
  destruct Hx' as [->|Hx'].
  - destruct H2 as [E|E].
    + apply (HD z Hz). rewrite orows_cons, in_app_iff. left. now rewrite <- E.
    + pose proof (fresh_in _ _ _ E Hz'). pose proof (prows_old _ _ _ HL Hz). lia.
  - apply IH; auto. intros y Hy Hy'. apply (HD y Hy). rewrite orows_cons, in_app_iff. auto.
Qed.
Lemma grads_rep_length s ps gs Gs rws : grads_rep s ps gs Gs rws -> length gs = length ps /\ length Gs = length ps.
Proof.
  revert gs Gs rws. induction ps as [|p ps IH]; intros [|g gs] [|G Gs] [|[? ?] rws] H; simpl in *; try contradiction; auto.
  destruct H as (_ & _ & H). destruct (IH _ _ _ H). lia.
Qed.
Lemma grads_rep_like s ps ps' : Forall2 like ps ps' -> forall gs Gs rws, grads_rep s ps gs Gs rws -> grads_rep s ps' gs Gs rws.
Proof.
  induction 1 as [|p p' ps ps' (H1 & H2 & H3 & _) _ IH]; intros [|g gs] [|G Gs] [|[? ?] rws] H; simpl in *; try contradiction; auto.
  rewrite H2, H3. destruct H as (A & B & C). auto.
Qed.
Lemma place_like es es' : Forall2 same_place es es' -> Forall2 like (net es) (net es').
Proof. induction 1 as [|e e' es es' (_ & _ & _ & H) _ IH]; constructor; auto. Qed.
Lemma ook_place s e e' x : same_place e e' -> ook s e x -> ook s e' x.
Proof. intros (_ & _ & _ & (_ & E1 & E2 & _)) (ob & H1 & H2). exists ob. rewrite E1, E2. auto. Qed.

(** ** The update loop *)
Lemma wp_tied_loop m tags2 : forall tags1 es1 es2 xs1 xs2 gs1 gs2 Gs2 grws s,
  length tags1 = length es1 -> length tags2 = length es2 ->
  m_layers m = map e_ref (es1 ++ es2) -> m_opts m = map x_ref (xs1 ++ xs2) ->
  length xs1 = length es1 -> length gs1 = length es1 ->
  m_size m = Z.of_nat (length es1 + length es2) ->
  Forall (lok s) (es1 ++ es2) -> tied (tags1 ++ tags2) (es1 ++ es2) -> Forall2 (ook s) (es1 ++ es2) (xs1 ++ xs2) ->
  NoDup (map x_ref (xs1 ++ xs2)) -> disjoint (prows (es1 ++ es2)) (orows (xs1 ++ xs2)) ->
  grads_rep s (net es2) gs2 Gs2 grws -> disjoint (prows (es1 ++ es2)) (orow_all grws) ->
  wp (loop (length es2) (Z.of_nat (length es1)) (fun i (_ : unit) => upd_body m (rev (gs1 ++ gs2)) i) tt) s (fun _ s' =>
    exists es' xs', Forall2 same_place (es1 ++ es2) es' /\ same_slots s (xs1 ++ xs2) xs' /\
      combine (tags1 ++ tags2) (trainer es' xs') = tied_loop (combine tags1 (trainer es1 xs1)) (combine tags2 (trainer es2 xs2)) Gs2 /\
      Forall (lok s') es' /\ Forall2 (ook s') es' xs' /\
      frame (among (prows (es1 ++ es2))) s s' /\ rest3 s s' /\ opts_kept (map x_ref (xs1 ++ xs2)) s s').
Proof.
  induction tags2 as [|a tags2 IH]; intros tags1 es1 es2 xs1 xs2 gs1 gs2 Gs2 grws s LT1 LT2 HL HX Lx Lg HS HLo HTi HOo HNx HDo HG HDg.
  - destruct es2; [|discriminate]. rewrite !app_nil_r in *.
    assert (L2 : xs2 = []).
    { pose proof (Forall2_length _ _ _ HOo) as E. rewrite app_length in E. destruct xs2; auto. simpl in E. lia. }
    subst xs2. rewrite !app_nil_r in *. apply wp_ret. exists es1, xs1.
    split; [apply same_place_refl|]. split; [apply same_slots_refl|]. split; [destruct Gs2; simpl; now rewrite ?app_nil_r|].
    split; [exact HLo|]. split; [exact HOo|]. split; [apply frame_refl|]. split; [apply rest3_refl|apply opts_kept_refl].
  - destruct es2 as [|e es2]; [discriminate|]. simpl in LT2.
    assert (LX2 : length xs2 = S (length es2)).
    { pose proof (Forall2_length _ _ _ HOo) as E. rewrite !app_length in E. simpl in E. lia. }
    destruct xs2 as [|x xs2]; [discriminate|]. simpl in LX2.
    destruct gs2 as [|g gs2]; [contradiction|]. destruct Gs2 as [|G Gs2]; [contradiction|].
    destruct grws as [|[rgw rgb] grws]; [contradiction|]. destruct HG as (HGw & HGb & HG).
    rewrite orow_all_cons in HDg.
    assert (Hine : In e (es1 ++ e :: es2)) by (rewrite in_app_iff; simpl; auto).
    assert (HLo' := proj1 (Forall_forall _ _) HLo). destruct (HLo' e Hine) as (l & Hl & Hlo).
    assert (Hox : ook s e x).
    { apply Forall2_app_inv_l in HOo as (y1 & y2 & F1 & F2 & E). 
      assert (Ly : length y1 = length xs1) by (rewrite <- (Forall2_length _ _ _ F1); congruence).
      assert (E2 : y1 = xs1 /\ y2 = x :: xs2).
      { clear - E Ly. revert y1 E Ly. induction xs1 as [|h t IHx]; intros [|h' y1] E Ly; simpl in *; try discriminate; auto.
        injection E as -> E. destruct (IHx y1 E ltac:(lia)). subst. auto. }
      destruct E2 as [-> ->]. inversion F2; assumption. }
    destruct Hox as (ob & Hob & Hoo).
    assert (HTi' := HTi). destruct HTi' as (LTT & HNd & HTt).
    assert (HNe := proj1 (Forall_forall _ _) HNd e Hine). simpl in HNe. apply NoDup_app_inv in HNe as (NDw & NDb & Dwb).
    assert (Hinc : In (a, e) (combine (tags1 ++ a :: tags2) (es1 ++ e :: es2))).
    { clear - LT1. revert es1 LT1. induction tags1 as [|b t IHt]; intros [|e1 es1] H; try discriminate; simpl; [auto|right; apply IHt; simpl in H; lia]. }
    cbn [length loop]. apply wp_bind. unfold upd_body at 1.
    apply wp_bind. eapply wp_eq.
    { apply go_nth_app' with (l1 := map e_ref es1) (x := e_ref e) (l2 := map e_ref es2); [|now rewrite map_length].
      rewrite HL, map_app. reflexivity. }
    apply wp_bind. eapply wp_eq; [apply get_layer_run; exact Hl|].
    apply wp_bind. eapply wp_eq.
    { apply go_nth_app' with (l1 := map x_ref xs1) (x := x_ref x) (l2 := map x_ref xs2); [|rewrite map_length; congruence].
      rewrite HX, map_app. reflexivity. }
    assert (Lg2 : length gs2 = length es2).
    { destruct (grads_rep_length _ _ _ _ _ HG) as [E _]. unfold net in E. rewrite map_length in E. exact E. }
    apply wp_bind. eapply wp_eq.
    { replace (m_size m - Z.of_nat (length es1) - 1) with (Z.of_nat (length es2)) by (rewrite HS; simpl; lia).
      apply go_nth_app' with (l1 := rev gs2) (x := g) (l2 := rev gs1); [|rewrite rev_length; congruence].
      rewrite rev_app_distr. simpl. now rewrite <- app_assoc. }
    apply wp_or_log.
    assert (HU := wp_Opt_Update s (x_ref x) ob (x_ro x) (x_po x) (l_w l) (l_b l) (g_dw g) (g_db g) (e_rw e) (e_rb e) rgw rgb
        (p_in (e_p e)) (p_out (e_p e)) (p_w (e_p e)) (p_b (e_p e)) (fst G) (snd G) Hob Hoo).
    assert (HA : upd_args s (l_w l) (l_b l) (g_dw g) (g_db g) (e_rw e) (e_rb e) rgw rgb
        (p_in (e_p e)) (p_out (e_p e)) (p_w (e_p e)) (p_b (e_p e)) (fst G) (snd G)).
    { destruct Hlo as (_ & _ & _ & _ & _ & H1 & H2 & H3 & H4). unfold upd_args.
      split; [exact H3|]. split; [exact H4|]. split; [exact HGw|]. split; [exact HGb|].
      split; [exact NDw|]. split; [exact NDb|]. split; [exact Dwb|]. split; [exact H1|exact H2]. }
    specialize (HU HA).
    assert (HT : tstep (e_p e, x_po x) G = (let '(po', W', B') := pupdate (x_po x) (p_in (e_p e)) (p_out (e_p e)) (p_w (e_p e)) (p_b (e_p e)) (fst G) (snd G) in (reparam (e_p e) W' B', po'))) by reflexivity.
    destruct (pupdate (x_po x) (p_in (e_p e)) (p_out (e_p e)) (p_w (e_p e)) (p_b (e_p e)) (fst G) (snd G)) as [[po' W'] B'] eqn:EP.
    eapply wp_conseq; [exact HU|]. clear HU HA.
    intros [] s1 (Hw & Hb & (o' & ro' & (HF1 & HR1 & HO1) & Hoo1 & Fro)).
    assert (HK1 := opts_kept_upd _ _ _ _ HO1).
    assert (N01 := frame_nrows _ _ _ HF1).
    set (x' := OE (x_ref x) ro' po' : oent K).
    set (tags := tags1 ++ a :: tags2) in *.
    set (es0 := tmap a W' B' tags (es1 ++ e :: es2)).
    assert (Pl : Forall2 same_place (es1 ++ e :: es2) es0) by (apply tmap_place; exact LTT).
    destruct (same_place_maps _ _ Pl) as (M1 & M2 & M3).
    assert (Ees : es0 = tmap a W' B' (tags1 ++ [a]) (es1 ++ [e]) ++ tmap a W' B' tags2 es2).
    { unfold es0, tags. rewrite <- tmap_app by (rewrite !app_length; simpl; lia). rewrite <- !app_assoc. reflexivity. }
    assert (Slots1 : same_slots s (xs1 ++ x :: xs2) ((xs1 ++ [x']) ++ xs2)).
    { rewrite <- app_assoc. apply Forall2_app; [apply same_slots_refl|]. constructor; [split; [reflexivity|right; exact Fro]|apply same_slots_refl]. }
    assert (HLo1 : Forall (lok s1) es0).
    { rewrite Forall_forall. intros e1' He1'. destruct (in_tmap _ _ _ _ _ _ He1') as (b & e1 & Hbe & ->).
      assert (He1 : In e1 (es1 ++ e :: es2)) by (eapply in_combine_r; eauto).
      specialize (HTt _ _ _ _ Hinc Hbe). unfold tset. rewrite Nat.eqb_sym.
      destruct (a =? b)%nat.
      - destruct HTt as (S1 & S2 & S3 & S4). destruct (HLo' e1 He1) as (l1 & Hl1 & Hlo1).
        exists l1. cbn [e_ref e_rw e_rb e_p]. split; [destruct HR1 as (-> & _); exact Hl1|].
        destruct Hlo1 as (A1 & A2 & A3 & A4 & A5 & A6 & A7 & A8 & A9).
        unfold lown; cbn [reparam p_kind p_in p_out p_slope p_drop p_w p_b].
        split; [exact A1|]. split; [exact A2|]. split; [exact A3|]. split; [exact A4|]. split; [exact A5|].
        split; [exact A6|]. split; [exact A7|]. rewrite S1, S2, S3, S4 in *.
        split; [eapply own_same_rows; [exact A8|exact HF1|exact Hw]|eapply own_same_rows; [exact A9|exact HF1|exact Hb]].
      - eapply lok_kept; [apply HLo'; exact He1|exact HF1|apply (layers_kept_eq []); apply HR1|].
        intros z Hz Hz'. apply (HTt z); [exact Hz'|]. rewrite in_app_iff. tauto. }
    assert (HOK1 : Forall2 (ook s1) es0 ((xs1 ++ [x']) ++ xs2)).
    { rewrite map_app in HNx. cbn [map] in HNx. apply NoDup_remove_2 in HNx.
      assert (Hothers : forall e1 x1, In x1 (xs1 ++ xs2) -> ook s e1 x1 -> ook s1 e1 x1).
      { intros e1 x1 Hx1 H1. eapply ook_frame; [exact H1|exact HF1|exact HK1| |].
        - intros [E|[]]. apply HNx. rewrite E, <- map_app. now apply in_map.
        - intros z Hz Hz'. apply (HDo z); [eapply prows_in; [exact Hine|exact Hz']|].
          eapply orows_in; [|exact Hz]. rewrite in_app_iff in *. simpl. tauto. }
      assert (Hthis : ook s1 e x').
      { exists o'. simpl. split; [rewrite HO1; eapply nth_upd_eq; eauto|exact Hoo1]. }
      rewrite <- app_assoc. cbn [List.app].
      assert (HOo1 : Forall2 (ook s1) (es1 ++ e :: es2) (xs1 ++ x' :: xs2)).
      { clear - HOo Hothers Hthis Lx. revert xs1 HOo Hothers Lx.
        induction es1 as [|e1 es1 IHe]; intros [|x1 xs1] HOo Hothers Lx; try discriminate; simpl in *; inversion HOo; subst.
        - constructor; [exact Hthis|]. eapply Forall2_in; [|eassumption]. intros; auto.
        - constructor; [apply Hothers; auto|]. apply IHe; auto. }
      clear - HOo1 Pl. revert HOo1. generalize (xs1 ++ x' :: xs2). induction Pl as [|e1 e1' l1 l1' P1 _ IHp]; intros ys HO; inversion HO; subst; constructor.
      - eapply ook_place; eauto.
      - apply IHp; assumption. }
    replace (rev (gs1 ++ g :: gs2)) with (rev ((gs1 ++ [g]) ++ gs2)) by (rewrite <- app_assoc; reflexivity).
    replace (Z.of_nat (length es1) + 1) with (Z.of_nat (length (es1 ++ [e]))) by (rewrite app_length; simpl; lia).
    assert (LTa : length (tags1 ++ [a]) = length (es1 ++ [e])) by (rewrite !app_length; simpl; lia).
    assert (LTb : length tags2 = length es2) by lia.
    rewrite <- (tmap_length a W' B' (tags1 ++ [a]) (es1 ++ [e]) LTa).
    rewrite <- (tmap_length a W' B' tags2 es2 LTb).
    eapply wp_conseq; [eapply (IH (tags1 ++ [a]) (tmap a W' B' (tags1 ++ [a]) (es1 ++ [e])) (tmap a W' B' tags2 es2) (xs1 ++ [x']) xs2 (gs1 ++ [g]) gs2 Gs2 grws s1)|].
    + rewrite tmap_length by exact LTa. exact LTa.
    + rewrite tmap_length by exact LTb. exact LTb.
    + rewrite <- Ees, M1. exact HL.
    + rewrite HX, <- app_assoc, !map_app. reflexivity.
    + rewrite tmap_length by exact LTa. rewrite !app_length. simpl. lia.
    + rewrite tmap_length by exact LTa. rewrite !app_length. simpl. lia.
    + rewrite !tmap_length by assumption. rewrite HS, app_length. simpl. f_equal. lia.
    + rewrite <- Ees. exact HLo1.
    + rewrite <- Ees, <- app_assoc. cbn [List.app]. eapply tied_same; eauto.
    + rewrite <- Ees. exact HOK1.
    + rewrite <- app_assoc, map_app in *. exact HNx.
    + rewrite <- Ees, M2. eapply same_slots_disjoint; eauto.
    + eapply grads_rep_like; [apply place_like, tmap_place; exact LTb|].
      eapply grads_rep_frame; [exact HG|exact HF1|]. intros z Hz Hz'. apply (HDg z); [eapply prows_in; [exact Hine|exact Hz']|].
      rewrite !in_app_iff. tauto.
    + rewrite <- Ees, M2. intros z Hz Hz'. apply (HDg z Hz). rewrite !in_app_iff. tauto.
    + intros _ s2 (es' & xs' & SP & SO & HTr & HL2 & HOK2 & HF2 & HR2 & HK2).
      rewrite <- Ees in SP, HF2. rewrite M2 in HF2.
      exists es', xs'. split; [eapply same_place_trans; eauto|]. split; [eapply same_slots_trans; eauto|].
      split; [|split; [exact HL2|split; [exact HOK2|split; [|split]]]].
      * rewrite <- app_assoc in HTr. cbn [List.app] in HTr. unfold tags. rewrite HTr.
        unfold trainer at 4. cbn [net map combine]. fold (net es2). fold (trainer es2 xs2). cbn [tied_loop]. rewrite HT.
        f_equal.
        -- assert (Ec : tmap a W' B' (tags1 ++ [a]) (es1 ++ [e]) = tmap a W' B' tags1 es1 ++ [LE (e_ref e) (e_rw e) (e_rb e) (reparam (e_p e) W' B')]).
           { rewrite tmap_app by exact LT1. simpl. unfold tset. rewrite Nat.eqb_refl. reflexivity. }
           rewrite Ec. pose proof (trainer_tmap a (reparam (e_p e) W' B', po') tags1 es1 xs1 LT1 Lx) as E.
           cbn [fst reparam p_w p_b] in E. rewrite <- E. unfold trainer, net. rewrite !map_app. cbn [map e_p x_po x'].
           assert (L' : length (map e_p (tmap a W' B' tags1 es1)) = length (map x_po xs1)) by (rewrite !map_length, tmap_length; auto).
           assert (HC : forall (A1 A2 : Type) (u : list A1) (v : list A2) c d, length u = length v -> combine (u ++ [c]) (v ++ [d]) = combine u v ++ [(c, d)]).
           { clear. intros A1 A2 u. induction u as [|h u IHu]; intros [|h' v] c d H; try discriminate; simpl; auto. f_equal. apply IHu. simpl in H. lia. }
           rewrite HC by exact L'. rewrite HC; [reflexivity|]. rewrite combine_length, !map_length, tmap_length by exact LT1. lia.
        -- apply (trainer_tmap a (reparam (e_p e) W' B', po') tags2 es2 xs2 LTb). lia.
      * eapply frame_trans; [exact HF1|exact HF2|]. intros z _ [Hz|Hz]; [|exact Hz]. unfold among in *. eapply prows_in; eauto.
      * eapply rest3_trans; eauto.
      * rewrite <- app_assoc in HK2. eapply opts_kept_trans; [exact HK1|exact HK2| |]; rewrite !map_app; cbn [map List.app x_ref x']; intros z Hz;
          rewrite !in_app_iff in *; simpl in *; tauto.
Qed.

Lemma combine_snd_map {A B} (l : list A) (l' : list B) : length l = length l' -> map snd (combine l l') = l'.
Proof. revert l'. induction l as [|a l IH]; intros [|b l'] H; try discriminate; simpl; auto. f_equal. apply IH. simpl in H. lia. Qed.

(** ** One batch *)
Lemma wp_tied_batch s m tags es xs i o k bx rbx by_ rby r (X Y : pm K) :
  tied_trainable s m tags es xs i o k -> own s bx rbx r i X -> own s by_ rby r o Y -> (1 <= r)%nat ->
  wp (outputs <- or_log "Failed to perform forward pass: " (Forward m bx true) ;;
      grads <- or_log "Failed to perform forward pass: " (Backward m outputs by_) ;;
      for_ (m_size m) (upd_body m grads)) s (fun _ s' =>
    tied_result s s' m tags es xs i o k (tied_batch tags k o (trainer es xs) X Y (r_uni (h_rng s)) (r_upos (h_rng s)))
      (net_draws true (net es) r)).
Proof.
  intros (HC & NR & HTi & Hlen & HX & NX & HOO & HDO & HLs & HLt & HK) Hbx Hby Hr.
  apply wp_bind, wp_or_log. eapply wp_conseq; [eapply (wp_Forward true s m es i o bx rbx r X); eauto|].
  intros outs s1 (outs' & rss & -> & HR & HF & HND & HOld & HE).
  assert (HE' := HE). destruct HE' as (HFr & (R1 & R2 & R3) & HKl & HG).
  assert (HC' := HC). destruct HC' as (L1 & L2 & L3 & L4 & L5 & L6).
  assert (HLo1 : Forall (lok s1) es).
  { eapply Forall_impl; [|exact L6]. intros e He. eapply lok_kept; eauto. }
  set (U := r_uni (h_rng s)) in *. set (q := r_upos (h_rng s)) in *.
  assert (HReady : ready s1 m es i o k bx rbx r X by_ rby Y U q outs' rss).
  { split; [split; [exact L1|]; split; [exact L2|]; split; [exact L3|]; split; [exact L4|]; split; [exact L5|exact HLo1]|].
    split; [exact Hlen|]. split; [exact HLs|]. split; [exact HLt|]. split; [exact HK|]. split; [exact HR|].
    split; [eapply own_frame; eauto|]. split; [eapply own_frame; eauto|]. split; [exact Hr|]. split; [exact HOld|]. split; [exact HND|].
    - eapply disjoint_old_fresh; [|exact HF]. rewrite Forall_forall. intros z Hz. rewrite !in_app_iff in Hz.
      destruct Hz as [Hz|[Hz|Hz]]; [exact (own_old_in _ _ _ _ _ _ _ Hbx Hz)|exact (own_old_in _ _ _ _ _ _ _ Hby Hz)|].
      eapply prows_old; eauto. }
  apply wp_bind, wp_or_log. eapply wp_conseq; [eapply wp_Backward; exact HReady|].
  intros grads s2 (gs & grws & -> & HGr & HFg & HF2 & HR2).
  assert (N01 : (nrows s <= nrows s1)%nat) by (eapply frame_nrows; eauto).
  assert (HF02 : frame nothing s s2) by (eapply frame_fresh'; eauto).
  assert (N02 : (nrows s <= nrows s2)%nat) by (eapply frame_nrows; eauto).
  assert (E2 : train_effect es xs (net_draws true (net es) r) [] s s2).
  { destruct HR2 as (A1 & A2 & A3 & A4 & A5). split; [apply frame_nothing, HF02|].
    split; [eapply layers_kept_trans; [exact HKl|eapply (layers_kept_eq []); exact A1| |]; auto using incl_refl; intros z []|].
    split; [apply opts_kept_eq; congruence|]. rewrite A3. split; [exact HG|]. rewrite app_nil_r. split; congruence. }
  unfold for_, for_acc. rewrite L2, Nat2Z.id.
  assert (LX : length xs = length es) by (symmetry; eapply Forall2_length; eauto).
  assert (HLo2 : Forall (lok s2) es).
  { eapply Forall_impl; [|exact L6]. intros e He. destruct E2 as (_ & E2 & _). eapply lok_kept; eauto. }
  assert (LT : length tags = length es) by apply HTi.
  eapply wp_conseq; [eapply (wp_tied_loop m tags [] [] es [] xs [] gs _ grws s2); eauto|].
  - eapply Forall2_in; [|exact HOO]. intros e x He Hx' H. eapply (ook_frame _ []); [exact H|exact HF02| |intros []|].
    + apply opts_kept_eq. destruct HR2 as (_ & A2 & _). congruence.
    + intros z _ [].
  - eapply disjoint_old_fresh; [|eapply fresh_mono; [exact N01|exact HFg]]. rewrite Forall_forall. intros z Hz. eapply prows_old; eauto.
  - cbn [List.app]. intros [] s3 (es' & xs' & SP & SO & HT & HL3 & HO3 & HF3 & HR3 & HK3).
    destruct (same_place_maps _ _ SP) as (M1 & M2 & M3).
    assert (SO' := same_slots_places _ _ _ SO). destruct (same_oplace_map _ _ SO') as (M4 & M5).
    assert (SOs : same_slots s xs xs') by (eapply same_slots_trans; [exact N02|apply same_slots_refl|exact SO]).
    exists es', xs'. split; [|split; [exact SP|split; [exact SOs|split]]].
    + split; [|split; [|split; [|split; [|split; [|split; [|split; [|split; [|split; [|split]]]]]]]]].
      * split; [congruence|]. split; [congruence|]. split; [exact L3|]. split; [exact L4|]. split; [eapply same_place_chain; eauto|exact HL3].
      * rewrite M1. exact NR.
      * eapply tied_same; eauto.
      * lia.
      * congruence.
      * rewrite M4. exact NX.
      * exact HO3.
      * rewrite M2. eapply same_slots_disjoint; eauto.
      * exact HLs.
      * exact HLt.
      * exact (same_place_kind _ _ (fun kd => kd <> SigmoidK) SP HK).
    + unfold tied_batch. rewrite trainer_net by exact LX.
      pose proof (own_shape _ _ _ _ _ _ Hbx) as [E _]. rewrite E. cbn [combine] in HT.
      assert (HC2 : map snd (combine tags (trainer es' xs')) = trainer es' xs').
      { apply combine_snd_map. unfold trainer, net. rewrite combine_length, !map_length. lia. }
      rewrite <- HC2, HT. reflexivity.
    + replace (net_draws true (net es) r) with (net_draws true (net es) r + 0)%nat by lia.
      change (@nil (logline K)) with (@nil (logline K) ++ []). eapply train_effect_trans; [exact E2|].
      destruct HR3 as (A1 & A2 & A3 & A4). split; [exact HF3|]. split; [apply layers_kept_eq; exact A1|].
      split; [exact HK3|]. rewrite A2, adv_uni_0, app_nil_r. auto.
Qed.

(** ** Fit *)
Lemma tied_result_refl s m tags es xs i o k : tied_trainable s m tags es xs i o k -> tied_result s s m tags es xs i o k (trainer es xs) 0.
Proof. intros H. exists es, xs. auto using same_place_refl, same_slots_refl, train_effect_refl. Qed.
Lemma tied_result_trans s s1 s2 m tags es xs es1 xs1 i o k ts2 n1 n2 :
  Forall2 same_place es es1 -> same_slots s xs xs1 -> train_effect es xs n1 [] s s1 ->
  tied_result s1 s2 m tags es1 xs1 i o k ts2 n2 ->
  tied_result s s2 m tags es xs i o k ts2 (n1 + n2).
Proof.
  intros P Q E (es2 & xs2 & H & P2 & Q2 & T & E2). exists es2, xs2. split; [exact H|].
  split; [eapply same_place_trans; eauto|]. split; [eapply same_slots_trans; [eapply frame_nrows; apply E|exact Q|exact Q2]|]. split; [exact T|].
  change (@nil (logline K)) with (@nil (logline K) ++ []).
  eapply train_effect_trans; [exact E|]. eapply train_effect_places; eauto using same_slots_places.
Qed.
Lemma consistent_sizes s m es i o : consistent s m es i o -> (1 <= length es)%nat -> (1 <= i)%nat /\ (1 <= o)%nat.
Proof.
  intros (_ & _ & _ & _ & Hc & Hok) Hlen.
  destruct (list_snoc _ Hlen) as (es0 & e & ->). rewrite Forall_forall in Hok.
  destruct (Hok e) as (l & _ & Hl); [apply in_or_app; simpl; auto|].
  assert (Hc' := Hc). rewrite net_app in Hc'. apply chain_snoc in Hc'. destruct Hc' as (_ & <-).
  split; [|apply Hl].
  destruct es0 as [|e0 es0]; simpl in Hc; destruct Hc as [<- _].
  - apply Hl.
  - destruct (Hok e0) as (l0 & _ & Hl0); [simpl; auto|]. apply Hl0.
Qed.
Lemma wp_tied_fit_batch s m tags es xs i o k x rsx y rsy n (X Y : pm K) b j :
  min_faithful K -> Z.of_nat (n + b) <= 2 ^ 53 ->
  tied_trainable s m tags es xs i o k -> data_ok s es x rsx y rsy n i o X Y -> (1 <= b)%nat -> (j * b < n)%nat ->
  wp (fit_batch m x y (Z.of_nat b) (Z.of_nat j)) s (fun _ s' =>
    tied_result s s' m tags es xs i o k
      (tied_batch tags k o (trainer es xs) (sub (j * b) b X) (sub (j * b) b Y) (r_uni (h_rng s)) (r_upos (h_rng s)))
      (net_draws true (net es) (length (sub (j * b) b X)))).
Proof.
  intros HM H53 HT (HX & HY & D1 & D2) Hb Hj. destruct (consistent_sizes s m es i o ltac:(apply HT) ltac:(apply HT)) as [Hi Ho].
  assert (LX : length X = n) by (apply (own_shape _ _ _ _ _ _ HX)).
  assert (LY : length Y = n) by (apply (own_shape _ _ _ _ _ _ HY)).
  rewrite !(sub_min (j * b) b), LX, LY. set (len := Nat.min b (n - j * b)).
  assert (Hlen : (1 <= len)%nat) by (unfold len; lia).
  assert (Hle : (j * b + len <= n)%nat) by (unfold len; lia).
  replace (length (sub (j * b) len X)) with len by (unfold sub; rewrite firstn_length, skipn_length; lia).
  unfold fit_batch. rewrite (own_rows _ _ _ _ _ _ HY).
  rewrite HM by (unfold small_int; nia).
  replace (Z.min ((Z.of_nat j + 1) * Z.of_nat b) (Z.of_nat n)) with (Z.of_nat (j * b + len)) by (unfold len; nia).
  replace (Z.of_nat j * Z.of_nat b) with (Z.of_nat (j * b)) by nia.
  destruct (batch_own _ _ _ _ _ _ _ _ HX Hle Hlen Hi) as (sx & R1 & N1 & O1).
  destruct (batch_own _ _ _ _ _ _ _ _ HY Hle Hlen Ho) as (sy & R2 & N2 & O2).
  apply wp_bind. eapply wp_eq; [exact R1|]. apply wp_bind. eapply wp_eq; [exact N1|].
  apply wp_bind. eapply wp_eq; [exact R2|]. apply wp_bind. eapply wp_eq; [exact N2|].
  eapply (wp_tied_batch s m tags es xs i o k _ _ _ _ len); eauto.
Qed.
Lemma wp_tied_batches m tags i o k x rsx y rsy n (X Y : pm K) b :
  min_faithful K -> Z.of_nat (n + b) <= 2 ^ 53 -> (1 <= b)%nat ->
  forall c j s es xs, tied_trainable s m tags es xs i o k -> data_ok s es x rsx y rsy n i o X Y ->
  (c = 0 \/ (j + c - 1) * b < n)%nat ->
  wp (loop c (Z.of_nat j) (fun st (_ : unit) => fit_batch m x y (Z.of_nat b) st) tt) s (fun _ s' =>
    let tq := tied_train tags k o (trainer es xs) (r_uni (h_rng s)) (r_upos (h_rng s))
                 (map (fun a => (sub (a * b) b X, sub (a * b) b Y)) (seq j c)) in
    exists nn, snd tq = (r_upos (h_rng s) + nn)%nat /\ tied_result s s' m tags es xs i o k (fst tq) nn).
Proof.
  intros HM H53 Hb. cbv zeta. induction c as [|c IH]; intros j s es xs HT HD Hj.
  - apply wp_ret. exists 0%nat. split; [simpl; lia|]. apply tied_result_refl; exact HT.
  - cbn [loop]. apply wp_bind. eapply wp_conseq; [eapply wp_tied_fit_batch; eauto; nia|].
    intros [] s1 (es1 & xs1 & HT1 & P1 & Q1 & T1 & E1).
    replace (Z.of_nat j + 1) with (Z.of_nat (S j)) by lia.
    destruct (train_effect_rng _ _ _ _ _ _ E1) as [HR1 HR2].
    eapply wp_conseq; [apply (IH (S j) s1 es1 xs1)|].
    + exact HT1.
    + eapply data_ok_effect; eauto.
    + nia.
    + rewrite HR1, HR2, T1. intros [] s2 (nn & Hn & H).
      cbn [seq map tied_train].
      rewrite trainer_net in * by (symmetry; eapply Forall2_length; apply HT).
      exists (net_draws true (net es) (length (sub (j * b) b X)) + nn)%nat.
      split; [rewrite Hn; lia|]. eapply tied_result_trans; eauto.
Qed.
Lemma tied_train_app tags k o U bs1 : forall ts q bs2,
  tied_train (K := K) tags k o ts U q (bs1 ++ bs2) =
  tied_train tags k o (fst (tied_train tags k o ts U q bs1)) U (snd (tied_train tags k o ts U q bs1)) bs2.
Proof. induction bs1 as [|[X Y] bs1 IH]; intros ts q bs2; [reflexivity|]. simpl. apply IH. Qed.
Lemma wp_tied_epochs m tags i o k x rsx y rsy n (X Y : pm K) b xv yv :
  min_faithful K -> Z.of_nat (n + b) <= 2 ^ 53 -> (1 <= b)%nat -> (1 <= n)%nat ->
  forall c e s es xs, tied_trainable s m tags es xs i o k -> data_ok s es x rsx y rsy n i o X Y ->
  wp (loop c e (fun ep (_ : unit) => epoch_body m x y (Z.of_nat (nsteps n b)) (Z.of_nat b) xv yv 0 ep) tt) s (fun _ s' =>
    let tq := tied_train tags k o (trainer es xs) (r_uni (h_rng s)) (r_upos (h_rng s)) (epochs_of c b X Y) in
    exists nn, snd tq = (r_upos (h_rng s) + nn)%nat /\ tied_result s s' m tags es xs i o k (fst tq) nn).
Proof.
  intros HM H53 Hb Hn. cbv zeta. induction c as [|c IH]; intros e s es xs HT HD.
  - apply wp_ret. exists 0%nat. split; [simpl; lia|]. apply tied_result_refl; exact HT.
  - cbn [loop]. apply wp_bind. unfold epoch_body at 1.
    assert (LX : length X = n) by (apply (own_shape _ _ _ _ _ _ (proj1 HD))).
    assert (LY : length Y = n) by (apply (own_shape _ _ _ _ _ _ (proj1 (proj2 HD)))).
    apply wp_bind. unfold for_, for_acc. rewrite Nat2Z.id. change 0 with (Z.of_nat 0) at 1.
    eapply wp_conseq; [apply (wp_tied_batches m tags i o k x rsx y rsy n X Y b HM H53 Hb (nsteps n b) 0 s es xs HT HD)|].
    { destruct (nsteps_spec n b Hb). simpl. lia. }
    cbv zeta. intros [] s1 (nn & Hq & es1 & xs1 & HT1 & P1 & Q1 & T1 & E1).
    replace (negb (0 =? 0)) with false by reflexivity. rewrite andb_false_r. cbn [andb].
    apply wp_bind, wp_ret, wp_ret.
    destruct (train_effect_rng _ _ _ _ _ _ E1) as [R1 R2].
    eapply wp_conseq; [apply (IH (e + 1) s1 es1 xs1 HT1)|].
    + eapply data_ok_effect; eauto.
    + intros [] s2 H. rewrite R1, R2, T1, <- Hq in H. unfold epochs_of in *. cbn [repeat concat]. rewrite tied_train_app.
      rewrite !chunks_seq, LX, LY, combine_map in * by exact Hb.
      destruct H as (nn2 & Hq2 & H). exists (nn + nn2)%nat. split; [rewrite Hq2, Hq; lia|].
      eapply tied_result_trans; eauto.
Qed.
Lemma tied_fit s m tags es xs i o k x rsx y rsy n (X Y : pm K) epochs bs xv yv :
  min_faithful K -> 0 <= bs -> Z.of_nat n + bs <= 2 ^ 52 -> (1 <= n)%nat ->
  tied_trainable s m tags es xs i o k -> data_ok s es x rsx y rsy n i o X Y ->
  returns (Fit m x y epochs bs xv yv 0) s (fun _ s' =>
    let tq := tied_train tags k o (trainer es xs) (r_uni (h_rng s)) (r_upos (h_rng s)) (epochs_of (Z.to_nat epochs) (batch_rows n bs) X Y) in
    exists nn, snd tq = (r_upos (h_rng s) + nn)%nat /\ tied_result s s' m tags es xs i o k (fst tq) nn).
Proof.
  intros HM Hbs H53 Hn HT HD. apply returns_wp. unfold Fit. cbv zeta. rewrite (own_rows _ _ _ _ _ _ (proj1 (proj2 HD))).
  unfold batch_rows. destruct (Z.eqb_spec bs 0) as [->|Hnz]; simpl negb; cbv iota.
  - replace 1 with (Z.of_nat (nsteps n n)).
    + eapply (wp_tied_epochs m tags i o k x rsx y rsy n X Y n xv yv); eauto; lia.
    + unfold nsteps. rewrite Nat.div_same by lia. rewrite Nat.mul_1_l, Nat.ltb_irrefl. reflexivity.
  - assert (E : bs = Z.of_nat (Z.to_nat bs)) by lia.
    set (b := Z.to_nat bs) in *. clearbody b. subst bs.
    assert (Hs := nsteps_Z n b ltac:(lia)). cbv zeta in Hs. rewrite Hs.
    eapply (wp_tied_epochs m tags i o k x rsx y rsy n X Y b xv yv); eauto; lia.
Qed.
End WithNum.
