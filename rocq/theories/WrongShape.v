(** * WrongShape: training with data of the wrong width. *)
From Coq Require Import String ZArith List Bool Arith Lia.
From Verif Require Import Num Heap Spec Matrix Loss Network Optimizers ModelGo PureSpec Repr HeapLemmas LoopLemmas MatrixProofs MatrixFacts LayerProofs LayerFacts LossProofs LossCode MiscProofs OptSpec OptProofs OptFacts ModelSpec ModelProofs FitProofs FitLoop FitFacts LateLayer.
Import ListNotations.
Open Scope Z_scope.
Open Scope go_scope.

Section WithNum.
Context {K : Num}.
Implicit Types (s : state K) (es : list (lent K)) (xs : list (oent K)).

(** Fit ends as its first batch does, if that does not return. *)
Lemma fit_first s m x y n epochs bs xv yv every e s' : mrows y = Z.of_nat n -> (1 <= n)%nat -> 0 <= bs -> 1 <= epochs ->
  fit_batch m x y (Z.of_nat (batch_rows n bs)) 0 s = (Fail e, s') ->
  Fit (K := K) m x y epochs bs xv yv every s = (Fail e, s').
Proof.
  intros Hy Hn Hbs He HE. unfold Fit. cbv zeta. rewrite Hy.
  unfold for_ at 1, for_acc. destruct (Z.to_nat epochs) as [|ep] eqn:Eep; [lia|]. cbn [loop].
  assert (HB : exists st, (1 <= st)%nat /\
    (if negb (bs =? 0) then (if Z.quot (Z.of_nat n) bs * bs <? Z.of_nat n then Z.quot (Z.of_nat n) bs + 1 else Z.quot (Z.of_nat n) bs) else 1) = Z.of_nat st).
  { destruct (Z.eqb_spec bs 0) as [->|N]; cbn [negb]; [exists 1%nat; lia|].
    rewrite Z.quot_div_nonneg by lia.
    assert (0 <= Z.of_nat n / bs) by (apply Z.div_pos; lia).
    destruct (Z.ltb_spec (Z.of_nat n / bs * bs) (Z.of_nat n)).
    + exists (Z.to_nat (Z.of_nat n / bs + 1)). lia.
    + assert (Z.of_nat n / bs <> 0) by (intros E; rewrite E in *; lia). exists (Z.to_nat (Z.of_nat n / bs)). lia. }
  destruct HB as (st & Hst & ->).
  replace (if negb (bs =? 0) then bs else Z.of_nat n) with (Z.of_nat (batch_rows n bs)) by (unfold batch_rows; destruct (Z.eqb_spec bs 0); simpl; lia).
  apply bind_fail, bind_fail. unfold for_, for_acc. rewrite Nat2Z.id. destruct st as [|st]; [lia|]. cbn [loop]. apply bind_fail, HE.
Qed.
Lemma or_log_fail {A} what (m : M K A) s e s' : m s = (Fail e, s') -> h_logger s' = true ->
  or_log what m s = (Fail e, with_log s' (h_log s' ++ [LError what e])).
Proof. intros H HL. unfold or_log, bind, catch. rewrite H. unfold log_print. rewrite HL. reflexivity. Qed.

(** The two batches of step 0. *)
Lemma first_batch (HM : min_faithful K) s m x rsx y rsy n ix oy (X Y : pm K) bs : own s x rsx n ix X -> own s y rsy n oy Y ->
  (1 <= n)%nat -> (1 <= ix)%nat -> (1 <= oy)%nat -> 0 <= bs -> Z.of_nat n + bs <= 2 ^ 52 ->
  let b := batch_rows n bs in let r := Nat.min b n in
  exists sx sy, own s (MkMatrix (Z.of_nat r) (Z.of_nat ix) sx) (sub 0 r rsx) r ix (sub 0 r X) /\
    own s (MkMatrix (Z.of_nat r) (Z.of_nat oy) sy) (sub 0 r rsy) r oy (sub 0 r Y) /\ (1 <= r)%nat /\
    fit_batch m x y (Z.of_nat b) 0 s =
    (outputs <- or_log "Failed to perform forward pass: " (Forward m (MkMatrix (Z.of_nat r) (Z.of_nat ix) sx) true) ;;
     grads <- or_log "Failed to perform forward pass: " (Backward m outputs (MkMatrix (Z.of_nat r) (Z.of_nat oy) sy)) ;;
     for_ (m_size m) (upd_body m grads)) s.
Proof.
  intros HX HY Hn Hi Ho Hbs H52 b r.
  assert (Hb : (1 <= b)%nat) by (unfold b, batch_rows; destruct (Z.eqb_spec bs 0); lia).
  assert (Hb2 : Z.of_nat b <= Z.of_nat n + bs) by (unfold b, batch_rows; destruct (Z.eqb_spec bs 0); lia).
  assert (Hr : (1 <= r)%nat) by (unfold r; lia). assert (Hle : (0 + r <= n)%nat) by (unfold r; lia).
  destruct (batch_own _ _ _ _ _ _ _ _ HX Hle Hr Hi) as (sx & R1 & N1 & Hbx).
  destruct (batch_own _ _ _ _ _ _ _ _ HY Hle Hr Ho) as (sy & R2 & N2 & Hby).
  exists sx, sy. split; [exact Hbx|]. split; [exact Hby|]. split; [exact Hr|].
  unfold fit_batch. rewrite (own_rows _ _ _ _ _ _ HY), HM by (unfold small_int; lia).
  replace (Z.min ((0 + 1) * Z.of_nat b) (Z.of_nat n)) with (Z.of_nat (0 + r)) by (unfold r; lia).
  change (0 * Z.of_nat b) with (Z.of_nat 0).
  rewrite (bind_eq _ _ _ _ _ R1), (bind_eq _ _ _ _ _ N1), (bind_eq _ _ _ _ _ R2), (bind_eq _ _ _ _ _ N2). reflexivity.
Qed.

Lemma Forward_width s m es i o x t : consistent s m es i o -> (1 <= length es)%nat -> mcols x <> Z.of_nat i ->
  Forward m x t s = (Fail (EMatDims (mrows x) (mcols x)), s).
Proof.
  intros (HL & HS & Hi & Ho & HC & HLo) Hlen Hx. destruct es as [|e es]; [simpl in Hlen; lia|].
  inversion_clear HLo as [|? ? (l & Hl & Hlo) _]. destruct HC as [Ei _].
  unfold Forward. apply bind_fail. unfold for_acc. rewrite HS, Nat2Z.id. cbn [length loop]. apply bind_fail.
  erewrite bind_eq by (apply go_nth_app' with (l1 := []) (x := e_ref e) (l2 := map e_ref es) (n := 0%nat); [exact HL|reflexivity]).
  apply bind_fail. cbn [snd]. unfold forward_layer. rewrite (bind_eq _ _ _ _ _ (get_layer_run _ _ _ Hl)).
  assert (Hw : mcols x <> l_in l). { destruct Hlo as (_ & -> & _). rewrite Ei. exact Hx. }
  pose proof (Layer_Forward_err _ _ _ _ Hl Hw). pose proof (NoDropout_err _ _ _ _ Hl Hw).
  destruct (l_kind l), t; assumption.
Qed.

(** Samples of the wrong width: nothing changes but the log. *)
Lemma fit_wrong_inputs s m es i o x rsx y rsy n ix oy (X Y : pm K) epochs bs xv yv every :
  min_faithful K -> 0 <= bs -> Z.of_nat n + bs <= 2 ^ 52 -> (1 <= n)%nat -> 1 <= epochs ->
  consistent s m es i o -> (1 <= length es)%nat -> h_logger s = true ->
  own s x rsx n ix X -> own s y rsy n oy Y -> (1 <= ix)%nat -> (1 <= oy)%nat -> ix <> i ->
  let e := EMatDims (Z.of_nat (Nat.min (batch_rows n bs) n)) (Z.of_nat ix) in
  Fit m x y epochs bs xv yv every s = (Fail e, with_log s (h_log s ++ [LError "Failed to perform forward pass: " e])).
Proof.
  intros HM Hbs H52 Hn He HC Hlen HLg HX HY Hix Hoy Hne e.
  eapply fit_first; eauto using own_rows.
  destruct (first_batch HM s m x rsx y rsy n ix oy X Y bs HX HY Hn Hix Hoy Hbs H52) as (sx & sy & _ & _ & _ & ->).
  apply bind_fail. apply or_log_fail; [|exact HLg].
  rewrite (Forward_width s m es i o) by (cbn; auto; lia). reflexivity.
Qed.

Lemma Backward_width s m es i o k x r X U q outs rss y : consistent s m es i o -> (1 <= length es)%nat ->
  m_loss m = Some (MkLoss k (Z.of_nat o)) -> mcols x = Z.of_nat i -> (1 <= r)%nat ->
  fwd_rep s true es r X U q outs rss -> mcols y <> Z.of_nat o ->
  Backward m (x :: outs) y s = (Fail (EMatDims (mrows y) (mcols y)), s).
Proof.
  intros (HL & HS & Hi & Ho & HC & HLo) Hlen HLs Hx Hr HR Hy.
  destruct (list_snoc es Hlen) as (es0 & e & ->). rewrite net_app in HC. apply chain_snoc in HC as [HC HOe].
  destruct (fwd_rep_snoc _ _ _ _ _ _ _ _ _ _ HR) as (outs0 & out & rss0 & rs & rsm & -> & -> & HR0 & HRe).
  destruct HRe as (HO & _ & _ & _). apply Forall_app in HLo as [_ HLe]. inversion_clear HLe as [|? ? (l & Hl & Hlo) _].
  rewrite app_length in HS. simpl in HS. rewrite map_app in HL. cbn [map] in HL.
  assert (L0 : length outs0 = length es0).
  { clear - HR0. revert X q outs0 rss0 HR0. induction es0 as [|e0 es0 IH]; intros X q [|a outs0] [|[b c] rss0] H; simpl in *; try contradiction; auto.
    destruct H as (_ & _ & _ & H). f_equal. eapply IH; eauto. }
  assert (Eout : go_nth (K := K) (x :: outs0 ++ [out]) (m_size m) s = (Ret out, s)).
  { rewrite HS. replace (length es0 + 1)%nat with (S (length es0)) by lia.
    apply go_nth_app' with (l1 := x :: outs0) (x := out) (l2 := []); [reflexivity|simpl; now rewrite L0]. }
  unfold Backward.
  erewrite bind_eq.
  2:{ replace (m_size m - 1) with (Z.of_nat (length es0)) by lia.
      apply go_nth_app' with (l1 := map e_ref es0) (x := e_ref e) (l2 := []); [exact HL|now rewrite map_length]. }
  rewrite (bind_eq _ _ _ _ _ (is_softmax_run _ _ _ Hl)).
  assert (Hc : mcols out = Z.of_nat o). { rewrite <- HOe. eapply own_cols; eauto. }
  destruct ((match l_kind l with SoftmaxK => true | _ => false end) && (m_losstype m =? 2)).
  - assert (Ex : exists xl, go_nth (K := K) (x :: outs0 ++ [out]) (m_size m - 1) s = (Ret xl, s)).
    { destruct (nth_error (x :: outs0 ++ [out]) (length es0)) as [xl|] eqn:En.
      - exists xl. replace (m_size m - 1) with (Z.of_nat (length es0)) by lia. unfold go_nth.
        assert (length es0 < length (x :: outs0 ++ [out]))%nat by (apply nth_error_Some; congruence).
        replace ((0 <=? Z.of_nat (length es0)) && (Z.of_nat (length es0) <? Z.of_nat (length (x :: outs0 ++ [out])))) with true by lia.
        now rewrite Nat2Z.id, En.
      - apply nth_error_None in En. simpl in En. rewrite app_length in En. simpl in En. lia. }
    destruct Ex as (xl & Ex). rewrite (bind_eq _ _ _ _ _ Ex), (bind_eq _ _ _ _ _ Eout). apply bind_fail.
    unfold BackwardCrossEntropy. rewrite (bind_eq _ _ _ _ _ (get_layer_run _ _ _ Hl)).
    assert (l_out l = Z.of_nat o). { destruct Hlo as (_ & _ & -> & _). now rewrite <- HOe. }
    replace (mcols y =? l_out l) with false by lia. reflexivity.
  - rewrite HLs, (bind_eq _ _ _ _ _ Eout). apply bind_fail. apply (Loss_width_error s (MkLoss k (Z.of_nat o)) out y); assumption.
Qed.

(** Labels of the wrong width: no parameter and no optimizer changes. *)
Lemma fit_wrong_labels s m es i o k x rsx y rsy n oy (X Y : pm K) epochs bs xv yv every :
  min_faithful K -> 0 <= bs -> Z.of_nat n + bs <= 2 ^ 52 -> (1 <= n)%nat -> 1 <= epochs ->
  consistent s m es i o -> NoDup (map e_ref es) -> (1 <= length es)%nat -> m_loss m = Some (MkLoss k (Z.of_nat o)) -> h_logger s = true ->
  own s x rsx n i X -> own s y rsy n oy Y -> (1 <= oy)%nat -> oy <> o ->
  let e := EMatDims (Z.of_nat (Nat.min (batch_rows n bs) n)) (Z.of_nat oy) in
  exists s', Fit m x y epochs bs xv yv every s = (Fail e, s') /\ frame nothing s s' /\ h_opts s' = h_opts s /\
    layers_kept (map e_ref es) s s' /\ h_log s' = h_log s ++ [LError "Failed to perform forward pass: " e].
Proof.
  intros HM Hbs H52 Hn He HC HN Hlen HLs HLg HX HY Hoy Hne e.
  assert (Hi : (1 <= i)%nat).
  { destruct HC as (_ & _ & _ & _ & HC & HLo). destruct es as [|e0 es]; [simpl in Hlen; lia|]. destruct HC as [<- _].
    inversion_clear HLo as [|? ? (l & _ & Hl) _]. apply Hl. }
  destruct (first_batch HM s m x rsx y rsy n i oy X Y bs HX HY Hn Hi Hoy Hbs H52) as (sx & sy & Ox & Oy & Hr & EB).
  set (r := Nat.min (batch_rows n bs) n) in *.
  assert (HFw := wp_Forward true s m es i o _ _ r _ HC Ox Hr (fun _ => HN)).
  apply wp_ex in HFw as (outs & s1 & EF & outs' & rss & -> & HR & _ & _ & _ & (HFr & (R1 & R2 & R3) & HKl & _)).
  assert (HC1 : consistent s1 m es i o).
  { destruct HC as (L1 & L2 & L3 & L4 & L5 & L6). split; [exact L1|]. split; [exact L2|]. split; [exact L3|]. split; [exact L4|]. split; [exact L5|].
    eapply Forall_impl; [|exact L6]. intros e0 He0. eapply lok_kept; eauto. }
  assert (EBk := Backward_width s1 m es i o k (MkMatrix (Z.of_nat r) (Z.of_nat i) sx) r _ _ _ outs' rss (MkMatrix (Z.of_nat r) (Z.of_nat oy) sy)
     HC1 Hlen HLs eq_refl Hr HR ltac:(cbn; lia)).
  exists (with_log s1 (h_log s1 ++ [LError "Failed to perform forward pass: " e])).
  split; [|split; [exact HFr|split; [exact R1|split; [exact HKl|cbn; now rewrite R3]]]].
  eapply fit_first; eauto using own_rows. rewrite EB.
  rewrite (bind_eq _ _ _ _ _ (or_log_eq _ _ _ _ _ EF)). apply bind_fail. apply or_log_fail; [exact EBk|]. congruence.
Qed.

(** No labels and no batch size: the one batch is the empty matrix. *)
Lemma fit_empty0 s m es i o x rsx nx ix (X : pm K) epochs xv yv every :
  min_faithful K -> 1 <= epochs -> consistent s m es i o -> (1 <= length es)%nat -> h_logger s = true -> own s x rsx nx ix X ->
  Fit m x matrix0 epochs 0 xv yv every s = (Fail (EMatDims 0 0), with_log s (h_log s ++ [LError "Failed to perform forward pass: " (EMatDims 0 0)])).
Proof.
  intros HM He HC Hlen HLg HX.
  assert (Hi : (1 <= i)%nat).
  { destruct HC as (_ & _ & _ & _ & HC & HLo). destruct es as [|e0 es]; [simpl in Hlen; lia|]. destruct HC as [<- _].
    inversion_clear HLo as [|? ? (l & _ & Hl) _]. apply Hl. }
  unfold Fit. cbv zeta. unfold for_ at 1, for_acc. destruct (Z.to_nat epochs) as [|ep] eqn:Eep; [lia|]. cbn [loop].
  apply bind_fail, bind_fail. cbn [Z.eqb negb]. unfold for_, for_acc. change (Z.to_nat 1) with 1%nat. cbn [loop]. apply bind_fail.
  unfold fit_batch. cbn [mrows matrix0 mdata]. rewrite HM by (unfold small_int; lia). cbn [Z.add Z.mul Z.min Z.compare].
  assert (Ex : reslice (mdata x) 0 0 s = (Ret (MkSlice (sl_loc (mdata x)) (sl_off (mdata x) + 0) 0), s)).
  { destruct HX as (_ & _ & _ & _ & (arr & Ha & Hlen' & _) & _). unfold reslice. rewrite Ha.
    replace ((0 <=? 0) && (0 <=? 0) && (0 <=? Z.of_nat (length arr) - Z.of_nat (sl_off (mdata x)))) with true by (simpl in *; lia). reflexivity. }
  rewrite (bind_eq _ _ _ _ _ Ex). erewrite bind_eq by reflexivity. erewrite bind_eq by reflexivity. erewrite bind_eq by reflexivity.
  apply bind_fail. apply or_log_fail; [|exact HLg]. rewrite (Forward_width s m es i o) by (cbn; auto; lia). reflexivity.
Qed.
End WithNum.
