(** * LinearProofs: linear layers merge with the layer that follows; one layer cannot learn exclusive or. *)
From Coq Require Import String ZArith List Bool Arith Lia Reals Lra.
From Verif Require Import Num NumR Heap Spec Matrix Loss Network Optimizers ModelGo PureSpec Repr HeapLemmas MatrixFacts MiscProofs MiscFacts RSum LayerReal LossProofs OptSpec ModelSpec EvalProofs FitProofs FitFacts ModelRefute Robust LinearSpec.
Import ListNotations.
Open Scope R_scope.

(** ** Merging *)
(** A linear layer [p] followed by [q], as one layer. *)
Definition merge (p q : player RNum) : player RNum :=
  PL (K := RNum) (p_kind q) (p_in p) (p_out q) (pdot (p_in p) (p_in q) (p_out q) (p_w p) (p_w q))
    (mk (K := RNum) 1 (p_out q) (fun _ j => rsum (p_in q) (fun n => entry (p_b p) 0 n * entry (p_w q) n j) + entry (p_b q) 0 j)) (p_slope q) (p_drop q).
Lemma merge_forward p q r X : p_kind p = Linear -> p_out p = p_in q -> pforward q r (pforward p r X) = pforward (merge p q) r X.
Proof.
  intros HK E.
  assert (A : paffine q r (pforward p r X) = paffine (merge p q) r X).
  { unfold pforward at 1, pact. rewrite HK. unfold paffine, paff. cbn [p_in p_out p_w p_b merge]. apply mk_ext. intros i j Hi Hj.
    rewrite E. change (fsum (K := RNum) ?n ?g) with (rsum n g). cbn [fadd fmul RNum].
    rewrite (rsum_ext (p_in q) _ (fun n => rsum (p_in p) (fun l => entry X i l * entry (p_w p) l n * entry (p_w q) n j) + entry (p_b p) 0 n * entry (p_w q) n j)).
    2:{ intros n Hn. rewrite entry_mk by assumption. change (fsum (K := RNum) ?n ?g) with (rsum n g). cbn [fadd fmul RNum].
        rewrite Rmult_plus_distr_r, <- rsum_scal_r. reflexivity. }
    rewrite rsum_plus, rsum_swap, entry_mk by (assumption || lia). toR. rewrite Rplus_assoc. f_equal. apply rsum_ext. intros l Hl.
    unfold pdot. rewrite entry_mk by assumption. change (fsum (K := RNum) ?n ?g) with (rsum n g). cbn [fmul RNum].
    rewrite <- rsum_scal. apply rsum_ext. intros n Hn. ring. }
  unfold pforward at 1 3. unfold pact. cbn [p_kind p_out merge]. unfold act1. cbn [p_kind p_slope merge]. rewrite A. reflexivity.
Qed.
Lemma collapse ps : forall i o, chain i ps o -> linear_before ps -> exists p, p_in p = i /\ p_out p = o /\
  p_kind p = p_kind (last ps p) /\ p_slope p = p_slope (last ps p) /\ p_drop p = p_drop (last ps p) /\ forall r X, pnet ps r X = pforward p r X.
Proof.
  induction ps as [|p ps IH]; intros i o HC [HN HL]; [now elim HN|].
  destruct ps as [|q ps].
  - destruct HC as [E HC]. cbn in HC. subst. exists p. cbn. auto 10.
  - destruct HC as [E HC]. change (removelast (p :: q :: ps)) with (p :: removelast (q :: ps)) in HL. inversion HL as [|? ? HP HQ]; subst.
    destruct (IH (p_out p) o HC) as (c & C1 & C2 & C3 & C4 & C5 & C6); [split; [discriminate|exact HQ]|].
    exists (merge p c). cbn [p_in p_out merge p_kind p_slope p_drop].
    assert (LL : last (p :: q :: ps) (merge p c) = last (q :: ps) c). { cbn [last]. clear. revert q. induction ps as [|a ps IH]; intros q; [reflexivity|]. apply (IH a). }
    rewrite LL. split; [reflexivity|]. split; [exact C2|]. split; [exact C3|]. split; [exact C4|]. split; [exact C5|].
    intros r X. change (pnet (p :: q :: ps) r X) with (pnet (q :: ps) r (pforward p r X)). rewrite C6. apply merge_forward; [exact HP|now rewrite C1].
Qed.
Lemma predict_collapse s m es i o : consistent s m es i o -> linear_before (net es) ->
  exists p, p_in p = i /\ p_out p = o /\ p_kind p = p_kind (last (net es) p) /\ p_slope p = p_slope (last (net es) p) /\
    forall x rsx r X c P, own s x rsx r i X -> (1 <= r)%nat -> ppredict (m_acctype m) r o (pforward p r X) = Some (c, P) ->
      returns (Predict m x) s (fun out s' => exists rs, own s' out rs r c P).
Proof.
  intros HC HL. pose proof HC as (_ & _ & _ & _ & HCh & _). destruct (collapse (net es) i o HCh HL) as (p & C1 & C2 & C3 & C4 & _ & C6).
  exists p. do 4 (split; [assumption|]). intros x rsx r X c P HO Hr HP. rewrite <- C6 in HP.
  assert (H1 : (1 <= length es)%nat). { destruct HL as [HL _]. destruct es; [now elim HL|cbn; lia]. }
  destruct (predict_spec s m es i o x rsx r X c P HC H1 HP HO Hr) as (out & s' & ER & rs & Q & _). exists out, s'. eauto.
Qed.

(** ** Exclusive or *)
Lemma act_mono p x y : slope_ok p -> p_kind p <> SoftmaxK -> act1 (K := RNum) p x < act1 (K := RNum) p y -> x < y.
Proof.
  intros HS HK H. destruct (Rlt_le_dec x y) as [|G]; [assumption|exfalso]. revert H. apply Rle_not_lt. unfold act1. destruct (p_kind p) eqn:EK.
  - rewrite !R_relu. apply Rle_max_compat_r. exact G.
  - exact G.
  - destruct G as [G|G]; [left; now apply R_sigmoid_incr|right; now rewrite G].
  - specialize (HS EK). rewrite !R_leaky1. destruct (Rlt_dec y 0), (Rlt_dec x 0); try lra.
    + apply Rmult_le_compat_r; lra.
    + assert (0 <= - y * p_slope p) by (apply Rmult_le_pos; [lra|exact HS]). change (F RNum) with R in *. lra.
  - congruence.
  - rewrite !R_relu. apply Rle_max_compat_r. exact G.
Qed.
Lemma binary_zero x : feq (n := RNum) (binary1 x) 0 = true -> x < 1 / 2.
Proof. simpl. intros H. apply r_eqb_true in H. rewrite R_binary1 in H. destruct (Rlt_dec x (1 / 2)); lra. Qed.
Lemma binary_one x : feq (n := RNum) (binary1 x) 1 = true -> 1 / 2 <= x.
Proof. simpl. intros H. apply r_eqb_true in H. rewrite R_binary1 in H. destruct (Rlt_dec x (1 / 2)); lra. Qed.
Lemma xor_affine p j : p_in p = 2%nat -> (j < p_out p)%nat -> let a i := entry (paffine p 4 xorX) i j in a 0%nat + a 3%nat = a 1%nat + a 2%nat.
Proof.
  intros E Hj. cbv zeta. unfold paffine, paff. rewrite !entry_mk by (assumption || lia). rewrite E. change (fsum (K := RNum) ?n ?g) with (rsum n g).
  cbn [fadd fmul RNum]. rewrite !rsum_S, !rsum_0. cbn. toR. ring.
Qed.
Lemma xor_entry p i j : p_kind p <> SoftmaxK -> (i < 4)%nat -> (j < p_out p)%nat ->
  entry (pforward p 4 xorX) i j = act1 (K := RNum) p (entry (paffine p 4 xorX) i j).
Proof. intros HK Hi Hj. unfold pforward, pact, act1. destruct (p_kind p) eqn:E; rewrite ?entry_pmap by assumption; try rewrite E; try reflexivity; congruence. Qed.
Lemma softmax_single r A i : (i < r)%nat -> entry (psoftmax (K := RNum) r 1 A) i 0 = 1.
Proof. intros Hi. rewrite R_softmax_entry by (assumption || lia). rewrite rsum_1. apply Rinv_r. apply Rgt_not_eq, exp_pos. Qed.
Lemma quarter n : (n <= 3)%nat -> IZR (Z.of_nat n) / IZR 4 <= 3 / 4.
Proof. intros H. assert (IZR (Z.of_nat n) <= 3) by (apply IZR_le; lia). lra. Qed.
Lemma xor_binary p : p_in p = 2%nat -> p_out p = 1%nat -> slope_ok p -> (binary_accuracy (K := RNum) 4 1 (pforward p 4 xorX) xorY : R) <= 3 / 4.
Proof.
  intros EI EO HS. unfold binary_accuracy. apply (quarter (count_cells 4 1 _)).
  match goal with |- (count_cells 4 1 ?f <= 3)%nat => set (g := f) end.
  unfold count_cells. cbn [seq list_prod map app filter fst snd].
  destruct (g 0%nat 0%nat) eqn:G0, (g 1%nat 0%nat) eqn:G1, (g 2%nat 0%nat) eqn:G2, (g 3%nat 0%nat) eqn:G3; cbn; try lia. exfalso.
  unfold g in *. cbn [entry xorY nth] in *. apply binary_zero in G0. apply binary_one in G1. apply binary_one in G2. apply binary_zero in G3.
  destruct (Nat.eq_dec 0 0) as [_|]; [|congruence].
  assert (D : p_kind p = SoftmaxK \/ p_kind p <> SoftmaxK) by (destruct (p_kind p); auto; right; discriminate).
  destruct D as [D|D].
  - revert G0. unfold pforward, pact. rewrite D, EO. rewrite softmax_single by lia. lra.
  - rewrite !xor_entry in * by (assumption || lia).
    assert (H1 : entry (paffine p 4 xorX) 0 0 < entry (paffine p 4 xorX) 1 0) by (apply (act_mono p); [exact HS|exact D|]; lra).
    assert (H2 : entry (paffine p 4 xorX) 3 0 < entry (paffine p 4 xorX) 2 0) by (apply (act_mono p); [exact HS|exact D|]; lra).
    pose proof (xor_affine p 0 EI ltac:(lia)) as HA. cbv zeta in HA. change (F RNum) with R in *. lra.
Qed.
Lemma scan_two (g : nat -> R) : 0 < g 0%nat -> 0 < g 1%nat -> fst (scan_max (K := RNum) 2 g) = if Rlt_dec (g 0%nat) (g 1%nat) then 1%nat else 0%nat.
Proof.
  intros H0 H1. unfold scan_max. cbn [seq fold_left snd]. unfold f0. cbn [ofZ flt RNum]. rewrite (proj2 (r_ltb_true 0 (g 0%nat)) H0). cbn [snd].
  destruct (Rlt_dec (g 0%nat) (g 1%nat)) as [H|H].
  - now rewrite (proj2 (r_ltb_true (g 0%nat) (g 1%nat)) H).
  - rewrite (proj2 (r_ltb_false (g 0%nat) (g 1%nat))); [reflexivity|lra].
Qed.
Lemma xor_class p : p_in p = 2%nat -> p_out p = 2%nat -> p_kind p = SoftmaxK -> (categorical_accuracy (K := RNum) 4 2 (pforward p 4 xorX) xorY2 : R) <= 3 / 4.
Proof.
  intros EI EO HK. unfold categorical_accuracy. apply (quarter (count_rows 4 _)).
  match goal with |- (count_rows 4 ?f <= 3)%nat => set (g := f) end.
  unfold count_rows. cbn [seq filter].
  destruct (g 0%nat) eqn:G0, (g 1%nat) eqn:G1, (g 2%nat) eqn:G2, (g 3%nat) eqn:G3; cbn; try lia. exfalso.
  assert (V : forall i, (i < 4)%nat -> fst (scan_max (K := RNum) 2 (entry (pforward p 4 xorX) i)) =
    if Rlt_dec (entry (paffine p 4 xorX) i 0) (entry (paffine p 4 xorX) i 1) then 1%nat else 0%nat).
  { intros i Hi. unfold pforward, pact. rewrite HK, EO. rewrite scan_two by (apply R_softmax_pos; lia). rewrite !R_softmax_entry by lia.
    set (u := entry (paffine p 4 xorX) i 0). set (v := entry (paffine p 4 xorX) i 1). set (S := rsum 2 _).
    assert (HS : 0 < S) by (apply R_expsum_pos; lia).
    destruct (Rlt_dec u v) as [A|A], (Rlt_dec (exp u / S) (exp v / S)) as [B|B]; try reflexivity; exfalso.
    - apply B. apply Rmult_lt_compat_r; [now apply Rinv_0_lt_compat|now apply exp_increasing].
    - apply A. apply exp_lt_inv. apply (Rmult_lt_reg_r (/ S)); [now apply Rinv_0_lt_compat|exact B]. }
  unfold g in *. rewrite V in * by lia. cbn [feq RNum] in *. apply r_eqb_true in G0, G1, G2, G3.
  pose proof (xor_affine p 0 EI ltac:(lia)) as H0. pose proof (xor_affine p 1 EI ltac:(lia)) as H1. cbv zeta in H0, H1. change (F RNum) with R in *.
  destruct (Rlt_dec (entry (paffine p 4 xorX) 0 0) (entry (paffine p 4 xorX) 0 1)); [cbn in G0; lra|].
  destruct (Rlt_dec (entry (paffine p 4 xorX) 1 0) (entry (paffine p 4 xorX) 1 1)); [|cbn in G1; lra].
  destruct (Rlt_dec (entry (paffine p 4 xorX) 2 0) (entry (paffine p 4 xorX) 2 1)); [|cbn in G2; lra].
  destruct (Rlt_dec (entry (paffine p 4 xorX) 3 0) (entry (paffine p 4 xorX) 3 1)); [cbn in G3; lra|]. lra.
Qed.
Lemma linear_length es : linear_before (net es) -> (1 <= length es)%nat.
Proof. intros [HL _]. destruct es; [now elim HL|cbn; lia]. Qed.
Lemma xor_accuracy s m es x rsx y rsy : consistent s m es 2 1 -> linear_before (net es) -> List.Forall slope_ok (net es) -> m_acctype m = 2%Z ->
  own s x rsx 4 2 xorX -> own s y rsy 4 1 xorY ->
  returns (CalculateAccuracy m x y) s (fun v _ => v <= 3 / 4).
Proof.
  intros HC HL HS HT HX HY. pose proof HC as (_ & _ & _ & _ & HCh & _). destruct (collapse (net es) 2 1 HCh HL) as (p & C1 & C2 & C3 & C4 & _ & C6).
  pose proof (wp_CalculateAccuracy s m es 2 1 x rsx y rsy 4 xorX xorY (binary_accuracy (K := RNum) 4 1 (pforward p 4 xorX) xorY) RNum_int_faithful ltac:(lia) HC (linear_length es HL) ltac:(now rewrite HT, C6) HX HY ltac:(lia)) as W.
  apply returns_wp in W. destruct W as (v & s' & E & -> & _). eexists _, s'. split; [exact E|]. apply xor_binary; [exact C1|exact C2|].
  intros EK. rewrite C4. rewrite C3 in EK. apply (proj1 (Forall_forall _ _) HS (last (net es) p)); [|exact EK].
  destruct HL as [HL _]. destruct (exists_last HL) as (l & a & ->). rewrite last_last. apply in_or_app. right. now left.
Qed.
Lemma xor_categorical s m es x rsx y rsy : consistent s m es 2 2 -> linear_before (net es) -> (exists ps q, net es = ps ++ [q] /\ p_kind q = SoftmaxK) -> m_acctype m = 1%Z ->
  own s x rsx 4 2 xorX -> own s y rsy 4 2 xorY2 ->
  returns (CalculateAccuracy m x y) s (fun v _ => v <= 3 / 4).
Proof.
  intros HC HL (ps & q & EN & HK) HT HX HY. pose proof HC as (_ & _ & _ & _ & HCh & _). destruct (collapse (net es) 2 2 HCh HL) as (p & C1 & C2 & C3 & C4 & _ & C6).
  pose proof (wp_CalculateAccuracy s m es 2 2 x rsx y rsy 4 xorX xorY2 (categorical_accuracy (K := RNum) 4 2 (pforward p 4 xorX) xorY2) RNum_int_faithful ltac:(lia) HC (linear_length es HL) ltac:(now rewrite HT, C6) HX HY ltac:(lia)) as W.
  apply returns_wp in W. destruct W as (v & s' & E & -> & _). eexists _, s'. split; [exact E|]. apply xor_class; [exact C1|exact C2|]. rewrite C3, EN, last_last. exact HK.
Qed.

(** ** After training *)
Lemma kinds_kept (es es' : list (lent RNum)) : Forall2 same_place es es' -> Forall2 (fun p p' => p_kind p' = p_kind p /\ p_slope p' = p_slope p) (net es) (net es').
Proof. intros H. induction H as [|e e' t t' (_ & _ & _ & HL) _ IH]; constructor; [|exact IH]. destruct HL as (H1 & _ & _ & H2 & _). auto. Qed.
Lemma linear_kept (es es' : list (lent RNum)) : Forall2 same_place es es' -> linear_before (net es) -> linear_before (net es').
Proof.
  intros H [HN HL]. apply kinds_kept in H. revert HN HL. generalize dependent (net es'). generalize (net es). intros ps ps' H. split.
  - inversion H; subst; [now elim HN|discriminate].
  - clear HN. induction H as [|p p' t t' (E & _) HT IH]; [constructor|]. inversion HT as [|a a' u u' HA HU]; subst; [constructor|].
    change (removelast (p :: a :: u)) with (p :: removelast (a :: u)) in HL. change (removelast (p' :: a' :: u')) with (p' :: removelast (a' :: u')).
    inversion HL; subst. constructor; [congruence|]. now apply IH.
Qed.
Lemma slopes_kept (es es' : list (lent RNum)) : Forall2 same_place es es' -> List.Forall slope_ok (net es) -> List.Forall slope_ok (net es').
Proof.
  intros H. apply kinds_kept in H. induction H as [|p p' t t' (E1 & E2) HT IH]; intros HF; [constructor|]. inversion HF; subst. constructor; [|auto].
  unfold slope_ok in *. rewrite E1, E2. assumption.
Qed.
Lemma xor_trained s m es xs k x rsx y rsy epochs bs xv yv : (0 <= bs)%Z -> (4 + bs <= 2 ^ 52)%Z ->
  trainable s m es xs 2 1 k -> data_ok s es x rsx y rsy 4 2 1 xorX xorY -> linear_before (net es) -> List.Forall slope_ok (net es) -> m_acctype m = 2%Z ->
  exists s' v s'', Fit m x y epochs bs xv yv 0 s = (Ret tt, s') /\ CalculateAccuracy m x y s' = (Ret v, s'') /\ v <= 3 / 4.
Proof.
  intros Hb H52 HT HD HL HS HA.
  destruct (fit_trains s m es xs 2 1 k x rsx y rsy 4 xorX xorY epochs bs xv yv RNum_min_faithful Hb H52 ltac:(lia) HT HD) as ([] & s' & E & nn & _ & (es' & xs' & HT' & HPl & _) & HX & HY).
  destruct (xor_accuracy s' m es' x rsx y rsy) as (v & s'' & E2 & H); auto; [apply HT'|now apply (linear_kept es)|now apply (slopes_kept es)|].
  exists s', v, s''. auto.
Qed.
