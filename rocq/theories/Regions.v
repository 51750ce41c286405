(** * Regions: without hidden layers, the inputs with one prediction form a convex set. *)
From Coq Require Import String ZArith List Bool Arith Lia Reals Lra.
From Verif Require Import Num NumR Heap Spec Matrix Loss Network Optimizers ModelGo PureSpec Repr HeapLemmas MatrixFacts MiscProofs MiscFacts MiscGlue RSum LayerReal LossProofs LossRefute OptSpec ModelSpec EvalProofs FitProofs FitFacts NetGradCode ModelRefute Robust LinearSpec LinearProofs LinearEx ModelProofs.
Import ListNotations.
Open Scope R_scope.

(** Row [c] of [X] lies on the line segment from row [a] to row [b]. *)
Definition between (i : nat) (X : rpm) (a b c : nat) (t : R) : Prop :=
  0 <= t <= 1 /\ forall l, (l < i)%nat -> entry X c l = (1 - t) * entry X a l + t * entry X b l.

(** ** The winning index *)
Definition wins (c : nat) (g : nat -> R) (j : nat) : Prop :=
  (j < c)%nat /\ (forall l, (l < c)%nat -> g l <= g j) /\ (forall l, (l < j)%nat -> g l < g j).
Lemma wins_unique c g j k : wins c g j -> wins c g k -> j = k.
Proof.
  intros (J1 & J2 & J3) (K1 & K2 & K3). destruct (Nat.lt_trichotomy j k) as [H|[H|H]]; [|exact H|].
  - specialize (K3 j H). specialize (J2 k K1). lra.
  - specialize (J3 k H). specialize (K2 j J1). lra.
Qed.
Lemma wins_mix c g h k j t : wins c g j -> wins c h j -> 0 <= t <= 1 -> (forall l, (l < c)%nat -> k l = (1 - t) * g l + t * h l) -> wins c k j.
Proof.
  intros (G1 & G2 & G3) (H1 & H2 & H3) Ht E. split; [exact G1|]. split.
  - intros l Hl. rewrite !E by assumption. pose proof (G2 l Hl). pose proof (H2 l Hl).
    apply Rplus_le_compat; apply Rmult_le_compat_l; lra.
  - intros l Hl. rewrite !E by lia. pose proof (G3 l Hl). pose proof (H3 l Hl).
    destruct (Req_dec t 0) as [->|Hn]; [lra|].
    apply Rplus_le_lt_compat; [apply Rmult_le_compat_l; lra|apply Rmult_lt_compat_l; lra].
Qed.
Lemma scan_wins c (g : nat -> R) : (exists l, (l < c)%nat /\ 0 < g l) -> wins c g (fst (scan_max (K := RNum) c g)).
Proof.
  intros (l & Hl & Hg).
  pose proof (row_max_argmax RNum (fun _ => True) 1 c (mk (K := RNum) 1 c (fun _ j => g j)) RNum_weak_order I (fun _ _ _ _ => I) ltac:(lia) 0%nat ltac:(lia)) as (A1 & A2 & _).
  assert (E : forall j, (j < c)%nat -> entry (mk (K := RNum) 1 c (fun _ j => g j)) 0 j = g j) by (intros; rewrite entry_mk by lia; reflexivity).
  assert (ES : fst (scan_max (K := RNum) c (entry (mk (K := RNum) 1 c (fun _ j => g j)) 0)) = fst (scan_max (K := RNum) c g)).
  { unfold scan_max. f_equal. assert (H : forall ls acc, (forall j, In j ls -> (j < c)%nat) ->
      fold_left (fun best j => if flt (n := RNum) (snd best) (entry (mk (K := RNum) 1 c (fun _ j => g j)) 0 j) then (j, entry (mk (K := RNum) 1 c (fun _ j => g j)) 0 j) else best) ls acc =
      fold_left (fun best j => if flt (n := RNum) (snd best) (g j) then (j, g j) else best) ls acc).
    { induction ls as [|j ls IH]; intros acc Hj; [reflexivity|]. cbn [fold_left]. rewrite E by (apply Hj; now left). apply IH. intros; apply Hj; now right. }
    apply H. intros j Hj. apply in_seq in Hj. lia. }
  rewrite ES in A1, A2. destruct A2 as (A2 & A3).
  { exists l. split; [exact Hl|]. rewrite E by assumption. apply r_ltb_true. exact Hg. }
  split; [exact A1|]. split.
  - intros k Hk. specialize (A2 k Hk). rewrite !E in A2 by assumption. apply r_ltb_false in A2. lra.
  - intros k Hk. specialize (A3 k Hk). rewrite !E in A3 by lia. apply r_ltb_true in A3. exact A3.
Qed.
Lemma scan_zero c (g : nat -> R) : fst (scan_max (K := RNum) c g) <> 0%nat -> exists l, (l < c)%nat /\ 0 < g l.
Proof.
  intros H. unfold scan_max in H.
  assert (A : forall ls (acc : nat * F RNum), (snd acc = 0 :> R) -> fst acc = 0%nat -> fst (fold_left (fun best j => if flt (n := RNum) (snd best) (g j) then (j, g j) else best) ls acc) <> 0%nat ->
    exists l, In l ls /\ 0 < g l).
  { induction ls as [|j ls IH]; intros acc E1 E2 HF; cbn [fold_left] in HF; [exfalso; apply HF; exact E2|].
    destruct (flt (n := RNum) (snd acc) (g j)) eqn:EF.
    - exists j. split; [now left|]. change (r_ltb (snd acc) (g j) = true) in EF. rewrite E1 in EF. apply r_ltb_true in EF. exact EF.
    - destruct (IH acc E1 E2 HF) as (l & Hl & Hg). exists l. split; [now right|exact Hg]. }
  destruct (A (seq 0 c) (0%nat, 0) eq_refl eq_refl H) as (l & Hl & Hg). apply in_seq in Hl. exists l. split; [lia|exact Hg].
Qed.

(** ** Activations *)
Lemma act_le p x y : slope_ok p -> p_kind p <> SoftmaxK -> x <= y -> act1 (K := RNum) p x <= act1 (K := RNum) p y.
Proof. intros HS HK H. apply Rnot_lt_le. intros C. apply act_mono in C; auto. lra. Qed.
Lemma act_strict p x y : slope_ok p -> p_kind p <> SoftmaxK -> x < y -> 0 < act1 (K := RNum) p y -> act1 (K := RNum) p x < act1 (K := RNum) p y.
Proof.
  intros HS HK H. unfold act1. destruct (p_kind p) eqn:EK.
  - rewrite !R_relu. unfold Rmax. destruct (Rle_dec x 0), (Rle_dec y 0); lra.
  - intros _. exact H.
  - intros _. now apply R_sigmoid_incr.
  - specialize (HS EK). rewrite !R_leaky1. destruct (Rlt_dec x 0), (Rlt_dec y 0); intros Hy; try lra.
    + assert (0 <= - y * p_slope p) by (apply Rmult_le_pos; [lra|exact HS]). change (F RNum) with R in *. lra.
    + assert (0 <= - x * p_slope p) by (apply Rmult_le_pos; [lra|exact HS]). change (F RNum) with R in *. lra.
  - congruence.
  - rewrite !R_relu. unfold Rmax. destruct (Rle_dec x 0), (Rle_dec y 0); lra.
Qed.
Lemma forward_entry p r X a j : p_kind p <> SoftmaxK -> (a < r)%nat -> (j < p_out p)%nat ->
  entry (pforward p r X) a j = act1 (K := RNum) p (entry (paffine p r X) a j).
Proof. intros HK Hi Hj. unfold pforward, pact, act1. destruct (p_kind p) eqn:E; rewrite ?entry_pmap by assumption; try rewrite E; try reflexivity; congruence. Qed.
Lemma affine_mix p r X a b c t j : (a < r)%nat -> (b < r)%nat -> (c < r)%nat -> (j < p_out p)%nat -> between (p_in p) X a b c t ->
  entry (paffine p r X) c j = (1 - t) * entry (paffine p r X) a j + t * entry (paffine p r X) b j.
Proof.
  intros Ha Hb Hc Hj (Ht & E). unfold paffine, paff. rewrite !entry_mk by assumption. change (fsum (K := RNum) ?n ?g) with (rsum n g). cbn [fadd fmul RNum].
  rewrite (rsum_ext (p_in p) (fun k => entry X c k * entry (p_w p) k j) (fun k => (1 - t) * (entry X a k * entry (p_w p) k j) + t * (entry X b k * entry (p_w p) k j))).
  - rewrite rsum_plus, !rsum_scal. change (@eq (F RNum)) with (@eq R); ring.
  - intros k Hk. rewrite E by assumption. change (@eq (F RNum)) with (@eq R); ring.
Qed.

(** ** One layer *)
Lemma class_mix p r X a b c t : slope_ok p -> (a < r)%nat -> (b < r)%nat -> (c < r)%nat -> between (p_in p) X a b c t -> (1 <= p_out p)%nat ->
  let cls l := fst (scan_max (K := RNum) (p_out p) (entry (pforward p r X) l)) in
  cls a = cls b -> p_kind p = SoftmaxK \/ p_kind p = SigmoidK \/ cls a <> 0%nat -> cls c = cls a.
Proof.
  intros HS Ha Hb Hc HB Ho cls Hab HQ. set (z := paffine p r X).
  assert (D : p_kind p = SoftmaxK \/ p_kind p <> SoftmaxK) by (destruct (p_kind p); auto; right; discriminate).
  destruct D as [D|D].
  - assert (V : forall l, (l < r)%nat -> wins (p_out p) (entry z l) (cls l)).
    { intros l Hl. unfold cls, pforward, pact. rewrite D. fold z.
      destruct (scan_wins (p_out p) (entry (psoftmax (K := RNum) r (p_out p) z) l)) as (W1 & W2 & W3).
      { exists 0%nat. split; [lia|]. apply R_softmax_pos; lia. }
      set (j := fst _) in *. set (S := rsum (p_out p) (fun k => exp (entry z l k))).
      assert (HSp : 0 < S) by (apply R_expsum_pos; lia). assert (HI := Rinv_0_lt_compat _ HSp).
      assert (SE : forall k, (k < p_out p)%nat -> entry (psoftmax (K := RNum) r (p_out p) z) l k = exp (entry z l k) / S)
        by (intros k Hk; rewrite R_softmax_entry by assumption; reflexivity).
      split; [exact W1|]. split.
      - intros k Hk. specialize (W2 k Hk). rewrite !SE in W2 by assumption. apply Rnot_lt_le. intros C. apply exp_increasing in C.
        apply (Rmult_lt_compat_r (/ S)) in C; [|exact HI]. unfold Rdiv in W2. lra.
      - intros k Hk. specialize (W3 k Hk). rewrite !SE in W3 by lia. apply exp_lt_inv. apply (Rmult_lt_reg_r (/ S)); [exact HI|exact W3]. }
    apply (wins_unique (p_out p) (entry z c)); [now apply V|].
    apply (wins_mix (p_out p) (entry z a) (entry z b) _ (cls a) t); [now apply V|rewrite Hab; now apply V|apply HB|].
    intros l Hl. now apply affine_mix.
  - assert (FE : forall l j, (l < r)%nat -> (j < p_out p)%nat -> entry (pforward p r X) l j = act1 (K := RNum) p (entry z l j)) by (intros; now apply forward_entry).
    assert (P : forall l, (l < r)%nat -> p_kind p = SigmoidK \/ cls l <> 0%nat -> exists k, (k < p_out p)%nat /\ 0 < entry (pforward p r X) l k).
    { intros l Hl [HK|HK].
      - exists 0%nat. split; [lia|]. rewrite FE by (assumption || lia). unfold act1. rewrite HK. apply R_sigmoid_range.
      - now apply scan_zero. }
    assert (HQ' : p_kind p = SigmoidK \/ cls a <> 0%nat) by tauto. clear HQ.
    assert (V : forall l, (l < r)%nat -> p_kind p = SigmoidK \/ cls l <> 0%nat -> wins (p_out p) (entry z l) (cls l) /\ 0 < act1 (K := RNum) p (entry z l (cls l))).
    { intros l Hl HL. destruct (P l Hl HL) as (k0 & Hk0 & Pk0).
      destruct (scan_wins (p_out p) (entry (pforward p r X) l)) as (W1 & W2 & W3); [eauto|].
      change (fst (scan_max (K := RNum) (p_out p) (entry (pforward p r X) l))) with (cls l) in *.
      assert (P0 : 0 < act1 (K := RNum) p (entry z l (cls l))). { rewrite <- FE by assumption. specialize (W2 k0 Hk0). lra. }
      split; [|exact P0]. split; [exact W1|]. split.
      - intros k Hk. specialize (W2 k Hk). rewrite !FE in W2 by assumption. apply Rnot_lt_le. intros C.
        assert (Q : act1 (K := RNum) p (entry z l (cls l)) <= act1 (K := RNum) p (entry z l k)) by (apply act_le; auto; change (F RNum) with R in *; lra).
        pose proof (act_strict p _ _ HS D C ltac:(change (F RNum) with R in *; lra)). change (F RNum) with R in *. lra.
      - intros k Hk. specialize (W3 k Hk). rewrite !FE in W3 by lia. exact (act_mono p _ _ HS D W3). }
    destruct (V a Ha HQ') as (Wa & Pa). destruct (V b Hb) as (Wb & Pb); [rewrite <- Hab; exact HQ'|].
    rewrite <- Hab in Wb, Pb.
    assert (Wc : wins (p_out p) (entry z c) (cls a)).
    { apply (wins_mix (p_out p) (entry z a) (entry z b) _ (cls a) t); auto; [apply HB|]. intros l Hl. now apply affine_mix. }
    destruct Wc as (C1 & C2 & C3).
    assert (Pc : 0 < act1 (K := RNum) p (entry z c (cls a))).
    { assert (Ec := affine_mix p r X a b c t (cls a) Ha Hb Hc C1 HB). fold z in Ec. destruct HB as (Ht & _).
      change (F RNum) with R in *.
      destruct (Rle_dec (entry z a (cls a)) (entry z b (cls a))) as [Hle|Hle].
      - apply Rlt_le_trans with (1 := Pa). apply act_le; auto. rewrite Ec.
        assert (0 <= t * (entry z b (cls a) - entry z a (cls a))) by (apply Rmult_le_pos; [lra|apply Rge_le, Rge_minus, Rle_ge; exact Hle]). change (F RNum) with R in *. lra.
      - apply Rlt_le_trans with (1 := Pb). apply act_le; auto. rewrite Ec.
        assert (0 <= (1 - t) * (entry z a (cls a) - entry z b (cls a))) by (apply Rmult_le_pos; [lra|]; apply Rge_le, Rge_minus, Rle_ge, Rlt_le, Rnot_le_lt; exact Hle). change (F RNum) with R in *. lra. }
    apply (wins_unique (p_out p) (entry (pforward p r X) c)).
    + apply scan_wins. exists (cls a). split; [exact C1|]. now rewrite FE.
    + split; [exact C1|]. split.
      * intros k Hk. rewrite !FE by assumption. apply act_le; auto.
      * intros k Hk. rewrite !FE by lia. apply act_strict; auto.
Qed.
Lemma bit_mix p r X a b c t j : slope_ok p -> p_kind p <> SoftmaxK -> (a < r)%nat -> (b < r)%nat -> (c < r)%nat -> between (p_in p) X a b c t -> (j < p_out p)%nat ->
  let bit l := entry (pmap r (p_out p) (binary1 (K := RNum)) (pforward p r X)) l j in
  bit a = bit b -> bit c = bit a.
Proof.
  intros HS D Ha Hb Hc HB Hj bit. unfold bit. rewrite !entry_pmap by assumption. rewrite !forward_entry by assumption.
  assert (Ec := affine_mix p r X a b c t j Ha Hb Hc Hj HB). destruct HB as (Ht & _).
  set (u := entry (paffine p r X) a j) in *. set (v := entry (paffine p r X) b j) in *. set (w := entry (paffine p r X) c j) in *. clearbody u v w.
  change (F RNum) with R in *.
  assert (L : (u <= w /\ w <= v) \/ (v <= w /\ w <= u)).
  { destruct (Rle_dec u v) as [Hle|Hle].
    - left. assert (0 <= t * (v - u)) by (apply Rmult_le_pos; lra). assert (0 <= (1 - t) * (v - u)) by (apply Rmult_le_pos; lra). split; lra.
    - right. assert (0 <= t * (u - v)) by (apply Rmult_le_pos; lra). assert (0 <= (1 - t) * (u - v)) by (apply Rmult_le_pos; lra). split; lra. }
  rewrite !R_binary1.
  destruct L as [[L1 L2]|[L1 L2]]; apply (act_le p _ _ HS D) in L1; apply (act_le p _ _ HS D) in L2; change (F RNum) with R in *;
    repeat destruct (Rlt_dec _ _); intros; lra.
Qed.

(** ** Predict *)
Definition positive_last (ps : list (player RNum)) : Prop := exists ps' q, ps = ps' ++ [q] /\ (p_kind q = SoftmaxK \/ p_kind q = SigmoidK).
Lemma last_slope ps p : ps <> [] -> List.Forall slope_ok ps -> slope_ok (last ps p).
Proof. intros HN H. destruct (exists_last HN) as (l & a & ->). rewrite last_last. apply Forall_app in H as [_ H]. now inversion H. Qed.
Lemma out_pos s m es i o : consistent s m es i o -> linear_before (net es) -> (1 <= o)%nat.
Proof.
  intros (_ & _ & _ & _ & HC & HL) [HN _]. destruct (exists_last HN) as (l & a & E). rewrite E in HC. apply chain_snoc in HC as [_ <-].
  assert (In a (net es)) by (rewrite E; apply in_or_app; right; now left). unfold net in H. apply in_map_iff in H as (e & <- & He).
  rewrite Forall_forall in HL. destruct (HL e He) as (ly & _ & Hl). apply Hl.
Qed.
Theorem classes_convex s m es i o x rsx r X a b c t : consistent s m es i o -> linear_before (net es) -> List.Forall slope_ok (net es) -> m_acctype m = 1%Z ->
  own s x rsx r i X -> (a < r)%nat -> (b < r)%nat -> (c < r)%nat -> between i X a b c t ->
  returns (Predict m x) s (fun out s' => exists rs P, own s' out rs r 1 P /\
    (entry P a 0 = entry P b 0 -> positive_last (net es) \/ entry P a 0 <> 0 -> entry P c 0 = entry P a 0)).
Proof.
  intros HC HL HS HT HX Ha Hb Hc HB. assert (Ho := out_pos _ _ _ _ _ HC HL).
  pose proof HC as (_ & _ & _ & _ & HCh & _). destruct (collapse (net es) i o HCh HL) as (p & C1 & C2 & C3 & C4 & _ & C6).
  destruct (predict_spec s m es i o x rsx r X 1 (row_max (K := RNum) r o (pforward p r X)) HC (linear_length es HL)) as (out & s' & E & rs & HO & _); [|exact HX|lia|].
  { rewrite HT, C6. reflexivity. }
  exists out, s'. split; [exact E|]. exists rs, (row_max (K := RNum) r o (pforward p r X)). split; [exact HO|].
  unfold row_max. rewrite !entry_mk by lia. cbn [ofZ RNum]. intros Hab HQ.
  assert (HSp : slope_ok p). { assert (H := last_slope (net es) p (proj1 HL) HS). unfold slope_ok in *. rewrite C3, C4. exact H. }
  subst i o. do 2 f_equal. apply (class_mix p r X a b c t); auto.
  - apply eq_IZR in Hab. lia.
  - destruct HQ as [(ps' & q & Eq & HQ)|HQ].
    + rewrite C3, Eq, last_last. tauto.
    + right. right. intros H0. apply HQ. rewrite H0. reflexivity.
Qed.
Theorem bits_convex s m es i o x rsx r X a b c t : consistent s m es i o -> linear_before (net es) -> List.Forall slope_ok (net es) -> m_acctype m = 2%Z ->
  (forall ps q, net es = ps ++ [q] -> p_kind q <> SoftmaxK) ->
  own s x rsx r i X -> (a < r)%nat -> (b < r)%nat -> (c < r)%nat -> between i X a b c t ->
  returns (Predict m x) s (fun out s' => exists rs P, own s' out rs r o P /\
    forall j, (j < o)%nat -> entry P a j = entry P b j -> entry P c j = entry P a j).
Proof.
  intros HC HL HS HT HK HX Ha Hb Hc HB.
  pose proof HC as (_ & _ & _ & _ & HCh & _). destruct (collapse (net es) i o HCh HL) as (p & C1 & C2 & C3 & C4 & _ & C6).
  destruct (predict_spec s m es i o x rsx r X o (pmap r o (binary1 (K := RNum)) (pforward p r X)) HC (linear_length es HL)) as (out & s' & E & rs & HO & _); [|exact HX|lia|].
  { rewrite HT, C6. reflexivity. }
  exists out, s'. split; [exact E|]. exists rs, (pmap r o (binary1 (K := RNum)) (pforward p r X)). split; [exact HO|].
  assert (HSp : slope_ok p). { assert (H := last_slope (net es) p (proj1 HL) HS). unfold slope_ok in *. rewrite C3, C4. exact H. }
  assert (HKp : p_kind p <> SoftmaxK).
  { rewrite C3. destruct (exists_last (proj1 HL)) as (l & q & Eq). rewrite Eq, last_last. eapply HK; eauto. }
  subst i o. intros j Hj. apply (bit_mix p r X a b c t j); auto.
Qed.
