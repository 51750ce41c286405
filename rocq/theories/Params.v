(** * Params: the parameters of a model can be given any values, by writing to its parameter rows. *)
From Coq Require Import ZArith List Bool Arith Lia.
From Verif Require Import Num Heap Spec PureSpec Repr HeapLemmas OptSpec ModelSpec ModelProofs FitProofs JobsProofs.
Import ListNotations.

Section WithNum.
Context {K : Num}.
Implicit Types s : state K.

Lemma Forall2_imp {A B} (P Q : A -> B -> Prop) l l' : (forall a b, P a b -> Q a b) -> Forall2 P l l' -> Forall2 Q l l'.
Proof. intros H. induction 1; constructor; auto. Qed.
Lemma f2len {A B} (P : A -> B -> Prop) l l' : Forall2 P l l' -> length l = length l'.
Proof. induction 1; simpl; congruence. Qed.
Lemma app_split {A} (a : list A) : forall b c d, a ++ b = c ++ d -> length a = length c -> a = c /\ b = d.
Proof. induction a as [|x a IH]; intros b [|y c] d E L; try discriminate; [auto|]. simpl in *. injection E as -> E. destruct (IH b c d E ltac:(lia)) as [-> ->]. auto. Qed.
Lemma put_rows refs : forall (rows : list (list K)) s, NoDup refs ->
  Forall2 (fun ref row => ref <> 0%nat /\ exists old, row_at s ref = Some old /\ length old = length row) refs rows ->
  exists s', Forall2 (fun ref row => row_at s' ref = Some row) refs rows /\ frame (among refs) s s' /\ rest s s' /\ h_outs s' = h_outs s /\ nrows s' = nrows s.
Proof.
  induction refs as [|x refs IH]; intros rows s ND H.
  - inversion H; subst. exists s. split; [constructor|]. split; [apply frame_refl|]. repeat split.
  - inversion H as [|? row ? rows' (H0 & old & HO & HL) HT]; subst. inversion ND as [|? ? HX ND']; subst.
    destruct (IH rows' s ND' HT) as (s1 & F1 & F2 & F3 & F4 & F5). clear IH.
    destruct x as [|n]; [congruence|].
    assert (HK : (n < length (h_rows s1))%nat). { unfold nrows in F5. rewrite F5. apply nth_error_Some. simpl in HO. congruence. }
    destruct F2 as (G1 & G2 & G3 & G4).
    assert (HO1 : row_at s1 (S n) = Some old) by (apply G2; [exact HO|exact HX]).
    exists (with_rows s1 (upd n row (h_rows s1))). split; [|split; [|split; [|split]]].
    + constructor.
      * rewrite row_at_with_rows_upd by exact HK. now rewrite Nat.eqb_refl.
      * eapply Forall2_in; [|exact F1]. intros a b Ha _ E. rewrite row_at_with_rows_upd by exact HK.
        destruct (Nat.eqb_spec a (S n)) as [->|]; [now elim HX|exact E].
    + unfold frame. split; [exact G1|]. split; [|split].
      * intros r w Hw HN. rewrite row_at_with_rows_upd by exact HK. destruct (Nat.eqb_spec r (S n)) as [->|].
        -- elim HN. now left.
        -- apply G2; [exact Hw|]. intros Hin. apply HN. now right.
      * intros r w Hw. rewrite row_at_with_rows_upd by exact HK. destruct (Nat.eqb_spec r (S n)) as [->|]; [|now apply G3].
        exists row. split; [reflexivity|]. congruence.
      * unfold nrows. simpl. rewrite upd_length. unfold nrows in F5. lia.
    + exact F3.
    + exact F4.
    + unfold nrows in *. simpl. now rewrite upd_length.
Qed.

(** Layer [e] with the parameters of [p] in the same places. *)
Definition refit (e : lent K) (p : player K) : lent K := LE (e_ref e) (e_rw e) (e_rb e) p.
Definition fits_in (e : lent K) (p : player K) : Prop := like (e_p e) p /\ shape (p_in p) (p_out p) (p_w p) /\ shape 1 (p_out p) (p_b p).
Definition refits (es : list (lent K)) ps : list (lent K) := map (fun ep => refit (fst ep) (snd ep)) (combine es ps).
Lemma refits_prows es ps : length es = length ps -> prows (refits es ps) = prows es.
Proof.
  revert ps. induction es as [|e es IH]; intros [|p ps] H; try discriminate; [reflexivity|].
  unfold prows, refits in *. simpl in *. f_equal. apply IH. lia.
Qed.
Lemma refits_refs es ps : length es = length ps -> map e_ref (refits es ps) = map e_ref es.
Proof. revert ps. induction es as [|e es IH]; intros [|p ps] H; try discriminate; [reflexivity|]. unfold refits in *. simpl in *. f_equal. apply IH. lia. Qed.
Lemma refits_net es ps : length es = length ps -> net (refits es ps) = ps.
Proof. revert ps. induction es as [|e es IH]; intros [|p ps] H; try discriminate; [reflexivity|]. unfold refits, net in *. simpl in *. f_equal. apply IH. lia. Qed.
Lemma refits_places es ps : Forall2 fits_in es ps -> Forall2 same_place es (refits es ps).
Proof. induction 1 as [|e p es ps (H & _) _ IH]; [constructor|]. unfold refits. simpl. constructor; [|exact IH]. repeat split; apply H. Qed.
Lemma chain_fits_in es ps : Forall2 fits_in es ps -> forall i o, chain i (net es) o -> chain i ps o.
Proof.
  induction 1 as [|e p es ps ((_ & E1 & E2 & _) & _) _ IH]; intros i o H; [exact H|]. simpl in *. destruct H as [H1 H2]. split; [congruence|]. rewrite E2. now apply IH.
Qed.
Lemma own_nonzero s w rs r c A : own s w rs r c A -> (1 <= c)%nat -> forall B : pm K, shape r c B ->
  Forall2 (fun ref row => ref <> 0%nat /\ exists old, row_at s ref = Some old /\ length old = length row) rs B.
Proof.
  intros (_ & _ & _ & (HA & HFA) & _ & HF) Hc B (HB & HFB). revert B HB HFB. subst r. clear w. revert HFA.
  induction HF as [|x row rs A Hx HF IH]; intros HFA B HB HFB; destruct B as [|b B]; try discriminate; constructor.
  - inversion HFA; subst. inversion HFB; subst. split; [|exists row; split; congruence]. intros ->. simpl in Hx. inversion Hx; subst. simpl in *. lia.
  - inversion HFA; subst. inversion HFB; subst. apply IH; auto.
Qed.
Lemma own_rows s s' w rs r c (A B : pm K) : own s w rs r c A -> shape r c B -> (forall o arr, out_at s o = Some arr -> out_at s' o = Some arr) ->
  Forall2 (fun ref row => row_at s' ref = Some row) rs B -> own s' w rs r c B.
Proof.
  intros (H1 & H2 & H3 & _ & (arr & HA1 & HA2 & HA3) & _) HB HO HF. unfold own. do 3 (split; [assumption|]). split; [exact HB|]. split; [|exact HF].
  exists arr. auto.
Qed.
Lemma set_params s m es xs i o k ps : trainable s m es xs i o k -> Forall2 fits_in es ps ->
  exists s', frame (among (prows es)) s s' /\ rest s s' /\ trainable s' m (refits es ps) xs i o k.
Proof.
  intros HT HP. pose proof HT as ((L1 & L2 & L3 & L4 & L5 & L6) & (U1 & U2) & Hlen & HX & NX & HOO & HDO & HLs & HLt & HK).
  assert (EL : length es = length ps) by (exact (f2len _ _ _ HP)).
  destruct (put_rows (prows es) (concat (map (fun p => p_w p ++ p_b p) ps)) s U2) as (s' & F1 & F2 & F3 & F4 & F5).
  { clear - L6 HP. induction HP as [|e p es ps (HLk & HW & HB) HP IH]; [constructor|]. inversion L6 as [|? ? (l & _ & Hl) L6']; subst.
    unfold prows. simpl. apply Forall2_app; [|now apply IH]. destruct Hl as (_ & _ & _ & _ & _ & Q1 & Q2 & OW & OB). destruct HLk as (_ & E1 & E2 & _).
    rewrite E1, E2 in HW. rewrite E2 in HB.
    apply Forall2_app; [exact (own_nonzero _ _ _ _ _ _ OW Q2 _ HW)|exact (own_nonzero _ _ _ _ _ _ OB Q2 _ HB)]. }
  exists s'. split; [exact F2|]. split; [exact F3|].
  assert (HL : Forall (lok s') (refits es ps)).
  { destruct F3 as (EL' & _). destruct F2 as (G1 & _). clear - L6 HP F1 EL' G1. revert F1. induction HP as [|e p es ps (HLk & HW & HB) HP IH]; intros F1; [constructor|].
    inversion L6 as [|? ? (l & El & Hl) L6']; subst. unfold prows in F1. simpl in F1.
    destruct Hl as (B1 & B2 & B3 & B4 & B5 & Q1 & Q2 & OW & OB). destruct HLk as (E0 & E1 & E2 & E3 & E4). rewrite E1, E2 in HW. rewrite E2 in HB.
    assert (LW : length (e_rw e) = length (p_w p)). { destruct OW as (_ & _ & _ & (X1 & _) & _ & X2). rewrite (f2len _ _ _ X2), X1. symmetry. apply HW. }
    assert (LB : length (e_rb e) = length (p_b p)). { destruct OB as (_ & _ & _ & (X1 & _) & _ & X2). rewrite (f2len _ _ _ X2), X1. symmetry. apply HB. }
    apply Forall2_app_inv_l in F1 as (u & v & FU & FV & EQ).
    destruct (app_split _ _ _ _ EQ) as [<- <-]; [rewrite <- (f2len _ _ _ FU), !app_length; lia|].
    unfold refits. simpl. constructor; [|now apply IH].
    apply Forall2_app_inv_l in FU as (u & v & FW & FB & EQ2).
    destruct (app_split _ _ _ _ EQ2) as [<- <-]; [rewrite <- (f2len _ _ _ FW); lia|].
    exists l. cbn [refit fst snd e_ref e_rw e_rb e_p]. split; [now rewrite EL'|]. unfold lown. rewrite E0, E1, E2, E3, E4.
    do 7 (split; [assumption|]). split; [eapply own_rows; eauto|eapply own_rows; eauto]. }
  split; [|split; [|split; [|split; [exact HX|split; [exact NX|split; [|split; [|split; [exact HLs|split; [exact HLt|]]]]]]]]].
  - split; [now rewrite refits_refs|]. split; [rewrite L2; unfold refits; rewrite map_length, combine_length; f_equal; lia|].
    split; [exact L3|]. split; [exact L4|]. split; [rewrite refits_net by exact EL; eapply chain_fits_in; eauto|exact HL].
  - split; [now rewrite refits_refs|now rewrite refits_prows].
  - unfold refits. rewrite map_length, combine_length. lia.
  - assert (HO2 : Forall2 (ook s') es xs).
    { eapply Forall2_in; [|exact HOO]. intros e x He Hx Hk. destruct Hk as (oo & Eo & Ho). exists oo. split; [destruct F3 as (_ & F3 & _); now rewrite F3|].
      eapply oown_frame; [exact Ho|exact F2|]. intros z Hz HW. apply (HDO z HW). unfold orows. apply in_concat. exists (x_ro x). split; [now apply in_map|exact Hz]. }
    clear - HO2 HP. revert ps HP. induction HO2 as [|e x es xs (oo & Eo & Ho) HO2 IH]; intros ps HP; inversion HP as [|? p ? ps' ((_ & E1 & E2 & _) & _) HP']; subst; [constructor|].
    unfold refits. simpl. constructor; [|now apply IH]. exists oo. split; [exact Eo|]. cbn [refit e_p]. now rewrite E1, E2.
  - rewrite refits_prows by exact EL. exact HDO.
  - clear - HK HP. induction HP as [|e p es ps ((E0 & _) & _) HP IH]; [constructor|]. inversion HK; subst. unfold refits. simpl. constructor; [|now apply IH].
    cbn [refit e_p]. now rewrite E0.
Qed.
End WithNum.
