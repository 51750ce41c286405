(** * OptFail: updates with gradients of the wrong shape. *)
From Coq Require Import String ZArith List Bool Arith Lia.
From Verif Require Import Num Heap Spec Matrix Network Optimizers PureSpec Repr HeapLemmas LoopLemmas MatrixProofs MatrixFacts LayerProofs LossCode OptSpec OptProofs OptFacts.
Import ListNotations.
Open Scope Z_scope.

Section WithNum.
Context {K : Num}.
Implicit Types s : state K.

(** The call returns an error. *)
Definition fails {A} (m : M K A) s (Q : err -> state K -> Prop) : Prop := exists e s', m s = (Fail e, s') /\ Q e s'.
Definition fpost {A} (Q : err -> state K -> Prop) (r : A + err) s' : Prop := match r with inr e => Q e s' | inl _ => False end.
Lemma fails_wp {A} (m : M K A) s Q : wp (catch m) s (fpost Q) -> fails m s Q.
Proof. unfold wp, catch, fails. destruct (m s) as [[a|e|p] s']; simpl; try tauto. eauto. Qed.
Lemma wp_fails {A} (m : M K A) s Q : fails m s Q -> wp (catch m) s (fpost Q).
Proof. intros (e & s' & E & H). unfold wp, catch. now rewrite E. Qed.
Lemma wp_catch_bind {A B} (e : M K A) (k : A -> M K B) s Q : wp (bind e (fun x => catch (k x))) s Q -> wp (catch (bind e k)) s Q.
Proof. unfold wp, catch, bind. destruct (e s) as [[]]; auto; tauto. Qed.
Lemma wp_catch_assoc {A B C} (a : M K A) (f : A -> M K B) (g : B -> M K C) s Q :
  wp (catch (bind a (fun x => bind (f x) g))) s Q -> wp (catch (bind (bind a f) g)) s Q.
Proof. unfold wp, catch, bind. destruct (a s) as [[]]; auto. Qed.
Lemma wp_catch_ite {A B} (t : bool) (a a' : M K A) (k : A -> M K B) s Q :
  wp (catch (bind (if t then a else a') k)) s Q = wp (catch (if t then bind a k else bind a' k)) s Q.
Proof. now destruct t. Qed.

Lemma assign_fails {B} oref s s1 o o1 set (e : M K matrix) er (k : unit -> M K B) (Q : B + err -> state K -> Prop) :
  nth_error (h_opts s) oref = Some o -> oext oref s s1 o1 -> e s1 = (Fail er, s1) ->
  (forall s2, oext oref s s2 (set matrix0 o1) -> (forall m rs r c A, own s1 m rs r c A -> own s2 m rs r c A) -> Q (inr er) s2) ->
  wp (catch (bind (assign_or_fail oref set e) k)) s1 Q.
Proof.
  intros Hl HO He HQ. unfold wp, catch, bind, assign_or_fail, bind, catch. rewrite He. rewrite (oext_get _ _ _ _ _ Hl HO).
  unfold put_opt, fail. apply HQ; [eapply oext_put; eauto|].
  intros m rs r c A H. exact H.
Qed.
Lemma Sub_dims_fail s m b : mrows m <> mrows b \/ mcols m <> mcols b -> Sub m b s = (Fail (EMatDims (mrows b) (mcols b)), s).
Proof. intros H. unfold Sub. replace (negb _ || negb _)%bool with true by lia. reflexivity. Qed.
Lemma Add_dims_fail s m b : mrows m <> mrows b \/ mcols m <> mcols b -> Add m b s = (Fail (EMatDims (mrows b) (mcols b)), s).
Proof. intros H. unfold Add. replace (negb _ || negb _)%bool with true by lia. reflexivity. Qed.

(** A matrix that is either Matrix{} or properly owned, scaled. *)
Definition maybe s (m : matrix) (r c : nat) : Prop :=
  (m = matrix0 /\ r = 0%nat /\ c = 0%nat) \/ (exists rs V, own s m rs r c V /\ (1 <= r)%nat /\ (1 <= c)%nat).
Lemma scale_maybe {B} oref s s1 o1 m a r c (k : matrix -> M K B) Q : oext oref s s1 o1 -> maybe s1 m r c ->
  (forall x s2, mrows x = Z.of_nat r -> mcols x = Z.of_nat c -> ext s1 s2 -> oext oref s s2 o1 -> wp (k x) s2 Q) ->
  wp (bind (MulScalar m a) k) s1 Q.
Proof.
  intros HO [(-> & -> & ->)|(rs & V & HV & Hr & Hc)] Hk.
  - eapply (Hk matrix0 s1); auto. split; [apply frame_refl|apply rest_refl].
  - eapply oext_fresh; [exact HO|eapply wp_MulScalar; [exact HV|lia|lia]|]. intros x rsx s2 _ Ox X O2.
    eapply Hk; eauto using own_rows, own_cols.
Qed.
Lemma maybe_ext s s1 m r c : maybe s m r c -> ext s s1 -> maybe s1 m r c.
Proof. intros [H|(rs & V & H & H1 & H2)] HE; [now left|right]. exists rs, V. split; [|auto]. exact (own_ext _ _ _ _ _ _ _ H HE). Qed.

Definition moments (o : optimizer K) : Prop := o_kind o = Adam \/ o_usemom o = true.
Definition kept (o o' : optimizer K) : Prop :=
  o_kind o' = o_kind o /\ o_usemom o' = o_usemom o /\ o_lr o' = o_lr o /\ o_decay o' = o_decay o /\ o_momentum o' = o_momentum o /\
  o_eps o' = o_eps o /\ o_beta1 o' = o_beta1 o /\ o_beta2 o' = o_beta2 o /\ o_iter o' = o_iter o /\ o_usedecay o' = o_usedecay o /\
  (o_usedecay o = false -> o_rate o' = o_rate o).

Section Fail.
Context (oref : nat) (s : state K) (o : optimizer K) (w b dw db : matrix) (rdw rdb : list nat) (r1 c1 r2 c2 : nat) (dW dB : pm K).
Context (Hl : nth_error (h_opts s) oref = Some o)
  (Hdw : own s dw rdw r1 c1 dW) (Hdb : own s db rdb r2 c2 dB) (Hr1 : (1 <= r1)%nat) (Hc1 : (1 <= c1)%nat)
  (Hr2 : (1 <= r2)%nat) (Hc2 : (1 <= c2)%nat).

(** Which moments exist when the weight gradients arrive. *)
Definition ready (wm bm : matrix) s2 (k c : nat) (kb cb : nat) : Prop := (1 <= k)%nat /\ (1 <= c)%nat /\
  (exists rs V, own s2 wm rs k c V) /\ maybe s2 bm kb cb.
Definition wfail (e : err) s' : Prop := e = EMatDims (Z.of_nat r1) (Z.of_nat c1) /\
  exists o', oext oref s s' o' /\ kept o o' /\ o_wm o' = matrix0.
Definition bfail (k c : nat) (e : err) s' : Prop := e = EMatDims (Z.of_nat r2) (Z.of_nat c2) /\
  exists o' rs V, oext oref s s' o' /\ kept o o' /\ o_bm o' = matrix0 /\ own s' (o_wm o') rs k c V.

(** From the state where the moments exist, SGD with momentum. *)
Definition sgd_rest (_ : unit) : M K unit :=
  bind (o <- get_opt oref ;;
    smw <- MulScalar (o_wm o) (o_momentum o) ;;
    sgw <- MulScalar dw (o_rate o) ;;
    assign_or_fail oref set_wm (Sub smw sgw) ;;
    smb <- MulScalar (o_bm o) (o_momentum o) ;;
    sgb <- MulScalar db (o_rate o) ;;
    assign_or_fail oref set_bm (Sub smb sgb) ;;
    o <- get_opt oref ;;
    each_cell (mrows w) (mcols w) (fun i j =>
      a <- getc w i j ;;
      b <- getc (o_wm o) i j ;;
      setc w i j (fadd a b)) ;;
    each_cell (mrows b) (mcols b) (fun i j =>
      a <- getc b i j ;;
      b0 <- getc (o_bm o) i j ;;
      setc b i j (fadd a b0))) (fun _ => o <- get_opt oref ;; put_opt oref (set_iter o (o_iter o + 1))).

Lemma sgd_rest_wfail s2 o2 k c kb cb : oext oref s s2 o2 -> kept o o2 -> ready (o_wm o2) (o_bm o2) s2 k c kb cb -> (r1, c1) <> (k, c) ->
  wp (catch (sgd_rest tt)) s2 (fpost wfail).
Proof.
  intros E2 HK (Hk & Hc & (rs & V & HV) & _) Hne. unfold sgd_rest.
  apply wp_catch_assoc, wp_catch_bind. eapply oext_getopt; [exact Hl|exact E2|].
  apply wp_catch_assoc, wp_catch_bind. eapply oext_fresh; [exact E2|eapply wp_MulScalar; [exact HV|lia|lia]|]. intros smw q1 s3 M3 O3 X3 E3.
  apply wp_catch_assoc, wp_catch_bind. eapply oext_fresh; [exact E3|eapply wp_MulScalar; [exact (own_oext _ _ _ _ _ _ _ _ _ Hdw E3)|lia|lia]|]. intros sgw q2 s4 M4 O4 X4 E4.
  apply wp_catch_assoc. eapply assign_fails; [exact Hl|exact E4|apply Sub_dims_fail|].
  - rewrite (own_rows _ _ _ _ _ _ O3), (own_cols _ _ _ _ _ _ O3), (own_rows _ _ _ _ _ _ O4), (own_cols _ _ _ _ _ _ O4).
    destruct (Nat.eq_dec k r1); [right|left; lia]. intros E. apply Hne. f_equal; lia.
  - intros s5 E5 K5. unfold fpost, wfail. rewrite (own_rows _ _ _ _ _ _ O4), (own_cols _ _ _ _ _ _ O4). split; [reflexivity|].
    eexists; split; [exact E5|]. split; [exact HK|reflexivity].
Qed.
Lemma sgd_rest_bfail s2 o2 k c kb cb : oext oref s s2 o2 -> kept o o2 -> ready (o_wm o2) (o_bm o2) s2 k c kb cb -> (r1, c1) = (k, c) -> (r2, c2) <> (kb, cb) ->
  wp (catch (sgd_rest tt)) s2 (fpost (bfail k c)).
Proof.
  intros E2 HK (Hk & Hc & (rs & V & HV) & HB) He Hne. injection He as <- <-. unfold sgd_rest.
  apply wp_catch_assoc, wp_catch_bind. eapply oext_getopt; [exact Hl|exact E2|].
  apply wp_catch_assoc, wp_catch_bind. eapply oext_fresh; [exact E2|eapply wp_MulScalar; [exact HV|lia|lia]|]. intros smw q1 s3 M3 O3 X3 E3.
  apply wp_catch_assoc, wp_catch_bind. eapply oext_fresh; [exact E3|eapply wp_MulScalar; [exact (own_oext _ _ _ _ _ _ _ _ _ Hdw E3)|lia|lia]|]. intros sgw q2 s4 M4 O4 X4 E4.
  apply wp_catch_assoc, wp_catch_bind. eapply oext_assign; [exact Hl|exact E4|eapply wp_Sub; [exact (own_ext _ _ _ _ _ _ _ O3 X4)|exact O4|lia|lia]|].
  intros wm' q3 s5 M5 O5 K5 _ E5.
  assert (HB5 : maybe s5 (o_bm o2) kb cb).
  { destruct (maybe_ext _ _ _ _ _ HB (ext_trans _ _ _ X3 X4)) as [H|(rs' & V' & H & H')]; [now left|right]. exists rs', V'. split; [now apply K5|exact H']. }
  apply wp_catch_assoc, wp_catch_bind. eapply scale_maybe; [exact E5|exact HB5|]. intros smb s6 R6 C6 X6 E6.
  apply wp_catch_assoc, wp_catch_bind. eapply oext_fresh; [exact E6|eapply wp_MulScalar; [exact (own_oext _ _ _ _ _ _ _ _ _ Hdb E6)|lia|lia]|]. intros sgb q5 s7 M7 O7 X7 E7.
  apply wp_catch_assoc. eapply assign_fails; [exact Hl|exact E7|apply Sub_dims_fail|].
  - rewrite R6, C6, (own_rows _ _ _ _ _ _ O7), (own_cols _ _ _ _ _ _ O7).
    destruct (Nat.eq_dec kb r2); [right|left; lia]. intros E. apply Hne. f_equal; lia.
  - intros s8 E8 K8. unfold fpost, bfail. rewrite (own_rows _ _ _ _ _ _ O7), (own_cols _ _ _ _ _ _ O7). split; [reflexivity|].
    do 3 eexists. split; [exact E8|]. split; [exact HK|]. split; [reflexivity|]. cbn [o_wm set_bm set_wm].
    apply K8. exact (own_ext _ _ _ _ _ _ _ (own_ext _ _ _ _ _ _ _ O5 X6) X7).
Qed.

(** The same for Adam; [rest] is what follows. *)
Definition adam_rest (rest : unit -> M K unit) : M K unit :=
  o <- get_opt oref ;;
  swm <- MulScalar (o_wm o) (o_beta1 o) ;;
  swg <- MulScalar dw (fsub f1 (o_beta1 o)) ;;
  assign_or_fail oref set_wm (Add swm swg) ;;
  sbm <- MulScalar (o_bm o) (o_beta1 o) ;;
  sbg <- MulScalar db (fsub f1 (o_beta1 o)) ;;
  bind (assign_or_fail oref set_bm (Add sbm sbg)) rest.
Lemma adam_rest_wfail rest s2 o2 k c kb cb : oext oref s s2 o2 -> kept o o2 -> ready (o_wm o2) (o_bm o2) s2 k c kb cb -> (r1, c1) <> (k, c) ->
  wp (catch (adam_rest rest)) s2 (fpost wfail).
Proof.
  intros E2 HK (Hk & Hc & (rs & V & HV) & _) Hne. unfold adam_rest.
  apply wp_catch_bind. eapply oext_getopt; [exact Hl|exact E2|].
  apply wp_catch_bind. eapply oext_fresh; [exact E2|eapply wp_MulScalar; [exact HV|lia|lia]|]. intros smw q1 s3 M3 O3 X3 E3.
  apply wp_catch_bind. eapply oext_fresh; [exact E3|eapply wp_MulScalar; [exact (own_oext _ _ _ _ _ _ _ _ _ Hdw E3)|lia|lia]|]. intros sgw q2 s4 M4 O4 X4 E4.
  eapply assign_fails; [exact Hl|exact E4|apply Add_dims_fail|].
  - rewrite (own_rows _ _ _ _ _ _ O3), (own_cols _ _ _ _ _ _ O3), (own_rows _ _ _ _ _ _ O4), (own_cols _ _ _ _ _ _ O4).
    destruct (Nat.eq_dec k r1); [right|left; lia]. intros E. apply Hne. f_equal; lia.
  - intros s5 E5 K5. unfold fpost, wfail. rewrite (own_rows _ _ _ _ _ _ O4), (own_cols _ _ _ _ _ _ O4). split; [reflexivity|].
    eexists; split; [exact E5|]. split; [exact HK|reflexivity].
Qed.
Lemma adam_rest_bfail rest s2 o2 k c kb cb : oext oref s s2 o2 -> kept o o2 -> ready (o_wm o2) (o_bm o2) s2 k c kb cb -> (r1, c1) = (k, c) -> (r2, c2) <> (kb, cb) ->
  wp (catch (adam_rest rest)) s2 (fpost (bfail k c)).
Proof.
  intros E2 HK (Hk & Hc & (rs & V & HV) & HB) He Hne. injection He as <- <-. unfold adam_rest.
  apply wp_catch_bind. eapply oext_getopt; [exact Hl|exact E2|].
  apply wp_catch_bind. eapply oext_fresh; [exact E2|eapply wp_MulScalar; [exact HV|lia|lia]|]. intros smw q1 s3 M3 O3 X3 E3.
  apply wp_catch_bind. eapply oext_fresh; [exact E3|eapply wp_MulScalar; [exact (own_oext _ _ _ _ _ _ _ _ _ Hdw E3)|lia|lia]|]. intros sgw q2 s4 M4 O4 X4 E4.
  apply wp_catch_bind. eapply oext_assign; [exact Hl|exact E4|eapply wp_Add; [exact (own_ext _ _ _ _ _ _ _ O3 X4)|exact O4|lia|lia]|].
  intros wm' q3 s5 M5 O5 K5 _ E5.
  assert (HB5 : maybe s5 (o_bm o2) kb cb).
  { destruct (maybe_ext _ _ _ _ _ HB (ext_trans _ _ _ X3 X4)) as [H|(rs' & V' & H & H')]; [now left|right]. exists rs', V'. split; [now apply K5|exact H']. }
  apply wp_catch_bind. eapply scale_maybe; [exact E5|exact HB5|]. intros smb s6 R6 C6 X6 E6.
  apply wp_catch_bind. eapply oext_fresh; [exact E6|eapply wp_MulScalar; [exact (own_oext _ _ _ _ _ _ _ _ _ Hdb E6)|lia|lia]|]. intros sgb q5 s7 M7 O7 X7 E7.
  eapply assign_fails; [exact Hl|exact E7|apply Add_dims_fail|].
  - rewrite R6, C6, (own_rows _ _ _ _ _ _ O7), (own_cols _ _ _ _ _ _ O7).
    destruct (Nat.eq_dec kb r2); [right|left; lia]. intros E. apply Hne. f_equal; lia.
  - intros s8 E8 K8. unfold fpost, bfail. rewrite (own_rows _ _ _ _ _ _ O7), (own_cols _ _ _ _ _ _ O7). split; [reflexivity|].
    do 3 eexists. split; [exact E8|]. split; [exact HK|]. split; [reflexivity|]. cbn [o_wm set_bm set_wm].
    apply K8. exact (own_ext _ _ _ _ _ _ _ (own_ext _ _ _ _ _ _ _ O5 X6) X7).
Qed.

Lemma kept_rate po : oscal o po -> kept o (set_rate o (next_rate po)).
Proof.
  intros (S1&S2&S3&S4&S5&S6&S7&S8&S9&S10&S11). repeat split. simpl. intros H. unfold next_rate. rewrite <- S10, H. congruence.
Qed.
Definition any_po : popt K := new_po o 0 0.
Lemma any_scal : oscal o any_po. Proof. repeat split. Qed.

(** A stuck optimizer. *)
Lemma stuck_update k c rs V : moments o -> own s (o_wm o) rs k c V -> o_bm o = matrix0 -> (r1, c1) = (k, c) ->
  fails (Opt_Update oref w b dw db) s (bfail k c).
Proof.
  intros HM HV HB He. apply fails_wp. unfold Opt_Update. apply wp_catch_bind. eapply oext_getopt; [exact Hl|exact (oext_refl _ _ _ Hl)|].
  assert (Hk : (1 <= k)%nat /\ (1 <= c)%nat) by (injection He as <- <-; auto).
  destruct (o_kind o) eqn:Ek.
  - destruct HM as [HM|HM]; [congruence|]. unfold SGD_Update. apply wp_catch_bind. eapply decay_step; [exact Hl|exact any_scal|]. intros s1 E1.
    apply wp_catch_bind. eapply oext_getopt; [exact Hl|exact E1|]. cbn [o_usemom set_rate]. rewrite HM. cbn [o_wm set_rate].
    rewrite (own_rows _ _ _ _ _ _ HV). replace (Z.of_nat k =? 0) with false by lia.
    apply (sgd_rest_bfail s1 _ k c 0 0 E1 (kept_rate _ any_scal)); [|exact He|intros X; injection X as -> ->; lia].
    split; [lia|]. split; [lia|]. split; [exists rs, V; exact (own_oext _ _ _ _ _ _ _ _ _ HV E1)|]. left. auto.
  - unfold Adam_Update. apply wp_catch_bind. eapply decay_step; [exact Hl|exact any_scal|]. intros s1 E1.
    apply wp_catch_bind. eapply oext_getopt; [exact Hl|exact E1|]. cbn [o_wm set_rate].
    rewrite (own_rows _ _ _ _ _ _ HV). replace (Z.of_nat k =? 0) with false by lia.
    eapply (adam_rest_bfail _ s1 _ k c 0 0 E1 (kept_rate _ any_scal)); [|exact He|intros X; injection X as -> ->; lia].
    split; [lia|]. split; [lia|]. split; [exists rs, V; exact (own_oext _ _ _ _ _ _ _ _ _ HV E1)|]. left. auto.
Qed.

(** A healthy optimizer. *)
Lemma bad_update ro po k c rw rb W B : moments o -> oown s o ro k c po ->
  own s w rw k c W -> own s b rb 1 c B -> (1 <= k)%nat -> (1 <= c)%nat ->
  ((r1, c1) <> (k, c) -> fails (Opt_Update oref w b dw db) s wfail) /\
  ((r1, c1) = (k, c) -> (r2, c2) <> (1%nat, c) -> fails (Opt_Update oref w b dw db) s (bfail k c)).
Proof.
  intros HM (HS & Hst) Hw Hb Hk Hc.
  assert (Hgo : forall Q, (forall s2 o2, oext oref s s2 o2 -> kept o o2 -> ready (o_wm o2) (o_bm o2) s2 k c 1 c ->
      (o_kind o = SGD -> wp (catch (sgd_rest tt)) s2 (fpost Q)) /\ (o_kind o = Adam -> forall rest, wp (catch (adam_rest rest)) s2 (fpost Q))) ->
      fails (Opt_Update oref w b dw db) s Q).
  { intros Q HQ. apply fails_wp. unfold Opt_Update. apply wp_catch_bind. eapply oext_getopt; [exact Hl|exact (oext_refl _ _ _ Hl)|].
    assert (HS' := HS). destruct HS' as (S1&S2&S3&S4&S5&S6&S7&S8&S9&S10&S11). rewrite <- S1, <- ?S11 in Hst.
    destruct (o_kind o) eqn:Ek.
    - destruct HM as [HM|HM]; [congruence|]. rewrite HM in Hst. unfold SGD_Update. apply wp_catch_bind. eapply decay_step; [exact Hl|exact HS|]. intros s1 E1.
      apply wp_catch_bind. eapply oext_getopt; [exact Hl|exact E1|]. cbn [o_usemom set_rate]. rewrite HM. apply wp_catch_assoc, wp_catch_bind.
      eapply (mom_init s oref o _ s1 po w b k c ro W B rw rb); [exact Hl|exact E1|exact Hw|exact Hb|exact Hk|exact Hc|exact Hst|].
      intros s2 wm bm q1 q2 E2 Owm Obm. apply (HQ s2 _ E2); [exact (kept_rate po HS)| |reflexivity].
      split; [lia|]. split; [lia|]. split; [eexists; eexists; exact Owm|]. right. do 2 eexists. split; [exact Obm|lia].
    - unfold Adam_Update. apply wp_catch_bind. eapply decay_step; [exact Hl|exact HS|]. intros s1 E1.
      apply wp_catch_bind. eapply oext_getopt; [exact Hl|exact E1|]. apply wp_catch_bind.
      eapply (adam_init s oref o _ s1 po w b k c ro W B rw rb); [exact Hl|exact E1|exact Hw|exact Hb|exact Hk|exact Hc|exact Hst|].
      intros s2 wm bm wc bc q1 q2 q3 q4 E2 Owm Obm _ _. eapply (HQ s2 _ E2); [exact (kept_rate po HS)| |reflexivity].
      split; [lia|]. split; [lia|]. split; [eexists; eexists; exact Owm|]. right. do 2 eexists. split; [exact Obm|lia]. }
  split.
  - intros Hne. apply Hgo. intros s2 o2 E2 HK HR. split; [intros _; eapply sgd_rest_wfail; eauto|intros _ rest; eapply adam_rest_wfail; eauto].
  - intros He Hne. apply Hgo. intros s2 o2 E2 HK HR. split; [intros _; eapply sgd_rest_bfail; eauto|intros _ rest; eapply adam_rest_bfail; eauto].
Qed.
End Fail.
End WithNum.
