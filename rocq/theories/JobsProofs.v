(** * JobsProofs: models used side by side do not influence each other. *)
From Coq Require Import String ZArith List Bool Arith Lia.
From Verif Require Import Num Heap Spec Matrix Activation Misc Accuracy Loss Network Optimizers ModelGo PureSpec Repr HeapLemmas LoopLemmas MatrixProofs MatrixFacts LayerProofs LayerFacts MiscProofs OptSpec OptProofs OptFacts ModelSpec ModelProofs EvalProofs FitProofs FitLoop ModelFacts FitFacts Jobs.
Import ListNotations.
Open Scope Z_scope.
Open Scope go_scope.

Section WithNum.
Context {K : Num}.
Implicit Types (s : state K) (j : job K) (js : list (job K)).

(** ** Without dropout no random numbers are used *)
Definition plain (ps : list (player K)) : Prop := Forall (fun p => p_kind p <> Dropout) ps.
Lemma plain_draws ps r : plain ps -> net_draws true ps r = 0%nat.
Proof.
  induction 1 as [|p ps H _ IH]; [reflexivity|]. unfold net_draws in *. cbn [fold_right]. rewrite IH. unfold player_draws.
  unfold pdraws. destruct (p_kind p); try reflexivity. congruence.
Qed.
Lemma plain_backprop k Y o ps r : plain ps -> forall X U q U' q', pbackprop k Y o ps r X U q = pbackprop k Y o ps r X U' q'.
Proof.
  induction 1 as [|p ps H _ IH]; intros X U q U' q'; [reflexivity|]. simpl.
  assert (E1 : ptrain p r X (from U q) = ptrain p r X (from U' q')) by (unfold ptrain; destruct (p_kind p); try reflexivity; congruence).
  assert (E2 : ptrain_mask p r (from U q) = ptrain_mask p r (from U' q')) by (unfold ptrain_mask; destruct (p_kind p); try reflexivity; congruence).
  rewrite E1, E2. rewrite (IH _ U (q + pdraws p r)%nat U' (q' + pdraws p r)%nat). reflexivity.
Qed.
Lemma plain_tsteps ts : forall gs, plain (map fst ts) -> plain (map fst (map (fun tg => tstep (fst tg) (snd tg)) (combine ts gs))).
Proof.
  induction ts as [|t ts IH]; intros [|g gs] H; simpl; try constructor.
  - inversion H; subst. destruct (tstep_like t g) as (E & _). rewrite E. assumption.
  - inversion H; subst. apply IH. assumption.
Qed.
Lemma plain_train k o bs : forall ts U q U' q', plain (map fst ts) ->
  fst (ptrain_on k o ts U q bs) = fst (ptrain_on k o ts U' q' bs) /\ snd (ptrain_on k o ts U q bs) = q /\
  plain (map fst (fst (ptrain_on k o ts U q bs))).
Proof.
  induction bs as [|[X Y] bs IH]; intros ts U q U' q' H; [auto|]. simpl. rewrite plain_draws by exact H.
  assert (E : pbatch k o ts X Y U q = pbatch k o ts X Y U' q') by (unfold pbatch; rewrite (plain_backprop _ _ _ _ _ H X U q U' q'); reflexivity).
  rewrite E. assert (P : plain (map fst (pbatch k o ts X Y U' q'))) by (apply plain_tsteps; exact H).
  destruct (IH _ U (q + 0)%nat U' (q' + 0)%nat P) as (A & B & C).
  split; [exact A|]. split; [lia|exact C].
Qed.

(** ** The plain meaning of a program for one model *)
Definition trained j (ts : list (player K * popt K)) (e : Z) : list (player K * popt K) :=
  fst (ptrain_on (j_k j) (j_o j) ts (fun _ => f0) 0 (epochs_of (Z.to_nat e) (batch_rows (j_n j) (j_bs j)) (j_X j) (j_Y j))).
Definition answer_of j (ts : list (player K * popt K)) : nat * pm K :=
  match ppredict (m_acctype (j_m j)) (j_n j) (j_o j) (pnet (map fst ts) (j_n j) (j_X j)) with Some p => p | None => (O, []) end.
Fixpoint pure (a : nat) j (ts : list (player K * popt K)) (prog : list act) : list (player K * popt K) * list (nat * pm K) :=
  match prog with
  | [] => (ts, [])
  | Train b e :: rest => pure a j (if (b =? a)%nat then trained j ts e else ts) rest
  | Ask b :: rest => let p := pure a j ts rest in (fst p, if (b =? a)%nat then answer_of j ts :: snd p else snd p)
  end.
Lemma pure_only a j prog : forall ts, pure a j ts (only a prog) = pure a j ts prog.
Proof.
  unfold only. induction prog as [|[b e|b] prog IH]; intros ts; simpl; auto.
  - destruct (Nat.eqb_spec b a); simpl; [|auto]. subst. rewrite Nat.eqb_refl. auto.
  - destruct (Nat.eqb_spec b a); simpl.
    + subst. rewrite Nat.eqb_refl, IH. reflexivity.
    + rewrite IH. destruct (pure a j ts prog). reflexivity.
Qed.
Definition moved j es xs : job K :=
  Job (j_m j) es xs (j_i j) (j_o j) (j_k j) (j_x j) (j_rx j) (j_y j) (j_ry j) (j_n j) (j_X j) (j_Y j) (j_bs j).
Lemma pure_moved a j es xs prog : forall ts, pure a (moved j es xs) ts prog = pure a j ts prog.
Proof. induction prog as [|[b e|b] prog IH]; intros ts; [reflexivity| |]; simpl; rewrite IH; reflexivity. Qed.
Lemma run_moved js a j es xs prog : nth_error js a = Some j -> run (upd a (moved j es xs) js) prog = run js prog.
Proof.
  intros Ha. induction prog as [|c prog IH]; [reflexivity|]. cbn [run]. rewrite IH.
  destruct (Nat.eq_dec (actor c) a) as [E|E].
  - rewrite E, nth_error_upd, Nat.eqb_refl, Ha. simpl. destruct (Nat.ltb_spec a (length js)); [reflexivity|]. apply nth_error_None in H. congruence.
  - rewrite nth_error_upd. destruct (Nat.eqb_spec a (actor c)); [congruence|]. reflexivity.
Qed.

(** ** One step *)
Lemma Forall2_weak {A B} (R R' : A -> B -> Prop) l l' : (forall a b, R a b -> R' a b) -> Forall2 R l l' -> Forall2 R' l l'.
Proof. intros H. induction 1; constructor; auto. Qed.
Lemma upd_same {A} (l : list A) a x : (a < length l)%nat -> nth_error (upd a x l) a = Some x.
Proof. intros H. rewrite nth_error_upd, Nat.eqb_refl. destruct (Nat.ltb_spec a (length l)); [reflexivity|lia]. Qed.
Lemma upd_other {A} (l : list A) a b x : a <> b -> nth_error (upd a x l) b = nth_error l b.
Proof. intros H. rewrite nth_error_upd. destruct (Nat.eqb_spec a b); [congruence|reflexivity]. Qed.
Lemma prows_in e (es : list (lent K)) z : In e es -> In z (e_rw e) \/ In z (e_rb e) -> In z (prows es).
Proof. intros He Hz. unfold prows. apply in_concat. exists (e_rw e ++ e_rb e). split; [apply in_map_iff; eauto|apply in_or_app; exact Hz]. Qed.
Lemma orows_in x (xs : list (oent K)) z : In x xs -> In z (x_ro x) -> In z (orows xs).
Proof. intros Hx Hz. unfold orows. apply in_concat. exists (x_ro x). split; [apply in_map_iff; eauto|exact Hz]. Qed.

(** A model whose rows and optimizers were not touched. *)
Lemma trainable_frame (W : nat -> Prop) refs lrefs s s' m es xs i o k : trainable s m es xs i o k ->
  frame W s s' -> (forall z, In z (prows es ++ orows xs) -> ~ W z) -> layers_kept lrefs s s' -> opts_kept refs s s' ->
  disjoint refs (map x_ref xs) -> trainable s' m es xs i o k.
Proof.
  intros ((L1 & L2 & L3 & L4 & L5 & L6) & U & Hlen & HX & NX & HOO & HDO & HLs & HLt & HK) HF HW HL HO HD.
  split; [|split; [exact U|split; [exact Hlen|split; [exact HX|split; [exact NX|split; [|auto]]]]]].
  - split; [exact L1|]. split; [exact L2|]. split; [exact L3|]. split; [exact L4|]. split; [exact L5|].
    rewrite Forall_forall. intros e He. assert (L6' := proj1 (Forall_forall _ _) L6 e He). eapply lok_kept; eauto.
    intros z Hz. apply HW. apply in_or_app. left. eapply prows_in; eauto.
  - eapply Forall2_in; [|exact HOO]. intros e x He Hx H. eapply (ook_frame W refs); eauto.
    + intros HI. apply (HD (x_ref x) HI). apply in_map. exact Hx.
    + intros z Hz. apply HW. apply in_or_app. right. eapply orows_in; eauto.
Qed.
Lemma job_frame (W : nat -> Prop) refs lrefs s s' j : job_ok s j -> frame W s s' ->
  (forall z, In z (prows (j_es j) ++ orows (j_xs j) ++ j_rx j ++ j_ry j) -> ~ W z) ->
  layers_kept lrefs s s' -> opts_kept refs s s' -> disjoint refs (map x_ref (j_xs j)) -> job_ok s' j.
Proof.
  intros ((HT & (D1 & D2 & D3 & D4) & H) & H') HF HW HL HO HD. split; [|exact H']. split; [|split; [|exact H]].
  - eapply trainable_frame; eauto. intros z Hz. apply HW. rewrite !in_app_iff in *. tauto.
  - split; [|split; [|auto]]; (eapply own_frame; [eassumption|exact HF|]); intros z Hz; apply HW; rewrite !in_app_iff; auto.
Qed.
Lemma plain_net s j : job_ok s j -> plain (map fst (trainer (j_es j) (j_xs j))).
Proof.
  intros ((HT & _) & HP). rewrite trainer_net by (symmetry; eapply Forall2_length; apply HT).
  unfold plain, net. rewrite Forall_forall in *. intros p Hp. apply in_map_iff in Hp as (e & <- & He). auto.
Qed.
Lemma plain_kept (es es' : list (lent K)) : Forall2 same_place es es' -> Forall (fun e => p_kind (e_p e) <> Dropout) es ->
  Forall (fun e => p_kind (e_p e) <> Dropout) es'.
Proof. intros H. exact (same_place_kind es es' (fun kd => kd <> Dropout) H). Qed.

(** Training one model: its new state, and a frame. *)
Lemma train_one s j e : min_faithful K -> job_ok s j ->
  exists s' es' xs', Fit (j_m j) (j_x j) (j_y j) e (j_bs j) matrix0 matrix0 0 s = (Ret tt, s') /\
    job_ok s' (moved j es' xs') /\ Forall2 same_place (j_es j) es' /\ same_slots s (j_xs j) xs' /\
    trainer es' xs' = trained j (trainer (j_es j) (j_xs j)) e /\
    train_effect (j_es j) (j_xs j) 0 [] s s' /\ h_rng s' = h_rng s.
Proof.
  intros HM HJ. assert (HP := plain_net s j HJ). destruct HJ as ((HT & HD & Hn & Hb & H52 & Hac) & HK).
  destruct (fit_trains s (j_m j) (j_es j) (j_xs j) (j_i j) (j_o j) (j_k j) (j_x j) (j_rx j) (j_y j) (j_ry j) (j_n j) (j_X j) (j_Y j) e (j_bs j) matrix0 matrix0 HM Hb H52 Hn HT HD)
    as ([] & s' & E & nn & Hq & (es' & xs' & HT' & P & Q & T & F) & D1 & D2).
  destruct (plain_train (j_k j) (j_o j) (epochs_of (Z.to_nat e) (batch_rows (j_n j) (j_bs j)) (j_X j) (j_Y j)) _ (r_uni (h_rng s)) (r_upos (h_rng s)) (fun _ => f0) 0%nat HP)
    as (A & B & _).
  rewrite B in Hq. assert (nn = 0%nat) by lia. subst nn.
  exists s', es', xs'. split; [exact E|]. split.
  { split; [|eapply plain_kept; eauto]. split; [exact HT'|]. split; [exact (data_ok_effect _ _ _ _ _ _ _ _ _ _ _ _ _ _ _ _ HD F P)|].
    split; [exact Hn|]. split; [exact Hb|]. split; [exact H52|exact Hac]. }
  split; [exact P|]. split; [exact Q|]. split; [rewrite T; exact A|]. split; [exact F|].
  destruct F as (_ & _ & _ & -> & _). apply adv_uni_0.
Qed.
(** Asking one model. *)
Lemma ask_one s j : job_ok s j ->
  exists s' out rs, Predict (j_m j) (j_x j) s = (Ret out, s') /\
    own s' out rs (j_n j) (fst (answer_of j (trainer (j_es j) (j_xs j)))) (snd (answer_of j (trainer (j_es j) (j_xs j)))) /\ fresh s rs /\
    forward_effect (map e_ref (j_es j)) 0 s s' /\ h_rng s' = h_rng s.
Proof.
  intros ((HT & HD & Hn & Hb & H52 & Hac) & HK).
  assert (EN : map fst (trainer (j_es j) (j_xs j)) = net (j_es j)) by (apply trainer_net; symmetry; eapply Forall2_length; apply HT).
  unfold answer_of. rewrite EN.
  assert (HA : exists c P, ppredict (m_acctype (j_m j)) (j_n j) (j_o j) (pnet (net (j_es j)) (j_n j) (j_X j)) = Some (c, P)).
  { unfold ppredict. destruct (Z.eqb_spec (m_acctype (j_m j)) 0); [eauto|]. destruct (Z.eqb_spec (m_acctype (j_m j)) 1); [eauto|].
    destruct (Z.eqb_spec (m_acctype (j_m j)) 2); [eauto|lia]. }
  destruct HA as (c & P & HA). rewrite HA.
  assert (W : wp (Predict (j_m j) (j_x j)) s (fun out s' => exists rs, own s' out rs (j_n j) c P /\ fresh s rs /\ NoDup rs /\
    forward_effect (map e_ref (j_es j)) 0 s s')).
  { eapply wp_Predict; [apply HT|apply HT|exact HA|apply HD|exact Hn]. }
  apply returns_wp in W. destruct W as (out & s' & E & rs & HO & HF & _ & HE).
  exists s', out, rs. split; [exact E|]. split; [exact HO|]. split; [exact HF|]. split; [exact HE|].
  destruct HE as (_ & _ & _ & ->). apply adv_uni_0.
Qed.

(** ** Any program *)
Definition all_rows js : list nat := concat (map (fun j => prows (j_es j)) js).
Definition holds s s' r (P : matrix) (cA : nat * pm K) : Prop :=
  exists rs, own s' P rs r (fst cA) (snd cA) /\ fresh s rs.
Lemma all_rows_in js a j z : nth_error js a = Some j -> In z (prows (j_es j)) -> In z (all_rows js).
Proof. intros Ha Hz. unfold all_rows. apply in_concat. exists (prows (j_es j)). split; [apply in_map_iff; exists j; split; [reflexivity|eapply nth_error_In; eauto]|exact Hz]. Qed.
Lemma all_rows_moved js a j es xs : nth_error js a = Some j -> prows es = prows (j_es j) -> all_rows (upd a (moved j es xs) js) = all_rows js.
Proof.
  intros Ha Hp. unfold all_rows. f_equal. revert a Ha. induction js as [|j0 js IH]; intros [|a] Ha; simpl in *; try discriminate.
  - injection Ha as ->. rewrite Hp. reflexivity.
  - f_equal. auto.
Qed.
Lemma job_rows_old s j z : job_ok s j -> In z (prows (j_es j) ++ orows (j_xs j) ++ j_rx j ++ j_ry j) -> (z <= nrows s)%nat.
Proof.
  intros ((HT & (D1 & D2 & _) & _) & _). rewrite !in_app_iff. intros [H|[H|[H|H]]].
  - eapply prows_old; [apply HT|exact H].
  - destruct HT as (_ & _ & _ & _ & _ & HO & _). unfold orows in H. apply in_concat in H as (rs & Hrs & H). apply in_map_iff in Hrs as (x & <- & Hx).
    clear -HO Hx H. induction HO as [|e x0 es xs Hex _ IH]; [destruct Hx|]. destruct Hx as [->|Hx]; [|auto].
    destruct Hex as (o & _ & Ho). eapply oown_old; eauto.
  - eapply own_old_in; [exact D1|exact H].
  - eapply own_old_in; [exact D2|exact H].
Qed.
Lemma slots_rows s (xs xs' : list (oent K)) z : same_slots s xs xs' -> In z (orows xs') -> In z (orows xs) \/ (nrows s < z)%nat.
Proof.
  unfold same_slots. induction 1 as [|x x' xs xs' [_ H] _ IH]; [auto|]. rewrite !orows_cons, !in_app_iff. intros [Hz|Hz].
  - destruct H as [H|H]; [rewrite <- H; auto|]. right. eapply fresh_in; eauto.
  - destruct (IH Hz); auto.
Qed.

Lemma apart_moved s js a j es xs : Forall (job_ok s) js -> all_apart js -> nth_error js a = Some j ->
  Forall2 same_place (j_es j) es -> same_slots s (j_xs j) xs -> all_apart (upd a (moved j es xs) js).
Proof.
  intros HJ HA Ha HP HQ. destruct (same_place_maps _ _ HP) as (_ & EP & _).
  destruct (same_oplace_map _ _ (same_slots_places _ _ _ HQ)) as (ER & _).
  assert (La : (a < length js)%nat) by (apply nth_error_Some; congruence).
  assert (HO : forall b j', nth_error js b = Some j' -> job_ok s j') by (intros b j' Hb; rewrite Forall_forall in HJ; apply HJ; eapply nth_error_In; eauto).
  intros b c j1 j2 H1 H2 Hbc.
  destruct (Nat.eq_dec a b) as [<-|Nb].
  - rewrite upd_same in H1 by exact La. injection H1 as <-. rewrite upd_other in H2 by exact Hbc.
    destruct (HA a c _ _ Ha H2 Hbc) as [A B]. split; simpl; [rewrite EP|rewrite ER]; assumption.
  - rewrite upd_other in H1 by exact Nb. destruct (Nat.eq_dec a c) as [<-|Nc].
    + rewrite upd_same in H2 by exact La. injection H2 as <-. destruct (HA b a _ _ H1 Ha Hbc) as [A B]. split; simpl; [|rewrite ER; exact B].
      intros z Hz Hz'. rewrite EP, !in_app_iff in Hz'. destruct Hz' as [H|[H|H]].
      * apply (A z Hz). rewrite !in_app_iff. auto.
      * destruct (slots_rows _ _ _ _ HQ H) as [H'|H']; [apply (A z Hz); rewrite !in_app_iff; auto|].
        pose proof (job_rows_old s j1 z (HO _ _ H1) ltac:(apply in_or_app; auto)). lia.
      * apply (A z Hz). rewrite !in_app_iff. auto.
    + rewrite upd_other in H2 by exact Nc. eapply HA; eauto.
Qed.

Lemma run_pure : min_faithful K -> forall prog js s, Forall (job_ok s) js -> all_apart js ->
  exists outs s', run js prog s = (Ret outs, s') /\ h_rng s' = h_rng s /\ frame (among (all_rows js)) s s' /\
    forall a j, nth_error js a = Some j -> exists es' xs',
      trainable s' (j_m j) es' xs' (j_i j) (j_o j) (j_k j) /\ Forall2 same_place (j_es j) es' /\ same_slots s (j_xs j) xs' /\
      trainer es' xs' = fst (pure a j (trainer (j_es j) (j_xs j)) prog) /\
      Forall2 (holds s s' (j_n j)) (said a outs) (snd (pure a j (trainer (j_es j) (j_xs j)) prog)).
Proof.
  intros HM. induction prog as [|c prog IH]; intros js s HJ HA.
  - exists [], s. split; [reflexivity|]. split; [reflexivity|]. split; [apply frame_refl|]. intros a j Ha.
    exists (j_es j), (j_xs j). rewrite Forall_forall in HJ. split; [apply (HJ j); eapply nth_error_In; eauto|].
    split; [apply same_place_refl|]. split; [apply same_slots_refl|]. split; [reflexivity|constructor].
  - cbn [run]. destruct (nth_error js (actor c)) as [j|] eqn:Hc.
    + assert (Lc : (actor c < length js)%nat) by (apply nth_error_Some; congruence).
      assert (HO : forall b j', nth_error js b = Some j' -> job_ok s j') by (intros b j' Hb; rewrite Forall_forall in HJ; apply HJ; eapply nth_error_In; eauto).
      destruct c as [b e|b]; simpl in Hc, Lc.
      * destruct (train_one s j e HM (HO _ _ Hc)) as (s1 & es1 & xs1 & E1 & J1 & P1 & Q1 & T1 & F1 & R1).
        destruct (same_place_maps _ _ P1) as (_ & EP & _).
        set (js1 := upd b (moved j es1 xs1) js) in *.
        assert (HA1 : all_apart js1) by (eapply apart_moved; eauto).
        assert (HK : forall a j', nth_error js a = Some j' -> a <> b -> job_ok s1 j').
        { intros a j' Ha Hab. destruct F1 as (F1 & L1 & O1 & _). destruct (HA b a _ _ Hc Ha ltac:(congruence)) as [A B].
          eapply job_frame; [exact (HO _ _ Ha)|exact F1| |exact L1|exact O1|exact B]. intros z Hz Hz'. exact (A z Hz' Hz). }
        assert (HJ1 : Forall (job_ok s1) js1).
        { rewrite Forall_forall. intros j' Hj'. apply In_nth_error in Hj' as (a & Ha). unfold js1 in Ha. destruct (Nat.eq_dec b a) as [<-|Nb].
          - rewrite upd_same in Ha by exact Lc. injection Ha as <-. exact J1.
          - rewrite upd_other in Ha by exact Nb. eapply HK; eauto. }
        destruct (IH js1 s1 HJ1 HA1) as (outs & s' & E & R & F & H). unfold js1 in E. rewrite (run_moved _ _ _ _ _ _ Hc) in E.
        exists outs, s'. split; [rewrite (bind_eq _ _ _ _ _ E1); exact E|]. split; [congruence|].
        assert (N1 : (nrows s <= nrows s1)%nat) by (eapply frame_nrows; apply F1).
        split.
        { unfold js1 in F. rewrite (all_rows_moved _ _ _ _ _ Hc EP) in F. eapply frame_trans; [apply F1|exact F|].
          - intros z _ [Hz|Hz]; [eapply all_rows_in; eauto|exact Hz]. }
        intros a j' Ha. destruct (Nat.eq_dec b a) as [<-|Nb].
        -- assert (j' = j) by congruence. subst j'.
           destruct (H b (moved j es1 xs1) ltac:(apply upd_same; exact Lc)) as (es' & xs' & A1 & A2 & A3 & A4 & A5). rewrite pure_moved in A4, A5. simpl in *.
           exists es', xs'. split; [exact A1|]. split; [eapply same_place_trans; eauto|]. split; [eapply same_slots_trans; eauto|].
           rewrite Nat.eqb_refl. rewrite T1 in A4, A5. split; [exact A4|].
           eapply Forall2_weak; [|exact A5]. intros P cA (rs & B1 & B2). exists rs. split; [exact B1|]. eapply fresh_mono; eauto.
        -- destruct (H a j' ltac:(unfold js1; rewrite upd_other by exact Nb; exact Ha)) as (es' & xs' & A1 & A2 & A3 & A4 & A5).
           exists es', xs'. split; [exact A1|]. split; [exact A2|].
           split; [eapply same_slots_trans; [exact N1|apply same_slots_refl|exact A3]|]. simpl. destruct (Nat.eqb_spec b a); [congruence|].
           split; [exact A4|]. eapply Forall2_weak; [|exact A5]. intros P cA (rs & B1 & B2). exists rs. split; [exact B1|]. eapply fresh_mono; eauto.
      * destruct (ask_one s j (HO _ _ Hc)) as (s1 & out & rs & E1 & O1 & Fr & F1 & R1).
        assert (HJ1 : Forall (job_ok s1) js).
        { eapply Forall_impl; [|exact HJ]. intros j' Hj'. destruct F1 as (F1 & (Ro & _) & L1 & _).
          eapply (job_frame nothing []); [exact Hj'|exact F1|intros z _ []|exact L1|apply opts_kept_eq; exact Ro|intros z []]. }
        assert (N1 : (nrows s <= nrows s1)%nat) by (eapply frame_nrows; apply F1).
        destruct (IH js s1 HJ1 HA) as (outs & s' & E & R & F & H).
        exists ((b, out) :: outs), s'. split; [rewrite (bind_eq _ _ _ _ _ E1), (bind_eq _ _ _ _ _ E); reflexivity|]. split; [congruence|].
        split; [eapply frame_trans; [apply F1|exact F|]; intros z _ [[]|Hz]; exact Hz|].
        intros a j' Ha. destruct (H a j' Ha) as (es' & xs' & A1 & A2 & A3 & A4 & A5).
        exists es', xs'. split; [exact A1|]. split; [exact A2|]. split; [eapply same_slots_trans; [exact N1|apply same_slots_refl|exact A3]|].
        cbn [pure fst snd]. split; [exact A4|].
        assert (A5' : Forall2 (holds s s' (j_n j')) (said a outs) (snd (pure a j' (trainer (j_es j') (j_xs j')) prog))).
        { eapply Forall2_weak; [|exact A5]. intros P cA (rs0 & B1 & B2). exists rs0. split; [exact B1|]. eapply fresh_mono; eauto. }
        unfold said. simpl. destruct (Nat.eqb_spec b a) as [->|Nb]; [|exact A5'].
        simpl. constructor; [|exact A5']. assert (j' = j) by congruence. subst j'. exists rs. split; [|exact Fr].
        eapply own_frame; [exact O1|exact F|]. intros z Hz Hz'. pose proof (fresh_in _ _ _ Fr Hz).
        unfold among, all_rows in Hz'. apply in_concat in Hz' as (zs & Hzs & Hz'). apply in_map_iff in Hzs as (j' & <- & Hj').
        rewrite Forall_forall in HJ. pose proof (job_rows_old s j' z (HJ _ Hj') ltac:(apply in_or_app; auto)). lia.
    + destruct (IH js s HJ HA) as (outs & s' & E & R & F & H). exists outs, s'. split; [exact E|]. split; [exact R|]. split; [exact F|].
      intros a j Ha. destruct (H a j Ha) as (es' & xs' & A1 & A2 & A3 & A4 & A5). exists es', xs'.
      assert (Nc : actor c <> a) by congruence.
      destruct c as [b e|b]; simpl in *; destruct (Nat.eqb_spec b a); try congruence; auto 10.
Qed.

Lemma jobs_independent js prog s : min_faithful K -> Forall (job_ok s) js -> all_apart js ->
  exists outs s', run js prog s = (Ret outs, s') /\
    forall a j, nth_error js a = Some j -> exists outs_a s_a, run js (only a prog) s = (Ret outs_a, s_a) /\
      same_training s' s_a (j_m j) (j_es j) (j_xs j) (j_i j) (j_o j) (j_k j) /\
      Forall2 (same_contents s' s_a) (said a outs) (said a outs_a).
Proof.
  intros HM HJ HA. destruct (run_pure HM prog js s HJ HA) as (outs & s' & E & R & _ & H). exists outs, s'. split; [exact E|].
  intros a j Ha. destruct (run_pure HM (only a prog) js s HJ HA) as (outs' & s1 & E1 & R1 & _ & H1). exists outs', s1. split; [exact E1|].
  destruct (H a j Ha) as (es2 & xs2 & HT2 & P2 & Q2 & T2 & O2). destruct (H1 a j Ha) as (es1 & xs1 & HT1 & P1 & Q1 & T1 & O1).
  rewrite pure_only in T1, O1. split.
  - assert (N1 : length (net es1) = length (map x_po xs1)).
    { unfold net. rewrite !map_length. eapply Forall2_length. apply HT1. }
    assert (N2 : length (net es2) = length (map x_po xs2)).
    { unfold net. rewrite !map_length. eapply Forall2_length. apply HT2. }
    destruct (combine_inj _ _ _ _ N1 N2) as [A B]; [unfold trainer in *; congruence|].
    assert (es2 = es1) by (eapply same_place_unique; eauto). subst es2.
    apply same_slots_places in Q1, Q2. exists es1, xs2, xs1. repeat (split; [assumption|]). split; congruence.
  - clear -O1 O2. revert O1 O2. generalize (said a outs') (said a outs) (snd (pure a j (trainer (j_es j) (j_xs j)) prog)).
    intros l1 l2 l O1 O2. revert l1 O1. induction O2 as [|P cA l2 l (rs & A & _) _ IH]; intros l1 O1; inversion O1 as [|P1 cA1 t1 t2 (rs1 & B & _)]; subst; constructor; auto.
    exists rs, rs1, (j_n j), (fst cA), (snd cA). auto.
Qed.
End WithNum.
