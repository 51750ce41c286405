(** * TestModels: the tests of whole models pass. *)
From Coq Require Import String ZArith List Bool Arith Lia Permutation.
From Verif Require Import Num NumB64 LayerData ModelData Heap Spec Matrix Activation Misc Accuracy Network Loss Optimizers ModelGo PureSpec Repr HeapLemmas LoopLemmas
  MatrixFacts MatrixProofs OptSpec ModelSpec CodecSpec CodecSave CodecFacts CodecMore CodecGlue LayerProofs LayerFacts LossProofs ModelProofs ModelFacts EvalProofs FitProofs FitFacts Session SessionProofs
  Tests TestProofs.
Import ListNotations.
Open Scope Z_scope.
Open Scope go_scope.

Section AnyNum.
Context {K : Num}.
Implicit Types s : state K.

(** ** Layers created first and added later *)
Lemma add_layer_state (m : model K) r s a s' : AddLayer m r s = (Ret a, s') -> s' = s /\ exists l, nth_error (h_layers s) r = Some l.
Proof.
  unfold AddLayer, bind, get_layer. destruct (nth_error (h_layers s) r) as [l|]; [|discriminate].
  destruct (_ || _); unfold ret; intros H; injection H as _ <-; eauto.
Qed.
Lemma add_layer_same (m : model K) r s1 s2 a : nth_error (h_layers s2) r = nth_error (h_layers s1) r -> AddLayer m r s1 = (Ret a, s1) -> AddLayer m r s2 = (Ret a, s2).
Proof.
  unfold AddLayer, bind, get_layer. intros ->. destruct (nth_error (h_layers s1) r) as [l|]; [|discriminate].
  destruct (_ || _); unfold ret; intros H; injection H as <-; reflexivity.
Qed.
Lemma add_refs_same refs : forall (m : model K) s1 s2 m', h_layers s2 = h_layers s1 -> add_refs m refs s1 = (Ret m', s1) -> add_refs m refs s2 = (Ret m', s2).
Proof.
  induction refs as [|r refs IH]; intros m s1 s2 m' HL; simpl.
  - unfold ret. congruence.
  - unfold bind. destruct (AddLayer m r s1) as [[a|?|?] sa] eqn:E; try discriminate. destruct (add_layer_state _ _ _ _ _ E) as (-> & _).
    rewrite (add_layer_same m r s1 s2 a) by (congruence || assumption). apply IH. exact HL.
Qed.
Lemma add_later sps : forall (m : model K) s m' s', Forall spec_ok sps -> add_all m sps s = (Ret m', s') ->
  exists refs, create_all sps s = (Ret refs, s') /\ add_refs m refs s' = (Ret m', s') /\ exists more, h_layers s' = h_layers s ++ more.
Proof.
  induction sps as [|sp sps IH]; intros m s m' s' HS; simpl.
  - unfold ret. intros E. injection E as <- <-. exists []. split; [reflexivity|]. split; [reflexivity|]. exists []. now rewrite app_nil_r.
  - inversion HS as [|? ? H1 H2]; subst. destruct (new_of_run s sp H1) as (l & s1 & E1 & N). unfold bind at 1. rewrite E1.
    unfold bind at 1. cbn [alloc_layer]. set (s2 := with_layers s1 _). unfold check_err. unfold bind at 1 2.
    destruct (AddLayer m (length (h_layers s1)) s2) as [[[m2 er]|?|?] sa] eqn:EA; try discriminate. destruct (add_layer_state _ _ _ _ _ EA) as (-> & _).
    destruct er; [discriminate|]. cbn [fst snd ret]. intros E. destruct (IH m2 s2 m' s' H2 E) as (refs & Q1 & Q2 & more & Q3).
    exists (length (h_layers s1) :: refs). split; [|split].
    + unfold obj. unfold bind at 1 2. unfold ignore_err. rewrite E1. cbn [alloc_layer]. fold s2. unfold bind. now rewrite Q1.
    + simpl. unfold bind. rewrite (add_layer_same m (length (h_layers s1)) s2 s' (m2, None)); [exact Q2| |exact EA].
      rewrite Q3, nth_error_app1; [reflexivity|]. simpl. rewrite app_length. simpl. lia.
    + exists ([l] ++ more). rewrite Q3. simpl. destruct N as (_ & _ & _ & _ & _ & rw & rb & _ & _ & _ & (_ & EL & _)). rewrite EL, <- app_assoc. reflexivity.
Qed.
Lemma wp_create sps s : int_faithful K -> Forall spec_ok sps -> linked (in_of sps) sps ->
  wp (create_all sps) s (fun refs s1 => exists m1 es, consistent s1 m1 es (first_in (net es)) (last_out (net es)) /\ unshared es /\
    net es = map blank sps /\ fresh s (prows es) /\ frame nothing s s1 /\ rest2 s s1 /\ h_rng s1 = h_rng s /\
    forall s2, h_layers s2 = h_layers s1 -> add_refs NewModel refs s2 = (Ret m1, s2)).
Proof.
  intros HI HS HL. destruct (add_all_run HI sps NewModel [] s) as (m & es & s1 & E1 & HC & HU & HN & HF & FR & RS & G); auto.
  - unfold consistent. simpl. repeat split; constructor.
  - split; constructor.
  - destruct (add_later sps _ _ _ _ HS E1) as (refs & Q1 & Q2 & _). eapply wp_eq; [exact Q1|]. exists m, es. simpl in *.
    repeat (split; [assumption|]). intros s2 HL2. exact (add_refs_same _ _ s1 s2 _ HL2 Q2).
Qed.

(** ** Finalizing before initialising *)
Lemma blank_kinds sps (es : list (lent K)) : Forall spec_ok sps -> net es = map blank sps -> Forall (fun e => p_kind (e_p e) <> SigmoidK) es.
Proof.
  intros HS HN. apply (proj1 (Forall_map e_p (fun p => p_kind p <> SigmoidK) es)). change (map e_p es) with (net es). rewrite HN.
  clear -HS. induction HS as [|sp sps H _ IH]; [constructor|]. simpl. constructor; [|exact IH]. destruct H as (_ & _ & _ & _ & H). simpl.
  intros E. rewrite E in H. exact H.
Qed.
Lemma blank_ends sps : first_in (map blank sps) = in_of (K := K) sps /\ last_out (map blank sps) = out_of sps.
Proof. split; [destruct sps; reflexivity|]. unfold last_out, out_of. rewrite map_map. reflexivity. Qed.
Lemma wp_finish sps k (opt : optimizer K) acctype prec s m1 es : int_faithful K -> feq (f0 : K) f0 = true ->
  sps <> [] -> Forall spec_ok sps -> flt prec f0 = false ->
  consistent s m1 es (first_in (net es)) (last_out (net es)) -> unshared es -> net es = map blank sps ->
  wp (finish m1 (MkLoss k (Z.of_nat (out_of sps))) opt acctype prec) s (fun m s' => exists es' xs,
    trainable s' m es' xs (in_of sps) (out_of sps) k /\ finalized s' m es' k opt /\ m_acctype m = acctype /\ m_prec m = prec /\
    net es' = start_net (normals s) sps /\ prows es' = prows es /\ frame (among (prows es)) s s' /\ h_logger s' = h_logger s).
Proof.
  intros HI HF HN HS HP HC HU HNet. destruct (blank_ends sps) as [EF EO]. rewrite <- HNet in EF, EO.
  destruct (out_small sps HN HS) as [HO1 HO2].
  assert (HLen : (1 <= length es)%nat) by (rewrite <- net_length, HNet, map_length; destruct sps; [congruence|simpl; lia]).
  assert (H53 : Z.of_nat (last_out (net es)) <= 2 ^ 53) by (rewrite EO; lia).
  assert (HK := blank_kinds sps es HS HNet).
  destruct (returns_both _ _ _ _ (finalize_trainable HI HF s m1 es _ _ k opt acctype prec HC HU HLen H53 HK HP)
    (finalize_finalized HI HF s m1 es k opt acctype prec HC H53 HP)) as ([m2 er] & s2 & E2 & (R1 & R2 & R3 & HT & HE & HR & _) & (_ & HFin & _)).
  simpl in R1, R2, R3, HT, HFin. subst er. rewrite EF, EO in HT. rewrite EO in E2.
  unfold finish. apply wp_bind. eapply wp_eq; [exact E2|]. cbn [fst].
  assert (FR2 : frame nothing s s2) by (destruct HE as [HE _]; eapply frame_trans; [exact HE|apply (frame_rows _ s2); reflexivity|tauto]).
  assert (G2 : h_rng s2 = h_rng s) by apply HE. assert (L2 : h_logger s2 = h_logger s) by apply HE.
  apply wp_bind. eapply wp_conseq.
  { unfold InitLayers, for_, for_acc. destruct HFin as ((C1 & C2 & _ & _ & _ & C6) & _). rewrite C2, Nat2Z.id. apply (init_loop m2 es [] s2); [exact C1|exact C6|apply HU]. }
  cbv beta. intros [] s3 (es3 & A1 & A2 & A3 & A4 & A5 & A6 & A7). apply wp_ret.
  destruct (same_place_maps _ _ A2) as (P1 & P2 & P3). destruct (like_sizes _ _ A2) as (Q1 & Q2 & Q3).
  exists es3, (new_opts (length (h_opts s)) opt es). split; [|split; [|split; [exact R2|split; [exact R3|split; [|split; [exact P2|split]]]]]].
  - destruct HT as ((C1 & C2 & C3 & C4 & C5 & C6) & T2 & T3 & T4 & T5 & T6 & T7 & T8 & T9 & T10).
    split; [|split; [|split; [|split; [exact T4|split; [exact T5|split; [|split; [|split; [exact T8|split; [exact T9|]]]]]]]]].
    + unfold consistent. rewrite P1, P3. repeat (split; [assumption|]). split; [|exact A1]. eapply same_place_chain; eauto.
    + unfold unshared. rewrite P1, P2. exact HU.
    + now rewrite P3.
    + assert (H : Forall2 (ook s3) es (new_opts (length (h_opts s)) opt es)).
      { eapply Forall2_in; [|exact T6]. intros e x He Hx. intros H. eapply (ook_frame _ []); [exact H|exact A4|apply opts_kept_eq; apply A5|intros []|].
        intros z Hz Hz'. apply (T7 z Hz'). unfold orows. apply in_concat. exists (x_ro x). split; [apply in_map; exact Hx|exact Hz]. }
      clear -H A2. revert es3 A2. induction H as [|e x es0 xs0 H H0 IH]; intros es3 A2; inversion A2 as [|? e3 ? es4 B1 B2]; subst; constructor; [|apply IH; exact B2].
      destruct H as (o & Ho & Hw). exists o. split; [exact Ho|]. destruct B1 as (_ & _ & _ & B1). destruct B1 as (_ & -> & -> & _). exact Hw.
    + rewrite P2. exact T7.
    + exact (same_place_kind _ _ (fun k => k <> SigmoidK) A2 T10).
  - destruct HFin as ((C1 & C2 & C3 & C4 & C5 & C6) & T). split.
    + unfold consistent. rewrite P1, P3. unfold last_out in *. rewrite Q1, Q2. repeat (split; [assumption|]). split; [|exact A1]. eapply same_place_chain; eauto.
    + unfold last_out in *. rewrite Q2. exact T.
  - rewrite A3, HNet, reinit_blank. f_equal. unfold normals. now rewrite G2.
  - eapply frame_trans; [exact FR2|exact A4|]. intros z _ [[]|H]; exact H.
  - destruct A5 as (_ & A5 & _). congruence.
Qed.

(** ** Forward without training mode, in a network without dropout layers *)
Lemma fold_modes es : forall s pre x rsx r X i o, Forall (lok s) es -> chain i (net es) o -> own s x rsx r i X -> (1 <= r)%nat ->
  Forall (fun e => p_kind (e_p e) <> Dropout) es ->
  foldM (fwd_body false) (map e_ref es) (pre, x) s = foldM (fwd_body (K := K) true) (map e_ref es) (pre, x) s.
Proof.
  induction es as [|e es IH]; intros s pre x rsx r X i o HL HC Hx Hr HD; [reflexivity|].
  inversion_clear HL as [|? ? Le Les]. inversion_clear HD as [|? ? De Des]. destruct HC as [Hi HC]. fold (net es) in HC. subst i.
  assert (W := wp_forward_layer true s e x rsx r X Le Hx Hr). apply wp_ex in W as (out & s1 & E1 & rs & rsm & HR & _ & _ & _ & HE).
  assert (E0 : forward_layer false (e_ref e) x s = forward_layer true (e_ref e) x s).
  { destruct Le as (l & Hl & Hlo). unfold forward_layer, bind, get_layer. rewrite Hl. destruct Hlo as (Ek & _). rewrite Ek. destruct (p_kind (e_p e)); congruence. }
  cbn [map foldM]. unfold fwd_body at 1 3. unfold bind. cbn [snd fst]. rewrite E0, E1. unfold ret.
  destruct HE as (HFr & HR2 & HK & HG). eapply IH; [|exact HC|apply HR|exact Hr|exact Des].
  eapply Forall_impl; [|exact Les]. intros e' He'. eapply lok_kept; eauto.
Qed.
Lemma forward_modes s m es i o x rsx r X : consistent s m es i o -> own s x rsx r i X -> (1 <= r)%nat ->
  Forall (fun e => p_kind (e_p e) <> Dropout) es -> Forward m x false s = Forward (K := K) m x true s.
Proof.
  intros (HL & HS & Hi & Ho & HC & HLo) Hx Hr HD. unfold Forward. rewrite HL, HS.
  replace (Z.of_nat (length es)) with (Z.of_nat (length (map e_ref es))) by now rewrite map_length.
  unfold bind at 1. unfold bind at 3. pose proof (for_acc_list (fwd_body (K := K) false)) as F1. pose proof (for_acc_list (fwd_body (K := K) true)) as F2.
  unfold fwd_body in F1, F2. rewrite F1, F2. fold (fwd_body (K := K) false). fold (fwd_body (K := K) true).
  rewrite (fold_modes es s [x] x rsx r X i o); auto.
Qed.

(** ** The tests *)
Section Tests.
Context (HI : int_faithful K) (HF : feq (f0 : K) f0 = true).
Context (sps : list (lspec K)) (k : losskind) (new_opt : M K (optimizer K)) (opt : optimizer K) (acctype : Z) (prec : K).
Context (HNew : forall s, new_opt s = (Ret opt, s)) (HN : sps <> []) (HS : Forall spec_ok sps) (HLk : linked (in_of sps) sps) (HP : flt prec f0 = false).
Lemma new_loss s : NewLoss k (Z.of_nat (out_of sps)) s = (Ret (MkLoss k (Z.of_nat (out_of sps))), s).
Proof. destruct (out_small sps HN HS) as [HO1 HO2]. unfold NewLoss. destruct (Z.ltb_spec (Z.of_nat (out_of sps)) 1); [lia|reflexivity]. Qed.
Definition made s m s' es xs : Prop :=
  trainable s' m es xs (in_of sps) (out_of sps) k /\ finalized s' m es k opt /\ m_acctype m = acctype /\ m_prec m = prec /\
  net es = start_net (normals s) sps /\ fresh s (prows es) /\ frame nothing s s' /\ h_logger s' = h_logger s.
Lemma wp_test_model s : wp (test_model sps k new_opt acctype prec) s (fun m s' => exists es xs, made s m s' es xs).
Proof.
  unfold test_model. apply wp_bind. eapply wp_conseq; [apply (wp_create sps s HI HS HLk)|]. cbv beta.
  intros refs s1 (m1 & es & HC & HU & HNet & HFr & FR & RS & G & HA). apply wp_bind. eapply wp_eq; [apply HA; reflexivity|].
  apply wp_bind. apply wp_ignore_err. eapply wp_eq; [apply new_loss|]. apply wp_bind. apply wp_ignore_err. eapply wp_eq; [apply HNew|].
  eapply wp_conseq; [apply (wp_finish sps k opt acctype prec s1 m1 es HI HF HN HS HP HC HU HNet)|]. cbv beta.
  intros m s2 (es2 & xs & T1 & T2 & T3 & T4 & T5 & T6 & T7 & T8). exists es2, xs. unfold made. repeat (split; [assumption|]). split; [|split; [|split]].
  - rewrite T5. f_equal. unfold normals. now rewrite G.
  - now rewrite T6.
  - eapply fresh_frame; eauto.
  - destruct RS as (_ & RS & _). congruence.
Qed.
Lemma made_len s m s' es xs : made s m s' es xs -> (1 <= length es)%nat.
Proof. intros (HT & _). apply HT. Qed.

Lemma predict_defined r (P : pm K) : 0 <= acctype <= 2 -> exists c A, ppredict acctype r (out_of sps) P = Some (c, A).
Proof. intros HA. unfold ppredict. assert (acctype = 0 \/ acctype = 1 \/ acctype = 2) as [-> | [-> | ->]] by lia; simpl; eauto. Qed.
Lemma in_pos : (1 <= in_of sps)%nat.
Proof. destruct sps as [|sp l]; [congruence|]. inversion HS as [|? ? H _]. apply H. Qed.
Lemma nodrop z (es : list (lent K)) : Forall (fun sp => sp_kind sp <> Dropout) sps -> net es = start_net z sps -> Forall (fun e => p_kind (e_p e) <> Dropout) es.
Proof.
  intros HD HNet. apply (proj1 (Forall_map e_p (fun p => p_kind p <> Dropout) es)). change (map e_p es) with (net es). rewrite HNet.
  clear -HD. revert z. induction HD as [|sp l H _ IH]; intros z; [constructor|]. simpl. constructor; [exact H|apply IH].
Qed.
Lemma model_test_passes s (X Y : pm K) r : (1 <= r)%nat -> shape r (in_of sps) X -> shape r (out_of sps) Y -> 0 <= acctype <= 2 ->
  Forall (fun sp => sp_kind sp <> Dropout) sps -> wp (model_test sps k new_opt acctype prec X Y) s (fun b _ => b = true).
Proof.
  intros Hr SX SY HA HD. destruct (out_small sps HN HS) as [HO1 HO2]. unfold model_test. apply wp_bind. eapply wp_conseq; [apply wp_test_model|]. cbv beta.
  intros m s1 (es & xs & HT & HFin & MA & MP & HNet & HFr & FR1 & LG).
  apply wp_bind. eapply wp_conseq; [apply (wp_mat_ _ _ _ _ SX Hr in_pos)|]. cbv beta. intros x s2 (rsx & HX2 & HE2).
  apply wp_bind. eapply wp_conseq; [apply (wp_mat_ _ _ _ _ SY Hr HO1)|]. cbv beta. intros y s3 (rsy & HY3 & HE3).
  assert (HX3 := own_ext _ _ _ _ _ _ _ (proj1 HX2) HE3). assert (HE13 := ext_trans _ _ _ HE2 HE3).
  destruct HT as (HC & HU & HLen & _ & _ & _ & _ & HLoss & HLt & HK).
  assert (HC3 : consistent s3 m es (in_of sps) (out_of sps)).
  { destruct HC as (C1 & C2 & C3 & C4 & C5 & C6). repeat (split; [assumption|]). eapply Forall_impl; [|exact C6]. intros e (l & Hl & Hlo).
    exists l. split; [eapply layers_ext; eauto|eapply TestProofs.lown_ext; eauto]. }
  assert (HDe := nodrop _ es HD HNet).
  destruct (returns_both _ _ _ _ (forward_backward s3 m es _ _ k x rsx y rsy r X Y HC3 (proj1 HU) HLen HLoss HLt HK HX3 (proj1 HY3) Hr)
     (returns_wp _ _ _ (wp_Forward true s3 m es _ _ x rsx r X HC3 HX3 Hr (fun _ => proj1 HU)))) as (outs & s4 & E4 & HBk & (outs' & rss & _ & _ & _ & _ & _ & FE)).
  apply wp_must. eapply wp_eq; [rewrite (forward_modes s3 m es _ _ x rsx r X HC3 HX3 Hr HDe); exact E4|].
  destruct (HBk [] s4 (frame_refl _ _) (layers_kept_refl _ _)) as (gs & s5 & E5 & _ & _ & FR5 & RS5). { intros ? ? []. }
  apply wp_must. eapply wp_eq; [exact E5|].
  assert (HC5 : consistent s5 m es (in_of sps) (out_of sps)).
  { pose proof (consistent_effect _ _ _ _ _ _ _ HC3 FE) as HC4. destruct HC4 as (C1 & C2 & C3 & C4 & C5 & C6). repeat (split; [assumption|]).
    destruct HC3 as (_ & _ & _ & _ & _ & C6'). rewrite Forall_forall in *. intros e He. destruct (C6 e He) as (l & Hl & Hlo). destruct (C6' e He) as (l3 & Hl3 & Hlo3).
    exists l. split; [now rewrite (proj1 RS5)|]. destruct FE as (_ & _ & (_ & FK) & _). destruct (FK _ _ Hl3) as (l' & Hl' & SM & _). assert (l' = l) as -> by congruence.
    eapply lown_same; [|exact SM]. eapply lown_frame; [exact Hlo3|exact FR5|intros ? ? []]. }
  assert (HX5 : own s5 x rsx r (in_of sps) X) by (eapply own_frame; [exact HX3|exact FR5|intros ? ? []]).
  destruct (predict_defined r (pnet (net es) r X) HA) as (c & A & EP).
  apply wp_must. eapply wp_conseq; [eapply (wp_Predict s5 m es _ _ x rsx r X c A HC5 HLen); [rewrite MA; exact EP|exact HX5|exact Hr]|].
  intros P s6 _. now apply wp_ret.
Qed.

(** *** Saving and loading *)
Context (B : FBits K) (HB : bits_ok B).
Lemma made_storable s m s' es xs : made s m s' es xs -> (length sps <= 127)%nat -> -128 <= acctype < 128 -> storable m (net es).
Proof.
  intros (_ & _ & MA & _ & HNet & _) HL HA. rewrite HNet. split; [|split; [|now rewrite MA]].
  - rewrite <- (map_length (fun p => (p_in p, p_out p))), start_sizes, map_length. exact HL.
  - eapply (like_storable sps (normals s) HS). clear. induction (start_net (normals s) sps); constructor; [unfold like; auto 10|assumption].
Qed.
Lemma loaded_loss s m es n d x rsx y rsy r X Y : represents s m es n d -> (1 <= length (d_layers d))%nat ->
  own s x rsx r (first_in (d_layers d)) X -> own s y rsy r (last_out (d_layers d)) Y -> (1 <= r)%nat ->
  wp (CalculateLoss m x y) s (fun _ _ => True).
Proof.
  intros (HC & HNt & _ & HL & _) Hlen HX HY Hr. eapply wp_conseq; [eapply (wp_CalculateLoss s m es _ _ (d_loss d) x rsx y rsy r X Y HC); auto|auto].
  rewrite <- net_length, HNt. exact Hlen.
Qed.
Lemma stored_ends (ps : list (player K)) : first_in (map stored ps) = first_in ps /\ last_out (map stored ps) = last_out ps /\ length (map stored ps) = length ps.
Proof. split; [destruct ps; reflexivity|]. split; [|apply map_length]. unfold last_out. rewrite map_map. reflexivity. Qed.
Lemma loss_of_loaded s m es n o (ps : list (player K)) m0 z X Y r : represents s m es n (described m0 ps k o) -> ps = start_net z sps -> (1 <= r)%nat ->
  shape r (in_of sps) X -> shape r (out_of sps) Y ->
  wp (x <- mat_ X ;; y <- mat_ Y ;; must (CalculateLoss m x y) (fun _ => ret true)) s (fun b _ => b = true).
Proof.
  intros HR -> Hr SX SY. destruct (out_small sps HN HS) as [HO1 HO2]. destruct (stored_ends (start_net z sps)) as (E1 & E2 & E3).
  apply wp_bind. eapply wp_conseq; [apply (wp_mat_ _ _ _ _ SX Hr in_pos)|]. cbv beta. intros x s2 (rsx & HX2 & HE2).
  apply wp_bind. eapply wp_conseq; [apply (wp_mat_ _ _ _ _ SY Hr HO1)|]. cbv beta. intros y s3 (rsy & HY3 & HE3).
  assert (HX3 := own_ext _ _ _ _ _ _ _ (proj1 HX2) HE3). assert (HE13 := ext_trans _ _ _ HE2 HE3).
  apply wp_must. eapply wp_conseq; [eapply (loaded_loss s3 m es n (described m0 (start_net z sps) k o) x rsx y rsy r X Y)|].
  - destruct HR as ((C1 & C2 & C3 & C4 & C5 & C6) & R2 & R3 & R4 & R5 & R6 & R7 & R8 & R9 & R10 & R11).
    split; [|repeat (split; [assumption|]); destruct HE13 as (_ & _ & EO & _); rewrite EO; exact R11].
    repeat (split; [assumption|]). eapply Forall_impl; [|exact C6]. intros e (l & Hl & Hlo). exists l. split; [eapply layers_ext; eauto|eapply TestProofs.lown_ext; eauto].
  - simpl. rewrite E3, <- (map_length (fun p => (p_in p, p_out p))), start_sizes, map_length. destruct sps; [congruence|simpl; lia].
  - simpl. rewrite E1, start_first. exact HX3.
  - simpl. rewrite E2, start_last. apply HY3.
  - exact Hr.
  - intros v s4 _. now apply wp_ret.
Qed.
Lemma model_data_test_passes s ord (X Y : pm K) r : (1 <= r)%nat -> shape r (in_of sps) X -> shape r (out_of sps) Y -> (length sps <= 127)%nat -> -128 <= acctype < 128 ->
  Permutation ord (opt_values opt) -> wp (model_data_test B sps k new_opt acctype prec ord X Y) s (fun b _ => b = true).
Proof.
  intros Hr SX SY HL HA HO. unfold model_data_test. apply wp_must. unfold InitLogger. cbn [andb negb]. eapply wp_eq; [reflexivity|].
  apply wp_bind. eapply wp_conseq; [apply wp_test_model|]. cbv beta. intros m s1 (es & xs & HM). pose proof HM as (HT & HFin & MA & MP & HNet & HFr & FR1 & LG).
  assert (HPm : Permutation ord (m_optvals m)) by (destruct HFin as (_ & _ & _ & _ & -> & _); exact HO).
  assert (HSt := made_storable _ _ _ _ _ HM HL HA).
  destruct (model_round_trip B HI HF HB s1 m es k opt ord [] s1 HFin HSt HPm) as (E3 & m' & es' & s3 & E4 & HRep & _ & FP & GR & LG3).
  rewrite app_nil_r in E4. unfold save in E3. unfold bind at 1 in E3. destruct (NewSavedModelData m s1) as [[d|?|?] s2] eqn:E2; try discriminate.
  apply wp_bind. eapply wp_eq; [exact E2|]. apply wp_bind. apply wp_ignore_err. eapply wp_eq; [exact E3|].
  apply wp_must. eapply wp_eq; [exact E4|]. cbn [fst]. exact (loss_of_loaded _ _ _ _ _ _ _ _ _ _ _ HRep HNet Hr SX SY).
Qed.
Lemma save_load_test_passes s ord room f (X Y : pm K) r : (1 <= r)%nat -> shape r (in_of sps) X -> shape r (out_of sps) Y -> (length sps <= 127)%nat -> -128 <= acctype < 128 ->
  Permutation ord (opt_values opt) -> (model_length ord (map blank sps) <= room)%nat ->
  wp (save_load_test B sps k new_opt acctype prec ord room f X Y) s (fun b _ => b = true).
Proof.
  intros Hr SX SY HL HA HO HRoom. unfold save_load_test. apply wp_must. unfold InitLogger. cbn [andb negb]. eapply wp_eq; [reflexivity|].
  apply wp_bind. eapply wp_conseq; [apply wp_test_model|]. cbv beta. intros m s1 (es & xs & HM). pose proof HM as (HT & HFin & MA & MP & HNet & HFr & FR1 & LG).
  assert (HPm : Permutation ord (m_optvals m)) by (destruct HFin as (_ & _ & _ & _ & -> & _); exact HO).
  assert (HSt := made_storable _ _ _ _ _ HM HL HA).
  assert (H53 : Forall fits53 (net es)) by (eapply Forall_impl; [|apply HSt]; intros p (H1 & H2); unfold fits53; lia).
  assert (HLen : length (model_bytes B m ord (net es)) = model_length ord (net es)).
  { apply model_bytes_length. destruct HT as ((_ & _ & _ & _ & _ & C6) & _). clear -C6. unfold net. induction C6 as [|e es (l & _ & H) _ IH]; constructor; [|exact IH].
    destruct (lown_shapes _ _ _ _ _ H) as (? & ? & _). split; assumption. }
  assert (HLen2 : model_length ord (net es) = model_length ord (map blank sps)).
  { unfold model_length. rewrite HNet. enough (E : forall z, map layer_size (start_net z sps) = map layer_size (map blank sps)) by (now rewrite E).
    clear. induction sps as [|sp l IH]; intros z; [reflexivity|]. cbn [start_net map]. rewrite IH. reflexivity. }
  apply wp_bind. eapply wp_eq; [apply (SaveFile_run B HI s1 m es k opt ord _ f HFin H53)|]. cbn [se_create_ok se_written negb].
  destruct (Nat.leb_spec (length (model_bytes B m ord (net es))) room) as [_|Hbad]; [|rewrite HLen, HLen2 in Hbad; lia].
  destruct (LoadFile_saved B HI HF HB s1 m es k opt ord (length (model_bytes B m ord (net es))) s1 HFin HSt HPm (le_n _)) as (m' & es' & s3 & E4 & HRep).
  apply wp_must. eapply wp_eq; [exact E4|]. exact (loss_of_loaded _ _ _ _ _ _ _ _ _ _ _ HRep HNet Hr SX SY).
Qed.
End Tests.
Lemma layer_data_test_passes (HI : int_faithful K) (B : FBits K) (HB : bits_ok B) s sp : spec_ok sp -> sp_kind sp = Hidden -> wp (layer_data_test B sp) s (fun b _ => b = true).
Proof.
  intros HS Hk. unfold layer_data_test. pose proof HS as (H1 & H2 & H3 & H4 & _). apply wp_bind. eapply wp_conseq; [apply (wp_obj _ _ _ _ _ _ _ H1 H2 (new_of_run s sp HS))|]. cbv beta.
  intros lref s1 (l & rw & rb & Hl1 & HL1 & NW & NB & DWB). apply wp_bind. eapply wp_conseq; [apply (wp_init_layer _ _ _ _ _ _ _ _ _ _ _ _ Hl1 HL1 NW DWB)|]. cbv beta.
  intros u s2 (Hl2 & HL2). set (p := PL _ _ _ _ _ _ _) in HL2.
  destruct (layer_round_trip B HI HB s2 lref l rw rb p [] [] s2 Hl2 HL2 (conj H3 H4)) as (E1 & l' & rw' & rb' & s3 & E2 & HLd).
  unfold save_layer in E1. unfold bind at 1 in E1. destruct (NewSavedLayerData lref s2) as [[d|?|?] s2'] eqn:E3; try discriminate.
  apply wp_bind. eapply wp_eq; [exact E3|]. apply wp_bind. apply wp_ignore_err. eapply wp_eq; [exact E1|]. rewrite app_nil_r in E2. cbn [app].
  apply wp_must. eapply wp_eq; [exact E2|]. cbn [fst]. apply wp_bind. destruct HLd as (HLo & _ & _ & _ & HLs & _). eapply wp_eq.
  { unfold get_layer. rewrite HLs, nth_error_app2, Nat.sub_diag by lia. reflexivity. }
  destruct HLo as (Ek & _). rewrite Ek. simpl. rewrite Hk. now apply wp_ret.
Qed.

(** ** Random labelled data *)
Definition labels (half : K) (n : nat) (X : pm K) : pm K := mk n 2 (fun i j => if Bool.eqb (flt (entry X i 0) half) (j =? 0)%nat then f1 else f0).
Lemma wp_test_data half n s : (1 <= n)%nat ->
  wp (test_data half n) s (fun xy s' => let X := mk n 1 (fun i _ => r_uni (h_rng s) (r_upos (h_rng s) + i)%nat) in
    exists rsx rsy, own s' (fst xy) rsx n 1 X /\ own s' (snd xy) rsy n 2 (labels half n X) /\
    fresh s rsx /\ fresh s rsy /\ NoDup rsx /\ NoDup rsy /\ disjoint rsx rsy /\ frame nothing s s' /\ rest2 s s' /\ h_layers s' = h_layers s /\
    h_rng s' = adv_uni (h_rng s) n).
Proof.
  intros Hn. unfold test_data. cbv zeta. set (X := mk n 1 _).
  apply wp_bind. apply (wp_NewMatrix_ s n 1 _ Hn ltac:(lia)). intros x rsx s1 HX1 HE1.
  apply wp_bind. apply (wp_NewMatrix_ s1 n 2 _ Hn ltac:(lia)). intros y rsy s2 HY2 HE2.
  assert (HX2 := own_ext _ _ _ _ _ _ _ (proj1 HX1) HE2). assert (HE := ext_trans _ _ _ HE1 HE2).
  assert (D : disjoint rsx rsy) by (eapply disjoint_old_fresh; [eapply own_old; apply HX1|apply HY2]).
  assert (FX : fresh s rsx) by apply HX1. assert (FY : fresh s rsy).
  { destruct HY2 as (_ & F & _). unfold fresh in *. eapply Forall_impl; [|exact F]. cbv beta. assert (N := frame_nrows _ _ _ (proj1 HE1)). intros; lia. }
  set (XI := fun i : nat => mk n 1 (fun a _ => if (a <? i)%nat then r_uni (h_rng s) (r_upos (h_rng s) + a)%nat else f0)).
  set (YI := fun i : nat => mk n 2 (fun a j => if (a <? i)%nat then entry (labels half n X) a j else f0)).
  apply wp_bind. eapply (wp_for n _ _ (fun i s3 => own s3 x rsx n 1 (XI i) /\ frame (among rsx) s2 s3 /\ rest2 s2 s3 /\ h_layers s3 = h_layers s2 /\
    h_rng s3 = adv_uni (h_rng s) i)).
  - split; [|split; [apply frame_refl|split; [split; auto|split; [reflexivity|]]]].
    + assert (XI 0%nat = mk n 1 (fun _ _ => f0)) as -> by (apply mk_ext; reflexivity). exact HX2.
    + destruct HE as (_ & _ & _ & -> & _). unfold adv_uni. rewrite Nat.add_0_r. now destruct (h_rng s).
  - intros i s3 Hi (HO & HFr & (R1 & R2 & R3) & HL & HG). apply wp_bind. eapply wp_eq; [reflexivity|]. set (s3' := with_rng s3 _).
    assert (HO' : own s3' x rsx n 1 (XI i)) by exact HO.
    eapply wp_conseq; [apply (wp_setc s3' x rsx n 1 _ i 0%nat _ HO' ltac:(apply HX1) Hi ltac:(lia))|]. cbv beta. intros _ s4 (HO4 & HF4 & (Q1 & Q2 & Q3 & Q4 & Q5)).
    split; [|split; [|split; [|split]]].
    + assert (XI (S i) = pset (XI i) i 0%nat (r_uni (h_rng s3) (r_upos (h_rng s3)))) as ->; [|exact HO4].
      rewrite (pset_as_mk n 1) by (try apply shape_mk; lia). apply mk_ext. intros a b Ha Hb. unfold XI. rewrite entry_mk by lia. rewrite HG. cbn [adv_uni r_uni r_upos].
      destruct (Nat.eqb_spec a i), (Nat.eqb_spec b 0), (Nat.ltb_spec a (S i)), (Nat.ltb_spec a i); try lia; subst; reflexivity.
    + eapply frame_trans; [exact HFr|eapply (frame_trans (among rsx)); [|exact HF4|intros z _ [Hz|Hz]; exact Hz]|intros z _ [Hz|Hz]; exact Hz]. 
      eapply frame_weaken; [apply frame_rows; reflexivity|]. intros ? _ [].
    + split; [|split]; simpl in *; congruence.
    + simpl in *; congruence.
    + rewrite Q3. unfold s3'. simpl. rewrite HG. unfold adv_uni. simpl. f_equal. lia.
  - intros s3 (HO3 & HF3 & (R1 & R2 & R3) & HL3 & HG3).
    assert (XI n = X) as E. { apply mk_ext. intros a b Ha Hb. destruct (Nat.ltb_spec a n); [reflexivity|lia]. } rewrite E in HO3. clear E.
    assert (HY3 : own s3 y rsy n 2 (mk n 2 (fun _ _ => f0))).
    { eapply own_frame; [apply HY2|exact HF3|]. intros z Hz Hz'. exact (D z Hz' Hz). }
    apply wp_bind. eapply (wp_for n _ _ (fun i s4 => own s4 y rsy n 2 (YI i) /\ own s4 x rsx n 1 X /\ frame (among rsy) s3 s4 /\ rest s3 s4)).
    + split; [|split; [exact HO3|split; [apply frame_refl|repeat split]]].
      assert (YI 0%nat = mk n 2 (fun _ _ => f0)) as -> by (apply mk_ext; reflexivity). exact HY3.
    + intros i s4 Hi (HO & HOx & HFr & HR). apply wp_bind. eapply wp_eq; [apply (getc_own s4 x rsx n 1 X i 0%nat HOx Hi ltac:(lia))|].
      set (j := if flt (entry X i 0) half then 0%nat else 1%nat).
      assert (E : (if flt (entry X i 0) half then setc y (Z.of_nat i) 0 f1 else setc y (Z.of_nat i) 1 f1) = setc (K := K) y (Z.of_nat i) (Z.of_nat j) f1)
        by (unfold j; destruct (flt (entry X i 0) half); reflexivity).
      rewrite E. eapply wp_conseq; [apply (wp_setc s4 y rsy n 2 _ i j f1 HO ltac:(apply HY2) Hi ltac:(unfold j; destruct (flt (entry X i 0) half); lia))|]. cbv beta.
      intros _ s5 (HO5 & HF5 & HR5). split; [|split; [|split]].
      * assert (YI (S i) = pset (YI i) i j f1) as ->; [|exact HO5].
        rewrite (pset_as_mk n 2) by (try apply shape_mk; unfold j; destruct (flt (entry X i 0) half); lia). apply mk_ext. intros a b Ha Hb. unfold YI. rewrite entry_mk by lia.
        unfold labels. rewrite entry_mk by lia. unfold j.
        destruct (Nat.eqb_spec a i), (Nat.ltb_spec a (S i)), (Nat.ltb_spec a i); try lia; subst; cbn [andb]; try reflexivity.
        destruct (flt (entry X i 0) half); destruct b as [|[|b]]; try lia; reflexivity.
      * eapply own_frame; [exact HOx|exact HF5|]. intros z Hz Hz'. exact (D z Hz Hz').
      * eapply frame_trans; [exact HFr|exact HF5|]. intros z _ [Hz|Hz]; exact Hz.
      * eapply rest_trans; eauto.
    + intros s4 (HO4 & HOx4 & HF4 & (Q1 & Q2 & Q3 & Q4 & Q5)). apply wp_ret. cbn [fst snd]. exists rsx, rsy.
      assert (YI n = labels half n X) as E.
      { unfold YI. transitivity (mk n 2 (entry (labels half n X))); [apply mk_ext; intros a b Ha Hb; destruct (Nat.ltb_spec a n); [reflexivity|lia]|]. apply mk_entry. apply shape_mk. }
      rewrite E in HO4. split; [exact HOx4|]. split; [exact HO4|]. split; [exact FX|]. split; [exact FY|]. split; [apply HX1|]. split; [apply HY2|]. split; [exact D|].
      split; [|split; [|split]].
      * eapply fresh_frame; [eapply fresh_frame; [exact (proj1 HE)|exact FX|exact HF3]|exact FY|exact HF4].
      * destruct HE as (_ & P1 & P2 & P3 & P4 & P5). split; [|split]; congruence.
      * destruct HE as (_ & P1 & P2 & P3 & P4 & P5). congruence.
      * congruence.
Qed.

Lemma train_test_passes (HI : int_faithful K) (HM : min_faithful K) (HF : feq (f0 : K) f0 = true) sps k new_opt (opt : optimizer K) acctype prec half n epochs bs every s :
  (forall s, new_opt s = (Ret opt, s)) -> sps <> [] -> Forall spec_ok sps -> linked (in_of sps) sps -> flt prec f0 = false -> in_of sps = 1%nat -> out_of sps = 2%nat ->
  (1 <= n)%nat -> 0 <= bs -> Z.of_nat n + bs <= 2 ^ 52 -> 0 <= acctype <= 2 ->
  wp (train_test sps k new_opt acctype prec half n epochs bs every) s (fun b _ => b = true).
Proof.
  intros HNew HN HS HLk HP Ein Eout Hn Hb H52 HA. unfold train_test. apply wp_must. unfold InitLogger. cbn [andb negb]. eapply wp_eq; [reflexivity|]. set (s0 := with_logger s true).
  apply wp_bind. eapply wp_conseq; [apply (wp_create sps s0 HI HS HLk)|]. cbv beta.
  intros refs s1 (m1 & es & HC & HU & HNet & HFr & FR & RS & G & HAdd).
  apply wp_bind. apply wp_ignore_err. eapply wp_eq; [eapply new_loss; eassumption|]. apply wp_bind. apply wp_ignore_err. eapply wp_eq; [apply HNew|].
  apply wp_bind. eapply wp_conseq; [apply (wp_test_data half n s1 Hn)|]. cbv zeta beta. set (X := mk n 1 _). set (Y := labels half n X).
  intros [x y] s2 (rsx & rsy & HX & HY & FX & FY & NX & NY & DXY & FR2 & RS2 & HL2 & _). cbn [fst snd] in *.
  apply wp_bind. eapply wp_eq; [apply HAdd; exact HL2|].
  assert (HC2 : consistent s2 m1 es (first_in (net es)) (last_out (net es))).
  { destruct HC as (C1 & C2 & C3 & C4 & C5 & C6). repeat (split; [assumption|]). eapply Forall_impl; [|exact C6]. intros e (l & Hl & Hlo).
    exists l. split; [now rewrite HL2|]. eapply lown_frame; [exact Hlo|exact FR2|intros ? ? []]. }
  apply wp_bind. eapply wp_conseq; [apply (wp_finish sps k opt acctype prec s2 m1 es HI HF HN HS HP HC2 HU HNet)|]. cbv beta.
  intros m s3 (es3 & xs & HT & HFin & MA & MP & HN3 & HPr & FR3 & LG3).
  assert (HD : forall rs, fresh s1 rs -> disjoint rs (prows es)).
  { intros rs HFs z Hz Hz'. destruct HC as (_ & _ & _ & _ & _ & C6). pose proof (prows_old _ _ _ C6 Hz'). pose proof (fresh_in _ _ _ HFs Hz). lia. }
  rewrite Ein, Eout in HT.
  assert (HDt : data_ok s3 es3 x rsx y rsy n 1 2 X Y).
  { split; [eapply own_frame; [exact HX|exact FR3|exact (HD rsx FX)]|]. split; [eapply own_frame; [exact HY|exact FR3|exact (HD rsy FY)]|].
    rewrite HPr. split; auto. }
  assert (HLg : log_ok s3 m es3 matrix0 matrix0 1 2 None every).
  { right. split; [|split; [now rewrite MA|split; [exact HI|split; [lia|reflexivity]]]]. rewrite LG3. destruct RS2 as (_ & -> & _). destruct RS as (_ & -> & _). reflexivity. }
  destruct (fit_any_log s3 m es3 xs 1 2 k x rsx y rsy n X Y epochs bs matrix0 matrix0 None every HM Hb H52 Hn HT HDt HLg) as ([] & s4 & E4 & _).
  apply wp_must. eapply wp_eq; [exact E4|]. now apply wp_ret.
Qed.
End AnyNum.
