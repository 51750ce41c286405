(** * ModelFacts: building a model, forward passes, evaluation. *)
From Coq Require Import String ZArith List Bool Arith Lia.
From Verif Require Import Num Heap Spec Matrix Activation Misc Accuracy Loss Network Optimizers ModelGo PureSpec Repr HeapLemmas LoopLemmas MatrixProofs MatrixFacts ActivationProofs MiscProofs LayerProofs LayerFacts LossProofs LossCode OptSpec OptProofs OptFacts OptFail ModelSpec ModelProofs EvalProofs FitProofs FitLoop.
Import ListNotations.
Open Scope Z_scope.
Open Scope go_scope.

Section WithNum.
Context {K : Num}.
Implicit Types (s : state K) (p : player K) (es : list (lent K)) (xs : list (oent K)) (X Y : pm K).

(** ** Samples are independent *)
Lemma nth_mk r c (f : nat -> nat -> K) i : (i < r)%nat -> nth i (mk r c f) [] = map (f i) (seq 0 c).
Proof.
  intros H. unfold mk. rewrite (nth_indep _ [] (map (f 0%nat) (seq 0 c))) by (rewrite map_length, seq_length; exact H).
  rewrite (map_nth (fun i => map (f i) (seq 0 c)) (seq 0 r) 0%nat i), seq_nth by exact H. reflexivity.
Qed.
Lemma mk_one c (f : nat -> nat -> K) : mk 1 c f = [map (f 0%nat) (seq 0 c)]. Proof. reflexivity. Qed.
Lemma row_mk r c (f g : nat -> nat -> K) a : (a < r)%nat -> (forall j, (j < c)%nat -> g 0%nat j = f a j) ->
  mk 1 c g = [nth a (mk r c f) []].
Proof.
  intros Ha H. rewrite nth_mk by exact Ha. rewrite mk_one. f_equal. apply map_ext_in. intros j Hj. apply in_seq in Hj. apply H. lia.
Qed.
Lemma entry_row (X : pm K) a j : entry [nth a X []] 0 j = entry X a j. Proof. reflexivity. Qed.
Lemma paff_row r k c X W b a : (a < r)%nat -> paff 1 k c [nth a X []] W b = [nth a (paff r k c X W b) []].
Proof. intros H. unfold paff. apply row_mk; auto. Qed.
Lemma pmap_row r c f (Z : pm K) a : (a < r)%nat -> pmap 1 c f [nth a Z []] = [nth a (pmap r c f Z) []].
Proof. intros H. unfold pmap. apply row_mk; auto. Qed.
Lemma pforward_row p r X a : (a < r)%nat -> pforward p 1 [nth a X []] = [nth a (pforward p r X) []].
Proof.
  intros H. unfold pforward, paffine. rewrite (paff_row r) by exact H. unfold pact.
  destruct (p_kind p); try (apply pmap_row; exact H); try reflexivity.
  unfold psoftmax. apply row_mk; auto.
Qed.
Lemma pnet_row ps r : forall X a, (a < r)%nat -> pnet ps 1 [nth a X []] = [nth a (pnet ps r X) []].
Proof.
  induction ps as [|p ps IH]; intros X a H; [reflexivity|]. unfold pnet in *. simpl.
  rewrite (pforward_row p r) by exact H. apply IH. exact H.
Qed.
Lemma pouts_row ps r U q U' q' : forall X a k, (a < r)%nat -> (k <= length ps)%nat ->
  nth k (pouts false ps 1 [nth a X []] U q) [] = [nth a (nth k (pouts false ps r X U' q') []) []].
Proof.
  revert q q'. induction ps as [|p ps IH]; intros q q' X a k H Hk; simpl in Hk.
  - destruct k; [reflexivity|lia].
  - destruct k; [reflexivity|]. simpl. rewrite (pforward_row p r) by exact H. apply IH; [exact H|lia].
Qed.
Lemma ppredict_row t r c (P : pm K) a : (a < r)%nat ->
  ppredict t 1 c [nth a P []] = match ppredict t r c P with Some (c', A) => Some (c', [nth a A []]) | None => None end.
Proof.
  intros H. unfold ppredict. destruct (t =? 0); [reflexivity|]. destruct (t =? 1).
  - unfold row_max. rewrite (row_mk r 1 (fun i _ => ofZ (Z.of_nat (fst (scan_max c (entry P i)))))  _ a H); reflexivity.
  - destruct (t =? 2); [|reflexivity]. rewrite (pmap_row r) by exact H. reflexivity.
Qed.

(** ** Outputs of a forward pass *)
Lemma fwd_rep_nth s t es r : forall X U q outs rss k, fwd_rep s t es r X U q outs rss -> (k < length es)%nat ->
  exists rs, own s (nth k outs matrix0) rs r (p_out (nth k (net es) no_layer))
    (nth (S k) (pouts t (net es) r X U q) []) /\ NoDup rs /\ incl rs (orow_all rss).
Proof.
  induction es as [|e es IH]; intros X U q outs rss k HR Hk; [simpl in Hk; lia|].
  destruct outs as [|out outs]; [contradiction|]. destruct rss as [|[rs rsm] rss]; [contradiction|].
  destruct HR as (HO & HN & _ & HR). destruct k as [|k].
  - exists rs. simpl. split; [|split; [exact HN|]].
    + destruct es; exact HO.
    + intros z Hz. unfold orow_all. simpl. rewrite !in_app_iff. auto.
  - destruct (IH _ _ _ _ _ k HR) as (rs' & H1 & H2 & H3); [simpl in Hk; lia|].
    exists rs'. split; [exact H1|]. split; [exact H2|]. intros z Hz. unfold orow_all in *. simpl. rewrite in_app_iff. right. apply H3; exact Hz.
Qed.


Lemma forward_outputs s m es i o x rsx r X (t : bool) :
  consistent s m es i o -> own s x rsx r i X -> (1 <= r)%nat -> (t = true -> NoDup (map e_ref es)) ->
  returns (Forward m x t) s (fun outs s' =>
    length outs = S (length es) /\ nth 0 outs matrix0 = x /\
    (forall k, (k < length es)%nat -> exists rs,
       own s' (nth (S k) outs matrix0) rs r (p_out (nth k (net es) no_layer))
         (nth (S k) (pouts t (net es) r X (r_uni (h_rng s)) (r_upos (h_rng s))) []) /\ NoDup rs /\ fresh s rs) /\
    forward_effect (map e_ref es) (net_draws t (net es) r) s s').
Proof.
  intros HC HX Hr Ht. apply returns_wp. eapply wp_conseq; [eapply wp_Forward; eauto|].
  intros outs s' (outs' & rss & -> & HR & HF & HN & HO & HE).
  destruct (fwd_rep_length _ _ _ _ _ _ _ _ _ HR) as [L1 L2].
  split; [simpl; lia|]. split; [reflexivity|]. split; [|exact HE].
  intros k Hk. destruct (fwd_rep_nth _ _ _ _ _ _ _ _ _ k HR Hk) as (rs & H1 & H2 & H3).
  exists rs. split; [exact H1|]. split; [exact H2|]. unfold fresh in *. rewrite Forall_forall in *. auto.
Qed.

Lemma forward_width s m es i o x (t : bool) :
  consistent s m es i o -> (1 <= length es)%nat -> mcols x <> Z.of_nat i ->
  Forward m x t s = (Fail (EMatDims (mrows x) (mcols x)), s).
Proof.
  intros (L1 & L2 & L3 & L4 & L5 & L6) Hl Hx. unfold Forward. destruct es as [|e es]; [simpl in Hl; lia|].
  inversion L6 as [|? ? (l & Hn & Hlo) _]; subst. destruct L5 as [Hi _].
  assert (Hne : mcols x <> l_in l) by (destruct Hlo as (_ & -> & _); rewrite Hi; exact Hx).
  apply bind_fail. unfold for_acc. rewrite L2, Nat2Z.id. simpl length. cbn [loop].
  erewrite bind_fail; [reflexivity|]. rewrite L1. simpl map.
  erewrite bind_eq by (apply (go_nth_app (K := K) [])). cbn [snd].
  apply bind_fail. unfold forward_layer. unfold get_layer at 1. unfold bind at 1. rewrite Hn.
  destruct (l_kind l), t; first [exact (Layer_Forward_err _ _ _ _ Hn Hne)|exact (NoDropout_err _ _ _ _ Hn Hne)].
Qed.

Lemma consistent_effect s s' m es i o n : consistent s m es i o -> forward_effect (map e_ref es) n s s' -> consistent s' m es i o.
Proof.
  intros (L1 & L2 & L3 & L4 & L5 & L6) (F & _ & L & _). repeat (split; [assumption|]).
  rewrite Forall_forall in *. intros e He. eapply lok_kept; [exact (L6 e He)|exact F|exact L|]. intros z _ [].
Qed.

Lemma samples_independent s m es i o x rsx r X x1 rs1 a :
  consistent s m es i o -> own s x rsx r i X -> (a < r)%nat -> own s x1 rs1 1 i [nth a X []] ->
  returns (outs <- Forward m x false ;; outs1 <- Forward m x1 false ;; ret (outs, outs1)) s (fun oo s' =>
    length (fst oo) = S (length es) /\ length (snd oo) = S (length es) /\
    forall k, (k <= length es)%nat -> exists rs c A rs', own s' (nth k (fst oo) matrix0) rs r c A /\
      own s' (nth k (snd oo) matrix0) rs' 1 c [nth a A []]).
Proof.
  intros HC HX Ha HX1. apply returns_wp. apply wp_bind.
  eapply wp_conseq; [eapply (wp_Forward false); eauto; [lia|discriminate]|].
  intros outs s1 (outs' & rss & -> & HR & HF & HN & HO & HE).
  assert (HX1' : own s1 x1 rs1 1 i [nth a X []]) by (eapply own_frame; [eauto|apply HE|]; intros ? ? []).
  assert (HX' : own s1 x rsx r i X) by (eapply own_frame; [eauto|apply HE|]; intros ? ? []).
  apply wp_bind. eapply wp_conseq; [eapply (wp_Forward false); eauto; [eapply consistent_effect; eauto|discriminate]|].
  intros outs1 s2 (outs1' & rss1 & -> & HR1 & HF1 & HN1 & HO1 & HE1).
  apply wp_ret. cbn [fst snd].
  destruct (fwd_rep_length _ _ _ _ _ _ _ _ _ HR) as [L1 L2]. destruct (fwd_rep_length _ _ _ _ _ _ _ _ _ HR1) as [L3 L4].
  split; [simpl; lia|]. split; [simpl; lia|]. intros k Hk.
  assert (Hall : exists A, nth k (pouts false (net es) r X (r_uni (h_rng s)) (r_upos (h_rng s))) [] = A /\
    nth k (pouts false (net es) 1 [nth a X []] (r_uni (h_rng s1)) (r_upos (h_rng s1))) [] = [nth a A []]).
  { eexists. split; [reflexivity|]. apply pouts_row; [exact Ha|]. unfold net. rewrite map_length. exact Hk. }
  destruct Hall as (A & EA & EA1).
  destruct k as [|k].
  - exists rsx, i, X, rs1. simpl. split; (eapply own_frame; [eassumption|apply HE1|]; intros ? ? []).
  - destruct (fwd_rep_nth _ _ _ _ _ _ _ _ _ k HR ltac:(lia)) as (rs & H1 & _).
    destruct (fwd_rep_nth _ _ _ _ _ _ _ _ _ k HR1 ltac:(lia)) as (rs' & H1' & _).
    rewrite EA in H1. rewrite EA1 in H1'. exists rs, (p_out (nth k (net es) no_layer)), A, rs'. simpl nth.
    split; [eapply own_frame; [exact H1|apply HE1|]; intros ? ? []|exact H1'].
Qed.

Lemma predictions_independent s m es i o x rsx r X x1 rs1 a :
  consistent s m es i o -> (1 <= length es)%nat -> 0 <= m_acctype m <= 2 ->
  own s x rsx r i X -> (a < r)%nat -> own s x1 rs1 1 i [nth a X []] ->
  returns (P <- Predict m x ;; P1 <- Predict m x1 ;; ret (P, P1)) s (fun oo s' =>
    exists rs c A rs', own s' (fst oo) rs r c A /\ own s' (snd oo) rs' 1 c [nth a A []]).
Proof.
  intros HC Hl Ht HX Ha HX1. apply returns_wp. apply wp_bind.
  assert (HP : exists c P, ppredict (m_acctype m) r o (pnet (net es) r X) = Some (c, P)).
  { unfold ppredict. destruct (Z.eqb_spec (m_acctype m) 0); [eauto|]. destruct (Z.eqb_spec (m_acctype m) 1); [eauto|].
    destruct (Z.eqb_spec (m_acctype m) 2); [eauto|lia]. }
  destruct HP as (c & P & HP).
  eapply wp_conseq; [eapply wp_Predict; eauto; lia|]. intros out s1 (rs & HO & HF & HN & HE).
  assert (HX1' : own s1 x1 rs1 1 i [nth a X []]) by (eapply own_frame; [eauto|apply HE|]; intros ? ? []).
  apply wp_bind. eapply wp_conseq.
  { eapply (wp_Predict s1 m es i o x1 rs1 1 _ c [nth a P []]); eauto; [eapply consistent_effect; eauto|].
    rewrite (pnet_row _ r), (ppredict_row _ r) by exact Ha. rewrite HP. reflexivity. }
  intros out1 s2 (rs' & HO' & HF' & HN' & HE'). apply wp_ret. exists rs, c, P, rs'. cbn [fst snd]. split; [|exact HO'].
  eapply own_frame; [exact HO|apply HE'|]. intros ? ? [].
Qed.

(** ** Evaluation *)
Lemma own_back s s' x rs r c (A : pm K) rs' r' c' A' : frame nothing s s' -> own s x rs r c A -> own s' x rs' r' c' A' ->
  rs = rs' /\ r = r' /\ c = c' /\ A = A'.
Proof.
  intros F H1 H2. eapply own_fun; [|exact H2]. eapply own_frame; [exact H1|exact F|]. intros ? ? [].
Qed.
Lemma askable_effect s s' i o qu : frame nothing s s' -> askable s i o qu -> askable s' i o qu.
Proof.
  intros F. destruct qu; simpl.
  - intros (rs & r & X & H & Hr). exists rs, r, X. split; [eapply own_frame; [exact H|exact F|]; intros ? ? []|exact Hr].
  - intros (rs & rs' & r & X & Y & H & H' & Hr). exists rs, rs', r, X, Y.
    split; [eapply own_frame; [exact H|exact F|]; intros ? ? []|]. split; [eapply own_frame; [exact H'|exact F|]; intros ? ? []|exact Hr].
  - intros (rs & rs' & r & X & Y & H & H' & Hr). exists rs, rs', r, X, Y.
    split; [eapply own_frame; [exact H|exact F|]; intros ? ? []|]. split; [eapply own_frame; [exact H'|exact F|]; intros ? ? []|exact Hr].
Qed.
Lemma expected_later s0 s m ps i o k qu s1 s2 a : expected s m ps i o k qu s1 a -> frame nothing s0 s -> frame nothing s1 s2 ->
  expected s0 m ps i o k qu s2 a.
Proof.
  intros H F0 F. destruct qu, a; simpl in *; try contradiction.
  - intros rs r X c A HX HP.
    assert (HX' : own s x rs r i X) by (eapply own_frame; [exact HX|exact F0|]; intros ? ? []).
    destruct (H _ _ _ _ _ HX' HP) as (rs' & HO). exists rs'. eapply own_frame; [exact HO|exact F|]. intros ? ? [].
  - intros rs rs' r X Y HX HY. eapply H; (eapply own_frame; [eassumption|exact F0|]; intros ? ? []).
  - intros rs rs' r X Y HX HY. eapply H; (eapply own_frame; [eassumption|exact F0|]; intros ? ? []).
Qed.

Lemma wp_ask s m es i o k qu :
  int_faithful K -> Z.of_nat o <= 2 ^ 53 -> consistent s m es i o -> (1 <= length es)%nat ->
  m_loss m = Some (MkLoss k (Z.of_nat o)) -> 0 <= m_acctype m <= 2 -> askable s i o qu ->
  wp (ask m qu) s (fun a s' => expected s m (net es) i o k qu s' a /\ forward_effect (map e_ref es) 0 s s').
Proof.
  intros HI H53 HC Hl Hlo Ht HA.
  destruct qu as [x|x y|x y]; simpl in *.
  - destruct HA as (rs & r & X & HX & Hr).
    assert (HP : exists c P, ppredict (m_acctype m) r o (pnet (net es) r X) = Some (c, P)).
    { unfold ppredict. destruct (Z.eqb_spec (m_acctype m) 0); [eauto|]. destruct (Z.eqb_spec (m_acctype m) 1); [eauto|].
      destruct (Z.eqb_spec (m_acctype m) 2); [eauto|lia]. }
    destruct HP as (c & P & HP). apply wp_bind.
    eapply wp_conseq; [eapply wp_Predict; eauto|]. intros out s1 (rs1 & HO & HF & HN & HE). apply wp_ret. split; [|exact HE].
    intros rs2 r2 X2 c2 A2 HX2 HP2. destruct (own_fun _ _ _ _ _ _ _ _ _ _ HX HX2) as (<- & <- & _ & <-).
    rewrite HP in HP2. injection HP2 as <- <-. eauto.
  - destruct HA as (rs & rs' & r & X & Y & HX & HY & Hr). apply wp_bind.
    eapply wp_conseq; [eapply wp_CalculateLoss; eauto|]. intros v s1 (-> & HE). apply wp_ret. split; [|exact HE].
    intros rs2 rs2' r2 X2 Y2 HX2 HY2.
    destruct (own_fun _ _ _ _ _ _ _ _ _ _ HX HX2) as (<- & <- & _ & <-).
    destruct (own_fun _ _ _ _ _ _ _ _ _ _ HY HY2) as (<- & _ & _ & <-). reflexivity.
  - destruct HA as (rs & rs' & r & X & Y & HX & HY & Hr). apply wp_bind.
    assert (HP : exists a, paccuracy (m_acctype m) (m_prec m) r o (pnet (net es) r X) Y = Some a).
    { unfold paccuracy. destruct (Z.eqb_spec (m_acctype m) 0); [eauto|]. destruct (Z.eqb_spec (m_acctype m) 1); [eauto|].
      destruct (Z.eqb_spec (m_acctype m) 2); [eauto|lia]. }
    destruct HP as (a & HP).
    eapply wp_conseq; [eapply wp_CalculateAccuracy; eauto|]. intros v s1 (-> & HE). apply wp_ret. split; [|exact HE].
    intros rs2 rs2' r2 X2 Y2 HX2 HY2.
    destruct (own_fun _ _ _ _ _ _ _ _ _ _ HX HX2) as (<- & <- & _ & <-).
    destruct (own_fun _ _ _ _ _ _ _ _ _ _ HY HY2) as (<- & _ & _ & <-). symmetry. exact HP.
Qed.

Lemma evaluation s m es i o k qs :
  int_faithful K -> Z.of_nat o <= 2 ^ 53 -> consistent s m es i o -> (1 <= length es)%nat ->
  m_loss m = Some (MkLoss k (Z.of_nat o)) -> 0 <= m_acctype m <= 2 -> Forall (askable s i o) qs ->
  returns (ask_all m qs) s (fun as_ s' =>
    Forall2 (fun qu a => expected s m (net es) i o k qu s' a) qs as_ /\ forward_effect (map e_ref es) 0 s s').
Proof.
  intros HI H53 HC Hl Hlo Ht HA. apply returns_wp. revert s HC HA.
  induction qs as [|qu qs IH]; intros s HC HA.
  - apply wp_ret. split; [constructor|].
    eapply (forward_effect_trans [] []); [apply forward_effect_refl|apply forward_effect_refl|intros z []|intros z []|reflexivity].
  - assert (H1 : askable s i o qu) by (inversion HA; assumption). assert (H2 : Forall (askable s i o) qs) by (inversion HA; assumption).
    cbn [ask_all]. apply wp_bind. eapply wp_conseq; [eapply wp_ask; eauto|]. intros a s1 (HEx & HE).
    apply wp_bind. eapply wp_conseq; [apply (IH s1)|].
    + eapply consistent_effect; eauto.
    + eapply Forall_impl; [|exact H2]. intros qu'. apply askable_effect. apply HE.
    + intros l s2 (HL & HE2). apply wp_ret. split.
      * constructor.
        -- eapply expected_later; [exact HEx|apply frame_refl|apply HE2].
        -- clear - HL HE. induction HL; constructor; auto. eapply expected_later; [eassumption|apply HE|apply frame_refl].
      * eapply forward_effect_trans; [exact HE|exact HE2|apply incl_refl|apply incl_refl|reflexivity].
Qed.


Lemma bad_type_fails s m es i o x rsx y r X :
  consistent s m es i o -> own s x rsx r i X -> (1 <= r)%nat ->
  m_acctype m <> 0 -> m_acctype m <> 1 -> m_acctype m <> 2 ->
  exists s1 s2, Predict m x s = (Fail (EMsg "nn.Model: Invalid accuracy type."), s1) /\ forward_effect (map e_ref es) 0 s s1 /\
    CalculateAccuracy m x y s = (Fail (EMsg "nn.Model: Invalid accuracy type."), s2) /\ forward_effect (map e_ref es) 0 s s2.
Proof.
  intros HC HX Hr H0 H1 H2.
  assert (HW : wp (Forward m x false) s (fun _ s' => forward_effect (map e_ref es) 0 s s')).
  { eapply wp_conseq; [eapply wp_Forward; eauto; discriminate|]. intros outs s' (_ & _ & _ & _ & _ & _ & _ & HE).
    rewrite net_draws_inference in HE. exact HE. }
  apply wp_ex in HW. destruct HW as (outs & s1 & E & HE).
  exists s1, s1. unfold Predict, CalculateAccuracy. rewrite !(bind_eq _ _ _ _ _ E).
  destruct (Z.eqb_spec (m_acctype m) 0); [contradiction|]. destruct (Z.eqb_spec (m_acctype m) 1); [contradiction|].
  destruct (Z.eqb_spec (m_acctype m) 2); [contradiction|]. auto.
Qed.

(** ** Building models *)
Lemma add_layers_gen (HI : int_faithful K) s refs (ls : list (layer K)) :
  Forall2 (fun r l => nth_error (h_layers s) r = Some l /\ small_layer l) refs ls ->
  forall m, 0 <= m_size m ->
  let bs := accepts (if m_size m =? 0 then None else Some (m_out m)) ls in
  add_layers m refs s = (Ret (MkModel (m_size m + Z.of_nat (length (keep bs refs)))
      (if m_size m =? 0 then match keep bs ls with l :: _ => l_in l | [] => m_in m end else m_in m)
      (last (map l_out (keep bs ls)) (m_out m))
      (m_losstype m) (m_loss m) (m_acctype m) (m_prec m) (m_opttype m) (m_optvals m)
      (m_layers m ++ keep bs refs) (m_opts m), map (fun b : bool => if b then None else reject) bs), s).
Proof.
  induction 1 as [|r l refs ls (Hn & Hi & Ho) HF IH]; intros m Hm bs.
  - unfold bs. simpl. rewrite Z.add_0_r, app_nil_r. destruct m as [sz mi mo lt lo at_ pr ot ov lay opts]; simpl. destruct (sz =? 0); reflexivity.
  - cbn [add_layers].
    set (ok := match (if m_size m =? 0 then None else Some (m_out m)) with None => true | Some o => o =? l_in l end).
    assert (EA : AddLayer m r s = (Ret (if ok then
       (MkModel (m_size m + 1) (if m_size m =? 0 then l_in l else m_in m) (l_out l)
                 (m_losstype m) (m_loss m) (m_acctype m) (m_prec m) (m_opttype m) (m_optvals m)
                 (m_layers m ++ [r]) (m_opts m), None) else (m, reject)), s)).
    { unfold AddLayer. unfold get_layer, bind. rewrite Hn. unfold layer_inputs, layer_outputs. rewrite (HI _ Hi), (HI _ Ho).
      unfold ok. destruct (m_size m =? 0); simpl; [reflexivity|]. destruct (m_out m =? l_in l); reflexivity. }
    rewrite (bind_eq _ _ _ _ _ EA).
    assert (Hbs : bs = ok :: accepts (if ok then Some (l_out l) else (if m_size m =? 0 then None else Some (m_out m))) ls) by reflexivity.
    rewrite Hbs. destruct ok eqn:Eok.
    + cbn [fst snd]. erewrite bind_eq by (apply IH; simpl; lia). cbn [m_size m_out m_in m_losstype m_loss m_acctype m_prec m_opttype m_optvals m_layers m_opts].
      replace (m_size m + 1 =? 0) with false by lia. set (bs' := accepts (Some (l_out l)) ls). unfold keep. cbn [combine filter fst map snd length].
      fold (keep bs' refs) (keep bs' ls). unfold ret. f_equal. f_equal. f_equal.
      f_equal.
      * lia.
      * destruct (keep bs' ls) as [|a t]; [reflexivity|]. simpl map. symmetry. 
        assert (Hlast : forall (d d' : Z) u x, last (x :: u) d = last (x :: u) d') by (intros d d' u; induction u as [|z u IHu]; intros w; [reflexivity|]; simpl in *; destruct u; [reflexivity|]; apply (IHu z)).
        change (last (l_out l :: l_out a :: map l_out t) (m_out m)) with (last (l_out a :: map l_out t) (m_out m)). apply Hlast.
      * rewrite <- app_assoc. reflexivity.
    + cbn [fst snd]. erewrite bind_eq by (apply IH; exact Hm). unfold keep. cbn [combine filter fst map snd length]. reflexivity.
Qed.
Lemma keep_cons {A} (b : bool) bs (x : A) l : keep (b :: bs) (x :: l) = if b then x :: keep bs l else keep bs l.
Proof. unfold keep. simpl. destruct b; reflexivity. Qed.
Lemma keep_fitting (ls : list (layer K)) : forall prev, fitting (keep (accepts prev ls) ls) /\
  match prev, keep (accepts prev ls) ls with Some o, l :: _ => o = l_in l | _, _ => True end.
Proof.
  induction ls as [|l ls IH]; intros prev; [simpl; destruct prev; auto|].
  cbn [accepts]. cbv zeta. rewrite keep_cons. destruct prev as [o|].
  - destruct (Z.eqb_spec o (l_in l)) as [E|E]; [|apply (IH (Some o))].
    destruct (IH (Some (l_out l))) as [H1 H2]. split; [|exact E].
    destruct (keep (accepts (Some (l_out l)) ls) ls) as [|l' t]; [exact I|]. split; assumption.
  - destruct (IH (Some (l_out l))) as [H1 H2]. split; [|exact I].
    destruct (keep (accepts (Some (l_out l)) ls) ls) as [|l' t]; [exact I|]. split; assumption.
Qed.
Lemma add_layers_spec (HI : int_faithful K) s refs (ls : list (layer K)) :
  Forall2 (fun r l => nth_error (h_layers s) r = Some l /\ small_layer l) refs ls ->
  let bs := accepts None ls in
  add_layers NewModel refs s = (Ret (MkModel (Z.of_nat (length (keep bs refs)))
      (match keep bs ls with l :: _ => l_in l | [] => 0 end)
      (last (map l_out (keep bs ls)) 0) 0 None 0 f0 0 [] (keep bs refs) [],
    map (fun b : bool => if b then None else reject) bs), s) /\ fitting (keep bs ls).
Proof.
  intros H bs. split; [|apply (keep_fitting ls None)]. rewrite (add_layers_gen HI s refs ls H NewModel) by (simpl; reflexivity || lia). reflexivity.
Qed.
Lemma add_layer_rejects (HI : int_faithful K) s m r l : nth_error (h_layers s) r = Some l -> small_layer l ->
  (m_size m <> 0 -> m_out m <> l_in l -> AddLayer m r s = (Ret (m, reject), s)) /\
  (m_size m = 0 \/ m_out m = l_in l -> exists m', AddLayer m r s = (Ret (m', None), s) /\
     m_size m' = m_size m + 1 /\ m_layers m' = m_layers m ++ [r] /\ m_out m' = l_out l /\
     m_in m' = (if m_size m =? 0 then l_in l else m_in m) /\
     m_loss m' = m_loss m /\ m_losstype m' = m_losstype m /\ m_acctype m' = m_acctype m /\ m_prec m' = m_prec m /\
     m_opttype m' = m_opttype m /\ m_optvals m' = m_optvals m /\ m_opts m' = m_opts m).
Proof.
  intros Hn (Hi & Ho). unfold AddLayer, get_layer, bind. rewrite Hn. unfold layer_inputs, layer_outputs. rewrite (HI _ Hi), (HI _ Ho). split.
  - intros H1 H2. replace (m_size m =? 0) with false by lia. replace (m_out m =? l_in l) with false by lia. reflexivity.
  - intros H. replace ((m_size m =? 0) || (m_out m =? l_in l)) with true by lia. eexists. split; [reflexivity|]. simpl. auto 15.
Qed.


Lemma keep_In {A} bs (l : list A) x : In x (keep bs l) -> In x l.
Proof.
  revert l. induction bs as [|b bs IH]; intros l H; [destruct H|]. destruct l as [|y l]; [destruct H|].
  rewrite keep_cons in H. destruct b; simpl in *; [destruct H as [->|H]; auto|auto].
Qed.
Lemma keep_map {A B} (f : A -> B) bs : forall l, keep bs (map f l) = map f (keep bs l).
Proof.
  induction bs as [|b bs IH]; intros l; [reflexivity|]. destruct l as [|y l]; [reflexivity|].
  simpl map at 1. rewrite !keep_cons, IH. destruct b; reflexivity.
Qed.
Lemma keep_Forall2 {A B} (R : A -> B -> Prop) bs : forall l l', Forall2 R l l' -> Forall2 R (keep bs l) (keep bs l').
Proof.
  induction bs as [|b bs IH]; intros l l' H; [constructor|]. destruct H; [constructor|].
  rewrite !keep_cons. destruct b; [constructor|]; auto.
Qed.
Lemma fitting_chain s es ls : Forall2 (entry_of s) es ls -> fitting ls -> chain (first_in (net es)) (net es) (last_out (net es)).
Proof.
  induction 1 as [|e l es ls (Hn & Hl) HF IH]; intros Hf; [reflexivity|].
  simpl. split; [reflexivity|]. destruct HF as [|e' l' es ls (Hn' & Hl') HF].
  - reflexivity.
  - destruct Hf as [Hf1 Hf2]. specialize (IH Hf2).
    replace (p_out (e_p e)) with (first_in (net (e' :: es))); [exact IH|].
    simpl. destruct Hl as (_ & _ & H1 & _), Hl' as (_ & H2 & _). lia.
Qed.
Lemma built_consistent (HI : int_faithful K) s es ls :
  Forall2 (entry_of s) es ls -> Forall small_layer ls ->
  let bs := accepts None ls in
  exists m, add_layers NewModel (map e_ref es) s = (Ret (m, map (fun b : bool => if b then None else reject) bs), s) /\
    consistent s m (keep bs es) (first_in (net (keep bs es))) (last_out (net (keep bs es))) /\
    m_loss m = None /\ m_opts m = [].
Proof.
  intros HE HS bs. eexists. split; [|split; [|split]].
  - apply (add_layers_spec HI s (map e_ref es) ls). clear bs. revert HS. induction HE as [|e l es ls (Hn & _) HF IH]; intros HS; [constructor|].
    inversion HS; subst. constructor; auto.
  - fold bs. assert (HK := keep_Forall2 _ bs _ _ HE). assert (Hf := proj1 (keep_fitting ls None)). fold bs in Hf.
    split; [simpl; apply keep_map|]. split; [simpl; rewrite keep_map, map_length; reflexivity|].
    split; [|split; [|split]].
    + simpl. destruct HK as [|e l es' ls' (_ & Hl) _]; [reflexivity|]. apply Hl.
    + simpl. unfold last_out, net. clear Hf. revert HK. generalize (keep bs es) (keep bs ls). intros es' ls' HK.
      induction HK as [|e l es' ls' (_ & Hl) HF IH]; [reflexivity|]. simpl in *. destruct HF as [|e' l' es' ls' (_ & Hl') HF].
      * apply Hl.
      * exact IH.
    + eapply fitting_chain; eauto.
    + clear Hf. induction HK as [|e l es' ls' Hel HF IH]; constructor; [exists l; exact Hel|exact IH].
  - reflexivity.
  - reflexivity.
Qed.

(** ** Finalize *)
Lemma finalize_mismatch (HI : int_faithful K) s m l o acctype prec :
  small_int (ls_size l) -> m_out m <> ls_size l ->
  Finalize m l o acctype prec s = (Ret (m, Some (EMsg "nn.Model: Loss size does not match up with output size.")), s).
Proof. intros Hs Hne. unfold Finalize. rewrite (HI _ Hs). replace (m_out m =? ls_size l) with false by lia. reflexivity. Qed.

Lemma opt_values_eq (o : optimizer K) : map_del "type" (opt_getValues o) = opt_values o.
Proof. unfold opt_getValues, opt_values. destruct (o_kind o); reflexivity. Qed.
Lemma new_from_clone s (o : optimizer K) : feq (f0 : K) f0 = true ->
  NewOptimizerFromType (okind_code (o_kind o)) (opt_values o) s = (Ret (clone o), s).
Proof.
  intros HF. unfold NewOptimizerFromType, opt_values, opt_getValues, clone, opt_setValues, mget. destruct (o_kind o); simpl.
  - reflexivity.
  - unfold ret. rewrite HF. reflexivity.
Qed.
Lemma alloc_opts s (o : optimizer K) t v : forall n k acc s1,
  NewOptimizerFromType (K := K) t v = ret o -> s1 = with_opts s (h_opts s ++ repeat o k) ->
  loop n (Z.of_nat k) (fun _ opts => o <- NewOptimizerFromType t v ;; oref <- alloc_opt o ;; ret (opts ++ [oref])) acc s1 =
  (Ret (acc ++ seq (length (h_opts s) + k) n), with_opts s (h_opts s ++ repeat o (k + n))).
Proof.
  induction n as [|n IH]; intros k acc s1 Ho ->.
  - simpl. rewrite app_nil_r, Nat.add_0_r. reflexivity.
  - cbn [loop]. rewrite Ho. erewrite bind_eq.
    2:{ unfold bind, ret, alloc_opt. reflexivity. }
    replace (Z.of_nat k + 1) with (Z.of_nat (S k)) by lia.
    rewrite <- Ho. rewrite (IH (S k)); [|exact Ho|].
    + rewrite <- app_assoc. simpl. rewrite app_length, repeat_length.
      replace (length (h_opts s) + S k)%nat with (S (length (h_opts s) + k)) by lia.
      replace (k + S n)%nat with (S (k + n)) by lia. reflexivity.
    + unfold with_opts; simpl. rewrite <- app_assoc.
      assert (E : repeat o k ++ [o] = o :: repeat o k) by (symmetry; apply (repeat_cons k o)). rewrite E. reflexivity.
Qed.
Lemma wrap8_small z : 0 <= z < 128 -> wrap8 z = z.
Proof. intros H. unfold wrap8. rewrite Z.mod_small by lia. lia. Qed.
Lemma finalize_match (HI : int_faithful K) (HF : feq (f0 : K) f0 = true) s m l o acctype prec :
  small_int (ls_size l) -> m_out m = ls_size l ->
  let n := Z.to_nat (m_size m) in
  Finalize m l o acctype prec s =
    (Ret (MkModel (m_size m) (m_in m) (m_out m) (losskind_code (ls_kind l)) (Some l) acctype
            (if flt prec f0 then m_prec m else prec) (okind_code (o_kind o)) (opt_values o) (m_layers m)
            (seq (length (h_opts s)) n),
          if flt prec f0 then Some (EMsg "nn.Model: Accuracy percision cannot be less than zero.") else None),
     with_opts s (h_opts s ++ repeat (clone o) n)).
Proof.
  intros Hs Heq n. unfold Finalize. rewrite (HI _ Hs), Heq, Z.eqb_refl. cbn [negb].
  rewrite (HI (losskind_code (ls_kind l))) by (unfold small_int; destruct (ls_kind l); simpl; lia).
  rewrite (wrap8_small (losskind_code (ls_kind l))) by (destruct (ls_kind l); simpl; lia).
  assert (Ht : wrap8 (toZ (mget "type" (opt_getValues o))) = okind_code (o_kind o)).
  { unfold mget, opt_getValues. destruct (o_kind o); simpl map_get; (rewrite HI by (unfold small_int; simpl; lia)); apply wrap8_small; simpl; lia. }
  cbv zeta. rewrite Ht. rewrite opt_values_eq.
  erewrite bind_eq.
  2:{ unfold for_acc. apply (alloc_opts s (clone o) _ _ n 0 []).
      - unfold ret. assert (E : forall s2, NewOptimizerFromType (okind_code (o_kind o)) (opt_values o) s2 = (Ret (clone o), s2)) by (intros s2; apply new_from_clone; exact HF).
        unfold NewOptimizerFromType in *. destruct (o_kind o); simpl in *; unfold ret in *; specialize (E s); injection E as E; rewrite E; reflexivity.
      - simpl. rewrite app_nil_r. destruct s; reflexivity. }
  simpl app. rewrite Nat.add_0_r. simpl Nat.add. destruct (flt prec f0); reflexivity.
Qed.

Lemma new_opts_eq n (o : optimizer K) es : new_opts n o es =
  map (fun ne => OE (fst ne) [] (new_po (clone o) (p_in (e_p (snd ne))) (p_out (e_p (snd ne))))) (combine (seq n (length es)) es).
Proof. unfold new_opts, new_po, clone. destruct (o_kind o); reflexivity. Qed.
Lemma finalize_trainable (HI : int_faithful K) (HF : feq (f0 : K) f0 = true) s m es i o k opt acctype prec :
  consistent s m es i o -> unshared es -> (1 <= length es)%nat -> Z.of_nat o <= 2 ^ 53 ->
  Forall (fun e => p_kind (e_p e) <> SigmoidK) es -> flt prec f0 = false ->
  returns (Finalize m (MkLoss k (Z.of_nat o)) opt acctype prec) s (fun r s' =>
    snd r = None /\ m_acctype (fst r) = acctype /\ m_prec (fst r) = prec /\
    trainable s' (fst r) es (new_opts (length (h_opts s)) opt es) i o k /\ ext s (with_opts s' (h_opts s)) /\ h_rows s' = h_rows s /\
    firstn (length (h_opts s)) (h_opts s') = h_opts s).
Proof.
  intros HC HU Hl H53 HK Hp. apply returns_wp. assert (HC' := HC). destruct HC' as (L1 & L2 & L3 & L4 & L5 & L6).
  eapply wp_eq; [apply (finalize_match HI HF); [simpl; unfold small_int; lia|simpl; exact L4]|].
  cbn [fst snd m_acctype m_prec ls_kind]. rewrite Hp, L2, Nat2Z.id. split; [reflexivity|]. split; [reflexivity|]. split; [reflexivity|].
  set (s' := with_opts s _).
  assert (Hlen : length (combine (seq (length (h_opts s)) (length es)) es) = length es).
  { rewrite combine_length, seq_length. lia. }
  split; [|split; [|split]].
  - assert (F : frame nothing s s') by exact (frame_refl nothing s).
    split; [split; [exact L1|split; [simpl; lia|split; [exact L3|split; [exact L4|split; [exact L5|]]]]]|].
    { rewrite Forall_forall in *. intros e He. eapply (lok_kept nothing []); [exact (L6 e He)|exact F|exact (layers_kept_refl [] s)|]. intros z _ []. }
    split; [exact HU|]. split; [exact Hl|]. rewrite new_opts_eq.
    assert (Href : map x_ref (map (fun ne : nat * lent K => OE (fst ne) [] (new_po (clone opt) (p_in (e_p (snd ne))) (p_out (e_p (snd ne)))))
      (combine (seq (length (h_opts s)) (length es)) es)) = seq (length (h_opts s)) (length es)).
    { rewrite map_map. simpl. generalize (length (h_opts s)). clear. induction es as [|e es IH]; intros n; [reflexivity|]. simpl. f_equal. apply IH. }
    split; [rewrite Href; simpl; reflexivity|]. split; [rewrite Href; apply seq_NoDup|].
    split; [|split; [|split; [reflexivity|split; [reflexivity|exact HK]]]].
    + assert (G : forall es1 es2 n, es = es1 ++ es2 -> n = (length (h_opts s) + length es1)%nat ->
        Forall2 (ook s') es2 (map (fun ne : nat * lent K => OE (fst ne) [] (new_po (clone opt) (p_in (e_p (snd ne))) (p_out (e_p (snd ne)))))
          (combine (seq n (length es2)) es2))).
      { clear. intros es1 es2. revert es1. induction es2 as [|e es2 IH]; intros es1 n He ->; [constructor|]. simpl. constructor.
        - exists (clone opt). split.
          + simpl. rewrite nth_error_app2 by lia. rewrite nth_error_repeat; [reflexivity|]. rewrite He, app_length. simpl. lia.
          + simpl. apply new_oown. unfold clone. destruct (o_kind opt); reflexivity.
        - apply (IH (es1 ++ [e])); [rewrite <- app_assoc; exact He|rewrite app_length; simpl; lia]. }
      apply (G [] es); [reflexivity|simpl; lia].
    + assert (E : orows (map (fun ne : nat * lent K => OE (fst ne) [] (new_po (clone opt) (p_in (e_p (snd ne))) (p_out (e_p (snd ne)))))
        (combine (seq (length (h_opts s)) (length es)) es)) = []).
      { unfold orows. rewrite map_map. simpl. generalize (length (h_opts s)). clear. induction es as [|e es IH]; intros n; [reflexivity|]. simpl. apply IH. }
      rewrite E. intros z _ [].
  - split; [exact (frame_refl nothing s)|]. repeat split.
  - reflexivity.
  - simpl. rewrite firstn_app, Nat.sub_diag, firstn_all. simpl. apply app_nil_r.
Qed.
End WithNum.
