(** * Share: goroutines evaluating models on one heap do not disturb each other. *)
From Coq Require Import String ZArith List Bool Arith Lia.
From Verif Require Import Num Heap Spec Matrix Activation Misc Accuracy Loss Network Optimizers ModelGo PureSpec Repr HeapLemmas LoopLemmas MatrixProofs MatrixFacts LayerProofs LayerFacts LossProofs OptSpec ModelSpec ModelProofs ModelFacts EvalProofs ShareSpec.
Import ListNotations.
Open Scope go_scope.

Section WithNum.
Context {K : Num}.
Implicit Types (s : state K) (j : job K).

(** What every step of every goroutine does to the heap. *)
Definition quiet s s' : Prop := frame nothing s s' /\ rest2 s s' /\ (exists refs, layers_kept refs s s') /\ h_rng s' = h_rng s.
Lemma quiet_refl s : quiet s s.
Proof. split; [apply frame_refl|]. split; [apply rest2_refl|]. split; [exists []; apply layers_kept_refl|reflexivity]. Qed.
Lemma quiet_trans s1 s2 s3 : quiet s1 s2 -> quiet s2 s3 -> quiet s1 s3.
Proof.
  intros (F1 & R1 & (r1 & L1) & G1) (F2 & R2 & (r2 & L2) & G2). split; [eapply frame_trans; eauto; unfold nothing; tauto|]. split; [eapply rest2_trans; eauto|].
  split; [|congruence]. exists (r1 ++ r2). eapply layers_kept_trans; eauto; intros x Hx; apply in_or_app; auto.
Qed.
Lemma quiet_effect refs s s' : forward_effect refs 0 s s' -> quiet s s'.
Proof. intros (F & R & L & G). split; [exact F|]. split; [exact R|]. split; [eauto|]. now rewrite adv_uni_0 in G. Qed.
Lemma quiet_own s s' m rs r c (A : pm K) : quiet s s' -> own s m rs r c A -> own s' m rs r c A.
Proof. intros (F & _) H. eapply own_frame; eauto. Qed.
Lemma quiet_lok s s' e : quiet s s' -> lok s e -> lok s' e.
Proof. intros (F & _ & (refs & L) & _) H. eapply lok_kept; eauto. Qed.
Lemma quiet_consistent s s' m es i o : quiet s s' -> consistent s m es i o -> consistent s' m es i o.
Proof. intros HQ (A & B & C & D & E & HL). repeat (split; [assumption|]). eapply Forall_impl; [|exact HL]. intros e. now apply quiet_lok. Qed.

(** A goroutine that has applied some layers: its matrix holds their output. *)
Definition midway s j (t : thread) : Prop := exists done todo i rs,
  j_es j = done ++ todo /\ th_todo t = map e_ref todo /\ chain i (net todo) (j_o j) /\ Forall (lok s) todo /\ (1 <= j_r j)%nat /\
  own s (th_cur t) rs (j_r j) i (pnet (net done) (j_r j) (j_X j)).
Lemma start_midway s j : job_ok s j -> midway s j (start (j_m j) (j_x j)).
Proof.
  intros (HC & Hr & HX). exists [], (j_es j), (j_i j), (j_rs j). split; [reflexivity|]. split; [apply HC|]. split; [apply HC|]. split; [apply HC|]. split; [exact Hr|exact HX].
Qed.
Lemma midway_quiet s s' j t : quiet s s' -> midway s j t -> midway s' j t.
Proof.
  intros HQ (done & todo & i & rs & A & B & C & D & E & F). exists done, todo, i, rs. do 3 (split; [assumption|]). split; [eapply Forall_impl; [|exact D]; intros e; now apply quiet_lok|].
  split; [exact E|]. now apply (quiet_own s).
Qed.
Lemma wp_advance s j t : midway s j t -> wp (advance t) s (fun t' s' => quiet s s' /\ midway s' j t' /\ length (th_todo t') = pred (length (th_todo t))).
Proof.
  intros (done & todo & i & rs & A & B & C & D & E & F). unfold advance. rewrite B. destruct todo as [|e todo].
  - apply wp_ret. split; [apply quiet_refl|]. split; [|rewrite ?B; reflexivity]. exists done, [], i, rs. auto 10.
  - cbn [map]. destruct C as (Hi & C). inversion D as [|? ? De Dt]; subst. apply wp_bind. eapply wp_conseq; [apply (wp_forward_layer false s e (th_cur t) rs (j_r j) _ De F E)|].
    intros out s' (rs' & rsm & HR & _ & _ & _ & HE). cbn [player_draws] in HE. apply quiet_effect in HE. apply wp_ret. split; [exact HE|]. split; [|rewrite ?B; reflexivity].
    exists (done ++ [e]), todo, (p_out (e_p e)), rs'. split; [rewrite A, <- app_assoc; reflexivity|]. split; [reflexivity|]. split; [exact C|].
    split; [eapply Forall_impl; [|exact Dt]; intros e'; now apply quiet_lok|]. split; [exact E|].
    destruct HR as (HO & _). cbn [player_out] in HO. unfold net. rewrite map_app. unfold pnet. rewrite fold_left_app. exact HO.
Qed.
Lemma Forall2_upd {A B} (P : A -> B -> Prop) l l' a x y : Forall2 P l l' -> nth_error l a = Some x -> P x y -> Forall2 P l (upd a y l').
Proof. intros H. revert a. induction H as [|u v l l' Huv H IH]; intros [|a] E HP; try discriminate; cbn in *; [injection E as <-|]; constructor; auto. Qed.
Lemma Forall2_nth {A B} (P : A -> B -> Prop) l l' a y : Forall2 P l l' -> nth_error l' a = Some y -> exists x, nth_error l a = Some x /\ P x y.
Proof. intros H. revert a. induction H as [|u v l l' Huv H IH]; intros [|a] E; try discriminate; cbn in *; [injection E as <-; eauto|auto]. Qed.
Lemma Forall2_nth_l {A B} (P : A -> B -> Prop) l l' a x : Forall2 P l l' -> nth_error l a = Some x -> exists y, nth_error l' a = Some y /\ P x y.
Proof. intros H. revert a. induction H as [|u v l l' Huv H IH]; intros [|a] E; try discriminate; cbn in *; [injection E as <-; eauto|auto]. Qed.
Lemma nth_upd {A} (l : list A) a b x : nth_error (upd a x l) b = if (a =? b)%nat then (match nth_error l a with Some _ => Some x | None => None end) else nth_error l b.
Proof. revert a b. induction l as [|y l IH]; intros [|a] [|b]; try reflexivity; cbn. - now destruct (a =? b)%nat. - apply IH. Qed.
Lemma wp_turns (js : list (job K)) sch : forall ts s, Forall2 (midway s) js ts ->
  wp (turns sch ts) s (fun ts' s' => quiet s s' /\ Forall2 (midway s') js ts' /\
    forall a t, nth_error ts a = Some t -> exists t', nth_error ts' a = Some t' /\ length (th_todo t') = (length (th_todo t) - turns_of a sch)%nat).
Proof.
  induction sch as [|a sch IH]; intros ts s H; cbn [turns].
  - apply wp_ret. split; [apply quiet_refl|]. split; [exact H|]. intros b t E. exists t. split; [exact E|]. unfold turns_of. cbn. lia.
  - destruct (nth_error ts a) as [t|] eqn:E.
    + destruct (Forall2_nth _ _ _ _ _ H E) as (j & Ej & Hj). apply wp_bind. eapply wp_conseq; [apply (wp_advance s j t Hj)|]. intros t' s1 (HQ & HM & HLen).
      eapply wp_conseq; [apply (IH (upd a t' ts) s1)|].
      * apply (Forall2_upd _ _ _ _ j); auto. clear - H HQ. induction H; constructor; auto. eapply midway_quiet; eauto.
      * intros ts' s' (HQ' & HF & HN). split; [eapply quiet_trans; eauto|]. split; [exact HF|]. intros b u Eb. unfold turns_of. cbn [count_occ].
        destruct (Nat.eq_dec a b) as [->|Hne].
        -- rewrite E in Eb. injection Eb as <-. destruct (HN b t') as (t2 & E2 & L2); [rewrite nth_upd, Nat.eqb_refl, E; reflexivity|]. exists t2. split; [exact E2|]. rewrite L2, HLen. unfold turns_of. lia.
        -- apply HN. rewrite nth_upd. destruct (Nat.eqb_spec a b); [congruence|exact Eb].
    + eapply wp_conseq; [apply (IH ts s H)|]. intros ts' s' (HQ & HF & HN). split; [exact HQ|]. split; [exact HF|]. intros b t Eb. unfold turns_of. cbn [count_occ].
      destruct (Nat.eq_dec a b) as [->|Hne]; [congruence|]. now apply HN.
Qed.
(** Whatever the schedule, no goroutine fails, and one that has had a turn for each layer holds the output of
    its model; the models are as before. *)
Lemma shared_evaluation (js : list (job K)) sch s : Forall (job_ok s) js ->
  exists ts' s', turns sch (map (fun j => start (j_m j) (j_x j)) js) s = (Ret ts', s') /\ length ts' = length js /\
    Forall (job_ok s') js /\
    forall a j, nth_error js a = Some j -> (length (j_es j) <= turns_of a sch)%nat ->
      exists t rs, nth_error ts' a = Some t /\ th_todo t = [] /\ own s' (th_cur t) rs (j_r j) (j_o j) (pnet (net (j_es j)) (j_r j) (j_X j)).
Proof.
  intros H. assert (HM : Forall2 (midway s) js (map (fun j => start (j_m j) (j_x j)) js)).
  { induction H as [|j js Hj H IH]; constructor; auto. now apply start_midway. }
  pose proof (wp_turns js sch _ s HM) as W. apply returns_wp in W. destruct W as (ts' & s' & E & HQ & HF & HN).
  exists ts', s'. split; [exact E|]. split; [symmetry; eapply Forall2_length; eauto|]. split.
  - eapply Forall_impl; [|exact H]. intros j (HC & Hr & HX). split; [eapply quiet_consistent; eauto|]. split; [exact Hr|]. now apply (quiet_own s).
  - intros a j Ea Hle. destruct (HN a (start (j_m j) (j_x j))) as (t' & Et & HL); [now rewrite nth_error_map, Ea|].
    destruct (Forall2_nth_l _ _ _ _ _ HF Ea) as (t2 & E2 & HMid). rewrite Et in E2. injection E2 as <-.
    assert (HLj : length (m_layers (j_m j)) = length (j_es j)).
    { rewrite Forall_forall in H. destruct (H j (nth_error_In _ _ Ea)) as ((A & _) & _). rewrite A. apply map_length. }
    cbn [start th_todo] in HL. rewrite HLj in HL. assert (HT : th_todo t' = []) by (destruct (th_todo t'); [reflexivity|cbn in HL; lia]).
    destruct HMid as (done & todo & i & rs & A & B & C & D & F & G). rewrite HT in B. destruct todo; [|discriminate]. simpl in C. subst i. rewrite app_nil_r in A. subst done.
    exists t', rs. auto.
Qed.
Lemma exists_last_or {A} (l : list A) : l = [] \/ exists l' y, l = l' ++ [y].
Proof. induction l as [|x l _] using rev_ind; eauto. Qed.
Lemma fold_nonempty (ls : list nat) : forall (pre : list matrix) x s out s', pre <> [] -> foldM (fwd_body (K := K) false) ls (pre, x) s = (Ret ([], out), s') -> False.
Proof.
  induction ls as [|l ls IH]; intros pre x s out s' HP H; cbn [foldM] in H; [unfold ret in H; injection H as -> _ _; auto|].
  unfold fwd_body at 1 in H. cbn [fst snd] in H. unfold bind in H. destruct (forward_layer false l x s) as [[o|e|p] s1]; [|discriminate H..]. unfold ret in H. eapply IH; [|exact H]. destruct pre; discriminate.
Qed.
(** Alone, a goroutine does what Forward does. *)
Lemma alone_fold (ls : list nat) : forall (pre : list matrix) x s outs out s', foldM (fwd_body false) ls (pre ++ [x], x) s = (Ret (outs, out), s') ->
  turns (repeat 0%nat (length ls)) [Th ls x] s = (Ret [Th [] out], s') /\ last outs x = out.
Proof.
  induction ls as [|l ls IH]; intros pre x s outs out s' H.
  - cbn [foldM] in H. unfold ret in H. injection H as <- <- <-. split; [reflexivity|]. apply last_last.
  - cbn [length repeat turns nth_error foldM] in *. unfold advance. cbn [th_todo th_cur]. unfold fwd_body at 1 in H. cbn [fst snd] in H.
    unfold bind in *. destruct (forward_layer false l x s) as [[o|e|p] s1]; [|discriminate H..]. unfold ret in *. cbn [upd].
    destruct (IH (pre ++ [x]) o s1 outs out s' H) as (A & B). split; [exact A|]. rewrite <- B. destruct (exists_last_or outs) as [->|(o1 & y & ->)]; [|now rewrite !last_last].
    exfalso. revert H. apply fold_nonempty. destruct pre; discriminate.
Qed.
Lemma alone s (m : model K) x outs s' : m_size m = Z.of_nat (length (m_layers m)) -> Forward m x false s = (Ret outs, s') ->
  turns (repeat 0%nat (length (m_layers m))) [start m x] s = (Ret [Th [] (last outs x)], s').
Proof.
  intros HS. unfold Forward. rewrite HS. unfold bind at 1. pose proof (for_acc_list (fwd_body (K := K) false) (m_layers m) ([x], x) s) as F. unfold fwd_body in F. rewrite F. clear F.
  fold (fwd_body (K := K) false). destruct (foldM (fwd_body false) (m_layers m) ([x], x) s) as [[(os & o)|e|p] s1] eqn:E; try discriminate. unfold ret. intros H. injection H as <- <-.
  destruct (alone_fold _ [] x s os o s1 E) as (A & B). cbn [fst]. rewrite B. exact A.
Qed.
End WithNum.
