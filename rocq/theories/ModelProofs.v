(** * ModelProofs: forward and backward passes through a whole model. *)
From Coq Require Import String ZArith List Bool Arith Lia.
From Verif Require Import Num Heap Spec Matrix Loss Network Optimizers ModelGo PureSpec Repr HeapLemmas LoopLemmas MatrixProofs MatrixFacts LayerProofs LayerFacts LossProofs LossCode OptSpec OptProofs OptFacts ModelSpec.
Import ListNotations.
Open Scope Z_scope.
Open Scope go_scope.

Section WithNum.
Context {K : Num}.
Implicit Types (s : state K) (p : player K) (ps : list (player K)) (u : nat -> K) (es : list (lent K)).

(** ** Loops over lists *)
Fixpoint foldM {A B} (f : A -> B -> M K B) (l : list A) (b : B) : M K B :=
  match l with [] => ret b | x :: t => b' <- f x b ;; foldM f t b' end.

Lemma go_nth_app {A} (l1 : list A) x l2 s : go_nth (K := K) (l1 ++ x :: l2) (Z.of_nat (length l1)) s = (Ret x, s).
Proof.
  unfold go_nth. rewrite app_length; simpl.
  replace (_ && _) with true by (symmetry; apply andb_true_iff; split; [apply Z.leb_le | apply Z.ltb_lt]; lia).
  rewrite Nat2Z.id, nth_error_app2, Nat.sub_diag by lia. reflexivity.
Qed.

Lemma bind_ext {A B} (m : M K A) (f g : A -> M K B) s : (forall a s', f a s' = g a s') -> bind m f s = bind m g s.
Proof. intros H. unfold bind. destruct (m s) as [[a| |] s']; auto. Qed.

Lemma loop_list {A B} (f : A -> B -> M K B) l2 : forall l1 b s,
  loop (length l2) (Z.of_nat (length l1)) (fun i acc => x <- go_nth (l1 ++ l2) i ;; f x acc) b s = foldM f l2 b s.
Proof.
  induction l2 as [|x l2 IH]; intros l1 b s; [reflexivity|].
  simpl. unfold bind at 1. rewrite (bind_eq _ _ _ _ _ (go_nth_app _ _ _ _)).
  unfold bind at 2. destruct (f x b s) as [[b'| |] s']; auto.
  specialize (IH (l1 ++ [x]) b' s'). rewrite app_length, <- app_assoc in IH. simpl in IH.
  rewrite Nat2Z.inj_add in IH. exact IH.
Qed.
Lemma for_acc_list {A B} (f : A -> B -> M K B) (l : list A) b s :
  for_acc (Z.of_nat (length l)) (fun i acc => x <- go_nth l i ;; f x acc) b s = foldM f l b s.
Proof. unfold for_acc. rewrite Nat2Z.id. apply (loop_list f l [] b s). Qed.

Lemma NoDup_app_ {A} (l1 l2 : list A) : NoDup l1 -> NoDup l2 -> (forall x, In x l1 -> ~ In x l2) -> NoDup (l1 ++ l2).
Proof.
  induction l1 as [|a l1 IH]; simpl; intros H1 H2 D; auto. inversion_clear H1 as [|? ? N1 N2].
  constructor; [rewrite in_app_iff; intros [H|H]; [auto | eapply D; eauto]|]. apply IH; auto.
Qed.
Lemma NoDup_app_inv {A} (l1 l2 : list A) : NoDup (l1 ++ l2) -> NoDup l1 /\ NoDup l2 /\ (forall x, In x l1 -> ~ In x l2).
Proof.
  induction l1 as [|a l1 IH]; simpl; intros H; [split; [constructor|]; auto|].
  inversion_clear H as [|? ? N1 N2]. destruct (IH N2) as (H1 & H2 & D). rewrite in_app_iff in N1.
  split; [constructor; tauto|]. split; [exact H2|]. intros x [<-|Hx]; [tauto|auto].
Qed.

(** ** Effects *)
Lemma same_layer_refl (l : layer K) : same_layer l l. Proof. unfold same_layer; auto 10. Qed.
Lemma same_layer_trans (a b c : layer K) : same_layer a b -> same_layer b c -> same_layer a c.
Proof. unfold same_layer. intuition congruence. Qed.
Lemma same_after_forward (l : layer K) out mk : same_layer l (after_forward l out mk).
Proof. unfold same_layer, after_forward. destruct (l_kind l) eqn:E; try destruct mk; simpl; rewrite ?E; auto 10. Qed.
Lemma layers_kept_refl refs s : layers_kept refs s s.
Proof. split; auto. intros n l H. exists l. auto using same_layer_refl. Qed.
Lemma layers_kept_eq refs s s' : h_layers s' = h_layers s -> layers_kept refs s s'.
Proof. intros E. unfold layers_kept. rewrite E. apply layers_kept_refl. Qed.
Lemma layers_kept_trans r1 r2 refs s1 s2 s3 : layers_kept r1 s1 s2 -> layers_kept r2 s2 s3 ->
  incl r1 refs -> incl r2 refs -> layers_kept refs s1 s3.
Proof.
  intros [L1 H1] [L2 H2] I1 I2. split; [congruence|].
  intros n l Hn. destruct (H1 _ _ Hn) as (l2 & Hn2 & S2 & D2). destruct (H2 _ _ Hn2) as (l3 & Hn3 & S3 & D3).
  exists l3. split; [exact Hn3|]. split; [eapply same_layer_trans; eauto|].
  intros N. rewrite D3, D2; auto.
Qed.
Lemma layers_kept_upd s s' n l out mk : nth_error (h_layers s) n = Some l ->
  h_layers s' = upd n (after_forward l out mk) (h_layers s) -> layers_kept [n] s s'.
Proof.
  intros Hl E. split; [rewrite E; apply upd_length|].
  intros k l0 Hk. rewrite E. destruct (Nat.eq_dec n k) as [->|N].
  - rewrite Hl in Hk. injection Hk as <-. exists (after_forward l out mk).
    split; [eapply nth_error_upd_same; eauto|]. split; [apply same_after_forward|]. simpl; tauto.
  - exists l0. rewrite nth_upd_neq by auto. auto using same_layer_refl.
Qed.
Lemma lown_same s l l' rw rb p : lown s l rw rb p -> same_layer l l' -> lown s l' rw rb p.
Proof. unfold lown, same_layer. intros H E. decompose [and] E. decompose [and] H. clear H E.
  repeat match goal with E : ?f l' = ?f l |- _ => rewrite E end. auto 20. Qed.
Lemma lok_kept W refs s s' e : lok s e -> frame W s s' -> layers_kept refs s s' ->
  (forall x, In x (e_rw e) \/ In x (e_rb e) -> ~ W x) -> lok s' e.
Proof.
  intros (l & Hl & Ho) HF [_ HK] HW. destruct (HK _ _ Hl) as (l' & Hl' & S & _).
  exists l'. split; auto. eapply lown_same; [|exact S]. eapply lown_frame; eauto.
Qed.
Lemma forward_effect_trans r1 r2 refs n1 n2 n s1 s2 s3 : forward_effect r1 n1 s1 s2 -> forward_effect r2 n2 s2 s3 ->
  incl r1 refs -> incl r2 refs -> n = (n1 + n2)%nat -> forward_effect refs n s1 s3.
Proof.
  intros (F1 & R1 & L1 & G1) (F2 & R2 & L2 & G2) I1 I2 ->.
  split; [eapply frame_trans; eauto; unfold nothing; tauto|].
  split; [eapply rest2_trans; eauto|]. split; [eapply layers_kept_trans; eauto|].
  rewrite G2, G1. apply adv_uni_add.
Qed.
Lemma forward_effect_refl s : forward_effect [] 0 s s.
Proof. split; [apply frame_refl|]. split; [apply rest2_refl|]. split; [apply layers_kept_refl|]. now rewrite adv_uni_0. Qed.
Lemma adv_stream (g : rng K) n : r_uni (adv_uni g n) = r_uni g /\ r_upos (adv_uni g n) = (r_upos g + n)%nat.
Proof. split; reflexivity. Qed.

(** ** Forward *)
(** Rows of the outputs and masks of one layer. *)
Definition orow := (list nat * list nat)%type.
Definition orow_all (rss : list orow) : list nat := concat (map (fun rm => fst rm ++ snd rm) rss).
(** The matrices [outs] hold the outputs of the layers [es] on input [X]; after a training
    pass, every layer has its output and mask saved. *)
Fixpoint fwd_rep s (training : bool) es (r : nat) (X : pm K) (U : nat -> K) (q : nat)
    (outs : list matrix) (rss : list orow) : Prop :=
  match es, outs, rss with
  | [], [], [] => True
  | e :: es', out :: outs', (rs, rsm) :: rss' =>
      let O := player_out training (e_p e) r X (from U q) in
      own s out rs r (p_out (e_p e)) O /\ NoDup rs /\
      (training = true -> exists l, nth_error (h_layers s) (e_ref e) = Some l /\
         lown s l (e_rw e) (e_rb e) (e_p e) /\
         cache_ok s l (e_p e) r rs rsm O (ptrain_mask (e_p e) r (from U q))) /\
      fwd_rep s training es' r O U (q + player_draws training (e_p e) r) outs' rss'
  | _, _, _ => False
  end.

Lemma cache_ok_frame W s s' l p r rso rsm O Mask : cache_ok s l p r rso rsm O Mask -> frame W s s' ->
  (forall x, In x rso \/ In x rsm -> ~ W x) -> cache_ok s' l p r rso rsm O Mask.
Proof.
  unfold cache_ok. intros H HF HW. destruct (p_kind p); auto; try (eapply own_frame; eauto).
  destruct H. split; eapply own_frame; eauto.
Qed.
Lemma fwd_rep_frame W refs s s' t es r : forall X U q outs rss, fwd_rep s t es r X U q outs rss ->
  frame W s s' -> layers_kept refs s s' -> (forall x, In x (orow_all rss) \/ In x (prows es) -> ~ W x) ->
  (t = true -> disjoint (map e_ref es) refs) -> fwd_rep s' t es r X U q outs rss.
Proof.
  induction es as [|e es IH]; intros X U q [|out outs] [|[rs rsm] rss] H HF HK HW HD; simpl in *; auto.
  destruct H as (Ho & ND & HC & HR).
  assert (HW1 : forall x, In x rs \/ In x rsm -> ~ W x)
    by (intros x Hx; apply HW; left; unfold orow_all; simpl; rewrite !in_app_iff; tauto).
  split; [eapply own_frame; eauto|]. split; [exact ND|]. split.
  - intros T. destruct (HC T) as (l & Hl & Hlo & Hc). destruct (proj2 HK _ _ Hl) as (l' & Hl' & S & D).
    assert (l' = l) as -> by (apply D, HD; simpl; auto).
    exists l. split; [exact Hl'|]. split.
    + eapply lown_frame; eauto. intros x Hx. apply HW. right. unfold prows; simpl. rewrite !in_app_iff. tauto.
    + eapply cache_ok_frame; eauto.
  - eapply IH; eauto.
    + intros x Hx. apply HW. unfold orow_all, prows in *; simpl. rewrite !in_app_iff. tauto.
    + intros T x Hx. apply (HD T). simpl; auto.
Qed.

Definition fwd_body (t : bool) (lref : nat) (acc : list matrix * matrix) : M K (list matrix * matrix) :=
  out <- forward_layer t lref (snd acc) ;; ret (fst acc ++ [out], out).

(** One layer. *)
Lemma wp_forward_layer t s e x rsx r X :
  lok s e -> own s x rsx r (p_in (e_p e)) X -> (1 <= r)%nat ->
  wp (forward_layer t (e_ref e) x) s (fun out s' => exists rs rsm,
    fwd_rep s' t [e] r X (r_uni (h_rng s)) (r_upos (h_rng s)) [out] [(rs, rsm)] /\
    fresh s (rs ++ rsm) /\ NoDup (rs ++ rsm) /\ Forall (fun y => (y <= nrows s')%nat) (rs ++ rsm) /\
    forward_effect [e_ref e] (player_draws t (e_p e) r) s s').
Proof.
  intros (l & Hl & Hlo) Hx Hr. unfold forward_layer. get_l Hl. destruct t.
  - (* training *)
    assert (HW := wp_forward_train s (e_ref e) l _ _ _ _ _ _ _ Hl Hlo Hx Hr).
    eapply (wp_at _ (Layer_Forward (e_ref e) x)); [destruct (l_kind l); reflexivity|].
    eapply wp_conseq; [exact HW|].
    intros out s' (rs & rsm & l' & (HO & HFm & NDm & HDm & HC & HF & HR & HL & (mk & El) & HG)).
    destruct HO as (HO & HFr & ND & _).
    subst l'.
    assert (HM : exists rsm', fresh s rsm' /\ NoDup rsm' /\ disjoint rsm' rs /\
      Forall (fun y => (y <= nrows s')%nat) rsm' /\
      cache_ok s' (after_forward l out mk) (e_p e) r rs rsm' (ptrain (e_p e) r X (uniforms s)) (ptrain_mask (e_p e) r (uniforms s))).
    { unfold cache_ok in *. destruct (p_kind (e_p e)); try (exists []; split; [constructor|]; split; [constructor|]; split; [intros ? []|]; split; [constructor|exact HC]).
      exists rsm. split; [exact HFm|]. split; [exact NDm|]. split; [exact HDm|]. split; [|exact HC].
      eapply own_old. apply HC. }
    clear rsm HFm NDm HDm HC. destruct HM as (rsm & HFm & NDm & HDm & HOm & HC).
    exists rs, rsm.
    split; [|split; [apply Forall_app; auto|]; split; [|split]].
    + simpl. split; [exact HO|]. split; [exact ND|]. split; [|exact I].
      intros _. exists (after_forward l out mk). split; [rewrite HL; eapply nth_error_upd_same; eauto|].
      split; [eapply lown_after_forward; eauto|]. exact HC.
    + apply NoDup_app_; auto. apply disjoint_sym; auto.
    + apply Forall_app. split; [eapply own_old; eauto|exact HOm].
    + split; [exact HF|]. split; [exact HR|]. split; [eapply layers_kept_upd; eauto|]. exact HG.
  - assert (HW := wp_forward_plain s (e_ref e) l _ _ _ _ _ _ _ false Hl Hlo Hx Hr (or_introl eq_refl)).
    eapply wp_conseq; [exact HW|].
    intros out s' (rs & (HO & HFr & ND & _) & (HF & HR & HL) & HG).
    exists rs, []. rewrite app_nil_r. split; [|split; [exact HFr|]; split; [exact ND|]; split; [eapply own_old; eauto|]].
    + simpl. split; [exact HO|]. split; [exact ND|]. split; [discriminate|exact I].
    + split; [exact HF|]. split; [exact HR|]. split; [eapply layers_kept_upd; eauto|].
      simpl. rewrite adv_uni_0. exact HG.
Qed.

Lemma orow_all_cons rs rsm rss : orow_all ((rs, rsm) :: rss) = (rs ++ rsm) ++ orow_all rss.
Proof. reflexivity. Qed.
Lemma own_old_in s m rs r c (A : pm K) x : own s m rs r c A -> In x rs -> (x <= nrows s)%nat.
Proof. intros H. pose proof (own_old _ _ _ _ _ _ H) as HF. rewrite Forall_forall in HF. apply HF. Qed.

Lemma wp_fwd t es : forall s pre x rsx r X i o,
  Forall (lok s) es -> chain i (net es) o -> own s x rsx r i X -> (1 <= r)%nat ->
  (t = true -> NoDup (map e_ref es)) ->
  wp (foldM (fwd_body t) (map e_ref es) (pre, x)) s (fun acc s' => exists outs rss,
    fst acc = pre ++ outs /\ fwd_rep s' t es r X (r_uni (h_rng s)) (r_upos (h_rng s)) outs rss /\
    fresh s (orow_all rss) /\ NoDup (orow_all rss) /\ Forall (fun z => (z <= nrows s')%nat) (orow_all rss) /\
    forward_effect (map e_ref es) (net_draws t (net es) r) s s').
Proof.
  induction es as [|e es IH]; intros s pre x rsx r X i o HL HC Hx Hr HN; simpl.
  - apply wp_ret. exists [], []. rewrite app_nil_r. simpl. split; auto. split; auto.
    split; [constructor|]. split; [constructor|]. split; [constructor|]. apply forward_effect_refl.
  - inversion_clear HL as [|? ? Le Les]. destruct HC as [Hi HC]. fold (net es) in HC. subst i.
    unfold fwd_body at 1. apply wp_assoc. cbn [snd fst]. eapply wp_bind, wp_conseq; [apply (wp_forward_layer t s e x rsx r X); auto|].
    intros out s1 (rs & rsm & HR & HF & HND & HOld & HE).
    assert (HE' := HE). destruct HE' as (HFr & HR2 & HK & HG).
    assert (Hout : own s1 out rs r (p_out (e_p e)) (player_out t (e_p e) r X (from (r_uni (h_rng s)) (r_upos (h_rng s)))))
      by (destruct HR as (H1 & _); exact H1).
    apply wp_bind, wp_ret. cbn [fst].
    assert (HN' : t = true -> NoDup (map e_ref es)) by (intros T; specialize (HN T); now inversion HN).
    eapply wp_conseq; [eapply (IH s1 (pre ++ [out]) out rs r _ (p_out (e_p e)) o); auto|].
    + eapply Forall_impl; [|exact Les]. intros e' He'. eapply lok_kept; eauto.
    + exact Hout.
    + intros acc s2 (outs & rss & E1 & HR' & HF' & HND' & HOld' & HE2).
      exists (out :: outs), ((rs, rsm) :: rss).
      split; [rewrite E1, <- app_assoc; reflexivity|].
      assert (Hrep : fwd_rep s2 t [e] r X (r_uni (h_rng s)) (r_upos (h_rng s)) [out] [(rs, rsm)]).
      { destruct HE2 as (F2 & _ & K2 & _). eapply fwd_rep_frame; eauto.
        intros T y [<-|[]]. specialize (HN T). now inversion HN. }
      split; [|split; [|split; [|split]]].
      * destruct Hrep as (A1 & A2 & A3 & _). split; [exact A1|]. split; [exact A2|]. split; [exact A3|].
        replace (r_uni (h_rng s)) with (r_uni (h_rng s1)) by (rewrite HG; reflexivity).
        replace (r_upos (h_rng s) + player_draws t (e_p e) r)%nat with (r_upos (h_rng s1)) by (rewrite HG; reflexivity).
        replace (player_out t (e_p e) r X (from (r_uni (h_rng s1)) (r_upos (h_rng s))))
          with (player_out t (e_p e) r X (from (r_uni (h_rng s)) (r_upos (h_rng s)))) by (rewrite HG; reflexivity).
        exact HR'.
      * rewrite orow_all_cons. apply Forall_app. split; [exact HF|].
        eapply fresh_mono; [|exact HF']. eapply frame_nrows; eauto.
      * rewrite orow_all_cons. apply NoDup_app_; auto.
        intros y Hy Hy'. unfold fresh in HF'. rewrite Forall_forall in HF'. specialize (HF' _ Hy').
        rewrite Forall_forall in HOld. specialize (HOld _ Hy). lia.
      * rewrite orow_all_cons. apply Forall_app. split; [|exact HOld'].
        destruct HE2 as (F2 & _). apply frame_nrows in F2. eapply Forall_impl; [|exact HOld]. cbv beta. intros; lia.
      * eapply forward_effect_trans; eauto.
        -- intros y [<-|[]]. simpl; auto.
        -- intros y Hy. simpl; auto.
Qed.

Lemma wp_Forward t s m es i o x rsx r X :
  consistent s m es i o -> own s x rsx r i X -> (1 <= r)%nat -> (t = true -> NoDup (map e_ref es)) ->
  wp (Forward m x t) s (fun outs s' => exists outs' rss,
    outs = x :: outs' /\ fwd_rep s' t es r X (r_uni (h_rng s)) (r_upos (h_rng s)) outs' rss /\
    fresh s (orow_all rss) /\ NoDup (orow_all rss) /\ Forall (fun z => (z <= nrows s')%nat) (orow_all rss) /\
    forward_effect (map e_ref es) (net_draws t (net es) r) s s').
Proof.
  intros (HL & HS & Hi & Ho & HC & HLo) Hx Hr HN. unfold Forward. apply wp_bind.
  rewrite HL, HS. replace (Z.of_nat (length es)) with (Z.of_nat (length (map e_ref es))) by now rewrite map_length.
  eapply wp_at; [apply (for_acc_list (fwd_body t))|].
  eapply wp_conseq; [eapply (wp_fwd t es); eauto|].
  intros acc s' (outs & rss & E & H). apply wp_ret. exists outs, rss. split; [exact E|exact H].
Qed.

(** ** Backward *)
(** Backpropagation of the upstream gradient [G] through the layers [ps]. *)
Fixpoint pback_from ps (r : nat) (X : pm K) (U : nat -> K) (q : nat) (G : pm K) : pm K * list (pm K * pm K) :=
  match ps with
  | [] => (G, [])
  | p :: t =>
      let O := ptrain p r X (from U q) in
      let '(G1, gs) := pback_from t r O U (q + pdraws p r) G in
      let G' := pback p r O (ptrain_mask p r (from U q)) G1 in
      (pdX r (p_in p) (p_out p) G' (p_w p), (pdW r (p_in p) (p_out p) X G', psum0 r (p_out p) G') :: gs)
  end.
(** The gradient structs [gs] hold the plain gradients [Gs]. *)
Fixpoint grads_rep s ps (gs : list gradients) (Gs : list (pm K * pm K)) (rws : list orow) : Prop :=
  match ps, gs, Gs, rws with
  | [], [], [], [] => True
  | p :: ps', g :: gs', G :: Gs', (rw, rb) :: rws' =>
      own s (g_dw g) rw (p_in p) (p_out p) (fst G) /\ own s (g_db g) rb 1 (p_out p) (snd G) /\
      grads_rep s ps' gs' Gs' rws'
  | _, _, _, _ => False
  end.
Lemma grads_rep_frame W s s' ps : forall gs Gs rws, grads_rep s ps gs Gs rws -> frame W s s' ->
  (forall x, In x (orow_all rws) -> ~ W x) -> grads_rep s' ps gs Gs rws.
Proof.
  induction ps as [|p ps IH]; intros [|g gs] [|G Gs] [|[rw rb] rws] H HF HW; simpl in *; auto.
  destruct H as (H1 & H2 & H3).
  assert (HW' : forall x, In x rw \/ In x rb \/ In x (orow_all rws) -> ~ W x)
    by (intros x Hx; apply HW; rewrite orow_all_cons, !in_app_iff; tauto).
  split; [eapply own_frame; eauto|]. split; [eapply own_frame; eauto|]. eapply IH; eauto.
Qed.

Lemma grads_rep_old s ps : forall gs Gs rws y, grads_rep s ps gs Gs rws -> In y (orow_all rws) -> (y <= nrows s)%nat.
Proof.
  induction ps as [|p ps IH]; intros [|g gs] [|G Gs] [|[rw rb] rws] y H Hy; simpl in H; try contradiction.
  destruct H as (H1 & H2 & H3). rewrite orow_all_cons, !in_app_iff in Hy. destruct Hy as [[Hy|Hy]|Hy].
  - exact (own_old_in _ _ _ _ _ _ _ H1 Hy). - exact (own_old_in _ _ _ _ _ _ _ H2 Hy). - eapply IH; eauto.
Qed.

Lemma go_nth_app' {A} (l l1 : list A) x l2 n s : l = l1 ++ x :: l2 -> n = length l1 ->
  go_nth (K := K) l (Z.of_nat n) s = (Ret x, s).
Proof. intros -> ->. apply go_nth_app. Qed.
Lemma is_softmax_run s lref l : nth_error (h_layers s) lref = Some l ->
  is_softmax lref s = (Ret (match l_kind l with SoftmaxK => true | _ => false end), s).
Proof. intros H. unfold is_softmax. rewrite (bind_eq _ _ _ _ _ (get_layer_run _ _ _ H)). reflexivity. Qed.
Lemma fresh_in s rs x : fresh s rs -> In x rs -> (nrows s < x)%nat.
Proof. unfold fresh. rewrite Forall_forall. auto. Qed.
Lemma lown_old s l rw rb p x : lown s l rw rb p -> In x rw \/ In x rb -> (x <= nrows s)%nat.
Proof. intros (_ & _ & _ & _ & _ & _ & _ & H1 & H2) [H|H]; [exact (own_old_in _ _ _ _ _ _ _ H1 H) | exact (own_old_in _ _ _ _ _ _ _ H2 H)]. Qed.
Lemma rest_layers s s' : rest s s' -> h_layers s' = h_layers s. Proof. intros H; apply H. Qed.

Lemma wp_bwd_mid m es2 : forall es1 esr s pre x post outs rss rsx r X U q i o dv rsg G grads (Q : list gradients -> state K -> Prop),
  m_layers m = map e_ref (es1 ++ es2 ++ esr) -> Z.of_nat (length es1 + length es2) <= m_size m - 1 ->
  length pre = length es1 -> chain i (net es2) o ->
  Forall (fun e => p_kind (e_p e) <> SigmoidK) es2 ->
  fwd_rep s true es2 r X U q outs rss ->
  own s x rsx r i X -> (1 <= r)%nat -> own s dv rsg r o G -> NoDup rsg ->
  disjoint (rsx ++ prows es2 ++ orow_all rss) rsg -> Forall (fun y => (y <= nrows s)%nat) (orow_all rss) ->
  (forall s' dv' rsg' gs grws,
     let '(G', Gs) := pback_from (net es2) r X U q G in
     own s' dv' rsg' r i G' -> NoDup rsg' -> rsg' = rsg \/ fresh s rsg' ->
     grads_rep s' (net es2) gs Gs grws -> fresh s (orow_all grws) -> disjoint rsg' (orow_all grws) ->
     frame (among rsg) s s' -> rest s s' ->
     wp (backward_loop m (pre ++ x :: outs ++ post) (length es1) dv' (grads ++ rev gs)) s' Q) ->
  wp (backward_loop m (pre ++ x :: outs ++ post) (length es1 + length es2) dv grads) s Q.
Proof.
  induction es2 as [|e es2 IH]; intros es1 esr s pre x post outs rss rsx r X U q i o dv rsg G grads Q
    HL HS Hpre HC HK HR Hx Hr Hdv ND HD HOld HQ.
  - simpl in HR. destruct outs, rss; try contradiction. simpl in *. subst o.
    rewrite Nat.add_0_r. specialize (HQ s dv rsg [] []). simpl in HQ. rewrite app_nil_r in HQ.
    apply HQ; auto.
    + constructor. + intros y _ []. + apply frame_refl. + apply rest_refl.
  - destruct outs as [|out outs]; [contradiction|]. destruct rss as [|[rs rsm] rss]; [contradiction|].
    simpl in HR. destruct HR as (HO & NDo & HCa & HR).
    destruct (HCa eq_refl) as (l & Hl & Hlo & Hca). clear HCa.
    inversion_clear HK as [|? ? Ke Kes]. destruct HC as [Hi HC]. fold (net es2) in HC. subst i.
    assert (D1 : disjoint rsx rsg) by (intros y Hy; apply HD; rewrite !in_app_iff; tauto).
    assert (D2 : disjoint (e_rw e) rsg) by (intros y Hy; apply HD; unfold prows; simpl; rewrite !in_app_iff; tauto).
    assert (D3 : disjoint (e_rb e) rsg) by (intros y Hy; apply HD; unfold prows; simpl; rewrite !in_app_iff; tauto).
    assert (D4 : disjoint rs rsg) by (intros y Hy; apply HD; rewrite orow_all_cons; rewrite !in_app_iff; tauto).
    assert (D5 : disjoint rsm rsg) by (intros y Hy; apply HD; rewrite orow_all_cons; rewrite !in_app_iff; tauto).
    replace (length es1 + length (e :: es2))%nat with (length (es1 ++ [e]) + length es2)%nat
      by (rewrite app_length; simpl; lia).
    replace (pre ++ x :: (out :: outs) ++ post) with ((pre ++ [x]) ++ out :: outs ++ post)
      by (rewrite <- app_assoc; reflexivity).
    eapply (IH (es1 ++ [e]) esr s (pre ++ [x]) out post outs rss rs r _ U _ (p_out (e_p e)) o dv rsg G); auto.
    + rewrite HL, <- app_assoc. reflexivity.
    + rewrite app_length. simpl in *. lia.
    + rewrite !app_length; simpl; lia.
    + exact HR.
    + exact HO.
    + intros y Hy. apply HD. rewrite orow_all_cons. unfold prows in *; simpl. rewrite !in_app_iff in *. tauto.
    + rewrite orow_all_cons in HOld. apply Forall_app in HOld. apply HOld.
    + intros s' dv' rsg' gs grws. change (net (e :: es2)) with (e_p e :: net es2) in HQ. cbn [pback_from] in HQ.
      cbn [player_out player_draws] in *.
      destruct (pback_from (net es2) r (ptrain (e_p e) r X (from U q)) U (q + pdraws (e_p e) r) G) as [G1 Gs] eqn:EB.
      intros Hdv' ND' HF' HGr HFg HDg HFr HRe.
      rewrite app_length. simpl length. rewrite Nat.add_1_r. cbn [backward_loop].
      apply wp_bind. eapply wp_eq; [apply go_nth_app' with (l1 := map e_ref es1) (x := e_ref e) (l2 := map e_ref (es2 ++ esr))|].
      { rewrite HL. rewrite map_app. reflexivity. }
      { now rewrite map_length. }
      assert (Hl' : nth_error (h_layers s') (e_ref e) = Some l) by (rewrite (rest_layers _ _ HRe); exact Hl).
      apply wp_bind. eapply wp_eq; [apply is_softmax_run; exact Hl'|].
      replace (Z.of_nat (length es1) =? m_size m - 1) with false
        by (symmetry; apply Z.eqb_neq; simpl in HS; lia).
      rewrite andb_false_r.
      apply wp_bind. eapply wp_eq; [apply go_nth_app' with (l1 := pre) (x := x) (l2 := out :: outs ++ post)|].
      { rewrite <- app_assoc. reflexivity. } { auto. }
      assert (HX : forall y, (y <= nrows s)%nat -> ~ In y rsg -> ~ In y rsg').
      { intros y Hy N H. destruct HF' as [->|HF']; [tauto|]. pose proof (fresh_in _ _ _ HF' H). lia. }
      assert (HOl : Forall (fun y => (y <= nrows s)%nat) (rs ++ rsm)).
      { rewrite orow_all_cons in HOld. apply Forall_app in HOld. apply HOld. }
      rewrite Forall_app, !Forall_forall in HOl. destruct HOl as [HOl1 HOl2].
      assert (Hlo' : lown s' l (e_rw e) (e_rb e) (e_p e)).
      { eapply lown_frame; eauto. intros y [Hy|Hy]; [exact (D2 y Hy)|exact (D3 y Hy)]. }
      assert (Hca' := cache_ok_frame _ _ s' _ _ _ _ _ _ _ Hca HFr).
      apply wp_bind. eapply wp_conseq.
      * eapply (wp_backward s' (e_ref e) l (e_rw e) (e_rb e) (e_p e) x rsx r X dv' rsg' G1 rs rsm); eauto.
        -- eapply own_frame; eauto.
        -- apply Hca'. intros y [Hy|Hy]; [exact (D4 y Hy)|exact (D5 y Hy)].
        -- intros y Hy. apply HX; [exact (own_old_in _ _ _ _ _ _ _ Hx Hy) | exact (D1 y Hy)].
        -- intros y Hy. apply HX; [eapply lown_old; eauto | exact (D2 y Hy)].
        -- intros y Hy. apply HX; [eapply lown_old; eauto | exact (D3 y Hy)].
        -- intros y Hy. apply HX; [auto | exact (D4 y Hy)].
        -- intros y Hy. apply HX; [auto | exact (D5 y Hy)].
      * intros g s2 ((rgw & rgb & rgx & Fw & Fb & Fx & E1 & E2 & E3) & (HF2 & HR2) & _).
        assert (N12 : (nrows s <= nrows s')%nat) by (eapply frame_nrows; eauto).
        rewrite <- app_assoc. cbn [app].
        replace ((grads ++ rev gs) ++ [MkGrad (g_w g) (g_b g)])
          with (grads ++ rev (MkGrad (g_w g) (g_b g) :: gs)) by (simpl; rewrite app_assoc; reflexivity).
        eapply (HQ s2 (g_x g) rgx (MkGrad (g_w g) (g_b g) :: gs) ((rgw, rgb) :: grws)).
        -- apply Fx.
        -- apply Fx.
        -- right. eapply fresh_mono; [exact N12|]. apply Fx.
        -- simpl. split; [apply Fw|]. split; [apply Fb|].
           eapply grads_rep_frame; eauto. intros y Hy Hy'. eapply HDg; eauto.
        -- rewrite orow_all_cons. apply Forall_app. split; [|exact HFg].
           apply Forall_app. split; eapply fresh_mono; try exact N12; [apply Fw|apply Fb].
        -- rewrite orow_all_cons. intros y Hy. rewrite !in_app_iff. intros [[H|H]|H].
           ++ eapply E2; eauto. ++ eapply E3; eauto.
           ++ destruct Fx as (_ & Fx & _). pose proof (fresh_in _ _ _ Fx Hy) as Hlt.
              pose proof (grads_rep_old _ _ _ _ _ _ HGr H). lia.
        -- eapply frame_trans; eauto. intros y Hy [H|H]; [exact H|].
           destruct HF' as [->|HF']; [exact H|]. pose proof (fresh_in _ _ _ HF' H). lia.
        -- eapply rest_trans; eauto.
Qed.

(** ** The last layer *)
(** The network output (training or inference). *)
Fixpoint pend (t : bool) ps (r : nat) (X : pm K) (U : nat -> K) (q : nat) : pm K :=
  match ps with
  | [] => X
  | p :: ps' => pend t ps' r (player_out t p r X (from U q)) U (q + player_draws t p r)
  end.
Lemma chain_snoc ps p : forall i o, chain i (ps ++ [p]) o <-> chain i ps (p_in p) /\ p_out p = o.
Proof.
  induction ps as [|p0 ps IH]; intros i o; simpl; [intuition congruence|]. rewrite IH. tauto.
Qed.
Lemma net_app es1 es2 : net (es1 ++ es2) = net es1 ++ net es2. Proof. apply map_app. Qed.
Lemma net_draws_app t ps1 ps2 r : net_draws t (ps1 ++ ps2) r = (net_draws t ps1 r + net_draws t ps2 r)%nat.
Proof. induction ps1 as [|p ps IH]; simpl; auto. rewrite IH. lia. Qed.
Lemma prows_app es1 es2 : prows (es1 ++ es2) = prows es1 ++ prows es2.
Proof. unfold prows. now rewrite map_app, concat_app. Qed.
Lemma orow_all_app a b : orow_all (a ++ b) = orow_all a ++ orow_all b.
Proof. unfold orow_all. now rewrite map_app, concat_app. Qed.

Lemma fwd_rep_snoc s t es e r : forall X U q outs rss, fwd_rep s t (es ++ [e]) r X U q outs rss ->
  exists outs0 out rss0 rs rsm, outs = outs0 ++ [out] /\ rss = rss0 ++ [(rs, rsm)] /\
    fwd_rep s t es r X U q outs0 rss0 /\
    fwd_rep s t [e] r (pend t (net es) r X U q) U (q + net_draws t (net es) r) [out] [(rs, rsm)].
Proof.
  induction es as [|e0 es IH]; intros X U q outs rss H.
  - destruct outs as [|out [|? ?]]; try contradiction; destruct rss as [|[rs rsm] [|? ?]]; try contradiction;
      try (simpl in H; tauto).
    exists [], out, [], rs, rsm. rewrite Nat.add_0_r. split; [reflexivity|]. split; [reflexivity|]. split; [exact I|]. exact H.
  - destruct outs as [|out0 outs]; [contradiction|]. destruct rss as [|[rs0 rsm0] rss]; [contradiction|].
    destruct H as (H1 & H2 & H3 & H4). destruct (IH _ _ _ _ _ H4) as (outs0 & out & rss0 & rs & rsm & -> & -> & R1 & R2).
    exists (out0 :: outs0), out, ((rs0, rsm0) :: rss0), rs, rsm. split; [reflexivity|]. split; [reflexivity|].
    split; [split; [exact H1|]; split; [exact H2|]; split; [exact H3|exact R1]|].
    simpl net_draws. rewrite Nat.add_assoc. exact R2.
Qed.
Lemma fwd_rep_last s t es r : forall X U q outs rss x rsx i o, fwd_rep s t es r X U q outs rss ->
  own s x rsx r i X -> chain i (net es) o ->
  exists pre xl rsl, x :: outs = pre ++ [xl] /\ length pre = length es /\ own s xl rsl r o (pend t (net es) r X U q) /\
    (forall y, In y rsl -> In y rsx \/ In y (orow_all rss)).
Proof.
  induction es as [|e es IH]; intros X U q outs rss x rsx i o H Hx HC.
  - destruct outs, rss; try contradiction. simpl in HC. subst o. exists [], x, rsx. split; [reflexivity|]. auto.
  - destruct outs as [|out outs]; [contradiction|]. destruct rss as [|[rs rsm] rss]; [contradiction|].
    destruct H as (H1 & H2 & H3 & H4). destruct HC as [HC0 HC].
    destruct (IH _ _ _ _ _ out rs (p_out (e_p e)) o H4 H1 HC) as (pre & xl & rsl & E & L & O & D).
    exists (x :: pre), xl, rsl. split; [rewrite E; reflexivity|]. split; [simpl; congruence|]. split; [exact O|].
    intros y Hy. rewrite orow_all_cons, !in_app_iff. specialize (D y Hy). tauto.
Qed.
Lemma fwd_rep_length s t es r : forall X U q outs rss, fwd_rep s t es r X U q outs rss ->
  length outs = length es /\ length rss = length es.
Proof.
  induction es as [|e es IH]; intros X U q outs rss H; destruct outs, rss as [|[rs rsm] rss]; simpl in *; try contradiction; auto.
  destruct H as (_ & _ & _ & H). destruct (IH _ _ _ _ _ H). split; congruence.
Qed.
Lemma pbackprop_snoc k Y o p r ps : forall X U q,
  pbackprop k Y o (ps ++ [p]) r X U q =
  (let '(G, gl) := pbackprop k Y o [p] r (pend true ps r X U q) U (q + net_draws true ps r) in
   let '(G', gs) := pback_from ps r X U q G in (G', gs ++ gl)).
Proof.
  induction ps as [|p0 ps IH]; intros X U q.
  - cbn [app pend net_draws fold_right pback_from]. rewrite Nat.add_0_r.
    destruct (pbackprop k Y o [p] r X U q). reflexivity.
  - cbn [app]. change (pbackprop k Y o (p0 :: ps ++ [p]) r X U q) with
      (let O := ptrain p0 r X (from U q) in
      let '(G, gs) := pbackprop k Y o (ps ++ [p]) r O U (q + pdraws p0 r) in
      let G' := pre_grad k Y (match ps ++ [p] with [] => true | _ => false end) p0 r O (ptrain_mask p0 r (from U q)) G in
      (pdX r (p_in p0) (p_out p0) G' (p_w p0),
       (pdW r (p_in p0) (p_out p0) X G', psum0 r (p_out p0) G') :: gs)).
    cbv zeta. rewrite IH. cbn [pend player_out player_draws net_draws fold_right pback_from].
    fold (net_draws true ps r). rewrite Nat.add_assoc.
    destruct (pbackprop k Y o [p] r _ U _) as [G gl]. destruct (pback_from ps r _ U _ G) as [G1 gs].
    destruct (ps ++ [p]) eqn:E; [destruct ps; discriminate|]. reflexivity.
Qed.
Lemma own_alias W s s1 a b rs r c (A A' : pm K) : own s a rs r c A -> own s1 b rs r c A' -> frame W s s1 -> own s1 a rs r c A'.
Proof.
  intros (H1 & H2 & H3 & H4 & H5 & H6) (B1 & B2 & B3 & B4 & B5 & B6) HF.
  split; [exact H1|]. split; [exact H2|]. split; [exact H3|]. split; [exact B4|].
  split; [eapply slice_refs_frame; eauto|exact B6].
Qed.
Lemma grads_rep_snoc s ps p g G rw rb : forall gs Gs rws, grads_rep s ps gs Gs rws ->
  own s (g_dw g) rw (p_in p) (p_out p) (fst G) -> own s (g_db g) rb 1 (p_out p) (snd G) ->
  grads_rep s (ps ++ [p]) (gs ++ [g]) (Gs ++ [G]) (rws ++ [(rw, rb)]).
Proof.
  induction ps as [|p0 ps IH]; intros [|g0 gs] [|G0 Gs] [|[rw0 rb0] rws] H H1 H2; simpl in *; try contradiction; auto.
  destruct H as (A1 & A2 & A3). auto.
Qed.

(** What is needed to run the backward pass: a training forward pass has just been done. *)
Definition ready s m es (i o : nat) (k : losskind) x rsx r (X : pm K) y rsy (Y : pm K) U q outs rss : Prop :=
  consistent s m es i o /\ (1 <= length es)%nat /\
  m_loss m = Some (MkLoss k (Z.of_nat o)) /\ m_losstype m = losskind_code k /\
  Forall (fun e => p_kind (e_p e) <> SigmoidK) es /\
  fwd_rep s true es r X U q outs rss /\ own s x rsx r i X /\ own s y rsy r o Y /\ (1 <= r)%nat /\
  Forall (fun z => (z <= nrows s)%nat) (orow_all rss) /\ NoDup (orow_all rss) /\
  disjoint (rsx ++ rsy ++ prows es) (orow_all rss).

Lemma code_ce k : (losskind_code k =? 2) = match k with CE => true | _ => false end.
Proof. destruct k; reflexivity. Qed.
Lemma chain_pos s es e : Forall (lok s) es -> In e es -> (1 <= p_in (e_p e))%nat /\ (1 <= p_out (e_p e))%nat.
Proof. rewrite Forall_forall. intros H Hin. destruct (H _ Hin) as (l & _ & (_ & _ & _ & _ & _ & H1 & H2 & _)). auto. Qed.
Lemma list_snoc {A} (l : list A) : (1 <= length l)%nat -> exists l0 a, l = l0 ++ [a].
Proof. destruct l as [|a l] using rev_ind; simpl; [lia|]. eauto. Qed.

Lemma wp_Backward s m es i o k x rsx r X y rsy Y U q outs rss :
  ready s m es i o k x rsx r X y rsy Y U q outs rss ->
  wp (Backward m (x :: outs) y) s (fun gs s' => exists gs' grws, gs = rev gs' /\
    grads_rep s' (net es) gs' (snd (pbackprop k Y o (net es) r X U q)) grws /\
    fresh s (orow_all grws) /\ frame (among (orow_all rss)) s s' /\ rest s s').
Proof.
  intros ((HL & HS & Hi & Ho & HC & HLo) & Hlen & HLoss & HLt & HK & HR & Hx & Hy & Hr & HOld & HND & HDis).
  destruct (list_snoc es Hlen) as (es0 & e & ->).
  rewrite net_app in HC. apply chain_snoc in HC as [HC HOe]. cbn in HOe.
  destruct (fwd_rep_snoc _ _ _ _ _ _ _ _ _ _ HR) as (outs0 & out & rss0 & rs & rsm & -> & -> & HR0 & HRe).
  destruct (fwd_rep_last _ _ _ _ _ _ _ _ _ x rsx i _ HR0 Hx HC) as (pre & xl & rsl & EX & Lpre & Hxl & Drsl).
  apply Forall_app in HK as [HK0 HKe]. inversion_clear HKe as [|? ? Ke _].
  destruct HRe as (HO & NDo & HCa & _). destruct (HCa eq_refl) as (l & Hl & Hlo & Hca). clear HCa.
  rewrite orow_all_app in HOld, HND, HDis. cbn [orow_all map concat fst snd] in HOld, HND, HDis.
  unfold orow_all in HOld, HND, HDis. cbn [map concat fst snd] in HOld, HND, HDis. fold (orow_all rss0) in HOld, HND, HDis.
  rewrite app_nil_r in HOld, HND, HDis. rewrite prows_app in HDis.
  set (Xl := pend true (net es0) r X U q) in *. set (ql := (q + net_draws true (net es0) r)%nat) in *.
  cbn [player_out] in HO, Hca. set (O := ptrain (e_p e) r Xl (from U ql)) in *.
  set (Mask := ptrain_mask (e_p e) r (from U ql)) in *.
  rewrite app_length in HS. simpl in HS. rewrite map_app in HL. cbn [map] in HL.
  rewrite <- HOe in *. clear HOe.
  destruct Hlo as (Hkind & Hlo'). assert (Hlo : lown s l (e_rw e) (e_rb e) (e_p e)) by (split; [exact Hkind|exact Hlo']).
  assert (Hpos := chain_pos _ _ e HLo (in_or_app es0 [e] e (or_intror (or_introl eq_refl)))). destruct Hpos as [Pi Po].
  (* common tail: the remaining layers *)
  assert (Tail : forall g s1 (rgw rgb rgx : list nat) G',
    frame (among (rs ++ rsm)) s s1 \/ frame nothing s s1 -> rest s s1 ->
    own s1 (g_w g) rgw (p_in (e_p e)) (p_out (e_p e)) (pdW r (p_in (e_p e)) (p_out (e_p e)) Xl G') ->
    own s1 (g_b g) rgb 1 (p_out (e_p e)) (psum0 r (p_out (e_p e)) G') ->
    own s1 (g_x g) rgx r (p_in (e_p e)) (pdX r (p_in (e_p e)) (p_out (e_p e)) G' (p_w (e_p e))) ->
    NoDup rgx -> fresh s rgw -> fresh s rgb -> fresh s rgx -> disjoint rgw rgx -> disjoint rgb rgx ->
    pbackprop k Y (p_out (e_p e)) [e_p e] r Xl U ql =
      (pdX r (p_in (e_p e)) (p_out (e_p e)) G' (p_w (e_p e)), [(pdW r (p_in (e_p e)) (p_out (e_p e)) Xl G', psum0 r (p_out (e_p e)) G')]) ->
    wp (backward_loop m (x :: outs0 ++ [out]) (length es0) (g_x g) [MkGrad (g_w g) (g_b g)]) s1
      (fun gs s' => exists gs' grws, gs = rev gs' /\
        grads_rep s' (net (es0 ++ [e])) gs' (snd (pbackprop k Y (p_out (e_p e)) (net (es0 ++ [e])) r X U q)) grws /\
        fresh s (orow_all grws) /\ frame (among (orow_all (rss0 ++ [(rs, rsm)]))) s s' /\ rest s s')).
  { intros g s1 rgw rgb rgx G' HF HRe Hgw Hgb Hgx NDx Fw Fb Fx E2 E3 EP.
    assert (HFall : frame (among (rs ++ rsm)) s s1) by (destruct HF as [HF|HF]; [exact HF | apply frame_nothing; exact HF]).
    assert (Nrs : forall z, In z (rsx ++ prows es0 ++ orow_all rss0) -> ~ In z (rs ++ rsm)).
    { intros z Hz. rewrite !in_app_iff in Hz.
      destruct Hz as [Hz|[Hz|Hz]]; [| |].
      - intros Hz'. apply (HDis z); rewrite !in_app_iff in *; tauto.
      - intros Hz'. apply (HDis z); rewrite !in_app_iff in *; tauto.
      - apply NoDup_app_inv in HND as (_ & _ & D). apply D. exact Hz. }
    assert (Oz : forall z, In z (rsx ++ prows es0 ++ orow_all rss0) -> (z <= nrows s)%nat).
    { intros z Hz. rewrite !in_app_iff in Hz. destruct Hz as [Hz|[Hz|Hz]].
      - exact (own_old_in _ _ _ _ _ _ _ Hx Hz).
      - unfold prows in Hz. apply in_concat in Hz as (zs & Hzs & Hz). apply in_map_iff in Hzs as (e1 & <- & He1).
        rewrite Forall_forall in HLo. destruct (HLo e1) as (l1 & _ & Hl1); [apply in_or_app; auto|].
        apply in_app_iff in Hz. eapply lown_old; eauto.
      - apply Forall_app in HOld as [HOld _]. rewrite Forall_forall in HOld. auto. }
    eapply (wp_bwd_mid m es0 [] [e] s1 [] x [out] outs0 rss0 rsx r X U q i (p_in (e_p e)) (g_x g) rgx _ [MkGrad (g_w g) (g_b g)]); auto.
    - rewrite HL. cbn [app]. now rewrite map_app.
    - simpl. lia.
    - eapply (fwd_rep_frame _ []); eauto.
      + apply layers_kept_eq. apply HRe.
      + intros z Hz. apply Nrs. rewrite !in_app_iff. tauto.
      + intros _ z _ [].
    - eapply own_frame; eauto. intros z Hz. apply Nrs. rewrite !in_app_iff; tauto.
    - exact Hgx.
    - eapply disjoint_old_fresh; [|exact Fx]. rewrite Forall_forall. exact Oz.
    - rewrite Forall_forall. intros z Hz. pose proof (frame_nrows _ _ _ HFall).
      assert (z <= nrows s)%nat; [|lia]. apply Oz. rewrite !in_app_iff; tauto.
    - intros s2 dv' rsg' gs grws.
      rewrite net_app. cbn [net map]. rewrite pbackprop_snoc. fold Xl ql. fold (net es0). rewrite EP.
      destruct (pback_from (net es0) r X U q _) as [G2 Gs] eqn:EB.
      intros Hdv' ND' HF' HGr HFg HDg HFr2 HRe2.
      cbn [length backward_loop]. apply wp_ret.
      exists (gs ++ [MkGrad (g_w g) (g_b g)]), (grws ++ [(rgw, rgb)]).
      split; [rewrite rev_app_distr; reflexivity|]. split; [|split; [|split]].
      + cbn [snd]. apply grads_rep_snoc; [exact HGr| |]; (eapply own_frame; [eassumption|exact HFr2|]).
        * intros z Hz. exact (E2 z Hz). * intros z Hz. exact (E3 z Hz).
      + rewrite orow_all_app. apply Forall_app. split.
        * eapply fresh_mono; [|exact HFg]. eapply frame_nrows; eauto.
        * unfold orow_all; simpl. rewrite app_nil_r. apply Forall_app; auto.
      + eapply frame_trans; [exact HFall|exact HFr2|]. intros z Hz [H|H].
        * rewrite orow_all_app. unfold among. rewrite in_app_iff. right. unfold orow_all; simpl. rewrite app_nil_r. exact H.
        * pose proof (fresh_in _ _ _ Fx H). lia.
      + eapply rest_trans; eauto. }
  assert (Hsz : m_size m - 1 = Z.of_nat (length es0)) by lia.
  unfold Backward. rewrite Hsz. rewrite HS.
  apply wp_bind. eapply wp_eq; [apply go_nth_app' with (l1 := map e_ref es0) (x := e_ref e) (l2 := []); [exact HL | now rewrite map_length]|].
  apply wp_bind. eapply wp_eq; [apply is_softmax_run; exact Hl|].
  rewrite Hkind, HLt, code_ce.
  assert (Eout : x :: outs0 ++ [out] = (x :: outs0) ++ [out]) by reflexivity.
  assert (Exl : x :: outs0 ++ [out] = pre ++ xl :: [out]) by (rewrite Eout, EX, <- app_assoc; reflexivity).
  assert (Lx : length (x :: outs0) = S (length es0)).
  { simpl. now rewrite (proj1 (fwd_rep_length _ _ _ _ _ _ _ _ _ HR0)). }
  destruct ((match p_kind (e_p e) with SoftmaxK => true | _ => false end) && (match k with CE => true | _ => false end)) eqn:EF.
  - (* fused *)
    assert (p_kind (e_p e) = SoftmaxK /\ k = CE) as [Es Ek]
      by (destruct (p_kind (e_p e)); try discriminate; destruct k; try discriminate; auto).
    apply wp_bind. eapply wp_eq; [apply go_nth_app' with (l1 := pre) (x := xl) (l2 := [out]); [exact Exl | now rewrite Lpre]|].
    apply wp_bind. eapply wp_eq.
    { replace (Z.of_nat (length es0 + 1)) with (Z.of_nat (S (length es0))) by (f_equal; lia).
      apply go_nth_app' with (l1 := x :: outs0) (x := out) (l2 := []); [exact Eout | now rewrite Lx]. }
    apply wp_bind. eapply wp_conseq; [eapply (wp_BackwardCrossEntropy s (e_ref e) l _ _ (e_p e) xl rsl r Xl y rsy Y out rs O); eauto|].
    intros g s1 ((rgw & rgb & rgx & Fw & Fb & Fx & E1 & E2 & E3) & (HF & HRe)).
    replace (Z.to_nat (Z.of_nat (length es0 + 1))) with (S (length es0)) by lia.
    cbn [backward_loop].
    apply wp_bind. eapply wp_eq; [apply go_nth_app' with (l1 := map e_ref es0) (x := e_ref e) (l2 := []); [exact HL | now rewrite map_length]|].
    apply wp_bind. eapply wp_eq; [apply (is_softmax_run s1 _ l); rewrite (rest_layers _ _ HRe); exact Hl|].
    rewrite HLt, code_ce, Hkind, EF, Hsz, Z.eqb_refl. cbn [andb].
    eapply (Tail g s1 rgw rgb rgx); try (apply Fw || apply Fb || apply Fx); auto.
    cbn [pbackprop]. fold O Mask. cbn [pre_grad]. unfold pre_grad, fused. rewrite Ek, Es. reflexivity.
  - (* through the loss *)
    rewrite HLoss.
    apply wp_bind. eapply wp_eq.
    { replace (Z.of_nat (length es0 + 1)) with (Z.of_nat (S (length es0))) by (f_equal; lia).
      apply go_nth_app' with (l1 := x :: outs0) (x := out) (l2 := []); [exact Eout | now rewrite Lx]. }
    assert (Dy : disjoint rs rsy).
    { intros z Hz Hz'. apply (HDis z); rewrite !in_app_iff; tauto. }
    apply wp_bind. eapply wp_conseq; [eapply (wp_Loss_Backward s k out y rs rsy r (p_out (e_p e)) O Y); eauto|].
    intros dv s1 ((rsg & Hdv) & HO1 & HF1 & HR1).
    replace (Z.to_nat (Z.of_nat (length es0 + 1))) with (S (length es0)) by lia.
    cbn [backward_loop].
    apply wp_bind. eapply wp_eq; [apply go_nth_app' with (l1 := map e_ref es0) (x := e_ref e) (l2 := []); [exact HL | now rewrite map_length]|].
    assert (Hl1 : nth_error (h_layers s1) (e_ref e) = Some l) by (rewrite (rest_layers _ _ HR1); exact Hl).
    apply wp_bind. eapply wp_eq; [apply (is_softmax_run s1 _ l); exact Hl1|].
    rewrite HLt, code_ce, Hkind, EF. cbn [andb].
    apply wp_bind. eapply wp_eq; [apply go_nth_app' with (l1 := pre) (x := xl) (l2 := [out]); [exact Exl | now rewrite Lpre]|].
    set (O' := clipped (bwd_clips k) r (p_out (e_p e)) O) in *.
    assert (HFrs : frame (among rs) s s1) by (eapply frame_weaken; [exact HF1|]; unfold clip_rows; destruct (bwd_clips k); unfold nothing; tauto).
    assert (Dm : forall z, In z rsm -> ~ In z rs).
    { apply NoDup_app_inv in HND as (_ & D & _). apply NoDup_app_inv in D as (_ & _ & D). intros z Hz Hz'. exact (D z Hz' Hz). }
    assert (Dp : forall z, In z (e_rw e) \/ In z (e_rb e) -> ~ In z rs).
    { intros z Hz Hz'. apply (HDis z).
      - rewrite !in_app_iff. right; right; right. unfold prows; simpl. rewrite !in_app_iff. tauto.
      - rewrite !in_app_iff. tauto. }
    assert (Dl : forall z, In z rsl -> ~ In z rs).
    { intros z Hz Hz'. destruct (Drsl z Hz) as [H|H].
      - apply (HDis z); rewrite !in_app_iff; tauto.
      - apply NoDup_app_inv in HND as (_ & _ & D). apply (D z H). rewrite in_app_iff; auto. }
    assert (Hca1 : cache_ok s1 l (e_p e) r rs rsm O' Mask).
    { unfold cache_ok in *. destruct (p_kind (e_p e)); auto; try (eapply own_alias; [exact Hca|exact HO1|exact HF1]).
      destruct Hca as [C1 C2]. split; [eapply own_alias; [exact C1|exact HO1|exact HF1]|].
      eapply own_frame; [exact C2|exact HFrs|exact Dm]. }
    destruct Hdv as (Hdv & Fdv & NDdv & _).
    apply wp_bind. eapply wp_conseq.
    + eapply (wp_backward s1 (e_ref e) l (e_rw e) (e_rb e) (e_p e) xl rsl r Xl dv rsg _ rs rsm O' Mask); try eassumption.
      * eapply lown_frame; eauto.
      * eapply own_frame; eauto.
      * eapply disjoint_old_fresh; [|exact Fdv]. eapply own_old; eauto.
      * eapply disjoint_old_fresh; [|exact Fdv]. rewrite Forall_forall. intros z Hz. eapply lown_old; eauto.
      * eapply disjoint_old_fresh; [|exact Fdv]. rewrite Forall_forall. intros z Hz. eapply lown_old; eauto.
      * eapply disjoint_old_fresh; [|exact Fdv]. eapply own_old; eauto.
      * eapply disjoint_old_fresh; [|exact Fdv]. apply Forall_app in HOld as [_ H]. apply Forall_app in H. apply H.
    + intros g s2 ((rgw & rgb & rgx & Fw & Fb & Fx & E1 & E2 & E3) & (HF2 & HR2) & _).
      assert (N : (nrows s <= nrows s1)%nat) by (eapply frame_nrows; eauto).
      eapply (Tail g s2 rgw rgb rgx (pback (e_p e) r O' Mask (ploss_back k r (p_out (e_p e)) O Y))); try (apply Fw || apply Fb || apply Fx); auto.
      * left. eapply frame_trans; [exact HFrs|exact HF2|]. intros z Hz [H|H].
        -- unfold among. rewrite in_app_iff. auto.
        -- pose proof (fresh_in _ _ _ Fdv H). lia.
      * eapply rest_trans; eauto.
      * eapply fresh_mono; [exact N|]. apply Fw.
      * eapply fresh_mono; [exact N|]. apply Fb.
      * eapply fresh_mono; [exact N|]. apply Fx.
      * cbn [pbackprop]. fold O Mask. unfold pre_grad, fused.
        destruct k, (p_kind (e_p e)); try discriminate; reflexivity.
Qed.
End WithNum.
