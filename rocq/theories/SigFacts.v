(** * SigFacts: consequences of the specification of training with sigmoid layers. *)
From Coq Require Import String ZArith List Bool Arith Lia Reals Lra.
From Verif Require Import Num NumR Heap Spec Matrix Activation Loss Network Optimizers ModelGo PureSpec Repr HeapLemmas RSum MatrixFacts LayerReal LossProofs OptSpec OptProofs OptFacts ModelSpec ModelProofs FitProofs FitLoop FitFacts Grad GradSpec NetGradSpec NetGradCode Span SigSpec SigFit SigLoop.
Import ListNotations.

Section WithNum.
Context {K : Num}.
Implicit Types (p : player K) (ps : list (player K)) (ts : list (player K * popt K)) (X Y : pm K).

Lemma sbackprop_len k Y o r ps : forall X U q, length (snd (fst (sbackprop k Y o ps r X U q))) = length ps.
Proof.
  induction ps as [|p ps IH]; intros X U q; [reflexivity|]. cbn [sbackprop].
  specialize (IH (ptrain p r X (from U q)) U (q + pdraws p r)%nat).
  destruct (sbackprop k Y o ps r _ U _) as [[G gs] O']. cbn [fst snd] in IH.
  destruct (p_kind p); cbn [fst snd length]; now rewrite IH.
Qed.
Lemma sbatch_like k o ts X Y U q : Forall2 like (map fst ts) (map fst (fst (sbatch k o ts X Y U q))).
Proof.
  unfold sbatch. assert (L := sbackprop_len k Y o (length X) (map fst ts) X U q).
  destruct (sbackprop k Y o (map fst ts) (length X) X U q) as [[G gs] X']. cbn [fst snd] in *. rewrite map_length in L.
  clear X'. revert gs L. induction ts as [|t ts IH]; intros [|g gs] L; try discriminate; constructor.
  - apply tstep_like.
  - apply IH. simpl in L. lia.
Qed.
Lemma like_trans_ p1 p2 p3 : like p1 p2 -> like p2 p3 -> like p1 p3.
Proof. unfold like. intros (?&?&?&?&?) (?&?&?&?&?). repeat split; congruence. Qed.
Lemma like_chain ps ps' : Forall2 like ps ps' -> forall i o, chain i ps o -> chain i ps' o.
Proof.
  induction 1 as [|p p' ps ps' (_ & H2 & H3 & _) _ IH]; intros i o HC; [exact HC|].
  destruct HC as [<- HC]. simpl. rewrite H2, H3. split; [reflexivity|]. apply IH. exact HC.
Qed.
Lemma like_kinds ps ps' : Forall2 like ps ps' -> map p_kind ps' = map p_kind ps.
Proof. induction 1 as [|p p' ps ps' (H1 & _) _ IH]; [reflexivity|]. simpl. now rewrite H1, IH. Qed.

(** ** Without sigmoid layers: the specification of C48 *)
Definition nosig ps : Prop := Forall (fun kd => kd <> SigmoidK) (map p_kind ps).
Lemma sbackprop_plain k Y o r ps : forall X U q i, chain i ps o -> nosig ps ->
  sbackprop k Y o ps r X U q =
  (fst (pbackprop k Y o ps r X U q), snd (pbackprop k Y o ps r X U q), match ps with [] => clipped (bwd_clips k) r o X | _ => X end).
Proof.
  induction ps as [|p ps IH]; intros X U q i HC HN; [reflexivity|].
  destruct HC as [_ HC]. inversion_clear HN as [|? ? Hp HN']. cbn [sbackprop pbackprop].
  rewrite (IH _ _ _ _ HC HN'). destruct (pbackprop k Y o ps r _ U _) as [G gs]. cbn [fst snd].
  unfold pre_grad. destruct ps as [|p' ps].
  - simpl in HC. rewrite HC. destruct (p_kind p); try reflexivity. congruence.
  - destruct (p_kind p); try reflexivity. congruence.
Qed.
Lemma sbatch_plain k o ts X Y U q i : chain i (map fst ts) o -> nosig (map fst ts) -> ts <> [] ->
  sbatch k o ts X Y U q = (pbatch k o ts X Y U q, X).
Proof.
  intros HC HN Hne. unfold sbatch, pbatch. rewrite (sbackprop_plain _ _ _ _ _ _ _ _ _ HC HN).
  destruct ts; [congruence|]. reflexivity.
Qed.
Lemma strain_on_plain k o U i bs : forall ts q, chain i (map fst ts) o -> nosig (map fst ts) -> ts <> [] ->
  strain_on k o ts U q bs = (fst (ptrain_on k o ts U q bs), snd (ptrain_on k o ts U q bs), map fst bs).
Proof.
  induction bs as [|[X Y] bs IH]; intros ts q HC HN Hne; [reflexivity|]. cbn [strain_on ptrain_on map fst snd].
  assert (HL := sbatch_like k o ts X Y U q). rewrite (sbatch_plain _ _ _ _ _ _ _ _ HC HN Hne) in HL |- *. cbn [fst] in HL.
  rewrite IH; [reflexivity| | |].
  - eapply like_chain; eauto.
  - unfold nosig in *. rewrite (like_kinds _ _ HL). exact HN.
  - intros E. rewrite E in HL. destruct ts; [congruence|]. inversion HL.
Qed.
Lemma strain_on_like k o U bs : forall ts q, Forall2 like (map fst ts) (map fst (fst (fst (strain_on k o ts U q bs)))).
Proof.
  induction bs as [|[X Y] bs IH]; intros ts q.
  - simpl. induction (map fst ts); constructor; auto. unfold like. auto 10.
  - cbn [strain_on]. assert (HL := sbatch_like k o ts X Y U q). destruct (sbatch k o ts X Y U q) as [ts1 X1]. cbn [fst] in HL.
    specialize (IH ts1 (q + net_draws true (map fst ts) (length X))%nat).
    destruct (strain_on k o ts1 U _ bs) as [[ts2 q2] Xs]. cbn [fst snd] in *.
    eapply Forall2_trans_; [apply like_trans_|exact HL|exact IH].
Qed.
Lemma chunk_inputs b X Y : (1 <= b)%nat -> length Y = length X -> concat (map fst (combine (chunks b X) (chunks b Y))) = X.
Proof.
  intros Hb HL. rewrite !chunks_seq by exact Hb. rewrite HL, combine_map, map_map. cbn [fst].
  rewrite <- chunks_seq by exact Hb. apply (chunks_partition b X Hb).
Qed.
Theorem sfit_plain m k o b val every i Y : (1 <= b)%nat -> forall n e ts U q X,
  chain i (map fst ts) o -> nosig (map fst ts) -> ts <> [] -> length Y = length X ->
  sfit m k o b val every n e ts U q X Y =
  (let '(ts', q', ls) := pfit m k o b X Y val every n e ts U q in (ts', q', X, ls)).
Proof.
  intros Hb. induction n as [|n IH]; intros e ts U q X HC HN Hne HL; [reflexivity|]. cbn [sfit pfit].
  assert (HLk := strain_on_like k o U (combine (chunks b X) (chunks b Y)) ts q).
  rewrite (strain_on_plain _ _ _ _ _ _ _ HC HN Hne) in HLk |- *. cbn [fst snd] in HLk. rewrite chunk_inputs by assumption.
  destruct (ptrain_on k o ts U q _) as [ts1 q1]. cbn [fst snd] in *.
  rewrite IH; auto.
  - destruct (pfit m k o b X Y val every n (e + 1) ts1 U q1) as [[ts2 q2] ls]. reflexivity.
  - eapply like_chain; eauto.
  - unfold nosig in *. rewrite (like_kinds _ _ HLk). exact HN.
  - intros E. rewrite E in HLk. destruct ts; [congruence|]. inversion HLk.
Qed.

(** ** The inputs survive unless the first layer is a sigmoid layer *)
Lemma strain_on_first k o U bs : forall t ts q, p_kind (fst t) <> SigmoidK ->
  snd (strain_on k o (t :: ts) U q bs) = map fst bs.
Proof.
  induction bs as [|[X Y] bs IH]; intros t ts q Hk; [reflexivity|]. cbn [strain_on map fst].
  assert (HL := sbatch_like k o (t :: ts) X Y U q).
  assert (HX : snd (sbatch k o (t :: ts) X Y U q) = X).
  { unfold sbatch. cbn [map sbackprop]. destruct (sbackprop k Y o (map fst ts) _ _ U _) as [[G gs] O'].
    destruct (p_kind (fst t)); try reflexivity. congruence. }
  destruct (sbatch k o (t :: ts) X Y U q) as [ts1 X1]. cbn [fst snd] in HL, HX. subst X1.
  destruct ts1 as [|t1 ts1]; [inversion HL|]. cbn [map] in HL. inversion_clear HL as [|? ? ? ? (H1 & _) _].
  specialize (IH t1 ts1 (q + net_draws true (map fst (t :: ts)) (length X))%nat ltac:(congruence)).
  destruct (strain_on k o (t1 :: ts1) U _ bs) as [[ts2 q2] Xs]. cbn [snd] in *. now rewrite IH.
Qed.
Theorem sfit_first m k o b val every Y : (1 <= b)%nat -> forall n e t ts U q X, p_kind (fst t) <> SigmoidK -> length Y = length X ->
  snd (fst (sfit m k o b val every n e (t :: ts) U q X Y)) = X.
Proof.
  intros Hb. induction n as [|n IH]; intros e t ts U q X Hk HL; [reflexivity|]. cbn [sfit].
  assert (H1 := strain_on_first k o U (combine (chunks b X) (chunks b Y)) t ts q Hk).
  assert (H2 := strain_on_like k o U (combine (chunks b X) (chunks b Y)) (t :: ts) q).
  destruct (strain_on k o (t :: ts) U q _) as [[ts1 q1] Xs]. cbn [fst snd] in H1, H2. subst Xs.
  rewrite chunk_inputs by assumption.
  destruct ts1 as [|t1 ts1]; [inversion H2|]. cbn [map] in H2. inversion_clear H2 as [|? ? ? ? (H3 & _) _].
  specialize (IH (e + 1)%Z t1 ts1 U q1 X ltac:(congruence) HL).
  destruct (sfit m k o b val every n (e + 1) (t1 :: ts1) U q1 X Y) as [[[ts2 q2] X2] ls]. exact IH.
Qed.
End WithNum.

(** ** Exact arithmetic: the weights of a sigmoid layer *)
Section Reals.
Open Scope R_scope.
Implicit Types (ts : list (player RNum * popt RNum)) (X Y : rpm).
Definition sig_rel (p p' : player RNum) : Prop := like p p' /\ (p_kind p = SigmoidK -> p_out p = p_in p ->
  (forall c, quad (p_in p) (p_w p') c <= quad (p_in p) (p_w p) c) /\
  (forall u v, (u < p_in p)%nat -> (v < p_in p)%nat ->
     entry (p_w p') u v - entry (p_w p') v u = entry (p_w p) u v - entry (p_w p) v u)).
Lemma sig_rel_refl p : sig_rel p p.
Proof. split; [unfold like; auto 10|]. intros _ _. split; [intros c; apply Rle_refl|reflexivity]. Qed.
Lemma quad_gram n r (H : rpm) c :
  rsum n (fun u => rsum n (fun v => c u * rsum r (fun t => entry H t u * entry H t v) * c v)) =
  rsum r (fun t => rsum n (fun u => entry H t u * c u) * rsum n (fun u => entry H t u * c u)).
Proof.
  rewrite (rsum_ext r _ (fun t => rsum n (fun u => rsum n (fun v => c u * (entry H t u * entry H t v) * c v)))).
  - rewrite (rsum_swap r n). apply rsum_ext. intros u _. rewrite (rsum_swap r n). apply rsum_ext. intros v _.
    rewrite (rsum_scal_r r (c v) (fun t => c u * (entry H t u * entry H t v))). rewrite rsum_scal. reflexivity.
  - intros t _. rewrite <- rsum_scal_r. apply rsum_ext. intros u _. rewrite <- rsum_scal. apply rsum_ext. intros v _. toR. ring.
Qed.
Lemma sig_rel_trans p1 p2 p3 : sig_rel p1 p2 -> sig_rel p2 p3 -> sig_rel p1 p3.
Proof.
  intros [L1 H1] [L2 H2]. split; [eapply like_trans_; eauto|]. intros Hk Hio.
  destruct L1 as (A1 & A2 & A3 & _). destruct (H1 Hk Hio) as [B1 B2].
  destruct (H2 ltac:(congruence) ltac:(congruence)) as [C1 C2]. rewrite A2 in C1, C2. split.
  - intros c. eapply Rle_trans; [exact (C1 c)|exact (B1 c)].
  - intros u v Hu Hv. exact (eq_trans (C2 u v Hu Hv) (B2 u v Hu Hv)).
Qed.
Lemma sig_grads k (Y : rpm) o r (ps : list (player RNum)) : forall X U q,
  Forall2 (fun p g => p_kind p = SigmoidK -> exists H, fst g = pdW (K := RNum) r (p_in p) (p_out p) H H) ps (snd (fst (sbackprop k Y o ps r X U q))).
Proof.
  induction ps as [|p ps IH]; intros X U q; [constructor|]. cbn [sbackprop].
  specialize (IH (ptrain p r X (from U q)) U (q + pdraws p r)%nat).
  destruct (sbackprop k Y o ps r _ U _) as [[G gs] O']. cbn [fst snd] in IH.
  destruct (p_kind p) eqn:E; cbn [fst snd]; constructor; auto; intros Hk; try congruence. eexists. reflexivity.
Qed.
Lemma sig_step lr r p po g : 0 <= lr -> plain_sgd lr po -> (p_kind p = SigmoidK -> exists H, fst g = pdW (K := RNum) r (p_in p) (p_out p) H H) ->
  sig_rel p (fst (tstep (p, po) g)).
Proof.
  intros Hlr Hpo HG. split; [exact (tstep_like (p, po) g)|]. intros Hk Hio. destruct (HG Hk) as [H EH].
  assert (EW : forall u v, (u < p_in p)%nat -> (v < p_in p)%nat ->
    entry (p_w (fst (tstep (p, po) g))) u v = entry (p_w p) u v - lr * rsum r (fun n => entry H n u * entry H n v)).
  { intros u v Hu Hv. rewrite (plain_tstep lr p po g Hpo). unfold with_params. cbn [p_w].
    rewrite (entry_mk (K := RNum)) by (rewrite ?Hio; assumption). rewrite EH. rewrite dW_entry by (rewrite ?Hio; assumption). reflexivity. }
  split.
  - intros c. unfold quad.
    rewrite (rsum_ext (p_in p) _ (fun u => rsum (p_in p) (fun v => c u * entry (p_w p) u v * c v) +
      (- lr) * rsum (p_in p) (fun v => c u * rsum r (fun n => entry H n u * entry H n v) * c v))).
    + rewrite rsum_plus, rsum_scal, quad_gram.
      assert (0 <= lr * rsum r (fun t => rsum (p_in p) (fun u => entry H t u * c u) * rsum (p_in p) (fun u => entry H t u * c u))).
      { apply Rmult_le_pos; [exact Hlr|]. apply rsum_nonneg. intros t _. exact (Rle_0_sqr (rsum (p_in p) (fun u => entry H t u * c u))). }
      lra.
    + intros u Hu. rewrite <- rsum_scal, <- rsum_plus. apply rsum_ext. intros v Hv. rewrite EW by assumption. toR. ring.
  - intros u v Hu Hv. rewrite !EW by assumption.
    replace (rsum r (fun n => entry H n v * entry H n u)) with (rsum r (fun n => entry H n u * entry H n v)); [toR; ring|].
    apply rsum_ext. intros n _. apply Rmult_comm.
Qed.
Lemma plain_next lr t g : plain_sgd lr (snd t) -> plain_sgd lr (snd (tstep (K := RNum) t g)).
Proof.
  intros (Hk & Hm & Hd & Hr). unfold tstep, pupdate, pupd1. rewrite Hk, Hm. cbn [fst snd].
  unfold plain_sgd, po_after, next_rate. cbn [po_kind po_usemom po_usedecay po_rate]. rewrite Hd. auto.
Qed.
Lemma sig_batch lr k o ts X Y U q : 0 <= lr -> List.Forall (plain_sgd lr) (map snd ts) ->
  let ts' := fst (sbatch k o ts X Y U q) in
  Forall2 sig_rel (map fst ts) (map fst ts') /\ List.Forall (plain_sgd lr) (map snd ts').
Proof.
  intros Hlr HP. cbv zeta. unfold sbatch. assert (HG := sig_grads k Y o (length X) (map fst ts) X U q).
  destruct (sbackprop k Y o (map fst ts) (length X) X U q) as [[G gs] X']. cbn [fst snd] in *.
  remember (map fst ts) as ps eqn:Eps. revert ts Eps HP. induction HG as [|p g ps gs Hg HG IH]; intros ts Eps HP.
  - destruct ts; [|discriminate]. split; constructor.
  - destruct ts as [|t ts]; [discriminate|]. cbn [map] in Eps. injection Eps as Ep Eps. inversion_clear HP as [|? ? P1 P2].
    destruct (IH ts Eps P2) as [A B]. split; cbn [combine map fst snd]; constructor; auto.
    + subst p. destruct t as [p po]. apply (sig_step lr (length X)); auto.
    + apply plain_next. exact P1.
Qed.
Lemma sig_run lr k o U bs : 0 <= lr -> forall ts q, List.Forall (plain_sgd lr) (map snd ts) ->
  let ts' := fst (fst (strain_on k o ts U q bs)) in
  Forall2 sig_rel (map fst ts) (map fst ts') /\ List.Forall (plain_sgd lr) (map snd ts').
Proof.
  intros Hlr. cbv zeta. induction bs as [|[X Y] bs IH]; intros ts q HP.
  - split; [|exact HP]. simpl. induction (map fst ts); constructor; auto using sig_rel_refl.
  - cbn [strain_on]. destruct (sig_batch lr k o ts X Y U q Hlr HP) as [A B].
    destruct (sbatch k o ts X Y U q) as [ts1 X1]. cbn [fst snd] in A, B.
    destruct (IH ts1 (q + net_draws true (map fst ts) (length X))%nat B) as [C D].
    destruct (strain_on k o ts1 U _ bs) as [[ts2 q2] Xs]. cbn [fst snd] in *.
    split; [|exact D]. eapply Forall2_trans_; [apply sig_rel_trans|exact A|exact C].
Qed.
Lemma sig_fit lr m k o b val every Y : 0 <= lr -> forall n e ts U q X, List.Forall (plain_sgd lr) (map snd ts) ->
  Forall2 sig_rel (map fst ts) (map fst (fst (fst (fst (sfit m k o b val every n e ts U q X Y))))).
Proof.
  intros Hlr. induction n as [|n IH]; intros e ts U q X HP.
  - simpl. induction (map fst ts); constructor; auto using sig_rel_refl.
  - cbn [sfit]. destruct (sig_run lr k o U (combine (chunks b X) (chunks b Y)) Hlr ts q HP) as [A B].
    destruct (strain_on k o ts U q _) as [[ts1 q1] Xs]. cbn [fst snd] in A, B.
    specialize (IH (e + 1)%Z ts1 U q1 (concat Xs) B).
    destruct (sfit m k o b val every n (e + 1) ts1 U q1 (concat Xs) Y) as [[[ts2 q2] X2] ls]. cbn [fst snd] in *.
    eapply Forall2_trans_; [apply sig_rel_trans|exact A|exact IH].
Qed.
End Reals.

(** ** The code *)
Lemma strainable_len {K : Num} (s : state K) m es xs i o k : strainable s m es xs i o k -> length xs = length es.
Proof. intros (_&_&_&_&_&HF&_). symmetry. eapply Forall2_length. exact HF. Qed.
Lemma sig_fit_returns {K : Num} (s : state K) m es xs i o k x rsx y rsy n X Y epochs bs xv yv val every :
  min_faithful K -> (0 <= bs)%Z -> (Z.of_nat n + bs <= 2 ^ 52)%Z -> (1 <= n)%nat ->
  strainable s m es xs i o k -> sdata_ok s es xs x rsx y rsy n i o X Y -> slog_ok s m es rsx xv yv i o val every ->
  returns (Fit m x y epochs bs xv yv every) s (fun _ s' =>
    let '(ts', q', X', ls) := sfit m k o (batch_rows n bs) val every (Z.to_nat epochs) 0 (trainer es xs)
                                (r_uni (h_rng s)) (r_upos (h_rng s)) X Y in
    exists nn, q' = (r_upos (h_rng s) + nn)%nat /\ strain_result s s' m es xs i o k x rsx y rsy n Y ts' nn X' ls).
Proof. intros. apply returns_wp. now apply wp_sFit. Qed.
Lemma batch_rows_pos n bs : (0 <= bs)%Z -> (1 <= n)%nat -> (1 <= batch_rows n bs)%nat.
Proof. intros H1 H2. unfold batch_rows. destruct (Z.eqb_spec bs 0); lia. Qed.
Lemma sig_keeps_inputs {K : Num} (s : state K) m es xs i o k x rsx y rsy n X Y epochs bs xv yv val every e0 et :
  min_faithful K -> (0 <= bs)%Z -> (Z.of_nat n + bs <= 2 ^ 52)%Z -> (1 <= n)%nat ->
  strainable s m es xs i o k -> sdata_ok s es xs x rsx y rsy n i o X Y -> slog_ok s m es rsx xv yv i o val every ->
  es = e0 :: et -> p_kind (e_p e0) <> SigmoidK ->
  returns (Fit m x y epochs bs xv yv every) s (fun _ s' => own s' x rsx n i X /\ own s' y rsy n o Y).
Proof.
  intros HM Hbs Hn Hn1 HT HD HLg He Hk.
  destruct (sig_fit_returns s m es xs i o k x rsx y rsy n X Y epochs bs xv yv val every HM Hbs Hn Hn1 HT HD HLg) as ([] & s' & E & HP).
  exists tt, s'. split; [exact E|]. assert (HLn := strainable_len _ _ _ _ _ _ _ HT).
  assert (LX : length Y = length X).
  { destruct HD as (H1 & H2 & _). apply own_shape in H1, H2. destruct H1 as [H1 _], H2 as [H2 _]. congruence. }
  destruct xs as [|x0 xt]; [subst es; discriminate|]. subst es.
  assert (EX := sfit_first m k o (batch_rows n bs) val every Y (batch_rows_pos n bs Hbs Hn1) (Z.to_nat epochs) 0
    (e_p e0, x_po x0) (trainer et xt) (r_uni (h_rng s)) (r_upos (h_rng s)) X Hk LX).
  change ((e_p e0, x_po x0) :: trainer et xt) with (trainer (e0 :: et) (x0 :: xt)) in EX.
  destruct (sfit m k o _ val every _ 0 (trainer (e0 :: et) (x0 :: xt)) _ _ X Y) as [[[ts' q'] X'] ls]. cbn [fst snd] in EX. subst X'.
  destruct HP as (nn & _ & es' & xs' & _ & _ & _ & _ & HD' & _). destruct HD' as (H1 & H2 & _). auto.
Qed.
Section Reals2.
Open Scope R_scope.
Lemma sig_quad (s : state RNum) m es xs i o k x rsx y rsy n X Y epochs bs xv yv val every lr :
  (0 <= bs)%Z -> (Z.of_nat n + bs <= 2 ^ 52)%Z -> (1 <= n)%nat ->
  strainable s m es xs i o k -> sdata_ok s es xs x rsx y rsy n i o X Y -> slog_ok s m es rsx xv yv i o val every ->
  List.Forall (fun x => plain_sgd lr (x_po x)) xs -> 0 <= lr ->
  returns (Fit m x y epochs bs xv yv every) s (fun _ s' => exists es' xs', strainable s' m es' xs' i o k /\ Forall2 same_place es es' /\
    Forall2 (fun e e' => let p := e_p e in let p' := e_p e' in p_kind p = SigmoidK ->
      (forall c, quad (p_in p) (p_w p') c <= quad (p_in p) (p_w p) c) /\
      (forall u v, (u < p_in p)%nat -> (v < p_in p)%nat ->
         entry (p_w p') u v - entry (p_w p') v u = entry (p_w p) u v - entry (p_w p) v u)) es es').
Proof.
  intros Hbs Hn Hn1 HT HD HLg HP Hlr.
  destruct (sig_fit_returns s m es xs i o k x rsx y rsy n X Y epochs bs xv yv val every RNum_min_faithful Hbs Hn Hn1 HT HD HLg) as ([] & s' & E & HR).
  exists tt, s'. split; [exact E|]. assert (HLn := strainable_len _ _ _ _ _ _ _ HT).
  assert (ES : map snd (trainer es xs) = map x_po xs).
  { unfold trainer, net. clear - HLn. revert xs HLn. induction es as [|e es IH]; intros [|x xs] HLn; try discriminate; [reflexivity|]. simpl. f_equal. apply IH. simpl in HLn. lia. }
  assert (HS := sig_fit lr m k o (batch_rows n bs) val every Y Hlr (Z.to_nat epochs) 0 (trainer es xs) (r_uni (h_rng s)) (r_upos (h_rng s)) X
    ltac:(rewrite ES; now rewrite List.Forall_map)).
  destruct (sfit m k o _ val every _ 0 (trainer es xs) _ _ X Y) as [[[ts' q'] X'] ls]. cbn [fst snd] in HS.
  destruct HR as (nn & _ & es' & xs' & HT' & HSp & _ & ET & _).
  exists es', xs'. split; [exact HT'|]. split; [exact HSp|].
  rewrite <- ET in HS. rewrite !trainer_net in HS by (eapply strainable_len; eauto).
  assert (HQ : List.Forall (fun e => p_kind (e_p e) = SigmoidK -> p_out (e_p e) = p_in (e_p e)) es) by (apply HT).
  unfold net in HS. clear - HS HQ. revert es' HS. induction HQ as [|e es He HQ IH]; intros [|e' es'] HS; inversion HS; subst; constructor; auto.
  cbv zeta. intros Hk. destruct H2 as [_ H2]. exact (H2 Hk (He Hk)).
Qed.
End Reals2.
