(** * Further facts about network.go, used by PropLayers.v. *)
From Coq Require Import String ZArith List Bool Arith Lia.
From Verif Require Import Num Heap Spec PureSpec Repr Matrix Activation Network
  HeapLemmas LoopLemmas MatrixProofs ActivationProofs LayerProofs MatrixFacts MiscFacts.
Import ListNotations.
Open Scope Z_scope.
Open Scope go_scope.

Ltac get_l Hl := apply wp_bind; eapply wp_eq; [apply get_layer_run; exact Hl|].

Section WithNum.
Context {K : Num}.
Implicit Types s : state K.

(** ** Constructors *)
Lemma fresh_layer_ok s k (i o : nat) (slope drop : K) : (1 <= i)%nat -> (1 <= o)%nat ->
  returns (fresh_layer k (Z.of_nat i) (Z.of_nat o) slope drop) s (new_layer s k i o slope drop).
Proof.
  intros Hi Ho. apply returns_wp. unfold fresh_layer.
  apply wp_bind. apply wp_NewMatrix_; auto. intros w rw s1 HM1 HE1.
  apply wp_bind. change 1 with (Z.of_nat 1). apply wp_NewMatrix_; auto. intros b rb s2 HM2 HE2.
  apply wp_ret. unfold new_layer. simpl. repeat (split; [reflexivity|]).
  exists rw, rb. split; [|split; [|split]].
  - exact (fresh_mat_ext _ _ _ _ _ _ _ _ HM1 HE2).
  - exact (fresh_mat_mono _ _ _ _ _ _ _ _ (proj1 HE1) HM2).
  - exact (disjoint_old_fresh _ _ _ (own_old _ _ _ _ _ _ (proj1 HM1)) (proj1 (proj2 HM2))).
  - exact (ext_trans _ _ _ HE1 HE2).
Qed.
Lemma size_check (i o : nat) : (1 <= i)%nat -> (1 <= o)%nat -> (Z.of_nat i <? 1) || (Z.of_nat o <? 1) = false.
Proof. intros; lia. Qed.
Lemma size_bad inp out : inp < 1 \/ out < 1 -> (inp <? 1) || (out <? 1) = true.
Proof. lia. Qed.

(** ** Forward *)
Lemma Layer_Forward_err s lref l x : nth_error (h_layers s) lref = Some l -> mcols x <> l_in l ->
  Layer_Forward lref x s = (Fail (EMatDims (mrows x) (mcols x)), s).
Proof.
  intros Hl Hx. unfold Layer_Forward. rewrite (bind_eq _ _ _ _ _ (get_layer_run _ _ _ Hl)).
  destruct (l_kind l); [unfold Hidden_Forward|unfold Linear_Forward|unfold Sigmoid_Forward|unfold Leaky_Forward
    |unfold Softmax_Forward|unfold Dropout_Forward]; rewrite (bind_eq _ _ _ _ _ (get_layer_run _ _ _ Hl));
    try apply bind_fail; now apply affine_err.
Qed.
Lemma NoDropout_err s lref l x : nth_error (h_layers s) lref = Some l -> mcols x <> l_in l ->
  Dropout_ForwardNoDropout lref x s = (Fail (EMatDims (mrows x) (mcols x)), s).
Proof.
  intros Hl Hx. unfold Dropout_ForwardNoDropout. rewrite (bind_eq _ _ _ _ _ (get_layer_run _ _ _ Hl)).
  apply bind_fail; now apply affine_err.
Qed.
Lemma adv_uni_0 (g : rng K) : adv_uni g 0 = g.
Proof. destruct g. unfold adv_uni. simpl. now rewrite Nat.add_0_r. Qed.
Lemma adv_uni_add (g : rng K) a b : adv_uni (adv_uni g a) b = adv_uni g (a + b).
Proof. destruct g. unfold adv_uni. simpl. now rewrite Nat.add_assoc. Qed.
Lemma adv_nrm_0 (g : rng K) : adv_nrm g 0 = g.
Proof. destruct g. unfold adv_nrm. simpl. now rewrite Nat.add_0_r. Qed.
Lemma adv_nrm_add (g : rng K) a b : adv_nrm (adv_nrm g a) b = adv_nrm g (a + b).
Proof. destruct g. unfold adv_nrm. simpl. now rewrite Nat.add_assoc. Qed.

Lemma shape_ptrain (p : player K) r X u : shape r (p_out p) (ptrain p r X u).
Proof. unfold ptrain. destruct (p_kind p); first [apply shape_pforward|apply shape_mk]. Qed.

(** One training forward pass of any kind: output, saved data, effect, draws. *)
Definition fwd_train s lref (l : layer K) (p : player K) (r : nat) (X : pm K) (rs rsm : list nat)
    (l' : layer K) (out : matrix) s' : Prop :=
  fresh_mat s s' out rs r (p_out p) (ptrain p r X (uniforms s)) /\
  fresh s rsm /\ NoDup rsm /\ disjoint rsm rs /\
  cache_ok s' l' p r rs rsm (ptrain p r X (uniforms s)) (ptrain_mask p r (uniforms s)) /\
  frame nothing s s' /\ rest2 s s' /\ h_layers s' = upd lref l' (h_layers s) /\
  (exists mk, l' = after_forward l out mk) /\
  h_rng s' = adv_uni (h_rng s) (pdraws p r).

Lemma wp_forward_train s lref l rw rb p x rsx r X :
  nth_error (h_layers s) lref = Some l -> lown s l rw rb p ->
  own s x rsx r (p_in p) X -> (1 <= r)%nat ->
  wp (Layer_Forward lref x) s (fun out s' => exists rs rsm l', fwd_train s lref l p r X rs rsm l' out s').
Proof.
  intros Hl HL HX Hr. pose proof HL as (H1 & _).
  assert (Hd : p_kind p = Dropout \/ p_kind p <> Dropout) by (destruct (p_kind p); auto; right; discriminate).
  destruct Hd as [Hd|Hd].
  - assert (E : Layer_Forward lref x s = Dropout_Forward lref x s).
    { unfold Layer_Forward. rewrite (bind_eq _ _ _ _ _ (get_layer_run _ _ _ Hl)). now rewrite H1, Hd. }
    eapply wp_at; [exact E|]. eapply wp_conseq; [eapply wp_Dropout_Forward; eauto|].
    simpl. intros out s' (rs & mask & rsm & HM & HMm & HD & (HF & HR & HLs) & HG).
    exists rs, rsm, (after_forward l out (Some mask)). unfold fwd_train, ptrain, ptrain_mask, pdraws, cache_ok.
    rewrite Hd. split; [exact HM|]. split; [apply HMm|]. split; [apply HMm|]. split; [exact HD|].
    split. { unfold after_forward. rewrite H1, Hd. simpl. split; [apply HM|apply HMm]. }
    split; [exact HF|]. split; [exact HR|]. split; [exact HLs|]. split; [now exists (Some mask)|]. exact HG.
  - pose proof (wp_forward_plain s lref l rw rb p x rsx r X true Hl HL HX Hr (or_intror Hd)) as HP.
    assert (E : Layer_Forward lref x s = (match l_kind l, true with
      | Dropout, false => Dropout_ForwardNoDropout lref x | _, _ => Layer_Forward lref x end) s).
    { destruct (l_kind l); reflexivity. }
    eapply wp_at; [exact E|]. eapply wp_conseq; [exact HP|].
    simpl. intros out s' (rs & HM & (HF & HR & HLs) & HG).
    exists rs, [], (after_forward l out None).
    unfold fwd_train.
    replace (ptrain p r X (uniforms s)) with (pforward p r X) by (unfold ptrain; destruct (p_kind p); congruence).
    replace (pdraws p r) with O by (unfold pdraws; destruct (p_kind p); congruence).
    rewrite adv_uni_0.
    split; [exact HM|]. split; [constructor|]. split; [constructor|]. split; [intros ? []|].
    split. { unfold cache_ok, after_forward. rewrite H1. destruct (p_kind p); try exact I; try (simpl; apply HM). congruence. }
    split; [exact HF|]. split; [exact HR|]. split; [exact HLs|]. split; [now exists None|]. exact HG.
Qed.

Lemma lown_after_forward s s' l rw rb p out mk : lown s l rw rb p -> frame nothing s s' ->
  lown s' (after_forward l out mk) rw rb p.
Proof.
  intros HL HF. assert (HL' : lown s' l rw rb p) by (eapply lown_frame; eauto).
  unfold after_forward. destruct (l_kind l); auto; try exact HL'; destruct mk; exact HL'.
Qed.
Lemma lown_after_forward' s l rw rb p out mk : lown s l rw rb p -> lown s (after_forward l out mk) rw rb p.
Proof. intros H. exact (lown_after_forward _ _ _ _ _ _ _ _ H (frame_refl _ _)). Qed.

Lemma nth_error_upd_same {A} k (x y : A) l : nth_error l k = Some y -> nth_error (upd k x l) k = Some x.
Proof.
  intros H. rewrite nth_error_upd, Nat.eqb_refl. assert ((k < length l)%nat) by (apply nth_error_Some; congruence).
  now replace (k <? length l)%nat with true by lia.
Qed.

(** Forward then Backward with the same input. *)
Lemma wp_forward_backward s lref l rw rb p x rsx r X dv rsg G :
  nth_error (h_layers s) lref = Some l -> lown s l rw rb p -> p_kind p <> SigmoidK ->
  own s x rsx r (p_in p) X -> (1 <= r)%nat -> own s dv rsg r (p_out p) G -> NoDup rsg ->
  disjoint rsx rsg -> disjoint rw rsg -> disjoint rb rsg ->
  let O := ptrain p r X (uniforms s) in
  let G' := pback p r O (ptrain_mask p r (uniforms s)) G in
  wp (out <- Layer_Forward lref x ;; g <- Layer_Backward lref x dv ;; ret (out, g)) s (fun og s' =>
    (exists rs, fresh_mat s s' (fst og) rs r (p_out p) O) /\
    bwd_result s s' (snd og) (p_in p) (p_out p) r
      (pdW r (p_in p) (p_out p) X G') (psum0 r (p_out p) G') (pdX r (p_in p) (p_out p) G' (p_w p)) /\
    frame (among rsg) s s' /\
    own s' dv rsg r (p_out p) (dv_after p G G') /\ own s' x rsx r (p_in p) X /\
    exists l', nth_error (h_layers s') lref = Some l' /\ lown s' l' rw rb p).
Proof.
  intros Hl HL Hs HX Hr HG HND D1 D2 D3 O G'.
  apply wp_bind. eapply wp_conseq; [eapply wp_forward_train; eauto|].
  intros out s1 (rs & rsm & l' & HM & HFm & HNm & HDm & HC & HF & HR & HLs & (mk & El) & HG1).
  assert (Hl' : nth_error (h_layers s1) lref = Some l') by (rewrite HLs; eapply nth_error_upd_same; eauto).
  assert (HL' : lown s1 l' rw rb p) by (subst l'; eapply lown_after_forward; eauto).
  pose proof (own_frame _ _ _ _ _ _ _ _ HX HF (fun _ _ H => H)) as HX1.
  pose proof (own_frame _ _ _ _ _ _ _ _ HG HF (fun _ _ H => H)) as HG1'.
  pose proof (own_old _ _ _ _ _ _ HG) as Hold.
  apply wp_bind. eapply wp_conseq.
  { eapply wp_backward with (rso := rs) (rsm := rsm); eauto.
    - apply disjoint_sym. eapply disjoint_old_fresh; [exact Hold|apply HM].
    - apply disjoint_sym. eapply disjoint_old_fresh; [exact Hold|exact HFm]. }
  simpl. intros g s2 (HB & [HF2 HR2] & HO2). apply wp_ret. simpl.
  assert (HDo : disjoint rs rsg). { apply disjoint_sym. eapply disjoint_old_fresh; [exact Hold|apply HM]. }
  split; [|split; [|split; [|split; [|split]]]].
  - exists rs. destruct HM as (HMo & Hfr & Hnd & Hno). split; [|auto].
    eapply own_frame; [exact HMo|exact HF2|]. exact HDo.
  - eapply bwd_result_mono; [exact HF|exact HB].
  - eapply frame_trans; [exact HF|exact HF2|]. intros ? ? [[]|H]; exact H.
  - exact HO2.
  - eapply own_frame; [exact HX1|exact HF2|]. exact D1.
  - exists l'. split. { destruct HR2 as (E & _). now rewrite E. }
    eapply lown_frame; [exact HL'|exact HF2|]. intros y [Hy|Hy]; [apply D2|apply D3]; auto.
Qed.

Lemma Layer_Backward_err s lref l x dv : nth_error (h_layers s) lref = Some l ->
  mcols x <> l_in l -> Layer_Backward lref x dv s = (Fail (EMatDims (mrows x) (mcols x)), s).
Proof.
  intros Hl Hx. unfold Layer_Backward. rewrite (bind_eq _ _ _ _ _ (get_layer_run _ _ _ Hl)).
  assert (E : (mcols x =? l_in l) = false) by lia.
  assert (E2 : check_backward l x dv s = (Fail (EMatDims (mrows x) (mcols x)), s)).
  { unfold check_backward. rewrite E. reflexivity. }
  destruct (l_kind l); [unfold Hidden_Backward|unfold Linear_Backward|unfold Sigmoid_Backward|unfold Leaky_Backward
    |unfold Softmax_Backward|unfold Dropout_Backward]; rewrite (bind_eq _ _ _ _ _ (get_layer_run _ _ _ Hl));
    try now apply bind_fail.
  cbv zeta. rewrite E. reflexivity.
Qed.
Lemma Layer_Backward_err2 s lref l x dv : nth_error (h_layers s) lref = Some l -> l_kind l <> SoftmaxK ->
  mcols x = l_in l -> mcols dv <> l_out l -> Layer_Backward lref x dv s = (Fail (EMatDims (mrows dv) (mcols dv)), s).
Proof.
  intros Hl Hk Hx Hd. unfold Layer_Backward. rewrite (bind_eq _ _ _ _ _ (get_layer_run _ _ _ Hl)).
  assert (E2 : check_backward l x dv s = (Fail (EMatDims (mrows dv) (mcols dv)), s)).
  { unfold check_backward. replace (mcols x =? l_in l) with true by lia.
    replace (mcols dv =? l_out l) with false by lia. reflexivity. }
  destruct (l_kind l); [unfold Hidden_Backward|unfold Linear_Backward|unfold Sigmoid_Backward|unfold Leaky_Backward
    |congruence|unfold Dropout_Backward]; rewrite (bind_eq _ _ _ _ _ (get_layer_run _ _ _ Hl));
    now apply bind_fail.
Qed.

(** ** Init *)
Definition pinit (i o : nat) (z : nat -> K) : pm K :=
  mk i o (fun a b => fmul (z (a * o + b)%nat) (fsqrt (fdiv (ofZ 2) (ofZ (Z.of_nat i))))).

Lemma wp_Init s lref l rw rb p :
  nth_error (h_layers s) lref = Some l -> lown s l rw rb p -> NoDup rw ->
  wp (Init lref) s (fun _ s' =>
    own s' (l_w l) rw (p_in p) (p_out p) (pinit (p_in p) (p_out p) (normals s)) /\
    frame (among rw) s s' /\ rest2 s s' /\ h_layers s' = h_layers s /\
    h_rng s' = adv_nrm (h_rng s) (p_in p * p_out p)).
Proof.
  intros Hl HL HND. pose proof HL as (H1&H2&H3&H4&H5&H6&H7&HW&HB).
  unfold Init. get_l Hl. cbv zeta. rewrite H2, H3.
  set (f := fun a b => fmul (normals s (a * p_out p + b)%nat) (fsqrt (fdiv (ofZ 2) (ofZ (Z.of_nat (p_in p)))))).
  apply wp_each_cell with (I := fun i j st =>
    own st (l_w l) rw (p_in p) (p_out p) (merge (p_in p) (p_out p) f (p_w p) i j) /\
    frame (among rw) s st /\ rest2 s st /\ h_layers st = h_layers s /\
    h_rng st = adv_nrm (h_rng s) (i * p_out p + j)).
  - rewrite merge_0 by apply (own_shape _ _ _ _ _ _ HW). split; [exact HW|]. split; [apply frame_refl|].
    split; [apply rest2_refl|]. split; [reflexivity|]. simpl. now rewrite adv_nrm_0.
  - intros i j st Hi Hj (HO & HF & HR & HLs & HG).
    apply wp_bind. eapply wp_eq; [reflexivity|]. cbv zeta.
    set (st1 := with_rng st _).
    assert (HO1 : own st1 (l_w l) rw (p_in p) (p_out p) (merge (p_in p) (p_out p) f (p_w p) i j)) by exact HO.
    eapply wp_conseq; [eapply (wp_setc st1 _ _ _ _ _ i j _ HO1 HND Hi Hj)|].
    simpl. intros _ st2 (HO2 & HF2 & HR2).
    destruct HR2 as (E1&E2&E3&E4&E5). destruct HR as (R1&R2&R3).
    split; [|split; [|split; [|split]]].
    + rewrite HG in HO2. simpl in HO2.
      change (fmul (r_nrm (h_rng s) (r_npos (h_rng s) + (i * p_out p + j))) (fsqrt (fdiv (ofZ 2) (ofZ (Z.of_nat (p_in p)))))) with (f i j) in HO2.
      now rewrite merge_step in HO2 by auto.
    + eapply frame_trans; [exact HF|exact HF2|]. intros ? ? [H|H]; exact H.
    + unfold rest2. rewrite E2, E4, E5. simpl. auto.
    + rewrite E1. simpl. exact HLs.
    + rewrite E3. unfold st1. simpl. rewrite HG. unfold adv_nrm. simpl. f_equal. lia.
  - intros i st Hi (HO & HF & HR & HLs & HG). split; [|split; [exact HF|split; [exact HR|split; [exact HLs|]]]].
    + now rewrite merge_row in HO.
    + rewrite HG. f_equal. lia.
  - intros st (HO & HF & HR & HLs & HG). rewrite merge_end in HO. split; [exact HO|].
    split; [exact HF|split; [exact HR|split; [exact HLs|]]]. rewrite HG. f_equal. lia.
Qed.

(** ** SigmoidLayer.Backward *)
Lemma each_cell_panic (r c : nat) (b : nat) (body : Z -> Z -> M K unit) (I : nat -> state K -> Prop) (Q : state K -> Prop) p s :
  (1 <= r)%nat -> (b < c)%nat -> I 0%nat s ->
  (forall j s1, (j < b)%nat -> I j s1 -> wp (body 0 (Z.of_nat j)) s1 (fun _ => I (S j))) ->
  (forall s1, I b s1 -> exists s', body 0 (Z.of_nat b) s1 = (Panic p, s') /\ Q s') ->
  exists s', each_cell (Z.of_nat r) (Z.of_nat c) body s = (Panic p, s') /\ Q s'.
Proof.
  intros Hr Hb H0 Hs Hp. unfold each_cell.
  apply (for_panic r 0 (fun i => for_ (Z.of_nat c) (body i)) (fun _ st => st = s) Q p s); auto; try lia.
  intros s1 ->. simpl.
  apply (for_panic c b (body 0) I Q p s); auto.
Qed.
Lemma getc_bad_col s m rs r c (A : pm K) i (j : nat) : own s m rs r c A -> (i < r)%nat -> (c <= j)%nat ->
  getc m (Z.of_nat i) (Z.of_nat j) s = (Panic PIndex, s).
Proof.
  intros HO Hi Hj. destruct (own_ref _ _ _ _ _ _ i HO Hi) as (x & _ & E & Hx & _).
  unfold getc. rewrite (bind_eq _ _ _ _ _ E). unfold idx_row. rewrite Hx.
  rewrite (shape_row _ _ _ _ (own_shape _ _ _ _ _ _ HO) Hi).
  now replace ((0 <=? Z.of_nat j) && (Z.of_nat j <? Z.of_nat c)) with false by lia.
Qed.

(** More inputs than outputs: index out of range, with the input already overwritten. *)
Lemma Sigmoid_Backward_panics s lref l rw rb p x rsx r X dv rsg G :
  nth_error (h_layers s) lref = Some l -> lown s l rw rb p -> p_kind p = SigmoidK ->
  (p_out p < p_in p)%nat -> (1 <= r)%nat ->
  own s x rsx r (p_in p) X -> own s dv rsg r (p_out p) G -> NoDup rsx -> disjoint rsg rsx ->
  exists s', Layer_Backward lref x dv s = (Panic PIndex, s').
Proof.
  intros Hl HL Hk Hio Hr HX HG HND HD. pose proof HL as (H1 & _).
  unfold Layer_Backward. rewrite (bind_eq _ _ _ _ _ (get_layer_run _ _ _ Hl)), H1, Hk.
  unfold Sigmoid_Backward. rewrite (bind_eq _ _ _ _ _ (get_layer_run _ _ _ Hl)).
  rewrite (bind_eq _ _ _ _ _ (check_backward_ok _ _ _ _ _ _ _ _ _ _ _ _ _ HL HX HG)).
  destruct (proj1 (wp_ex _ _ _) (wp_Sigmoid s x rsx r (p_in p) X HX HND)) as (x' & s1 & E & -> & HX1 & HF1 & HR1).
  assert (HG1 : own s1 dv rsg r (p_out p) G) by (eapply own_frame; [exact HG|exact HF1|exact HD]).
  enough (exists s', SigmoidPrime x dv s = (Panic PIndex, s')) as (s' & E').
  { exists s'. now apply bind_panic. }
  unfold SigmoidPrime. rewrite (bind_eq _ _ _ _ _ E).
  rewrite (own_rows _ _ _ _ _ _ HX1), (own_cols _ _ _ _ _ _ HX1).
  match goal with |- context [each_cell _ _ ?b] => set (body := b) end.
  assert (exists s', each_cell (Z.of_nat r) (Z.of_nat (p_in p)) body s1 = (Panic PIndex, s') /\ True) as (s' & E' & _).
  { apply each_cell_panic with (b := p_out p) (I := fun _ st => own st dv rsg r (p_out p) G /\ exists B, own st x rsx r (p_in p) B); auto.
    - split; eauto.
    - intros j st Hj (HGs & B & HXs). unfold body. change 0 with (Z.of_nat 0).
      apply wp_bind. eapply wp_eq; [eapply getc_own; eauto; lia|].
      apply wp_bind. eapply wp_eq; [eapply getc_own; eauto; lia|].
      eapply wp_conseq; [eapply wp_setc; eauto; lia|]. simpl. intros _ st2 (HO2 & HF2 & _). split; [|eauto].
      eapply own_frame; [exact HGs|exact HF2|exact HD].
    - intros st (HGs & B & HXs). exists st. split; [|exact I]. unfold body. apply bind_panic.
      change 0 with (Z.of_nat 0). eapply getc_bad_col; eauto; lia. }
  exists s'. now apply bind_panic.
Qed.

(** Equal sizes: the input x is overwritten with G = dValues * s(x) * (1 - s(x)) and the
    gradients are computed from G in place of both x and dValues. *)
Lemma Sigmoid_Backward_square s lref l rw rb p x rsx r X dv rsg G :
  nth_error (h_layers s) lref = Some l -> lown s l rw rb p -> p_kind p = SigmoidK ->
  p_out p = p_in p -> (1 <= r)%nat ->
  own s x rsx r (p_in p) X -> own s dv rsg r (p_out p) G -> NoDup rsx -> disjoint rsg rsx ->
  disjoint rw rsx -> disjoint rb rsx ->
  let H := mk r (p_in p) (fun i j => sigmoid_prime1 (entry X i j) (entry G i j)) in
  wp (Layer_Backward lref x dv) s (fun g s' =>
    bwd_result s s' g (p_in p) (p_in p) r (pdW r (p_in p) (p_in p) H H) (psum0 r (p_in p) H) (pdX r (p_in p) (p_in p) H (p_w p)) /\
    own s' x rsx r (p_in p) H).
Proof.
  intros Hl HL Hk Hio Hr HX HG HND HD D1 D2 H. pose proof HL as (H1 & _).
  unfold Layer_Backward. get_l Hl. rewrite H1, Hk. unfold Sigmoid_Backward. get_l Hl.
  apply wp_bind. eapply wp_eq; [eapply check_backward_ok; eauto|].
  rewrite Hio in HG.
  apply wp_bind. eapply wp_conseq; [eapply wp_SigmoidPrime; eauto|].
  intros x' s1 (-> & HX1 & HF1 & HR1).
  assert (HL1 : lown s1 l rw rb p).
  { eapply lown_frame; [exact HL|exact HF1|]. intros y [Hy|Hy]; [apply D1|apply D2]; auto. }
  pose proof (wp_dense_backward s1 l rw rb p x rsx r H x rsx H HL1 HX1) as HB. rewrite Hio in HB.
  eapply wp_conseq; [exact (HB HX1 Hr)|].
  simpl. intros g s2 (HBr & HE). split.
  - eapply bwd_result_mono; [exact HF1|exact HBr].
  - exact (own_ext _ _ _ _ _ _ _ HX1 HE).
Qed.

(** Fewer inputs than outputs: dWeights is InputSize x InputSize, dBiases 1 x InputSize and
    dInputs the zero value Matrix{}. *)
Lemma Sigmoid_Backward_wide s lref l rw rb p x rsx r X dv rsg G :
  nth_error (h_layers s) lref = Some l -> lown s l rw rb p -> p_kind p = SigmoidK ->
  (p_in p < p_out p)%nat -> (1 <= r)%nat ->
  own s x rsx r (p_in p) X -> own s dv rsg r (p_out p) G -> NoDup rsx -> disjoint rsg rsx ->
  disjoint rw rsx -> disjoint rb rsx ->
  let H := mk r (p_in p) (fun i j => sigmoid_prime1 (entry X i j) (entry G i j)) in
  wp (Layer_Backward lref x dv) s (fun g s' =>
    mrows (g_w g) = Z.of_nat (p_in p) /\ mcols (g_w g) = Z.of_nat (p_in p) /\
    mrows (g_b g) = 1 /\ mcols (g_b g) = Z.of_nat (p_in p) /\ g_x g = matrix0 /\
    own s' x rsx r (p_in p) H).
Proof.
  intros Hl HL Hk Hio Hr HX HG HND HD D1 D2 H. pose proof HL as (H1&H2&H3&H4&H5&H6&H7&HW&HB).
  unfold Layer_Backward. get_l Hl. rewrite H1, Hk. unfold Sigmoid_Backward. get_l Hl.
  apply wp_bind. eapply wp_eq; [eapply check_backward_ok; eauto|].
  (* SigmoidPrime on the wider dValues *)
  apply wp_bind.
  assert (HS : wp (SigmoidPrime x dv) s (inplace_result s x rsx r (p_in p) H)).
  { unfold SigmoidPrime. apply wp_bind. eapply wp_conseq; [eapply wp_Sigmoid; eauto|].
    intros x' s1 (-> & HX1 & HF1 & HR1).
    assert (HG1 : own s1 dv rsg r (p_out p) G) by (eapply own_frame; [exact HG|exact HF1|exact HD]).
    apply wp_bind. eapply wp_conseq.
    { eapply wp_inplace with (f := fun i j => sigmoid_prime1 (entry X i j) (entry G i j)); [exact HX1|exact HND|].
      intros i j st A1 Hi Hj HO HFs HRs HE.
      apply wp_bind. eapply wp_eq; [eapply getc_own; [eapply own_frame; [exact HG1|exact HFs|exact HD]|auto|lia]|].
      apply wp_bind. eapply wp_eq; [eapply getc_own; eauto|].
      rewrite HE. unfold pmap. rewrite entry_mk by auto. eapply wp_setc; eauto. }
    simpl. intros _ s2 (HO2 & HF2 & HR2). apply wp_ret. split; [reflexivity|]. split; [exact HO2|].
    split; [|eapply rest_trans; eauto]. eapply frame_trans; [exact HF1|exact HF2|]. tauto. }
  eapply wp_conseq; [exact HS|]. intros x' s1 (-> & HX1 & HF1 & HR1).
  assert (HW1 : own s1 (l_w l) rw (p_in p) (p_out p) (p_w p)) by (eapply own_frame; [exact HW|exact HF1|exact D1]).
  unfold dense_backward.
  apply wp_bind. eapply wp_conseq; [eapply wp_T; eauto|]. intros it s2 (rs2 & HM2 & HE2).
  apply wp_bind. eapply wp_conseq; [eapply wp_T; [exact (own_ext _ _ _ _ _ _ _ HW1 HE2)| |]; eauto|]. intros wt s3 (rs3 & HM3 & HE3).
  pose proof (own_ext _ _ _ _ _ _ _ (proj1 HM2) HE3) as HI3.
  pose proof (own_ext _ _ _ _ _ _ _ HX1 (ext_trans _ _ _ HE2 HE3)) as HX3.
  apply wp_bind. eapply wp_conseq; [eapply wp_Dot; [exact HI3|exact HX3| |]; auto|]. intros dW s4 (rs4 & HM4 & HE4).
  apply wp_bind. eapply wp_conseq; [eapply wp_Sum0; [exact (own_ext _ _ _ _ _ _ _ HX3 HE4)|auto]|]. intros dB s5 (rs5 & HM5 & HE5).
  pose proof (own_ext _ _ _ _ _ _ _ HX3 (ext_trans _ _ _ HE4 HE5)) as HX5.
  apply wp_bind. eapply wp_eq with (a := matrix0) (s' := s5).
  { unfold ignore_err. rewrite Dot_err; [reflexivity|].
    rewrite (own_cols _ _ _ _ _ _ HX5), (own_rows _ _ _ _ _ _ (proj1 HM3)). lia. }
  apply wp_ret. simpl.
  destruct HM4 as (HO4 & _). destruct HM5 as (HO5 & _).
  split; [apply HO4|]. split; [apply HO4|]. split; [apply HO5|]. split; [apply HO5|]. split; [reflexivity|exact HX5].
Qed.

Lemma forward_formula s lref l rw rb p x rsx r X (training : bool) :
  nth_error (h_layers s) lref = Some l -> lown s l rw rb p -> own s x rsx r (p_in p) X -> (1 <= r)%nat ->
  (training = false \/ p_kind p <> Dropout) ->
  returns (match l_kind l, training with Dropout, false => Dropout_ForwardNoDropout lref x | _, _ => Layer_Forward lref x end) s
    (fun out s' =>
      (exists rs, fresh_mat s s' out rs r (p_out p)
        (let z := fun i j => fadd (fsum (p_in p) (fun n => fmul (entry X i n) (entry (p_w p) n j))) (entry (p_b p) 0 j) in
         mk r (p_out p) (fun i j =>
           match p_kind p with
           | Hidden | Dropout => fmax (z i j) f0
           | Leaky => if flt (z i j) f0 then fmul (z i j) (p_slope p) else z i j
           | SigmoidK => fdiv f1 (fadd f1 (fexp (fneg (z i j))))
           | Linear => z i j
           | SoftmaxK => fdiv (fexp (z i j)) (fsum (p_out p) (fun k => fexp (z i k)))
           end))) /\
      frame nothing s s' /\ own s' x rsx r (p_in p) X /\ h_rng s' = h_rng s /\
      exists l', nth_error (h_layers s') lref = Some l' /\ lown s' l' rw rb p).
Proof.
  intros Hl HL HX Hr Ht. apply returns_wp. eapply wp_conseq; [eapply wp_forward_plain; eauto|].
  cbv beta. intros out s' (rs & HM & (HF & HR & HLs) & HG). split; [|split; [exact HF|split; [|split; [exact HG|]]]].
  - exists rs. cbv zeta.
    refine (eq_ind (pforward p r X) (fun A => fresh_mat s s' out rs r (p_out p) A) HM _ _).
    unfold pforward, pact, paffine, paff, psoftmax, pmap, act1, relu1, leaky1, sigmoid1.
    destruct (p_kind p); try reflexivity; apply mk_ext; intros i j Hi Hj; rewrite ?entry_mk by auto; try reflexivity.
    f_equal. apply fsum_ext. intros n Hn. now rewrite entry_mk by auto.
  - eapply own_frame; eauto.
  - eexists. split; [rewrite HLs; eapply nth_error_upd_same; eauto|]. eapply lown_after_forward; eauto.
Qed.

Lemma pdot_trans_l r k c (X G : pm K) :
  pdot k r c (ptrans r k X) G = mk k c (fun i j => fsum r (fun n => fmul (entry X n i) (entry G n j))).
Proof.
  unfold pdot. apply mk_ext. intros i j Hi Hj. apply fsum_ext. intros n Hn. unfold ptrans. now rewrite entry_mk by auto.
Qed.
Lemma pdot_trans_r r k c (G W : pm K) :
  pdot r c k G (ptrans k c W) = mk r k (fun i j => fsum c (fun n => fmul (entry G i n) (entry W j n))).
Proof.
  unfold pdot. apply mk_ext. intros i j Hi Hj. apply fsum_ext. intros n Hn. unfold ptrans. now rewrite entry_mk by auto.
Qed.
Lemma backward_formula s lref l rw rb p x rsx r X dv rsg G :
  nth_error (h_layers s) lref = Some l -> lown s l rw rb p -> p_kind p <> SigmoidK ->
  own s x rsx r (p_in p) X -> (1 <= r)%nat -> own s dv rsg r (p_out p) G -> NoDup rsg ->
  disjoint rsx rsg -> disjoint rw rsg -> disjoint rb rsg ->
  let O := ptrain p r X (uniforms s) in
  let G' := pback p r O (ptrain_mask p r (uniforms s)) G in
  returns (out <- Layer_Forward lref x ;; g <- Layer_Backward lref x dv ;; ret (out, g)) s (fun og s' =>
    (exists rs, fresh_mat s s' (fst og) rs r (p_out p) O) /\
    bwd_result s s' (snd og) (p_in p) (p_out p) r
      (mk (p_in p) (p_out p) (fun i j => fsum r (fun n => fmul (entry X n i) (entry G' n j))))
      (mk 1 (p_out p) (fun _ j => fsum r (fun n => entry G' n j)))
      (mk r (p_in p) (fun i j => fsum (p_out p) (fun n => fmul (entry G' i n) (entry (p_w p) j n)))) /\
    frame (among rsg) s s' /\ own s' x rsx r (p_in p) X /\
    own s' dv rsg r (p_out p) (match p_kind p with Hidden | Leaky | Dropout => G' | _ => G end) /\
    exists l', nth_error (h_layers s') lref = Some l' /\ lown s' l' rw rb p).
Proof.
  intros Hl HL Hs HX Hr HG HND D1 D2 D3 O G'. apply returns_wp. eapply wp_conseq.
  { pose proof (wp_forward_backward s lref l rw rb p x rsx r X dv rsg G Hl HL Hs HX Hr HG HND D1 D2 D3) as H.
    cbv zeta in H. exact H. }
  cbv beta. fold O. fold G'. intros og s' (H1 & H2 & H3 & H4 & H5 & H6).
  unfold pdW, pdX in H2. rewrite pdot_trans_l, pdot_trans_r in H2.
  split; [exact H1|]. split; [exact H2|]. split; [exact H3|]. split; [exact H5|]. split; [exact H4|exact H6].
Qed.
Lemma dropout_training s lref l rw rb p x rsx r X :
  nth_error (h_layers s) lref = Some l -> lown s l rw rb p -> p_kind p = Dropout ->
  own s x rsx r (p_in p) X -> (1 <= r)%nat ->
  returns (Layer_Forward lref x) s (fun out s' =>
    (exists rs, fresh_mat s s' out rs r (p_out p) (mk r (p_out p) (fun i j =>
      fmul (fmax (entry (paffine p r X) i j) f0)
           (fdiv (mask1 (p_drop p) (uniforms s (i * p_out p + j)%nat)) (fsub f1 (p_drop p)))))) /\
    frame nothing s s' /\ h_rng s' = adv_uni (h_rng s) (r * p_out p)).
Proof.
  intros Hl HL Hk HX Hr. apply returns_wp. eapply wp_conseq; [eapply wp_forward_train; eauto|].
  cbv beta. intros out s' (rs & rsm & l' & HM & _ & _ & _ & _ & HF & _ & _ & _ & HG).
  unfold ptrain in HM. unfold pdraws in HG. rewrite Hk in HM, HG. split; [|split; [exact HF|exact HG]].
  exists rs. exact HM.
Qed.

End WithNum.
