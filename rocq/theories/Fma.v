(** * Fma: inference under any fusing compiler stays within the bounds of C90. *)
From Coq Require Import String ZArith List Bool Arith Lia Reals Lra Psatz.
From Flocq Require Import Core.Core Relative Plus_error IEEE754.BinarySingleNaN IEEE754.Binary IEEE754.Bits.
From Verif Require Import Num NumR NumB64 Heap Spec PureSpec Repr Matrix Network Activation Misc ModelGo HeapLemmas LoopLemmas MatrixFacts MatrixProofs ActivationProofs LayerProofs OptSpec ModelSpec ModelProofs MiscProofs EvalProofs
  RSum AdamBound B64Facts RoundSpec Rounding RoundProofs FmaGo.
Import ListNotations.
Open Scope R_scope.
Open Scope go_scope.

(** ** One fused operation *)
Lemma fma_exact (x y z : binary64) : b64_finite (b64_fma mode_NE x y z) = true ->
  b64_finite x = true /\ b64_finite y = true /\ b64_finite z = true /\ b64_R (b64_fma mode_NE x y z) = rnd (b64_R x * b64_R y + b64_R z).
Proof.
  intros H. assert (F : b64_finite x = true /\ b64_finite y = true /\ b64_finite z = true).
  { unfold b64_finite, b64_fma, Bfma in H. rewrite is_finite_BSN2B in H.
    destruct x as [sx|sx|sx px ex|sx mx ex Hx], y as [sy|sy|sy py ey|sy my ey Hy], z as [sz|sz|sz pz ez|sz mz ez Hz]; try (repeat split; reflexivity); exfalso;
      cbn in H; try discriminate; match type of H with context [if ?b then _ else _] => destruct b; discriminate end. }
  destruct F as (Fx & Fy & Fz). split; [exact Fx|]. split; [exact Fy|]. split; [exact Fz|].
  pose proof (Bfma_correct 53 1024 (eq_refl Lt) (eq_refl Lt) ternop_nan_pl64 mode_NE x y z Fx Fy Fz) as C. cbv zeta in C.
  change (round radix2 (SpecFloat.fexp 53 1024) (round_mode mode_NE) (B2R 53 1024 x * B2R 53 1024 y + B2R 53 1024 z)) with (rnd (b64_R x * b64_R y + b64_R z)) in C.
  change (Bfma 53 1024 (eq_refl Lt) (eq_refl Lt) ternop_nan_pl64 mode_NE x y z) with (b64_fma mode_NE x y z) in C.
  destruct (Rlt_bool (Rabs (rnd (b64_R x * b64_R y + b64_R z))) (bpow radix2 1024)).
  - apply C.
  - exfalso. destruct (b64_fma mode_NE x y z); try discriminate.
Qed.
Lemma fma_fits (x y z : binary64) : b64_finite x = true -> b64_finite y = true -> b64_finite z = true -> Rabs (b64_R x * b64_R y + b64_R z) <= bpow radix2 1023 -> b64_finite (b64_fma mode_NE x y z) = true.
Proof.
  intros Fx Fy Fz HB. pose proof (Bfma_correct 53 1024 (eq_refl Lt) (eq_refl Lt) ternop_nan_pl64 mode_NE x y z Fx Fy Fz) as C. cbv zeta in C.
  change (round radix2 (SpecFloat.fexp 53 1024) (round_mode mode_NE) (B2R 53 1024 x * B2R 53 1024 y + B2R 53 1024 z)) with (rnd (b64_R x * b64_R y + b64_R z)) in C.
  change (Bfma 53 1024 (eq_refl Lt) (eq_refl Lt) ternop_nan_pl64 mode_NE x y z) with (b64_fma mode_NE x y z) in C.
  rewrite Rlt_bool_true in C; [apply C|].
  apply Rle_lt_trans with (bpow radix2 1023); [|apply bpow_lt; lia].
  apply abs_round_le_generic; [apply (FLT_exp_valid (-1074) 53)|apply valid_rnd_N| |exact HB].
  apply generic_format_bpow. unfold FLT_exp. lia.
Qed.

(** ** Sums of products *)
Section Sums.
Context (L : libm).
Notation BN := (B64 L).
Definition msum (fuse : nat -> bool) (x y : nat -> binary64) (n : nat) : binary64 :=
  fold_left (fun s k => mul_add (fuse k) s (x k) (y k)) (seq 0 n) (b64_ofZ 0).
Lemma msum_S fuse x y n : msum fuse x y (S n) = mul_add (fuse n) (msum fuse x y n) (x n) (y n).
Proof. unfold msum. rewrite seq_S, fold_left_app. reflexivity. Qed.
Lemma mul_add_exact f (s x y : binary64) : b64_finite (mul_add f s x y) = true -> b64_finite s = true /\ b64_finite x = true /\ b64_finite y = true.
Proof.
  unfold mul_add. destruct f; intros H.
  - destruct (fma_exact _ _ _ H) as (A & B & C & _). auto.
  - destruct (plus_exact _ _ H) as (A & B & _). destruct (mult_exact _ _ B) as (C & D & _). auto.
Qed.
Lemma mul_add_error f (s x y : binary64) S a E : b64_finite (mul_add f s x y) = true -> Rabs (b64_R s - S) <= E -> Rabs S <= a ->
  let t := b64_R x * b64_R y in
  Rabs (b64_R (mul_add f s x y) - (S + t)) <= E * (1 + u64) + a * u64 + (u64 * Rabs t + eta64) * (1 + u64) + Rabs t * u64.
Proof.
  intros HF HS Ha t. pose proof u64_pos as Hu. pose proof eta64_pos as He. pose proof (Rabs_pos t) as Ht. pose proof (Rabs_pos (b64_R s - S)) as H0. unfold mul_add in *. destruct f.
  - destruct (fma_exact _ _ _ HF) as (_ & _ & _ & ->). fold t. pose proof (rnd_error (t + b64_R s)) as HR.
    assert (HV : Rabs (t + b64_R s) <= Rabs t + (E + a)).
    { replace (t + b64_R s) with (t + ((b64_R s - S) + S)) by ring. eapply Rle_trans; [apply Rabs_triang|]. apply Rplus_le_compat_l. eapply Rle_trans; [apply Rabs_triang|]. lra. }
    replace (rnd (t + b64_R s) - (S + t)) with ((rnd (t + b64_R s) - (t + b64_R s)) + (b64_R s - S)) by ring. eapply Rle_trans; [apply Rabs_triang|].
    assert (u64 * Rabs (t + b64_R s) <= u64 * (Rabs t + (E + a))) by (apply Rmult_le_compat_l; lra).
    assert (0 <= u64 * u64 * Rabs t) by (repeat apply Rmult_le_pos; lra). assert (0 <= eta64 * u64) by (apply Rmult_le_pos; lra). assert (0 <= u64 * Rabs t) by (apply Rmult_le_pos; lra). nra.
  - destruct (plus_exact _ _ HF) as (_ & F2 & _). destruct (mult_exact _ _ F2) as (_ & _ & EM).
    assert (HP : Rabs (b64_R (b64_mult mode_NE x y) - t) <= u64 * Rabs t + eta64) by (rewrite EM; apply rnd_error).
    eapply Rle_trans; [eapply add_error; [exact HF|exact HS|exact Ha|exact HP|apply Rle_refl]|]. apply Req_le. ring.
Qed.
Lemma msum_error fuse (x y : nat -> binary64) n : b64_finite (msum fuse x y n) = true ->
  Rabs (b64_R (msum fuse x y n) - rsum n (fun k => b64_R (x k) * b64_R (y k))) <= dot_bound n (rsum n (fun k => Rabs (b64_R (x k) * b64_R (y k)))).
Proof.
  induction n as [|n IH]; intros HF.
  - rewrite !rsum_0. change (b64_R (msum fuse x y 0)) with 0. unfold dot_bound. rewrite Rminus_0_r, Rabs_R0. simpl. lra.
  - rewrite msum_S in HF |- *. destruct (mul_add_exact _ _ _ _ HF) as (F1 & _). specialize (IH F1). rewrite !rsum_S.
    eapply Rle_trans; [eapply mul_add_error; [exact HF|exact IH|apply rsum_abs]|]. apply dot_bound_S; [apply rsum_nonneg; intros; apply Rabs_pos|apply Rabs_pos].
Qed.
Lemma msum_fits fuse (x y : nat -> binary64) n : (forall k, (k < n)%nat -> b64_finite (x k) = true /\ b64_finite (y k) = true) ->
  rsum n (fun k => Rabs (b64_R (x k) * b64_R (y k))) + dot_bound n (rsum n (fun k => Rabs (b64_R (x k) * b64_R (y k)))) <= bpow radix2 1023 -> b64_finite (msum fuse x y n) = true.
Proof.
  induction n as [|n IH]; intros HF HB; [reflexivity|].
  rewrite rsum_S in HB. set (t := b64_R (x n) * b64_R (y n)) in *. set (a := rsum n (fun k => Rabs (b64_R (x k) * b64_R (y k)))) in *.
  assert (Ha : 0 <= a) by (apply rsum_nonneg; intros; apply Rabs_pos). pose proof (Rabs_pos t) as Ht.
  pose proof (dot_bound_S n a (Rabs t) Ha Ht) as HS. pose proof u64_pos as Hu. pose proof eta64_pos as He. pose proof (dot_bound_nonneg n a Ha) as Hd.
  assert (0 <= u64 * Rabs t) by (apply Rmult_le_pos; lra). assert (0 <= a * u64) by (apply Rmult_le_pos; lra). assert (0 <= dot_bound n a * u64) by (apply Rmult_le_pos; lra).
  assert (0 <= (u64 * Rabs t + eta64) * u64) by (apply Rmult_le_pos; lra).
  assert (Fs : b64_finite (msum fuse x y n) = true) by (apply IH; [intros k Hk; apply HF; lia|fold a; lra]).
  destruct (HF n ltac:(lia)) as (Fx & Fy). pose proof (msum_error fuse x y n Fs) as G1. fold a in G1.
  assert (G2 : Rabs (rsum n (fun k => b64_R (x k) * b64_R (y k))) <= a) by apply rsum_abs.
  set (S := rsum n (fun k => b64_R (x k) * b64_R (y k))) in *. rewrite msum_S. unfold mul_add. destruct (fuse n).
  - apply fma_fits; [exact Fx|exact Fy|exact Fs|]. fold t. replace (t + b64_R (msum fuse x y n)) with ((b64_R (msum fuse x y n) - S) + (S + t)) by ring.
    eapply Rle_trans; [apply Rabs_triang|]. pose proof (Rabs_triang S t). lra.
  - assert (Fm : b64_finite (b64_mult mode_NE (x n) (y n)) = true) by (apply mult_fits; [exact Fx|exact Fy|]; fold t; lra).
    apply plus_fits; [exact Fs|exact Fm|]. destruct (mult_exact _ _ Fm) as (_ & _ & EM). pose proof (rnd_error t) as HP. fold t in EM. rewrite <- EM in HP.
    replace (b64_R (msum fuse x y n) + b64_R (b64_mult mode_NE (x n) (y n))) with ((b64_R (msum fuse x y n) - S) + ((b64_R (b64_mult mode_NE (x n) (y n)) - t) + (S + t))) by ring.
    eapply Rle_trans; [apply Rabs_triang|]. eapply Rle_trans; [apply Rplus_le_compat; [exact G1|apply Rabs_triang]|].
    eapply Rle_trans; [apply Rplus_le_compat_l, Rplus_le_compat; [exact HP|apply Rabs_triang]|]. lra.
Qed.

(** ** Dot *)
Definition fz (fuse : Z -> Z -> Z -> bool) (i j k : nat) : bool := fuse (Z.of_nat i) (Z.of_nat j) (Z.of_nat k).
Definition pdot_fused fuse (r k c : nat) (A B : pm BN) : pm BN := mk r c (fun i j => msum (fz fuse i j) (fun n => entry A i n) (fun n => entry B n j) k : BN).
Lemma wp_Dot_fused fuse (s : state BN) m b rs rs2 r k c (A B : pm BN) : own s m rs r k A -> own s b rs2 k c B -> (1 <= r)%nat -> (1 <= c)%nat ->
  wp (Dot_fused L fuse m b) s (fresh_result s r c (pdot_fused fuse r k c A B)).
Proof.
  intros HO HO2 Hr Hc. unfold Dot_fused. own_dims. rewrite !Z.eqb_refl. cbn [negb].
  eapply wp_tabulate; auto.
  - intros i j s1 Hi Hj HE.
    rewrite for_acc_read with (f := fun n a => mul_add (fz fuse i j n) a (entry A i n) (entry B n j)).
    + reflexivity.
    + intros n a Hn. erewrite bind_eq by (eapply getc_ext; eauto).
      erewrite bind_eq by (eapply getc_ext; eauto). reflexivity.
  - intros m' rs' s' HM HE. exists rs'. auto.
Qed.
Lemma dot_fused fuse (s : state BN) m b rs rs2 r k c (A B : pm BN) : own s m rs r k A -> own s b rs2 k c B -> (1 <= r)%nat -> (1 <= c)%nat ->
  returns (Dot_fused L fuse m b) s (fun out s' => exists rs' (D : pm BN), own s' out rs' r c D /\
    forall i j, (i < r)%nat -> (j < c)%nat ->
      let exact := rsum k (fun n => b64_R (entry A i n) * b64_R (entry B n j)) in
      let size := rsum k (fun n => Rabs (b64_R (entry A i n) * b64_R (entry B n j))) in
      (b64_finite (entry D i j) = true -> Rabs (b64_R (entry D i j) - exact) <= dot_bound k size) /\
      ((forall n, (n < k)%nat -> b64_finite (entry A i n) = true /\ b64_finite (entry B n j) = true) -> size + dot_bound k size <= 2 ^ 1023 ->
       b64_finite (entry D i j) = true)).
Proof.
  intros HA HB Hr Hc. apply returns_wp. eapply wp_conseq; [eapply wp_Dot_fused; eassumption|]. cbv beta. intros out s' H. unfold fresh_result in H. destruct H as (rs' & HM & _).
  exists rs', (pdot_fused fuse r k c A B). split; [apply HM|]. intros i j Hi Hj. cbv zeta. unfold pdot_fused. rewrite entry_mk by assumption. split.
  - intros HF. apply msum_error. exact HF.
  - intros HF HS. apply msum_fits; [exact HF|]. rewrite <- pow_1023. exact HS.
Qed.
End Sums.

(** ** Layers *)
Section Layers.
Context (L : libm).
Notation BN := (B64 L).
Definition paff_fused fuse (p : player BN) (r : nat) (X : pm BN) : pm BN :=
  mk r (p_out p) (fun i j => fadd (entry (pdot_fused L fuse r (p_in p) (p_out p) X (p_w p)) i j) (entry (p_b p) 0 j)).
Lemma wp_affine_fused fuse (s : state BN) l rw rb p x rsx r X :
  lown s l rw rb p -> own s x rsx r (p_in p) X -> (1 <= r)%nat ->
  wp (affine_fused L fuse l x) s (fresh_result s r (p_out p) (paff_fused fuse p r X)).
Proof.
  intros (H1&H2&H3&H4&H5&H6&H7&HW&HB) HX Hr. unfold affine_fused.
  rewrite (own_cols _ _ _ _ _ _ HX), H2, Z.eqb_refl. cbn [negb]. apply wp_bind.
  eapply wp_conseq; [eapply wp_Dot_fused; eauto|]. intros out s1 (rso & (HO & HFr & HND & Hno) & HE).
  assert (HB1 : own s1 (l_b l) rb 1 (p_out p) (p_b p)) by (eauto using own_ext).
  assert (HD : disjoint rb rso) by (eapply (disjoint_old_fresh s); [exact (own_old _ _ _ _ _ _ HB)|exact HFr]).
  apply wp_bind. eapply wp_conseq.
  - eapply wp_inplace with (f := fun i j => fadd (entry (pdot_fused L fuse r (p_in p) (p_out p) X (p_w p)) i j) (entry (p_b p) 0 j)); eauto.
    intros i j s2 A1 Hi Hj HO2 HF2 HR2 HEq.
    assert (HB2 : own s2 (l_b l) rb 1 (p_out p) (p_b p)) by (eapply own_frame; eauto).
    apply wp_bind. eapply wp_eq; [eapply getc_own; eauto|].
    apply wp_bind. eapply wp_eq; [change 0%Z with (Z.of_nat 0); eapply getc_own; eauto|].
    rewrite HEq. now apply wp_setc.
  - cbv beta. intros _ s2 (HO2 & HF2 & HR2). apply wp_ret. exists rso. split; [split|].
    + exact HO2.
    + auto.
    + destruct HE as [HF1 HR1]. split; [|eapply rest_trans; eauto].
      eapply frame_fresh; eauto. eapply frame_trans; eauto. intros ? ? [[]|H]; exact H.
Qed.
Lemma wp_layer_fused fuse (s : state BN) lref l rw rb p x rsx r X :
  nth_error (h_layers s) lref = Some l -> lown s l rw rb p -> own s x rsx r (p_in p) X -> (1 <= r)%nat ->
  (p_kind p = Linear \/ p_kind p = Hidden \/ p_kind p = Dropout \/ p_kind p = Leaky) ->
  wp (layer_fused L fuse lref x) s
     (fun out s' => exists rs, fresh_mat s s' out rs r (p_out p) (pact p r (paff_fused fuse p r X)) /\
        fwd_effect s s' lref l out None /\ h_rng s' = h_rng s).
Proof.
  intros Hl HL HX Hr HK. pose proof HL as (H1&H2&H3&H4&H5&H6&H7&HW&HB).
  unfold layer_fused. apply wp_bind; eapply wp_eq; [apply get_layer_run; exact Hl|]. apply wp_bind. eapply wp_conseq; [eapply wp_affine_fused; eauto|].
  intros out s1 (rso & HM & [HF HR]). rewrite H1.
  assert (GR : p_kind p = Hidden \/ p_kind p = Dropout -> wp (put_layer lref (set_cache l out) ;; RELU out) s1
    (fun out0 s' => exists rs, fresh_mat s s' out0 rs r (p_out p) (pact p r (paff_fused fuse p r X)) /\ fwd_effect s s' lref l out0 None /\ h_rng s' = h_rng s)).
  { intros Hk. apply wp_bind. eapply wp_eq; [reflexivity|].
    eapply wp_conseq. { eapply wp_RELU; [apply own_put|]; apply HM. }
    intros out' s2 Hin.
    set (s1' := with_layers s1 (upd lref (set_cache l out) (h_layers s1))) in *.
    assert (HM' : fresh_mat s s1' out rso r (p_out p) (paff_fused fuse p r X)) by exact HM.
    assert (HF' : frame nothing s s1') by exact HF.
    pose proof Hin as (-> & _).
    destruct (inplace_fresh _ _ _ _ _ _ _ _ _ _ HM' HF' Hin) as (HM2 & HF2 & HR2).
    exists rso. destruct HR as (R1&R2&R3&R4&R5). destruct HR2 as (S1&S2&S3&S4&S5). simpl in *. split; [|split].
    - unfold pact, act1. destruct Hk as [-> | ->]; exact HM2.
    - split; [exact HF2|]. split; [unfold rest2; intuition congruence|]. rewrite S1, R1.
      unfold after_forward. rewrite H1. destruct Hk as [-> | ->]; reflexivity.
    - congruence. }
  destruct HK as [K|[K|[K|K]]]; rewrite K.
  - apply wp_ret. exists rso. destruct HR as (R1&R2&R3&R4&R5). split; [|split; [split; [exact HF|split]|exact R3]].
    + unfold pact. rewrite K. exact HM.
    + unfold rest2. auto.
    + unfold after_forward. rewrite H1, K. rewrite upd_same; auto.
  - apply GR. auto.
  - apply GR. auto.
  - apply wp_bind. eapply wp_eq; [reflexivity|].
    eapply wp_conseq. { eapply wp_LeakyRELU; [apply own_put|]; apply HM. }
    intros out' s2 Hin.
    set (s1' := with_layers s1 (upd lref (set_cache l out) (h_layers s1))) in *.
    assert (HM' : fresh_mat s s1' out rso r (p_out p) (paff_fused fuse p r X)) by exact HM.
    assert (HF' : frame nothing s s1') by exact HF.
    pose proof Hin as (-> & _).
    destruct (inplace_fresh _ _ _ _ _ _ _ _ _ _ HM' HF' Hin) as (HM2 & HF2 & HR2).
    exists rso. destruct HR as (R1&R2&R3&R4&R5). destruct HR2 as (S1&S2&S3&S4&S5). simpl in *. split; [|split].
    + unfold pact, act1. rewrite K. rewrite <- H4. exact HM2.
    + split; [exact HF2|]. split; [unfold rest2; intuition congruence|]. rewrite S1, R1.
      unfold after_forward. rewrite H1, K. reflexivity.
    + congruence.
Qed.
Lemma fused_within fuse p r (X : pm BN) (Y E : pm RNum) : finite_layer L p -> within L r (p_in p) X Y E -> layer_fits L p r Y E ->
  within L r (p_out p) (pact p r (paff_fused fuse p r X)) (pforward (exact_layer L p) r Y) (layer_err L p r Y E).
Proof.
  intros HP HX HF. apply act_within; [exact HP|exact HF|]. intros i j Hi Hj. pose proof (size_le L p r X Y E i j HX Hi) as Ha. pose proof (HF i j Hi Hj) as HF'. cbv zeta in HF'. destruct HF' as (HF' & _).
  pose proof (dot_bound_mono (p_in p) _ _ Ha) as Hd. pose proof (Rabs_pos (b64_R (entry (p_b p) 0 j))) as Hb0. rewrite pow_1023 in HF'.
  unfold paff_fused. rewrite !(entry_mk (K := BN)) by assumption. unfold pdot_fused. rewrite !(entry_mk (K := BN)) by assumption.
  set (s := msum (fz fuse i j) (fun n => entry X i n) (fun n => entry (p_w p) n j) (p_in p)).
  assert (Fs : b64_finite s = true).
  { apply msum_fits; [|cbv beta; lra]. intros n Hn. destruct HP as (_ & _ & HW & _). split; [apply (HX i n Hi Hn)|apply (HW n j Hn Hj)]. }
  apply (bias_within L p r X Y E i j s HP HX HF Hi Hj Fs). apply msum_error. exact Fs.
Qed.

(** ** Models *)
Lemma go_nth_some {A} (l : list A) k a (s : state BN) : nth_error l k = Some a -> go_nth l (Z.of_nat k) s = (Ret a, s).
Proof.
  intros H. assert (k < length l)%nat by (apply nth_error_Some; rewrite H; discriminate). unfold go_nth.
  replace ((0 <=? Z.of_nat k)%Z && (Z.of_nat k <? Z.of_nat (length l))%Z) with true by (symmetry; apply andb_true_intro; split; lia). rewrite Nat2Z.id, H. reflexivity.
Qed.
Definition fused_inv (s : state BN) (es : list (lent BN)) (r o : nat) (Y E : pm RNum) (k : nat) (acc : list matrix * matrix) (s' : state BN) : Prop :=
  length (fst acc) = S k /\ nth_error (fst acc) k = Some (snd acc) /\ List.Forall (lok s') es /\
  exists w rs (P : pm BN) (Yk Ek : pm RNum), own s' (snd acc) rs r w P /\ within L r w P Yk Ek /\ chain w (skipn k (net es)) o /\ net_fits L (skipn k (net es)) r Yk Ek /\
    pnet (map (exact_layer L) (skipn k (net es))) r Yk = pnet (map (exact_layer L) (net es)) r Y /\ net_err L (skipn k (net es)) r Yk Ek = net_err L (net es) r Y E.
Lemma forward_fused fuse (s : state BN) m es i o x rsx r (X : pm BN) (Y E : pm RNum) : consistent s m es i o ->
  own s x rsx r i X -> (1 <= r)%nat -> List.Forall (finite_layer L) (net es) -> within L r i X Y E -> net_fits L (net es) r Y E ->
  wp (Forward_fused L fuse m x) s (fun outs s' => exists out rs P, nth_error outs (length es) = Some out /\ own s' out rs r o P /\
    within L r o P (pnet (map (exact_layer L) (net es)) r Y) (net_err L (net es) r Y E)).
Proof.
  intros (HL & HS & Hi & Ho & HC & HLo) Hx Hr HP HX HF. unfold Forward_fused. apply wp_bind. rewrite HL, HS.
  apply wp_for_acc with (I := fused_inv s es r o Y E).
  - split; [reflexivity|]. split; [reflexivity|]. split; [exact HLo|]. exists i, rsx, X, Y, E. auto 10.
  - intros k acc s1 Hk (A1 & A2 & A3 & w & rs & P & Yk & Ek & B1 & B2 & B3 & B4 & B5 & B6).
    destruct (nth_error es k) as [e|] eqn:En; [|apply nth_error_None in En; lia].
    assert (Esk : skipn k (net es) = e_p e :: skipn (S k) (net es)).
    { unfold net. rewrite !skipn_map. assert (D : skipn k es = e :: skipn (S k) es); [|rewrite D; reflexivity].
      clear - En. revert k En. induction es as [|b t IH]; intros [|k] En; cbn in En; try discriminate; [injection En as <-; reflexivity|]. apply (IH k En). }
    rewrite Esk in *. destruct B3 as (<- & B3). destruct B4 as (B4 & B4').
    apply wp_bind. eapply wp_eq.
    { apply go_nth_some. rewrite nth_error_map, En. reflexivity. }
    assert (Le : lok s1 e) by (eapply (proj1 (Forall_forall _ _)); [exact A3|]; eapply nth_error_In; exact En). destruct Le as (l & Hl & Hlo).
    assert (Pe : finite_layer L (e_p e)) by (eapply (proj1 (Forall_forall _ _)); [exact HP|]; unfold net; apply in_map; eapply nth_error_In; exact En).
    apply wp_bind. eapply wp_conseq; [eapply wp_layer_fused; [exact Hl|exact Hlo|exact B1|exact Hr|apply Pe]|].
    intros out s2 (rs2 & HM & (G1 & G2 & G3) & G4). apply wp_ret. unfold fused_inv. cbn [fst snd].
    split; [rewrite app_length, A1; cbn; lia|]. split; [rewrite nth_error_app2 by lia; rewrite A1, Nat.sub_diag; reflexivity|].
    split. { eapply List.Forall_impl; [|exact A3]. intros e' He'. eapply lok_kept; [exact He'|exact G1| |]. 1: eapply layers_kept_upd; eauto. all: auto. }
    exists (p_out (e_p e)), rs2, (pact (e_p e) r (paff_fused (fuse (Z.of_nat k)) (e_p e) r P)), (pforward (exact_layer L (e_p e)) r Yk), (layer_err L (e_p e) r Yk Ek).
    split; [apply HM|]. split; [apply fused_within; assumption|]. split; [exact B3|]. split; [exact B4'|]. split; [exact B5|exact B6].
  - intros acc s1 (A1 & A2 & A3 & w & rs & P & Yk & Ek & B1 & B2 & B3 & B4 & B5 & B6). apply wp_ret.
    assert (Esk : skipn (length es) (net es) = []) by (apply skipn_all2; unfold net; rewrite map_length; lia). rewrite Esk in *. cbn in B3, B5, B6. subst w Yk Ek.
    exists (snd acc), rs, P. auto.
Qed.
Lemma predict_fused fuse (s : state BN) m es i o x rsx r (X : pm BN) (Y E : pm RNum) : consistent s m es i o -> (1 <= length es)%nat -> m_acctype m = 0%Z ->
  own s x rsx r i X -> (1 <= r)%nat -> List.Forall (finite_layer L) (net es) -> within L r i X Y E -> net_fits L (net es) r Y E ->
  returns (Predict_fused L fuse m x) s (fun out s' => exists rs P, own s' out rs r o P /\
    within L r o P (pnet (map (exact_layer L) (net es)) r Y) (net_err L (net es) r Y E)).
Proof.
  intros HC HL HT HO Hr HP HX HF. apply returns_wp. unfold Predict_fused. apply wp_bind. eapply wp_conseq; [eapply forward_fused; eassumption|].
  intros outs s1 (out & rs & P & Hn & HO1 & HW). rewrite HT. cbn [Z.eqb]. destruct HC as (_ & HS & _). rewrite HS. eapply wp_eq.
  { apply go_nth_some. exact Hn. }
  exists rs, P. auto.
Qed.
Lemma class_fused fuse (s : state BN) m es i o x rsx r (X : pm BN) (Y E : pm RNum) : consistent s m es i o -> (1 <= length es)%nat -> m_acctype m = 1%Z ->
  own s x rsx r i X -> (1 <= r)%nat -> List.Forall (finite_layer L) (net es) -> within L r i X Y E -> net_fits L (net es) r Y E ->
  returns (Predict_fused L fuse m x) s (fun out s' => exists rs P, own s' out rs r 1 P /\
    forall a c, (a < r)%nat -> wins o (pnet (map (exact_layer L) (net es)) r Y) (net_err L (net es) r Y E) a c -> entry P a 0 = ofZ (Z.of_nat c)).
Proof.
  intros HC HL HT HO Hr HP HX HF. apply returns_wp. unfold Predict_fused. apply wp_bind. eapply wp_conseq; [eapply forward_fused; eassumption|].
  intros outs s1 (out & rs & P & Hn & HO1 & HW). rewrite HT. cbn [Z.eqb]. pose proof HC as (_ & HS & _). rewrite HS. apply wp_bind. eapply wp_eq.
  { apply go_nth_some. exact Hn. }
  eapply wp_conseq; [eapply wp_RowMax; eauto|]. intros v s2 (rs2 & (HO2 & _) & _). exists rs2, (row_max r o P). split; [exact HO2|].
  intros a c Ha Hw. unfold row_max. rewrite entry_mk by (assumption || lia). do 2 f_equal. eapply scan_wins; [exact HW|exact Ha|exact Hw].
Qed.
End Layers.
