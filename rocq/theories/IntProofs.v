(** * IntProofs: Fit never overflows, and huge batch sizes mean whole batches. *)
From Coq Require Import String ZArith List Bool Arith Lia Reals Lra.
From Flocq Require Import IEEE754.Binary IEEE754.Bits Core.
From Verif Require Import Num NumR NumB64 Heap Spec Matrix Loss Network Optimizers ModelGo PureSpec Repr HeapLemmas OptSpec ModelSpec FitProofs FitFacts IntGo.
Import ListNotations.
Open Scope Z_scope.
Open Scope go_scope.

Lemma wrap64_id z : int64 z -> wrap64 z = z.
Proof. intros H. unfold wrap64, int64 in *. rewrite Z.mod_small; lia. Qed.
Section WithNum.
Context {K : Num}.
Lemma bind_cong {A B} (m m' : M K A) (f f' : A -> M K B) s : (forall t, m t = m' t) -> (forall a t, f a t = f' a t) -> bind m f s = bind m' f' s.
Proof. intros H1 H2. unfold bind. rewrite H1. destruct (m' s) as [[a|e|p] t]; auto. Qed.
Lemma loop_cong {A} (f g : Z -> A -> M K A) : forall n i acc s, (forall j a t, i <= j < i + Z.of_nat n -> f j a t = g j a t) -> loop n i f acc s = loop n i g acc s.
Proof.
  induction n as [|n IH]; intros i acc s H; [reflexivity|]. cbn [loop]. unfold bind. rewrite (H i acc s) by lia.
  destruct (g i acc s) as [[a|e|p] t]; auto. apply IH. intros j b u Hj. apply H. lia.
Qed.
Lemma for_cong n (f g : Z -> M K unit) s : (forall j t, 0 <= j < n -> f j t = g j t) -> for_ n f s = for_ n g s.
Proof. intros H. unfold for_, for_acc. apply loop_cong. intros j [] t Hj. apply H. lia. Qed.

(** The products and sums of one batch stay in range. *)
Lemma steps_range R bs q : 0 <= R <= 2 ^ 62 -> int64 bs -> bs <> 0 -> q = Z.quot R bs ->
  int64 q /\ int64 (q * bs) /\ int64 (q + 1) /\ forall j, 0 <= j < (if q * bs <? R then q + 1 else q) -> int64 (j * bs) /\ int64 (j + 1) /\ int64 ((j + 1) * bs).
Proof.
  intros HR Hb Hn ->. unfold int64 in *. pose proof (Z.quot_rem' R bs) as HQ. pose proof (Z.rem_bound_abs R bs Hn) as HB.
  assert (HS : 0 <= Z.rem R bs). { apply Z.rem_nonneg; lia. }
  assert (Hex : exists q r, q = Z.quot R bs /\ r = Z.rem R bs) by eauto. destruct Hex as (q & r & Eq & Er). rewrite <- Eq, <- Er in *.
  assert (H1 : bs * q <= R) by lia. assert (H0 : 0 <= bs * q).
  { rewrite Eq. destruct (Z.lt_ge_cases bs 0).
    - rewrite <- (Z.opp_involutive bs) at 2. rewrite Z.quot_opp_r by lia. pose proof (Z.quot_pos R (- bs) ltac:(lia) ltac:(lia)). nia.
    - pose proof (Z.quot_pos R bs ltac:(lia) ltac:(lia)). nia. }
  assert (Hq : - 2 ^ 62 <= q <= 2 ^ 62). { nia. }
  split; [lia|]. split; [lia|]. split; [lia|]. intros j Hj.
  destruct (Z.ltb_spec (q * bs) R) as [Hl|Hl].
  - destruct (Z.lt_ge_cases bs 0) as [Hneg|Hpos].
    + assert (q <= 0) by nia. assert (Hj0 : j = 0) by lia. rewrite Hj0. lia.
    + split; [nia|]. split; [lia|]. assert ((j + 1) * bs <= q * bs + bs) by nia. destruct (Z.eq_dec q 0) as [Hq0|Hq0]; [assert (Hj0 : j = 0) by lia; rewrite Hj0; lia|].
      assert (bs <= R) by nia. nia.
  - destruct (Z.lt_ge_cases bs 0) as [Hneg|Hpos]; [nia|]. split; [nia|]. split; [lia|]. nia.
Qed.
Lemma fit_batch_ok m X Y bs j (s : state K) : int64 (m_size m) -> int64 (j * bs) -> int64 (j + 1) -> int64 ((j + 1) * bs) -> fit_batch64 m X Y bs j s = fit_batch m X Y bs j s.
Proof.
  intros Hm H1 H2 H3. unfold fit_batch64, fit_batch. cbv zeta. rewrite (wrap64_id (j + 1)), !wrap64_id by assumption.
  apply bind_cong; [reflexivity|]. intros bx t1. apply bind_cong; [reflexivity|]. intros batchX t2. apply bind_cong; [reflexivity|]. intros by_ t3.
  apply bind_cong; [reflexivity|]. intros batchY t4. apply bind_cong; [reflexivity|]. intros outs t5. apply bind_cong; [reflexivity|]. intros grads t6.
  apply for_cong. intros l t Hl. unfold int64 in *. rewrite (wrap64_id (m_size m - l)), wrap64_id by (unfold int64; lia). reflexivity.
Qed.
Lemma fit_no_overflow (m : model K) X Y epochs bs xv yv every s : int64 (m_size m) -> int64 bs -> 0 <= mrows Y <= 2 ^ 62 ->
  Fit64 m X Y epochs bs xv yv every s = Fit m X Y epochs bs xv yv every s.
Proof.
  intros Hm Hb HY. unfold Fit64, Fit. cbv zeta. apply for_cong. intros epoch t _.
  destruct (Z.eqb_spec bs 0) as [E|E]; cbn [negb].
  - apply bind_cong; [|reflexivity]. intros t'. apply for_cong. intros j u Hj. assert (j = 0) by lia. subst j. apply fit_batch_ok; auto; unfold int64; lia.
  - destruct (steps_range (mrows Y) bs _ HY Hb E eq_refl) as (R1 & R2 & R3 & R4). rewrite (wrap64_id (Z.quot _ _)), (wrap64_id (_ * _)), (wrap64_id (_ + 1)) by assumption.
    apply bind_cong; [|reflexivity]. intros t'. apply for_cong. intros j u Hj. destruct (R4 j Hj) as (A & B & C). now apply fit_batch_ok.
Qed.

(** ** Huge batch sizes *)
Lemma fit_batch_huge m X Y bs n (s : state K) : mrows Y = Z.of_nat n -> toZ (fmin (ofZ (n := K) bs) (ofZ (Z.of_nat n))) = Z.of_nat n -> toZ (fmin (ofZ (n := K) (Z.of_nat n)) (ofZ (Z.of_nat n))) = Z.of_nat n ->
  fit_batch m X Y bs 0 s = fit_batch m X Y (mrows Y) 0 s.
Proof. intros HY H1 H2. unfold fit_batch. cbv zeta. rewrite HY. replace ((0 + 1) * bs) with bs by lia. replace ((0 + 1) * Z.of_nat n) with (Z.of_nat n) by lia. rewrite H1, H2. reflexivity. Qed.
Lemma fit_huge (m : model K) X Y epochs bs xv yv every n s : mrows Y = Z.of_nat n -> (1 <= n)%nat -> Z.of_nat n <= bs ->
  toZ (fmin (ofZ (n := K) bs) (ofZ (Z.of_nat n))) = Z.of_nat n -> toZ (fmin (ofZ (n := K) (Z.of_nat n)) (ofZ (Z.of_nat n))) = Z.of_nat n ->
  Fit m X Y epochs bs xv yv every s = Fit m X Y epochs 0 xv yv every s.
Proof.
  intros HY Hn Hb H1 H2. unfold Fit. cbv zeta. apply for_cong. intros epoch t _.
  replace (bs =? 0) with false by lia. replace (0 =? 0) with true by lia. cbn [negb].
  assert (E : (if Z.quot (mrows Y) bs * bs <? mrows Y then Z.quot (mrows Y) bs + 1 else Z.quot (mrows Y) bs) = 1).
  { rewrite HY. destruct (Z.eq_dec bs (Z.of_nat n)) as [->|Ne].
    - rewrite Z.quot_same by lia. destruct (Z.ltb_spec (1 * Z.of_nat n) (Z.of_nat n)); lia.
    - rewrite Z.quot_small by lia. destruct (Z.ltb_spec (0 * bs) (Z.of_nat n)); lia. }
  rewrite E. apply bind_cong; [|reflexivity]. intros t'. apply for_cong. intros j u Hj. assert (j = 0) by lia. subst j. now apply (fit_batch_huge m X Y bs n).
Qed.
End WithNum.
Lemma R_min_huge a b : b <= a -> toZ (fmin (ofZ (n := RNum) a) (ofZ b)) = b.
Proof.
  intros H. cbn [toZ fmin ofZ RNum]. rewrite Rmin_right by (now apply IZR_le). apply Ztrunc_IZR.
Qed.
Lemma B64_min_huge L a b : 1 <= b <= 2 ^ 53 -> b <= a < 2 ^ 63 -> toZ (fmin (ofZ (n := B64 L) a) (ofZ b)) = b.
Proof.
  intros Hb Ha. cbn [toZ fmin ofZ B64]. destruct (ofZ_round a) as (A1 & A2); [lia|]. destruct (ofZ_exact b) as (B1 & B2 & B3); [lia|].
  assert (HR : (IZR b <= b64_R (b64_ofZ a))%R).
  { rewrite A2. rewrite <- B2. unfold b64_R. rewrite <- (round_generic radix2 (FLT_exp (-1074) 53) ZnearestE (B2R 53 1024 (b64_ofZ b))).
    - apply round_le; [apply FLT_exp_valid; reflexivity|apply valid_rnd_N|]. fold (b64_R (b64_ofZ b)). rewrite B2. apply IZR_le. lia.
    - apply (generic_format_B2R 53 1024). }
  unfold b64_min. rewrite !finite_not_nan by auto.
  assert (Ia : is_minf (b64_ofZ a) = false) by (destruct (b64_ofZ a); auto; discriminate).
  assert (Ib : is_minf (b64_ofZ b) = false) by (destruct (b64_ofZ b); auto; discriminate).
  rewrite Ia, Ib. cbn [orb]. rewrite (is_zero_ofZ b) by lia. replace (b =? 0) with false by lia. rewrite andb_false_r.
  assert (HL : b64_lt (b64_ofZ a) (b64_ofZ b) = false).
  { unfold b64_lt, b64_compare. rewrite Bcompare_correct by auto. change (B2R 53 1024) with b64_R. rewrite B2. destruct (Rcompare_spec (b64_R (b64_ofZ a)) (IZR b)); auto. lra. }
  rewrite HL. apply (B64_int_faithful L). unfold small_int. lia.
Qed.
Lemma fit_huge_float L (m : model (B64 L)) X Y epochs bs xv yv every n s : mrows Y = Z.of_nat n -> (1 <= n)%nat -> Z.of_nat n <= 2 ^ 53 -> Z.of_nat n <= bs -> int64 bs ->
  Fit m X Y epochs bs xv yv every s = Fit m X Y epochs 0 xv yv every s.
Proof. intros HY Hn H53 Hb (_ & Hb2). apply (fit_huge m X Y epochs bs xv yv every n s HY Hn Hb); apply B64_min_huge; lia. Qed.
Lemma fit_any_batch L s (m : model (B64 L)) es xs i o k x rsx y rsy n X Y epochs bs xv yv :
  0 <= bs -> int64 bs -> (1 <= n)%nat -> Z.of_nat n <= 2 ^ 51 -> Z.of_nat (length es) < 2 ^ 63 ->
  trainable s m es xs i o k -> data_ok s es x rsx y rsy n i o X Y ->
  returns (Fit64 m x y epochs bs xv yv 0) s (fun _ s' =>
    let tq := ptrain_on k o (trainer es xs) (r_uni (h_rng s)) (r_upos (h_rng s)) (epochs_of (Z.to_nat epochs) (batch_rows n bs) X Y) in
    exists nn, snd tq = (r_upos (h_rng s) + nn)%nat /\ train_result s s' m es xs i o k (fst tq) nn [] /\
      own s' x rsx n i X /\ own s' y rsy n o Y).
Proof.
  intros H0 Hb Hn H51 Hes HT HD.
  assert (HY : mrows y = Z.of_nat n) by (destruct HD as (_ & HY & _); apply HY).
  assert (HX : length X = n) by (destruct HD as (HX & _); pose proof (own_shape _ _ _ _ _ _ HX) as (E & _); exact E).
  assert (HYl : length Y = n) by (destruct HD as (_ & HYY & _); pose proof (own_shape _ _ _ _ _ _ HYY) as (E & _); exact E).
  assert (Hsz : int64 (m_size m)). { destruct HT as ((_ & Hz & _) & _). rewrite Hz. unfold int64. lia. }
  unfold returns. rewrite (fit_no_overflow m x y epochs bs xv yv 0 s Hsz Hb) by (rewrite HY; lia).
  destruct (Z.le_gt_cases bs (2 ^ 51)) as [Hs|Hl].
  - exact (fit_trains s m es xs i o k x rsx y rsy n X Y epochs bs xv yv (B64_min_faithful L) H0 ltac:(lia) Hn HT HD).
  - rewrite (fit_huge_float L m x y epochs bs xv yv 0 n s HY Hn) by (auto; lia).
    pose proof (fit_trains s m es xs i o k x rsx y rsy n X Y epochs 0 xv yv (B64_min_faithful L) ltac:(lia) ltac:(lia) Hn HT HD) as HF. cbv zeta in HF.
    assert (E : epochs_of (K := B64 L) (Z.to_nat epochs) (batch_rows n bs) X Y = epochs_of (Z.to_nat epochs) (batch_rows n 0) X Y).
    { unfold epochs_of. rewrite !chunks_whole; [reflexivity|..].
      all: try (intros ->; cbn in *; lia). all: unfold batch_rows; destruct (Z.eqb_spec bs 0); rewrite ?Z.eqb_refl; lia. }
    rewrite E. exact HF.
Qed.
