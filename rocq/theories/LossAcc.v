(** * LossAcc: a small loss bounds the errors a model makes. *)
From Coq Require Import String ZArith List Bool Arith Lia Reals Lra.
From Verif Require Import Num NumR Heap Spec Matrix Loss Network Optimizers ModelGo PureSpec Repr HeapLemmas MatrixFacts MiscFacts MiscProofs RSum LayerReal LossProofs LossReal OptSpec ModelSpec ModelProofs ModelFacts EvalProofs ModelRefute MiniBatch EvalSpec EvalParts LossAccSpec.
Import ListNotations.
Open Scope R_scope.

(** ** Counting *)
Lemma miss_rows r (p : nat -> bool) (l : nat -> R) b : (1 <= r)%nat -> (forall i, (i < r)%nat -> (1 - tick (p i)) * b <= l i) ->
  (1 - INR (count_rows r p) / INR r) * b <= rsum r l / INR r.
Proof.
  intros Hr H. pose proof (EvalParts.INR_pos r Hr) as P. rewrite count_rows_sum.
  assert (E : rsum r (fun i => (1 - tick (p i)) * b) <= rsum r l) by now apply rsum_le.
  rewrite rsum_scal_r, rsum_minus, rsum_const, Rmult_1_r in E. replace ((1 - rsum r (fun i => tick (p i)) / INR r) * b) with ((INR r - rsum r (fun i => tick (p i))) * b / INR r) by (field; lra).
  apply Rmult_le_compat_r; [|exact E]. left. now apply Rinv_0_lt_compat.
Qed.
Lemma miss_cells r c (p : nat -> nat -> bool) (l : nat -> nat -> R) b : (1 <= r)%nat -> (1 <= c)%nat -> (forall i j, (i < r)%nat -> (j < c)%nat -> (1 - tick (p i j)) * b <= l i j) ->
  (1 - INR (count_cells r c p) / INR (r * c)) * b <= rsum r (fun i => rsum c (l i)) / INR (r * c).
Proof.
  intros Hr Hc H. pose proof (EvalParts.INR_pos r Hr) as P. pose proof (EvalParts.INR_pos c Hc) as P'. rewrite count_cells_sum, mult_INR.
  assert (E : rsum r (fun i => rsum c (fun j => (1 - tick (p i j)) * b)) <= rsum r (fun i => rsum c (l i))) by (apply rsum_le; intros i Hi; apply rsum_le; auto).
  rewrite (rsum_ext r _ (fun i => (INR c - rsum c (fun j => tick (p i j))) * b)) in E.
  2: { intros i Hi. rewrite rsum_scal_r, rsum_minus, rsum_const, Rmult_1_r. reflexivity. }
  rewrite rsum_scal_r, rsum_minus, rsum_const in E. pose proof (Rmult_lt_0_compat _ _ P P') as PP.
  replace ((1 - rsum r (fun i => rsum c (fun j => tick (p i j))) / (INR r * INR c)) * b) with ((INR r * INR c - rsum r (fun i => rsum c (fun j => tick (p i j)))) * b / (INR r * INR c)) by (field; lra).
  apply Rmult_le_compat_r; [|exact E]. left. now apply Rinv_0_lt_compat.
Qed.

(** ** Single samples *)
Lemma half_ln x : 0 < x <= 1 / 2 -> ln 2 <= - ln x.
Proof.
  intros [H1 H2]. rewrite <- ln_Rinv by exact H1. destruct (Rle_lt_or_eq_dec _ _ H2) as [H | ->]; [|right; f_equal; lra].
  left. apply ln_increasing; [lra|]. rewrite <- (Rinv_inv 2). apply Rinv_lt_contravar; [|lra]. apply Rmult_lt_0_compat; lra.
Qed.
Lemma ln2_pos : 0 < ln 2. Proof. rewrite <- ln_1. apply ln_increasing; lra. Qed.
Lemma pos_ln x : 0 < x <= 1 -> 0 <= - ln x.
Proof. intros H. pose proof (ln_le_0 x H). lra. Qed.
(** A probability that is not the largest is at most a half. *)
Lemma second_half c (g : nat -> R) : (forall j, (j < c)%nat -> 0 < g j) -> rsum c g = 1 -> forall t a, (t < c)%nat -> (a < c)%nat -> a <> t -> g t <= g a -> g t <= 1 / 2.
Proof.
  intros HP HS t a Ht Ha Hn Hle.
  assert (E : rsum c (fun j => (if (t =? j)%nat then g j else 0) + (if (a =? j)%nat then g j else 0)) <= rsum c g).
  { apply rsum_le. intros j Hj. pose proof (HP j Hj). destruct (t =? j)%nat eqn:E1; destruct (a =? j)%nat eqn:E2; try lra. apply Nat.eqb_eq in E1, E2. congruence. }
  rewrite rsum_plus, (rsum_delta c t g Ht), (rsum_delta c a g Ha) in E. lra.
Qed.
(** The class with the largest probability. *)
Lemma softmax_miss r c (Z : rpm) (y : nat -> R) i t : (i < r)%nat -> (t < c)%nat -> (forall j, (j < c)%nat -> y j = if (t =? j)%nat then 1 else 0) ->
  (1 - tick (feq (n := RNum) (y (fst (scan_max (K := RNum) c (entry (psoftmax (K := RNum) r c Z) i)))) 1)) * ln 2 <= - ln (entry (psoftmax (K := RNum) r c Z) i t).
Proof.
  intros Hi Ht HY. set (g := entry (psoftmax (K := RNum) r c Z) i). assert (HP : forall j, (j < c)%nat -> 0 < g j) by (intros j Hj; now apply R_softmax_pos).
  assert (HS : rsum c g = 1) by (apply R_softmax_sum; lia).
  destruct (scan_max_argmax (K := RNum) (fun _ => True) c g RNum_weak_order I (fun _ _ => I)) as (A1 & A2 & _).
  { exists t. split; [exact Ht|]. apply r_ltb_true. now apply HP. }
  cbv zeta in *. set (a := fst (scan_max (K := RNum) c g)) in *. pose proof ln2_pos as P2.
  assert (P1 : g t <= 1). { rewrite <- HS. apply (rsum_term_le c g t); [|exact Ht]. intros j Hj. left. now apply HP. }
  destruct (Nat.eq_dec a t) as [Ea | Na].
  - rewrite (HY a A1), Ea, Nat.eqb_refl. assert (F : feq (n := RNum) 1 1 = true) by now apply r_eqb_true. rewrite F. cbn [tick]. pose proof (pos_ln (g t) (conj (HP t Ht) P1)). lra.
  - rewrite (HY a A1). assert (F : (t =? a)%nat = false) by (apply Nat.eqb_neq; congruence). rewrite F. assert (F' : feq (n := RNum) 0 1 = false). { apply r_eqb_false. lra. }
    rewrite F'. cbn [tick]. assert (HL : g t <= g a). { apply r_ltb_false. now apply A2. }
    pose proof (half_ln (g t) (conj (HP t Ht) (second_half c g HP HS t a Ht A1 Na HL))). lra.
Qed.

Lemma sigmoid_miss p y : 0 < p < 1 -> y = 0 \/ y = 1 ->
  (1 - tick (feq (n := RNum) (binary1 (K := RNum) p) y)) * ln 2 <= - (y * ln p + (1 - y) * ln (1 - p)).
Proof.
  intros HP HY. pose proof ln2_pos as P2. pose proof (pos_ln p ltac:(lra)). pose proof (pos_ln (1 - p) ltac:(lra)).
  assert (HB : (p < 1 / 2 /\ binary1 (K := RNum) p = 0) \/ (1 / 2 <= p /\ binary1 (K := RNum) p = 1)).
  { unfold binary1. change (lit_half (K := RNum)) with (1 / 2). change (flt (n := RNum)) with r_ltb. destruct (r_ltb p (1 / 2)) eqn:E; [left | right]; (split; [|reflexivity]); [now apply r_ltb_true|now apply r_ltb_false]. }
  assert (F1 : forall z : R, feq (n := RNum) z z = true) by (intros z; now apply r_eqb_true).
  assert (F2 : feq (n := RNum) 0 1 = false) by (apply r_eqb_false; lra). assert (F3 : feq (n := RNum) 1 0 = false) by (apply r_eqb_false; lra).
  destruct HB as [(B1 & ->) | (B1 & ->)], HY as [-> | ->]; rewrite ?F1, ?F2, ?F3; cbn [tick].
  - lra.
  - pose proof (half_ln p ltac:(lra)). lra.
  - pose proof (half_ln (1 - p) ltac:(lra)). lra.
  - lra.
Qed.

(** ** Matrices *)
Lemma ce_bound r c (Z Y : rpm) : (1 <= r)%nat -> classes r c Y ->
  (1 - categorical_accuracy (K := RNum) r c (psoftmax (K := RNum) r c Z) Y) * ln 2 <= pce (K := RNum) r c (psoftmax (K := RNum) r c Z) Y.
Proof.
  intros Hr HY. unfold categorical_accuracy. cbn [fdiv RNum]. rewrite !ofZ_INR, R_pce, rsum_div. apply miss_rows; [exact Hr|]. intros i Hi. destruct (HY i Hi) as (t & Ht & HE).
  change (f1 (K := RNum)) with 1. rewrite (onehot_dot c (fun j => entry Y i j) t (fun j => clipR (entry (psoftmax (K := RNum) r c Z) i j)) Ht HE).
  rewrite clipR_id. 2: { split; [left; now apply R_softmax_pos|]. rewrite <- (R_softmax_sum r c Z i Hi) by lia. apply (rsum_term_le c (fun j => entry (psoftmax (K := RNum) r c Z) i j) t); [|exact Ht]. intros j Hj. left. now apply R_softmax_pos. }
  now apply softmax_miss.
Qed.
Lemma bce_bound r c (P Y : rpm) : (1 <= r)%nat -> (1 <= c)%nat -> yes_no r c Y -> (forall i j, (i < r)%nat -> (j < c)%nat -> 0 < entry P i j < 1) ->
  (1 - binary_accuracy (K := RNum) r c P Y) * ln 2 <= pbce (K := RNum) r c P Y.
Proof.
  intros Hr Hc HY HP. pose proof (EvalParts.INR_pos r Hr). pose proof (EvalParts.INR_pos c Hc). unfold binary_accuracy. cbn [fdiv RNum]. rewrite !ofZ_INR, R_pbce.
  rewrite (rsum_ext r _ (fun i => rsum c (fun j => - (entry Y i j * ln (clipR (entry P i j)) + (1 - entry Y i j) * ln (1 - clipR (entry P i j)))) / INR (r * c))).
  2: { intros i Hi. rewrite <- rsum_div. apply rsum_ext. intros j Hj. rewrite mult_INR. field. lra. }
  rewrite rsum_div. apply miss_cells; [exact Hr|exact Hc|]. intros i j Hi Hj. rewrite clipR_id by (specialize (HP i j Hi Hj); lra). apply sigmoid_miss; auto.
Qed.
Lemma near_miss d prec : 0 <= prec -> (1 - tick (flt (n := RNum) (Rabs d) prec)) * prec <= Rabs d /\ (1 - tick (flt (n := RNum) (Rabs d) prec)) * prec ^ 2 <= d ^ 2.
Proof.
  intros HP. pose proof (Rabs_pos d). change (flt (n := RNum)) with r_ltb. destruct (r_ltb (Rabs d) prec) eqn:E; cbn [tick].
  - split; [lra|]. pose proof (pow2_ge_0 d). lra.
  - apply r_ltb_false in E. split; [lra|]. rewrite <- (pow2_abs d). pose proof (pow_incr prec (Rabs d) 2 (conj HP E)). lra.
Qed.
Lemma near_bound k c prec (P Y : rpm) : (1 <= c)%nat -> 0 <= prec -> k = MSE \/ k = MAE ->
  (1 - regression_accuracy (K := RNum) 1 c P Y prec) * (match k with MSE => prec ^ 2 | _ => prec end) <= ploss (K := RNum) k 1 c P Y.
Proof.
  intros Hc HP HK. unfold regression_accuracy. cbn [fdiv RNum]. rewrite !ofZ_INR. destruct HK as [-> | ->]; unfold ploss.
  - rewrite R_pmse. replace (INR c) with (INR (1 * c)) by (f_equal; lia). rewrite <- (rsum_1 (fun i => rsum c (fun j => (entry P i j - entry Y i j) ^ 2))). apply miss_cells; [lia|exact Hc|]. intros i j Hi Hj. now apply near_miss.
  - rewrite R_pmae. replace (INR c) with (INR (1 * c)) by (f_equal; lia). rewrite <- (rsum_1 (fun i => rsum c (fun j => Rabs (entry P i j - entry Y i j)))). apply miss_cells; [lia|exact Hc|]. intros i j Hi Hj. now apply near_miss.
Qed.

(** ** The code *)
Section Code.
Variables (s : state RNum) (m : model RNum) (es : list (lent RNum)) (i o : nat) (x : matrix) (rsx : list nat) (y : matrix) (rsy : list nat) (n : nat) (X Y : rpm).
Hypothesis HC : consistent s m es i o.
Hypothesis HL : (1 <= length es)%nat.
Hypothesis Ho : (Z.of_nat o <= 2 ^ 53)%Z.
Hypothesis HX : own s x rsx n i X.
Hypothesis HY : own s y rsy n o Y.
Hypothesis Hn : (1 <= n)%nat.
Lemma both k a : m_loss m = Some (MkLoss k (Z.of_nat o)) -> paccuracy (K := RNum) (m_acctype m) (m_prec m) n o (pnet (net es) n X) Y = Some a ->
  exists s1 s2, CalculateAccuracy m x y s = (Ret a, s1) /\ CalculateLoss m x y s = (Ret (ploss (K := RNum) k n o (pnet (net es) n X) Y), s2).
Proof.
  intros Hk Ha. destruct (returns_wp _ _ _ (wp_CalculateAccuracy s m es i o x rsx y rsy n X Y a RNum_int_faithful Ho HC HL Ha HX HY Hn)) as (v1 & s1 & E1 & -> & _).
  destruct (returns_wp _ _ _ (wp_CalculateLoss s m es i o k x rsx y rsy n X Y HC HL Hk HX HY Hn)) as (v2 & s2 & E2 & -> & _).
  exists s1, s2. now split.
Qed.
Lemma ends k : ends_with k es -> exists p Z, p_kind p = k /\ p_out p = o /\ pnet (net es) n X = pact p n Z.
Proof.
  intros (es0 & e & -> & HK). exists (e_p e). eexists. split; [exact HK|]. split.
  - pose proof (proj1 (proj2 (proj2 (proj2 (proj2 HC))))) as H. unfold net in H. rewrite map_app in H. clear -H. revert H. generalize i. induction (map e_p es0) as [|p ps IH]; intros j H; [apply H|]. apply (IH _ (proj2 H)).
  - unfold net, pnet. rewrite map_app, fold_left_app. cbn [map fold_left]. unfold pforward at 1. reflexivity.
Qed.
Lemma no_miss (p : nat -> bool) l : (1 - INR (count_rows n p) / INR n) * ln 2 <= l -> INR n * l < ln 2 -> INR (count_rows n p) / INR n = 1.
Proof.
  intros H H'. pose proof (EvalParts.INR_pos n Hn) as P. pose proof ln2_pos as P2.
  assert (HU : (count_rows n p <= n)%nat). { unfold count_rows. rewrite <- (seq_length n 0) at 2. induction (seq 0 n) as [|q l' IH]; [simpl; lia|]. cbn [filter]. destruct (p q); cbn [length]; lia. }
  assert (E : (INR n - INR (count_rows n p)) * ln 2 < 1 * ln 2).
  { eapply Rle_lt_trans; [|rewrite Rmult_1_l; exact H']. replace ((INR n - INR (count_rows n p)) * ln 2) with (INR n * ((1 - INR (count_rows n p) / INR n) * ln 2)) by (field; lra). apply Rmult_le_compat_l; lra. }
  apply Rmult_lt_reg_r in E; [|exact P2]. assert (HN : count_rows n p = n).
  { destruct (Nat.eq_dec (count_rows n p) n) as [?|N]; [assumption|]. exfalso. rewrite <- minus_INR in E by exact HU. change 1 with (INR 1) in E. apply INR_lt in E. lia. }
  rewrite HN. field. lra.
Qed.
Lemma ce_code : m_loss m = Some (MkLoss CE (Z.of_nat o)) -> m_acctype m = 1%Z -> ends_with SoftmaxK es -> classes n o Y ->
  exists a l s1 s2, CalculateAccuracy m x y s = (Ret a, s1) /\ CalculateLoss m x y s = (Ret l, s2) /\ (1 - a) * ln 2 <= l /\ (INR n * l < ln 2 -> a = 1).
Proof.
  intros Hk Ha HE HCl. destruct (both CE (categorical_accuracy (K := RNum) n o (pnet (net es) n X) Y) Hk) as (s1 & s2 & E1 & E2); [rewrite Ha; reflexivity|].
  do 2 eexists. exists s1, s2. split; [exact E1|]. split; [exact E2|]. destruct (ends SoftmaxK HE) as (p & Z & HP & HO & EN).
  rewrite EN. unfold pact. rewrite HP, HO. unfold ploss. pose proof (ce_bound n o Z Y Hn HCl) as HB. split; [exact HB|].
  unfold categorical_accuracy in HB |- *. cbn [fdiv RNum] in HB |- *. rewrite !ofZ_INR in HB |- *. now apply no_miss.
Qed.
Lemma bce_code : m_loss m = Some (MkLoss BCE (Z.of_nat o)) -> m_acctype m = 2%Z -> ends_with SigmoidK es -> yes_no n o Y ->
  exists a l s1 s2, CalculateAccuracy m x y s = (Ret a, s1) /\ CalculateLoss m x y s = (Ret l, s2) /\ (1 - a) * ln 2 <= l.
Proof.
  intros Hk Ha HE HCl. destruct (both BCE (binary_accuracy (K := RNum) n o (pnet (net es) n X) Y) Hk) as (s1 & s2 & E1 & E2); [rewrite Ha; reflexivity|].
  do 2 eexists. exists s1, s2. split; [exact E1|]. split; [exact E2|]. destruct (ends SigmoidK HE) as (p & Z & HP & HO & EN).
  unfold ploss. apply bce_bound; auto. { apply (chain_out s es i o (proj1 (proj2 (proj2 (proj2 (proj2 HC))))) (proj2 (proj2 (proj2 (proj2 (proj2 HC))))) HL). }
  intros a j Hi Hj. rewrite EN. unfold pact. rewrite HP, HO. unfold pmap. rewrite entry_mk by auto. unfold act1. rewrite HP. apply R_sigmoid_range.
Qed.
Lemma near_code k : k = MSE \/ k = MAE -> m_loss m = Some (MkLoss k (Z.of_nat o)) -> m_acctype m = 0%Z -> n = 1%nat -> 0 <= m_prec m ->
  exists a l s1 s2, CalculateAccuracy m x y s = (Ret a, s1) /\ CalculateLoss m x y s = (Ret l, s2) /\ (1 - a) * (match k with MSE => m_prec m ^ 2 | _ => m_prec m end) <= l.
Proof.
  intros HK Hk Ha EN HP. destruct (both k (regression_accuracy (K := RNum) n o (pnet (net es) n X) Y (m_prec m)) Hk) as (s1 & s2 & E1 & E2); [rewrite Ha; reflexivity|].
  do 2 eexists. exists s1, s2. split; [exact E1|]. split; [exact E2|]. rewrite EN. apply near_bound; auto. apply (chain_out s es i o (proj1 (proj2 (proj2 (proj2 (proj2 HC))))) (proj2 (proj2 (proj2 (proj2 (proj2 HC))))) HL).
Qed.
End Code.
