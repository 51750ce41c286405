(** * Noise: no model does better than the labels allow. *)
From Coq Require Import String ZArith List Bool Arith Lia Reals Lra.
From Verif Require Import Num NumR Heap Spec Matrix Loss Network Optimizers ModelGo PureSpec Repr HeapLemmas MatrixFacts MiscFacts MiscProofs ActivationProofs RSum LayerReal LossProofs LossReal OptSpec ModelSpec ModelProofs ModelFacts EvalProofs ModelRefute MiniBatch EvalSpec EvalParts LossAccSpec LossAcc NoiseSpec.
Import ListNotations.
Open Scope R_scope.

(** ** Classes of samples *)
Section Classes.
Variables (n c : nat) (e : nat -> nat -> bool) (t : nat -> nat).
Hypothesis Refl : forall a, (a < n)%nat -> e a a = true.
Hypothesis Sym : forall a b, e a b = e b a.
Hypothesis Trans : forall a b d, e a b = true -> e a d = e b d.
Hypothesis Ht : forall a, (a < n)%nat -> (t a < c)%nat.
Definition n1 (a : nat) : R := rsum n (fun b => tick (e a b)).
Definition n2 (a : nat) : R := rsum n (fun b => tick (e a b && (t a =? t b)%nat)).
Lemma tick_pos b : 0 <= tick b. Proof. destruct b; cbn [tick]; lra. Qed.
Lemma n1_pos a : (a < n)%nat -> 1 <= n1 a.
Proof. intros Ha. replace 1 with (tick (e a a)) by now rewrite Refl. apply (rsum_term_le n (fun b => tick (e a b)) a); [intros; apply tick_pos|exact Ha]. Qed.
Lemma n2_pos a : (a < n)%nat -> 1 <= n2 a.
Proof. intros Ha. replace 1 with (tick (e a a && (t a =? t a)%nat)) by (now rewrite Refl, Nat.eqb_refl). apply (rsum_term_le n (fun b => tick (e a b && (t a =? t b)%nat)) a); [intros; apply tick_pos|exact Ha]. Qed.
Lemma n1_class a b : e a b = true -> n1 a = n1 b.
Proof. intros H. apply rsum_ext. intros d Hd. now rewrite (Trans a b d H). Qed.
(** The samples of one class and label, each with the reciprocal of their number. *)
Lemma recip_le b j : rsum n (fun a => tick (e b a && (j =? t a)%nat) / n2 a) <= 1.
Proof.
  set (S := rsum n (fun a => tick (e b a && (j =? t a)%nat))).
  assert (HN : forall a, (a < n)%nat -> tick (e b a && (j =? t a)%nat) / n2 a = tick (e b a && (j =? t a)%nat) / S).
  { intros a Ha. destruct (e b a && (j =? t a)%nat) eqn:E; [|cbn [tick]; unfold Rdiv; now rewrite !Rmult_0_l]. apply andb_true_iff in E. destruct E as (E1 & E2). apply Nat.eqb_eq in E2. subst j.
    f_equal. unfold n2, S. apply rsum_ext. intros d Hd. now rewrite (Trans b a d E1). }
  rewrite (rsum_ext n _ _ HN), rsum_div. fold S. assert (HS : 0 <= S) by (apply rsum_nonneg; intros; apply tick_pos).
  destruct (Req_EM_T S 0) as [-> | N]; [unfold Rdiv; rewrite Rmult_0_l; lra|]. right. field. exact N.
Qed.
Lemma ln_le_sub x : 0 < x -> ln x <= x - 1.
Proof. intros H. pose proof (exp_ineq1_le (ln x)) as E. rewrite exp_ln in E by exact H. lra. Qed.
(** Gibbs' inequality. *)
Lemma gibbs (P : nat -> nat -> R) : (forall a j, (a < n)%nat -> (j < c)%nat -> 0 < P a j) -> (forall a, (a < n)%nat -> rsum c (P a) = 1) ->
  (forall a b j, e a b = true -> (a < n)%nat -> (b < n)%nat -> P a j = P b j) -> rsum n (fun a => - ln (n2 a / n1 a)) <= rsum n (fun a => - ln (P a (t a))).
Proof.
  intros HP HS HE.
  assert (H : rsum n (fun a => P a (t a) / (n2 a / n1 a)) <= INR n).
  { rewrite (rsum_ext n _ (fun a => rsum n (fun b => tick (e a b) * (P a (t a) / n2 a)))).
    2: { intros a Ha. rewrite rsum_scal_r. fold (n1 a). pose proof (n1_pos a Ha). pose proof (n2_pos a Ha). field. lra. }
    rewrite rsum_swap. rewrite <- (Rmult_1_r (INR n)), <- rsum_const. apply rsum_le. intros b Hb.
    rewrite (rsum_ext n _ (fun a => rsum c (fun j => P b j * (tick (e b a && (j =? t a)%nat) / n2 a)))).
    2: { intros a Ha. rewrite (rsum_ext c _ (fun j => if (t a =? j)%nat then P b j * (tick (e b a) / n2 a) else 0)).
      - rewrite (rsum_delta c (t a) (fun j => P b j * (tick (e b a) / n2 a)) (Ht a Ha)). rewrite (Sym a b). destruct (e b a) eqn:E; cbn [tick]; [rewrite (HE b a (t a) E Hb Ha); field; pose proof (n2_pos a Ha); lra|unfold Rdiv; ring].
      - intros j Hj. rewrite (Nat.eqb_sym j (t a)). destruct (t a =? j)%nat; [now rewrite andb_true_r|]. rewrite andb_false_r. cbn [tick]. unfold Rdiv. ring. }
    rewrite rsum_swap. rewrite <- (HS b Hb). apply rsum_le. intros j Hj. rewrite rsum_scal. rewrite <- (Rmult_1_r (P b j)) at 2. apply Rmult_le_compat_l; [left; now apply HP|apply recip_le]. }
  assert (K : rsum n (fun a => - ln (n2 a / n1 a)) <= rsum n (fun a => - ln (P a (t a)) + (P a (t a) / (n2 a / n1 a) - 1))).
  { apply rsum_le. intros a Ha. pose proof (n1_pos a Ha). pose proof (n2_pos a Ha). assert (Q : 0 < n2 a / n1 a) by (apply Rdiv_lt_0_compat; lra). pose proof (HP a (t a) Ha (Ht a Ha)) as PP.
    pose proof (ln_le_sub (P a (t a) / (n2 a / n1 a)) (Rdiv_lt_0_compat _ _ PP Q)) as L. unfold Rdiv at 1 in L. rewrite ln_mult, ln_Rinv in L; [lra|exact Q|exact PP|now apply Rinv_0_lt_compat]. }
  rewrite rsum_plus, rsum_minus, rsum_const, Rmult_1_r in K. lra.
Qed.
(** A prediction that depends on the class only. *)
Lemma majority (w : nat -> nat) (B : nat -> R) : (forall a b, e a b = true -> (a < n)%nat -> (b < n)%nat -> w a = w b) ->
  (forall a b, (a < n)%nat -> (b < n)%nat -> e a b = true -> n2 b / n1 b <= B a) -> rsum n (fun a => tick (t a =? w a)%nat) <= rsum n B.
Proof.
  intros HW HB.
  rewrite (rsum_ext n (fun a => tick (t a =? w a)%nat) (fun a => rsum n (fun b => tick (e a b) * (tick (t a =? w a)%nat / n1 a)))).
  2: { intros a Ha. rewrite rsum_scal_r. fold (n1 a). pose proof (n1_pos a Ha). field. lra. }
  rewrite rsum_swap. apply rsum_le. intros b Hb.
  rewrite (rsum_ext n _ (fun a => tick (e b a && (t a =? w b)%nat) / n1 b)).
  2: { intros a Ha. rewrite (Sym a b). destruct (e b a) eqn:E; cbn [tick andb]; [|unfold Rdiv; ring]. rewrite (HW b a E Hb Ha), (n1_class b a E). lra. }
  rewrite rsum_div. destruct (find (fun a => e b a && (t a =? w b)%nat) (seq 0 n)) as [a|] eqn:EF.
  - apply find_some in EF. destruct EF as (Hin & E). apply in_seq in Hin. assert (Ha : (a < n)%nat) by lia. apply andb_true_iff in E. destruct E as (E1 & E2). apply Nat.eqb_eq in E2.
    replace (rsum n (fun i => tick (e b i && (t i =? w b)%nat))) with (n2 a). { rewrite (n1_class b a E1). now apply HB. }
    apply rsum_ext. intros d Hd. now rewrite (Trans b a d E1), <- E2, (Nat.eqb_sym (t d)).
  - assert (Z : rsum n (fun i => tick (e b i && (t i =? w b)%nat)) = 0).
    { rewrite (rsum_ext n _ (fun _ => 0)); [apply rsum_zero|]. intros d Hd. now rewrite (find_none _ _ EF d (proj2 (in_seq n 0 d) ltac:(lia))). }
    rewrite Z. unfold Rdiv. rewrite Rmult_0_l. pose proof (HB b b Hb Hb (Refl b Hb)) as HH. assert (0 < n2 b / n1 b); [|lra].
    pose proof (n1_pos b Hb). pose proof (n2_pos b Hb). apply Rdiv_lt_0_compat; lra.
Qed.
End Classes.

(** ** Rows *)
Lemma row_eq_iff u w : row_eq u w = true <-> u = w.
Proof. unfold row_eq. destruct (list_eq_dec Req_EM_T u w); split; intros; congruence. Qed.
Lemma row_eq_refl u : row_eq u u = true. Proof. now apply row_eq_iff. Qed.
Lemma row_eq_sym u w : row_eq u w = row_eq w u.
Proof. apply eq_true_iff_eq. rewrite !row_eq_iff. split; congruence. Qed.
Lemma row_eq_trans u w z : row_eq u w = true -> row_eq u z = row_eq w z.
Proof. intros H. apply row_eq_iff in H. now subst. Qed.
Section Data.
Variables (n o : nat) (X Y : pm RNum) (t : nat -> nat).
Hypothesis SY : shape (K := RNum) n o Y.
Hypothesis HT : forall a, (a < n)%nat -> (t a < o)%nat /\ forall j, (j < o)%nat -> entry Y a j = if (t a =? j)%nat then 1 else 0.
Definition ex (a b : nat) : bool := row_eq (nth a X []) (nth b X []).
Lemma label_rows a b : (a < n)%nat -> (b < n)%nat -> row_eq (nth a Y []) (nth b Y []) = (t a =? t b)%nat.
Proof.
  intros Ha Hb. destruct (HT a Ha) as (A1 & A2), (HT b Hb) as (B1 & B2). apply eq_true_iff_eq. rewrite row_eq_iff, Nat.eqb_eq. split.
  - intros E. pose proof (A2 (t a) A1) as Q. rewrite Nat.eqb_refl in Q. assert (Q' : entry Y b (t a) = 1) by (unfold entry in *; rewrite <- E; exact Q). rewrite (B2 _ A1) in Q'. destruct (t b =? t a)%nat eqn:D; [now apply Nat.eqb_eq in D|lra].
  - intros E. assert (LA : forall d, (d < n)%nat -> length (nth d Y []) = o). { intros d Hd. destruct SY as (S1 & S2). rewrite List.Forall_forall in S2. apply S2. apply nth_In. congruence. }
    apply (nth_ext _ _ (f0 : F RNum) (f0 : F RNum)); [rewrite !LA by assumption; reflexivity|]. intros j Hj. rewrite LA in Hj by assumption. pose proof (A2 j Hj) as Q. pose proof (B2 j Hj) as Q'. rewrite E in Q. unfold entry in *. now rewrite Q, Q'.
Qed.
Lemma share_n a : (a < n)%nat -> share n X Y a = n2 n ex t a / n1 n ex a.
Proof.
  intros Ha. unfold share, same_sample, same_input, n2, n1. f_equal. apply rsum_ext. intros b Hb. rewrite (label_rows a b Ha Hb). reflexivity.
Qed.
End Data.

(** ** The code *)
Lemma labels_of n o (Y : pm RNum) : classes n o Y -> exists t : nat -> nat, forall a, (a < n)%nat -> (t a < o)%nat /\ forall j, (j < o)%nat -> entry Y a j = if (t a =? j)%nat then 1 else 0.
Proof.
  unfold classes. induction n as [|k IH]; intros H; [exists (fun _ => 0%nat); intros; lia|]. destruct IH as (t & Ht); [intros a Ha; apply H; lia|]. destruct (H k ltac:(lia)) as (tk & Htk).
  exists (fun a => if (a =? k)%nat then tk else t a). intros a Ha. destruct (a =? k)%nat eqn:E; [apply Nat.eqb_eq in E; now subst|]. apply Nat.eqb_neq in E. apply Ht. lia.
Qed.
Section Code.
Variables (s : state RNum) (m : model RNum) (es : list (lent RNum)) (i o : nat) (x : matrix) (rsx : list nat) (y : matrix) (rsy : list nat) (n : nat) (X Y : pm RNum).
Hypothesis HC : consistent s m es i o.
Hypothesis HL : (1 <= length es)%nat.
Hypothesis HX : own s x rsx n i X.
Hypothesis HY : own s y rsy n o Y.
Hypothesis Hn : (1 <= n)%nat.
Hypothesis HK : classes n o Y.
Lemma equal_rows a b : (a < n)%nat -> (b < n)%nat -> ex X a b = true -> entry (pnet (net es) n X) a = entry (pnet (net es) n X) b.
Proof.
  intros Ha Hb E. apply row_eq_iff in E. unfold entry. pose proof (pnet_row (net es) n X a Ha) as A. pose proof (pnet_row (net es) n X b Hb) as B. setoid_rewrite E in A. rewrite B in A. injection A as EQ. apply (f_equal (fun l j => nth j l (f0 : F RNum)) (eq_sym EQ)).
Qed.
Lemma noise_loss : m_loss m = Some (MkLoss CE (Z.of_nat o)) -> ends_with SoftmaxK es ->
  exists l s', CalculateLoss m x y s = (Ret l, s') /\ mean n (fun a => - ln (share n X Y a)) <= l.
Proof.
  intros Hk HE. destruct (returns_wp _ _ _ (wp_CalculateLoss s m es i o CE x rsx y rsy n X Y HC HL Hk HX HY Hn)) as (v & s' & E & -> & _).
  eexists; exists s'. split; [exact E|]. destruct (labels_of n o Y HK) as (t & HT). pose proof (own_shape _ _ _ _ _ _ HY) as SY.
  destruct (ends s m es i o n X HC HL SoftmaxK HE) as (p & Z & HP & HO & EN). unfold ploss. rewrite R_pce, rsum_div. unfold mean.
  apply Rmult_le_compat_r; [left; apply Rinv_0_lt_compat, EvalParts.INR_pos, Hn|].
  rewrite (rsum_ext n (fun a => - ln (share n X Y a)) (fun a => - ln (n2 n (ex X) t a / n1 n (ex X) a))) by (intros a Ha; now rewrite (share_n n o X Y t SY HT a Ha)).
  rewrite (rsum_ext n (fun a => - ln (rsum o (fun j => clipR (entry (pnet (net es) n X) a j) * entry Y a j))) (fun a => - ln (entry (pnet (net es) n X) a (t a)))).
  2: { intros a Ha. destruct (HT a Ha) as (T1 & T2). rewrite (onehot_dot o (fun j => entry Y a j) (t a) (fun j => clipR (entry (pnet (net es) n X) a j)) T1 T2). f_equal. f_equal. rewrite EN. unfold pact. rewrite HP, HO.
    apply clipR_id. split; [left; now apply R_softmax_pos|]. rewrite <- (R_softmax_sum n o Z a Ha) by lia. apply (rsum_term_le o (fun j => entry (psoftmax (K := RNum) n o Z) a j) (t a)); [|exact T1]. intros j Hj. left. now apply R_softmax_pos. }
  apply (gibbs n o (ex X) t (fun a _ => row_eq_refl _) (fun a b => row_eq_sym _ _) (fun a b d => row_eq_trans _ _ _) (fun a Ha => proj1 (HT a Ha))).
  - intros a j Ha Hj. rewrite EN. unfold pact. rewrite HP, HO. now apply R_softmax_pos.
  - intros a Ha. destruct (HT a Ha) as (T1 & _). rewrite EN. unfold pact. rewrite HP, HO. apply R_softmax_sum; [exact Ha|lia].
  - intros a b j Hab Ha Hb. now rewrite (equal_rows a b Ha Hb Hab).
Qed.
Lemma noise_accuracy (B : nat -> R) : (Z.of_nat o <= 2 ^ 53)%Z -> m_acctype m = 1%Z ->
  (forall a b, (a < n)%nat -> (b < n)%nat -> nth a X [] = nth b X [] -> share n X Y b <= B a) ->
  exists v s', CalculateAccuracy m x y s = (Ret v, s') /\ v <= mean n B.
Proof.
  intros Ho Ha HB. assert (EA : paccuracy (K := RNum) (m_acctype m) (m_prec m) n o (pnet (net es) n X) Y = Some (categorical_accuracy (K := RNum) n o (pnet (net es) n X) Y)) by (rewrite Ha; reflexivity).
  destruct (returns_wp _ _ _ (wp_CalculateAccuracy s m es i o x rsx y rsy n X Y _ RNum_int_faithful Ho HC HL EA HX HY Hn)) as (v & s' & E & -> & _).
  eexists; exists s'. split; [exact E|]. destruct (labels_of n o Y HK) as (t & HT). pose proof (own_shape _ _ _ _ _ _ HY) as SY.
  unfold categorical_accuracy. cbn [fdiv RNum]. rewrite !ofZ_INR, count_rows_sum. unfold mean. apply Rmult_le_compat_r; [left; apply Rinv_0_lt_compat, EvalParts.INR_pos, Hn|].
  assert (O1 : (1 <= o)%nat) by (destruct (HT 0%nat ltac:(lia)) as (T1 & _); lia).
  rewrite (rsum_ext n _ (fun a => tick (t a =? fst (scan_max (K := RNum) o (entry (pnet (net es) n X) a)))%nat)).
  2: { intros a Ha'. destruct (HT a Ha') as (T1 & T2). rewrite (T2 _ (scan_max_lt o _ O1)). destruct (t a =? fst (scan_max (K := RNum) o (entry (pnet (net es) n X) a)))%nat; f_equal; [apply r_eqb_true; reflexivity|apply r_eqb_false; change (f1 (K := RNum)) with 1; lra]. }
  apply (majority n (ex X) t (fun a _ => row_eq_refl _) (fun a b => row_eq_sym _ _) (fun a b d => row_eq_trans _ _ _)).
  - intros a b Hab Ha' Hb. now rewrite (equal_rows a b Ha' Hb Hab).
  - intros a b Ha' Hb Hab. rewrite <- (share_n n o X Y t SY HT b Hb). apply HB; auto. now apply row_eq_iff.
Qed.
End Code.
