(** * Robust: a bounded change of the input changes the output by a bounded amount. *)
From Coq Require Import String ZArith List Bool Arith Lia Reals Lra.
From Coquelicot Require Import Coquelicot.
From Verif Require Import Num NumR Heap Spec Matrix Network Optimizers ModelGo PureSpec Repr HeapLemmas MatrixFacts MiscProofs MiscFacts ActFacts RSum LayerReal LossProofs OptSpec ModelSpec ModelRefute RobustSpec.
Import ListNotations.
Open Scope R_scope.

Lemma abs_le (a b : R) : Rabs a <= b -> - b <= a <= b.
Proof. unfold Rabs. destruct (Rcase_abs a); lra. Qed.

(** ** The activation functions *)
Lemma relu_lip (x y : R) : Rabs (Rmax x 0 - Rmax y 0) <= Rabs (x - y).
Proof. unfold Rmax. destruct (Rle_dec x 0), (Rle_dec y 0); unfold Rabs; repeat destruct (Rcase_abs _); lra. Qed.
Lemma R_leaky1 (sl x : R) : leaky1 (K := RNum) sl x = if Rlt_dec x 0 then x * sl else x.
Proof.
  unfold leaky1, f0. simpl. destruct (Rlt_dec x 0) as [H|H].
  - now rewrite (proj2 (r_ltb_true x 0) H).
  - rewrite (proj2 (r_ltb_false x 0)); [reflexivity|lra].
Qed.
Lemma leaky_lip (sl x y : R) : Rabs (leaky1 (K := RNum) sl x - leaky1 (K := RNum) sl y) <= Rmax 1 (Rabs sl) * Rabs (x - y).
Proof.
  assert (W : forall a b, a < 0 -> 0 <= b -> Rabs (a * sl - b) <= Rmax 1 (Rabs sl) * Rabs (a - b)).
  { intros a b Ha Hb. replace (Rabs (a - b)) with (- a + b) by (rewrite Rabs_left1; lra).
    pose proof (Rmax_l 1 (Rabs sl)). pose proof (Rmax_r 1 (Rabs sl)). pose proof (Rabs_triang (a * sl) (- b)) as T.
    rewrite Rabs_mult, Rabs_Ropp, (Rabs_left a), (Rabs_pos_eq b) in T by lra. replace (a * sl + - b) with (a * sl - b) in T by ring.
    assert (- a * Rabs sl <= Rmax 1 (Rabs sl) * - a) by (rewrite Rmult_comm; apply Rmult_le_compat_r; lra).
    assert (b <= Rmax 1 (Rabs sl) * b) by (rewrite <- (Rmult_1_l b) at 1; apply Rmult_le_compat_r; lra). lra. }
  rewrite !R_leaky1. destruct (Rlt_dec x 0) as [Hx|Hx], (Rlt_dec y 0) as [Hy|Hy].
  - rewrite <- Rmult_minus_distr_r, Rabs_mult, Rmult_comm. apply Rmult_le_compat_r; [apply Rabs_pos|apply Rmax_r].
  - apply W; lra.
  - rewrite Rabs_minus_sym, (Rabs_minus_sym x y). apply W; lra.
  - rewrite <- (Rmult_1_l (Rabs (x - y))) at 1. apply Rmult_le_compat_r; [apply Rabs_pos|apply Rmax_l].
Qed.
Lemma sigmoid_lip (x y : R) : Rabs (sigmoid1 (K := RNum) x - sigmoid1 (K := RNum) y) <= 1 / 4 * Rabs (x - y).
Proof.
  destruct (MVT_gen (fun t => 1 / (1 + exp (- t))) y x (fun t => sigmoid1 (K := RNum) t * (1 - sigmoid1 (K := RNum) t))) as (c & _ & E).
  - intros t _. apply sigmoid_derive.
  - intros t _. apply derivable_continuous_pt. exists (sigmoid1 (K := RNum) t * (1 - sigmoid1 (K := RNum) t)). apply is_derive_Reals, sigmoid_derive.
  - assert (V : forall t, sigmoid1 (K := RNum) t = 1 / (1 + exp (- t))) by (intros t; rewrite R_sigmoid; symmetry; apply Rmult_1_l).
    cbv beta in E. rewrite (V x), (V y), E, Rabs_mult. apply Rmult_le_compat_r; [apply Rabs_pos|].
    destruct (R_sigmoid_range c) as [H1 H2]. set (v := sigmoid1 (K := RNum) c) in *. rewrite Rabs_pos_eq; [|apply Rmult_le_pos; lra].
    pose proof (Rle_0_sqr (v - 1/2)) as Q. unfold Rsqr in Q. change (F RNum) with R in *. nra.
Qed.
(** The odds against class [j]: softmax is the sigmoid of minus their logarithm. *)
Definition odds (c j : nat) (x : nat -> R) : R := rsum c (fun k => if (j =? k)%nat then 0 else exp (x k - x j)).
Lemma odds_pos c j x : 0 <= odds c j x.
Proof. apply rsum_nonneg. intros k _. destruct (j =? k)%nat; [lra|left; apply exp_pos]. Qed.
Lemma softmax_odds c j x : (j < c)%nat -> exp (x j) / rsum c (fun k => exp (x k)) = / (1 + odds c j x).
Proof.
  intros Hj. assert (E : rsum c (fun k => exp (x k)) = exp (x j) * (1 + odds c j x)).
  { unfold odds. rewrite Rmult_plus_distr_l, <- rsum_scal. replace (exp (x j) * 1) with (rsum c (fun k => if (j =? k)%nat then exp (x k) else 0)).
    - rewrite <- rsum_plus. apply rsum_ext. intros k _. destruct (Nat.eqb_spec j k) as [->|_]; [ring|]. rewrite Rplus_0_l, <- exp_plus. f_equal. ring.
    - rewrite rsum_delta by exact Hj. ring. }
  rewrite E. pose proof (odds_pos c j x). pose proof (exp_pos (x j)). field. split; lra.
Qed.
Lemma odds_scale c j x y d : (j < c)%nat -> (forall k, (k < c)%nat -> Rabs (x k - y k) <= d) -> odds c j x <= exp (2 * d) * odds c j y.
Proof.
  intros Hj H. unfold odds. rewrite <- rsum_scal. apply rsum_le. intros k Hk. destruct (j =? k)%nat; [lra|]. rewrite <- exp_plus.
  assert (A : x k - x j <= 2 * d + (y k - y j)). { pose proof (abs_le _ _ (H k Hk)). pose proof (abs_le _ _ (H j Hj)). lra. }
  destruct A as [A|A]; [left; now apply exp_increasing|rewrite A; lra].
Qed.
Lemma softmax_lip c j x y d : (j < c)%nat -> (forall k, (k < c)%nat -> Rabs (x k - y k) <= d) ->
  Rabs (exp (x j) / rsum c (fun k => exp (x k)) - exp (y j) / rsum c (fun k => exp (y k))) <= 1 / 2 * d.
Proof.
  intros Hj H. rewrite !softmax_odds by exact Hj.
  assert (Hd : 0 <= d) by (eapply Rle_trans; [apply Rabs_pos|apply (H j Hj)]).
  pose proof (odds_scale c j x y d Hj H) as A.
  assert (B : odds c j y <= exp (2 * d) * odds c j x) by (apply odds_scale; [exact Hj|]; intros k Hk; rewrite Rabs_minus_sym; auto).
  pose proof (odds_pos c j x) as PX. pose proof (odds_pos c j y) as PY. pose proof (exp_pos (2 * d)) as PE.
  set (S := odds c j x) in *. set (T := odds c j y) in *.
  destruct PX as [PX|PX].
  2:{ rewrite <- PX in *. assert (T = 0) by lra. replace T with 0. rewrite Rminus_eq_0, Rabs_R0. lra. }
  destruct PY as [PY|PY].
  2:{ rewrite <- PY in *. exfalso. lra. }
  assert (V : forall t, 0 < t -> / (1 + t) = sigmoid1 (K := RNum) (- ln t)) by (intros t Ht; rewrite R_sigmoid, Ropp_involutive, exp_ln by exact Ht; reflexivity).
  rewrite (V S PX), (V T PY). eapply Rle_trans; [apply sigmoid_lip|].
  assert (LA : ln S <= 2 * d + ln T). { rewrite <- (ln_exp (2 * d)), <- ln_mult by assumption. destruct A as [A|A]; [left; apply ln_increasing; assumption|rewrite A; lra]. }
  assert (LB : ln T <= 2 * d + ln S). { rewrite <- (ln_exp (2 * d)), <- ln_mult by assumption. destruct B as [B|B]; [left; apply ln_increasing; assumption|rewrite B; lra]. }
  assert (Rabs (- ln S - - ln T) <= 2 * d) by (apply Rabs_le; lra). lra.
Qed.

(** ** Layers and networks *)
Lemma rmaxn_ge n g j : (j < n)%nat -> g j <= rmaxn n g.
Proof.
  intros H. unfold rmaxn. assert (HI : In j (seq 0 n)) by (apply in_seq; lia). revert HI. generalize (seq 0 n). intros l. induction l as [|a l IH]; [easy|].
  intros [->|HI]; cbn; [apply Rmax_l|]. eapply Rle_trans; [apply IH, HI|apply Rmax_r].
Qed.
Lemma rmaxn_pos n g : 0 <= rmaxn n g.
Proof. unfold rmaxn. induction (map g (seq 0 n)) as [|a l IH]; cbn; [lra|]. eapply Rle_trans; [exact IH|apply Rmax_r]. Qed.
Lemma rmaxn_attained n g : (1 <= n)%nat -> (forall j, (j < n)%nat -> 0 <= g j) -> exists j, (j < n)%nat /\ rmaxn n g = g j.
Proof.
  intros Hn HP. unfold rmaxn. assert (A : forall l, (forall j, In j l -> 0 <= g j) -> l <> [] -> exists j, In j l /\ fold_right Rmax 0 (map g l) = g j).
  { induction l as [|a l IH]; intros HL HN; [easy|]. cbn. destruct l as [|b l].
    - exists a. split; [left; reflexivity|]. cbn. apply Rmax_left, HL. now left.
    - destruct IH as (j & Hj & E); [intros j Hj; apply HL; now right|discriminate|]. rewrite E. unfold Rmax. destruct (Rle_dec (g a) (g j)).
      + exists j. split; [now right|reflexivity].
      + exists a. split; [now left|reflexivity]. }
  destruct (A (seq 0 n)) as (j & Hj & E).
  - intros j Hj. apply HP. apply in_seq in Hj. lia.
  - destruct n; [lia|discriminate].
  - exists j. split; [apply in_seq in Hj; lia|exact E].
Qed.
Lemma act_lip_pos p : 0 <= act_lip p.
Proof. unfold act_lip. destruct (p_kind p); try lra. pose proof (Rmax_l 1 (Rabs (p_slope p))). change (F RNum) with R in *. lra. Qed.
Lemma layer_lip_pos p : 0 <= layer_lip p.
Proof. apply Rmult_le_pos; [apply act_lip_pos|apply rmaxn_pos]. Qed.
Lemma net_lip_pos ps : 0 <= net_lip ps.
Proof. induction ps as [|p ps IH]; cbn; [lra|]. apply Rmult_le_pos; [apply layer_lip_pos|exact IH]. Qed.
Lemma rsum_abs n f : Rabs (rsum n f) <= rsum n (fun i => Rabs (f i)).
Proof.
  induction n as [|n IH]; [rewrite !rsum_0, Rabs_R0; lra|]. rewrite !rsum_S. eapply Rle_trans; [apply Rabs_triang|]. lra.
Qed.
Lemma affine_near p r A B d : 0 <= d -> near r (p_in p) A B d -> near r (p_out p) (paffine p r A) (paffine p r B) (rmaxn (p_out p) (unit_weight p) * d).
Proof.
  intros Hd H i j Hi Hj.
  unfold paffine, paff. rewrite !entry_mk by assumption. cbn [fadd fmul RNum].
  change (fsum (K := RNum) ?n ?g) with (rsum n g).
  match goal with |- Rabs (?a + ?b - (?c + ?b)) <= _ => replace (a + b - (c + b)) with (a - c) by ring end.
  rewrite <- rsum_minus. eapply Rle_trans; [apply rsum_abs|].
  apply Rle_trans with (unit_weight p j * d).
  - unfold unit_weight. rewrite <- rsum_scal_r. apply rsum_le. intros n Hn. rewrite <- Rmult_minus_distr_r, Rabs_mult, Rmult_comm.
    apply Rmult_le_compat_l; [apply Rabs_pos|]. apply H; assumption.
  - apply Rmult_le_compat_r; [exact Hd|]. now apply rmaxn_ge.
Qed.
Lemma act_near p r A B d : 0 <= d -> near r (p_out p) A B d -> near r (p_out p) (pact p r A) (pact p r B) (act_lip p * d).
Proof.
  intros Hd H i j Hi Hj. pose proof (H i j Hi Hj) as D. unfold pact, act_lip.
  destruct (p_kind p) eqn:EK; rewrite ?entry_pmap by assumption; unfold act1; rewrite ?EK.
  - rewrite !R_relu, Rmult_1_l. eapply Rle_trans; [apply relu_lip|exact D].
  - rewrite Rmult_1_l. exact D.
  - eapply Rle_trans; [apply sigmoid_lip|]. apply Rmult_le_compat_l; [lra|exact D].
  - eapply Rle_trans; [apply leaky_lip|]. apply Rmult_le_compat_l; [|exact D]. pose proof (Rmax_l 1 (Rabs (p_slope p))). change (F RNum) with R in *. lra.
  - rewrite !R_softmax_entry by assumption. apply (softmax_lip (p_out p) j (fun k => entry A i k) (fun k => entry B i k)); [assumption|]. intros k Hk. now apply H.
  - rewrite !R_relu, Rmult_1_l. eapply Rle_trans; [apply relu_lip|exact D].
Qed.
Lemma layer_near p r A B d : 0 <= d -> near r (p_in p) A B d -> near r (p_out p) (pforward p r A) (pforward p r B) (layer_lip p * d).
Proof.
  intros Hd H. unfold layer_lip. rewrite Rmult_assoc. unfold pforward. apply act_near; [apply Rmult_le_pos; [apply rmaxn_pos|exact Hd]|]. now apply affine_near.
Qed.
Lemma net_near ps r : forall i o A B d, chain i ps o -> 0 <= d -> near r i A B d -> near r o (pnet ps r A) (pnet ps r B) (net_lip ps * d).
Proof.
  induction ps as [|p ps IH]; intros i o A B d HC Hd H.
  - cbn in *. subst. rewrite Rmult_1_l. exact H.
  - destruct HC as [E HC]. subst i. change (net_lip (p :: ps)) with (layer_lip p * net_lip ps). change (pnet (p :: ps) r ?Z) with (pnet ps r (pforward p r Z)).
    replace (layer_lip p * net_lip ps * d) with (net_lip ps * (layer_lip p * d)) by ring.
    apply (IH (p_out p) o); [exact HC|apply Rmult_le_pos; [apply layer_lip_pos|exact Hd]|]. now apply layer_near.
Qed.

(** ** Predict *)
Lemma predict_two s1 m1 es1 x1 rs1 s2 m2 es2 x2 rs2 i o r (X1 X2 : rpm) c P1 P2 :
  consistent s1 m1 es1 i o -> consistent s2 m2 es2 i o -> net es2 = net es1 -> (1 <= length es1)%nat -> (1 <= r)%nat ->
  own s1 x1 rs1 r i X1 -> own s2 x2 rs2 r i X2 ->
  ppredict (m_acctype m1) r o (pnet (net es1) r X1) = Some (c, P1) -> ppredict (m_acctype m2) r o (pnet (net es1) r X2) = Some (c, P2) ->
  exists o1 o2 s1' s2' q1 q2, Predict m1 x1 s1 = (Ret o1, s1') /\ Predict m2 x2 s2 = (Ret o2, s2') /\ own s1' o1 q1 r c P1 /\ own s2' o2 q2 r c P2.
Proof.
  intros C1 C2 EN HL Hr O1 O2 E1 E2.
  assert (HL2 : (1 <= length es2)%nat) by (apply (f_equal (@length _)) in EN; unfold net in EN; rewrite !map_length in EN; lia).
  destruct (predict_spec s1 m1 es1 i o x1 rs1 r X1 c P1 C1 HL E1 O1 Hr) as (o1 & s1' & R1 & q1 & H1 & _).
  rewrite <- EN in E2. destruct (predict_spec s2 m2 es2 i o x2 rs2 r X2 c P2 C2 HL2 E2 O2 Hr) as (o2 & s2' & R2 & q2 & H2 & _).
  exists o1, o2, s1', s2', q1, q2. auto.
Qed.
Lemma predict_robust s1 m1 es1 x1 rs1 s2 m2 es2 x2 rs2 i o r (X1 X2 : rpm) d :
  consistent s1 m1 es1 i o -> consistent s2 m2 es2 i o -> net es2 = net es1 -> (1 <= length es1)%nat -> m_acctype m1 = 0%Z -> m_acctype m2 = 0%Z -> (1 <= r)%nat ->
  own s1 x1 rs1 r i X1 -> own s2 x2 rs2 r i X2 -> 0 <= d -> near r i X1 X2 d ->
  exists o1 o2 s1' s2' q1 q2 P1 P2, Predict m1 x1 s1 = (Ret o1, s1') /\ Predict m2 x2 s2 = (Ret o2, s2') /\ own s1' o1 q1 r o P1 /\ own s2' o2 q2 r o P2 /\
    near r o P1 P2 (net_lip (net es1) * d).
Proof.
  intros C1 C2 EN HL A1 A2 Hr O1 O2 Hd H.
  destruct (predict_two s1 m1 es1 x1 rs1 s2 m2 es2 x2 rs2 i o r X1 X2 o (pnet (net es1) r X1) (pnet (net es1) r X2) C1 C2 EN HL Hr O1 O2) as (o1 & o2 & s1' & s2' & q1 & q2 & R1 & R2 & Q1 & Q2);
    [now rewrite A1|now rewrite A2|].
  exists o1, o2, s1', s2', q1, q2, (pnet (net es1) r X1), (pnet (net es1) r X2). do 4 (split; [assumption|]). apply (net_near (net es1) r i o); [apply C1|exact Hd|exact H].
Qed.
Lemma scan_ahead o (g : nat -> R) c : (c < o)%nat -> 0 < g c -> (forall j, (j < o)%nat -> j <> c -> g j < g c) -> fst (scan_max (K := RNum) o g) = c.
Proof.
  intros Hc H0 HJ.
  destruct (scan_max_argmax (K := RNum) (fun _ => True) o g) as (A1 & A2 & _).
  - exact RNum_weak_order.
  - exact I.
  - auto.
  - exists c. split; [exact Hc|]. unfold f0. simpl. apply r_ltb_true. exact H0.
  - set (w := fst (scan_max (K := RNum) o g)) in *. destruct (Nat.eq_dec w c) as [|N]; [assumption|exfalso].
    specialize (A2 c Hc). simpl in A2. apply r_ltb_false in A2. specialize (HJ w A1 N). change (F RNum) with R in *. lra.
Qed.
Lemma class_robust s1 m1 es1 x1 rs1 s2 m2 es2 x2 rs2 i o r (X1 X2 : rpm) d :
  consistent s1 m1 es1 i o -> consistent s2 m2 es2 i o -> net es2 = net es1 -> (1 <= length es1)%nat -> m_acctype m1 = 1%Z -> m_acctype m2 = 1%Z -> (1 <= r)%nat ->
  own s1 x1 rs1 r i X1 -> own s2 x2 rs2 r i X2 -> 0 <= d -> near r i X1 X2 d ->
  exists o1 o2 s1' s2' q1 q2 P1 P2, Predict m1 x1 s1 = (Ret o1, s1') /\ Predict m2 x2 s2 = (Ret o2, s2') /\ own s1' o1 q1 r 1 P1 /\ own s2' o2 q2 r 1 P2 /\
    forall a c, (a < r)%nat -> ahead o (pnet (net es1) r X1) a c (net_lip (net es1) * d) -> entry P1 a 0 = INR c /\ entry P2 a 0 = INR c.
Proof.
  intros C1 C2 EN HL A1 A2 Hr O1 O2 Hd H.
  destruct (predict_two s1 m1 es1 x1 rs1 s2 m2 es2 x2 rs2 i o r X1 X2 1 (row_max r o (pnet (net es1) r X1)) (row_max r o (pnet (net es1) r X2)) C1 C2 EN HL Hr O1 O2) as (o1 & o2 & s1' & s2' & q1 & q2 & R1 & R2 & Q1 & Q2);
    [now rewrite A1|now rewrite A2|].
  exists o1, o2, s1', s2', q1, q2, (row_max r o (pnet (net es1) r X1)), (row_max r o (pnet (net es1) r X2)). do 4 (split; [assumption|]).
  intros a c Ha (Hc & H0 & HJ).
  assert (N : near r o (pnet (net es1) r X1) (pnet (net es1) r X2) (net_lip (net es1) * d)) by (apply (net_near (net es1) r i o); [apply C1|exact Hd|exact H]).
  assert (HE : 0 <= net_lip (net es1) * d) by (apply Rmult_le_pos; [apply net_lip_pos|exact Hd]). set (e := net_lip (net es1) * d) in *.
  unfold row_max. rewrite !entry_mk by (assumption || lia). split.
  - rewrite (scan_ahead o (entry (pnet (net es1) r X1) a) c Hc); [symmetry; apply INR_IZR_INZ|lra|]. intros j Hj Hne. specialize (HJ j Hj Hne). change (F RNum) with R in *. lra.
  - pose proof (abs_le _ _ (N a c Ha Hc)) as Nc. rewrite (scan_ahead o (entry (pnet (net es1) r X2) a) c Hc); [symmetry; apply INR_IZR_INZ| |].
    + change (F RNum) with R in *. lra.
    + intros j Hj Hne. specialize (HJ j Hj Hne). pose proof (abs_le _ _ (N a j Ha Hj)) as Nj. change (F RNum) with R in *. lra.
Qed.
Lemma R_binary1 (x : R) : binary1 (K := RNum) x = if Rlt_dec x (1 / 2) then 0 else 1.
Proof.
  unfold binary1. destruct R_lits as (E & _ & _). rewrite E. simpl. destruct (Rlt_dec x (1 / 2)) as [H|H].
  - now rewrite (proj2 (r_ltb_true x (1 / 2)) H).
  - rewrite (proj2 (r_ltb_false x (1 / 2))); [reflexivity|lra].
Qed.
Lemma binary_robust s1 m1 es1 x1 rs1 s2 m2 es2 x2 rs2 i o r (X1 X2 : rpm) d :
  consistent s1 m1 es1 i o -> consistent s2 m2 es2 i o -> net es2 = net es1 -> (1 <= length es1)%nat -> m_acctype m1 = 2%Z -> m_acctype m2 = 2%Z -> (1 <= r)%nat ->
  own s1 x1 rs1 r i X1 -> own s2 x2 rs2 r i X2 -> 0 <= d -> near r i X1 X2 d ->
  exists o1 o2 s1' s2' q1 q2 P1 P2, Predict m1 x1 s1 = (Ret o1, s1') /\ Predict m2 x2 s2 = (Ret o2, s2') /\ own s1' o1 q1 r o P1 /\ own s2' o2 q2 r o P2 /\
    forall a j, (a < r)%nat -> (j < o)%nat -> net_lip (net es1) * d < Rabs (entry (pnet (net es1) r X1) a j - 1 / 2) -> entry P1 a j = entry P2 a j.
Proof.
  intros C1 C2 EN HL A1 A2 Hr O1 O2 Hd H.
  destruct (predict_two s1 m1 es1 x1 rs1 s2 m2 es2 x2 rs2 i o r X1 X2 o (pmap r o binary1 (pnet (net es1) r X1)) (pmap r o binary1 (pnet (net es1) r X2)) C1 C2 EN HL Hr O1 O2) as (o1 & o2 & s1' & s2' & q1 & q2 & R1 & R2 & Q1 & Q2);
    [now rewrite A1|now rewrite A2|].
  exists o1, o2, s1', s2', q1, q2, (pmap r o binary1 (pnet (net es1) r X1)), (pmap r o binary1 (pnet (net es1) r X2)). do 4 (split; [assumption|]).
  intros a j Ha Hj HB.
  assert (N : near r o (pnet (net es1) r X1) (pnet (net es1) r X2) (net_lip (net es1) * d)) by (apply (net_near (net es1) r i o); [apply C1|exact Hd|exact H]).
  pose proof (abs_le _ _ (N a j Ha Hj)) as Nc. rewrite !entry_pmap by assumption. rewrite !R_binary1.
  revert HB Nc. set (e := net_lip (net es1) * d). set (u := entry (pnet (net es1) r X1) a j). set (v := entry (pnet (net es1) r X2) a j). intros HB Nc. change (F RNum) with R in *.
  unfold Rabs in HB. destruct (Rcase_abs (u - 1 / 2)); destruct (Rlt_dec u (1 / 2)), (Rlt_dec v (1 / 2)); try reflexivity; lra.
Qed.
(** The constant of a linear layer cannot be improved. *)
Lemma linear_sharp p d : p_kind p = Linear -> (1 <= p_out p)%nat -> 0 <= d ->
  exists (X1 X2 : rpm) j, shape 1 (p_in p) X1 /\ shape 1 (p_in p) X2 /\ near 1 (p_in p) X1 X2 d /\ (j < p_out p)%nat /\
    Rabs (entry (pforward p 1 X1) 0 j - entry (pforward p 1 X2) 0 j) = net_lip [p] * d.
Proof.
  intros EK Ho Hd. destruct (rmaxn_attained (p_out p) (unit_weight p) Ho) as (j & Hj & EJ).
  { intros j _. apply rsum_nonneg. intros n _. apply Rabs_pos. }
  set (sgn := fun n => if Rlt_dec (entry (p_w p) n j) 0 then - d else d).
  exists (mk (K := RNum) 1 (p_in p) (fun _ n => sgn n)), (mk (K := RNum) 1 (p_in p) (fun _ _ => 0)), j.
  split; [apply shape_mk|]. split; [apply shape_mk|]. split; [|split; [exact Hj|]].
  - intros i n Hi Hn. rewrite !entry_mk by assumption. unfold sgn. destruct (Rlt_dec _ 0); rewrite Rminus_0_r; unfold Rabs; destruct (Rcase_abs _); lra.
  - unfold pforward, pact. rewrite EK. unfold paffine, paff. rewrite !entry_mk by (assumption || lia). cbn [fadd fmul RNum]. change (fsum (K := RNum) ?n ?g) with (rsum n g).
    match goal with |- Rabs (?a + ?b - (?c + ?b)) = _ => replace (a + b - (c + b)) with (a - c) by ring end.
    rewrite <- rsum_minus. rewrite (rsum_ext _ _ (fun n => Rabs (entry (p_w p) n j) * d)).
    + rewrite rsum_scal_r. fold (unit_weight p j). cbn. unfold layer_lip, act_lip. rewrite EK, EJ, !Rmult_1_l, Rmult_1_r, Rabs_pos_eq; [reflexivity|].
      apply Rmult_le_pos; [|exact Hd]. apply rsum_nonneg. intros n _. apply Rabs_pos.
    + intros n Hn. rewrite !entry_mk by (assumption || lia). unfold sgn. unfold Rabs. destruct (Rlt_dec _ 0), (Rcase_abs _); lra.
Qed.
