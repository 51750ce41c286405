(** * Stable: training a single layer does not amplify differences. *)
From Coq Require Import String ZArith List Bool Arith Lia Reals Lra Psatz.
From Verif Require Import Num NumR Heap Spec Matrix Loss Network Optimizers ModelGo PureSpec Repr HeapLemmas LoopLemmas MatrixFacts MiscFacts RSum LayerFacts LayerReal GradSpec Grad LossProofs LossReal LossCode OptSpec ModelSpec ModelProofs FitProofs FitFacts NetGradSpec NetGrad NetGradCode Converge ConvergeFit Momentum RateSpec MomentumFit EvalProofs LossAccSpec LossAcc Sep StableSpec.
Import ListNotations.
Open Scope R_scope.

(** ** Norms *)
Section Norm.
Variables (k c : nat).
Lemma ip_cs u v p q : 0 <= p -> 0 <= q -> ip k c u u <= p ^ 2 -> ip k c v v <= q ^ 2 -> ip k c u v <= p * q.
Proof.
  intros Hp Hq Hu Hv. assert (H : forall a b, 0 <= a ^ 2 * ip k c u u + 2 * a * b * ip k c u v + b ^ 2 * ip k c v v).
  { intros a b. pose proof (ip_pos k c (lin k c a u b v)) as H. rewrite !ip_lin_l, !ip_lin_r, (ip_sym k c v u) in H. lra. }
  pose proof (ip_pos k c u) as Pu. pose proof (ip_pos k c v) as Pv.
  apply Rnot_lt_le. intros HN. set (x := ip k c u v) in *. set (a := ip k c u u) in *. set (b := ip k c v v) in *.
  assert (Hx : 0 < x) by nra. pose proof (H (- x) a) as H1. pose proof (H b (- x)) as H2.
  destruct (Req_dec a 0) as [Ea|Na].
  - pose proof (H (- (b + 1)) (2 * x)) as H3. rewrite Ea in H3.
    assert (H4 : (- (b + 1)) ^ 2 * 0 + 2 * - (b + 1) * (2 * x) * x + (2 * x) ^ 2 * b = - (4 * (x * x))) by ring. rewrite H4 in H3. assert (0 < x * x) by (apply Rmult_lt_0_compat; exact Hx). lra.
  - assert (x ^ 2 <= a * b). { assert (0 < a) by lra. apply Rmult_le_reg_l with a; [assumption|]. nra. }
    assert (a * b <= p ^ 2 * q ^ 2) by (apply Rmult_le_compat; assumption).
    assert (0 <= p * q) by (now apply Rmult_le_pos). assert (p * q * (p * q) < x * x) by (apply Rmult_le_0_lt_compat; assumption). replace (p ^ 2 * q ^ 2) with (p * q * (p * q)) in * by ring. replace (x ^ 2) with (x * x) in * by ring. lra.
Qed.
Lemma ip_triangle u v p q : 0 <= p -> 0 <= q -> ip k c u u <= p ^ 2 -> ip k c v v <= q ^ 2 -> forall s, s = 1 \/ s = -1 -> ip k c (lin k c 1 u s v) (lin k c 1 u s v) <= (p + q) ^ 2.
Proof.
  intros Hp Hq Hu Hv s Hs. rewrite !ip_lin_l, !ip_lin_r, (ip_sym k c v u). pose proof (ip_cs u v p q Hp Hq Hu Hv) as H1.
  assert (H2 : - ip k c u v <= p * q).
  { assert (E : ip k c u (lin k c (-1) v 0 v) = - ip k c u v) by (rewrite ip_lin_r; ring). rewrite <- E. apply ip_cs; try assumption. rewrite !ip_lin_l, !ip_lin_r. lra. }
  destruct Hs as [-> | ->]; nra.
Qed.
Lemma dist_ip w v : dist k c w v = ip k c (lin k c 1 w (-1) v) (lin k c 1 w (-1) v).
Proof.
  rewrite ip_split. unfold dist, sqdist, sqnorm, lin. cbn [fst snd]. f_equal; apply rsum_ext; intros a Ha; apply rsum_ext; intros b Hb; rewrite entry_mk by assumption; cbn; ring.
Qed.
Lemma ip_ext_l u u' v : (forall a b, (a < k)%nat -> (b < c)%nat -> entry (fst u) a b = entry (fst u') a b) -> (forall b, (b < c)%nat -> entry (snd u) 0 b = entry (snd u') 0 b) -> ip k c u v = ip k c u' v.
Proof.
  intros H1 H2. unfold ip. f_equal; apply rsum_ext; intros a Ha; apply rsum_ext; intros b Hb; f_equal; [now apply H1|]. replace a with O by lia. now apply H2.
Qed.
End Norm.

(** ** Gradient steps on a convex, smooth objective do not move parameters apart. *)
Section Steps.
Variables (r k c : nat) (X : rpm) (Phi : rpm -> R) (Gr : rpm -> rpm) (beta lr : R).
Hypothesis Hconvex : forall Z Z', Phi Z + inner r c (Gr Z) (delta r c Z Z') <= Phi Z'.
Hypothesis Hsmooth : forall Z Z', Phi Z' <= Phi Z + inner r c (Gr Z) (delta r c Z Z') + beta / 2 * sqnorm r c (delta r c Z Z').
Hypothesis Hlr : 0 < lr.
Hypothesis Hbeta : 0 < beta.
Hypothesis Hr : (1 <= r)%nat.
Hypothesis Hrate : lr * beta * (sqnorm r k X + INR r) <= 1.
Let g := grad r k c X Gr.
Let L := beta * (sqnorm r k X + INR r).
Lemma L_pos : 0 < L.
Proof. unfold L. apply Rmult_lt_0_compat; [exact Hbeta|]. pose proof (sqnorm_nonneg r k X). assert (0 < INR r) by (apply lt_0_INR; lia). lra. Qed.
Lemma half w v : obj r k c X Phi v - obj r k c X Phi w + ip k c (g v) (lin k c 1 w (-1) v) <= - / (2 * L) * ip k c (lin k c 1 (g w) (-1) (g v)) (lin k c 1 (g w) (-1) (g v)).
Proof.
  set (u := lin k c (- / L) (g w) (/ L) (g v)). pose proof L_pos as HL.
  pose proof (f_convex r k c X Phi Gr Hconvex v (lin k c 1 w 1 u)) as H1. pose proof (f_smooth r k c X Phi Gr beta Hsmooth ltac:(lra) w u) as H2. fold (g v) in H1. fold (g w) in H2. fold L in H2.
  rewrite !ip_lin_r in H1. rewrite ip_lin_r. unfold u in H1 at 1. unfold u in H2 at 2 3 4. rewrite ?ip_lin_l, ?ip_lin_r in H1. rewrite ?ip_lin_l, ?ip_lin_r in H2. rewrite !ip_lin_l, !ip_lin_r, (ip_sym k c (g v) (g w)) in *.
  set (a := ip k c (g w) (g w)) in *. set (b := ip k c (g w) (g v)) in *. set (d := ip k c (g v) (g v)) in *.
  assert (E : L / 2 * (- / L * (- / L * a + / L * b) + / L * (- / L * b + / L * d)) = / (2 * L) * (a - 2 * b + d)) by (field; lra).
  assert (E2 : - / L * a + / L * b - (- / L * b + / L * d) = - / L * (a - 2 * b + d)) by (field; lra).
  assert (E3 : - / (2 * L) * (1 * (1 * a + -1 * b) + -1 * (1 * b + -1 * d)) = - / L * (a - 2 * b + d) + / (2 * L) * (a - 2 * b + d)) by (field; lra).
  rewrite E3. lra.
Qed.
Lemma cocoercive w v : / L * ip k c (lin k c 1 (g w) (-1) (g v)) (lin k c 1 (g w) (-1) (g v)) <= ip k c (lin k c 1 (g w) (-1) (g v)) (lin k c 1 w (-1) v).
Proof.
  pose proof L_pos as HL. pose proof (half w v) as H1. pose proof (half v w) as H2. rewrite !ip_lin_l, !ip_lin_r in *. rewrite (ip_sym k c (g v) (g w)) in *.
  replace (/ L) with (/ (2 * L) + / (2 * L)) by (field; lra). lra.
Qed.
Lemma gd_apart w v : dist k c (gd r k c X Gr lr w) (gd r k c X Gr lr v) <= dist k c w v.
Proof.
  pose proof L_pos as HL.
  assert (E : dist k c (gd r k c X Gr lr w) (gd r k c X Gr lr v) =
    ip k c (lin k c 1 (lin k c 1 w (-1) v) (- lr) (lin k c 1 (g w) (-1) (g v))) (lin k c 1 (lin k c 1 w (-1) v) (- lr) (lin k c 1 (g w) (-1) (g v)))).
  { rewrite ip_split. unfold dist, sqdist, sqnorm, lin, gd, g, grad. cbn [fst snd]. f_equal; apply rsum_ext; intros a Ha; apply rsum_ext; intros b Hb; rewrite !entry_mk by assumption; cbn; ring. }
  rewrite E, dist_ip. set (d := lin k c 1 w (-1) v). set (D := lin k c 1 (g w) (-1) (g v)). rewrite (ip_lin_l k c 1 d), !(ip_lin_r k c 1 d), (ip_sym k c d D).
  pose proof (cocoercive w v) as H. fold d D in H. pose proof (ip_pos k c D) as P. assert (HR : lr * L <= 1) by (unfold L; lra).
  assert (lr * ip k c D D <= / L * ip k c D D). { apply Rmult_le_compat_r; [exact P|]. apply Rmult_le_reg_r with L; [exact HL|]. rewrite Rinv_l by lra. exact HR. }
  nra.
Qed.
Lemma iter_apart w v t : dist k c (Nat.iter t (gd r k c X Gr lr) w) (Nat.iter t (gd r k c X Gr lr) v) <= dist k c w v.
Proof. induction t as [|t IH]; [apply Rle_refl|]. cbn [Nat.iter]. eapply Rle_trans; [apply gd_apart|exact IH]. Qed.
(** Steps with another gradient, that differs by at most [q] wherever we are. *)
Lemma iter_other (X' : rpm) (Gr' : rpm -> rpm) q : 0 <= q -> (forall v, ip k c (lin k c 1 (g v) (-1) (grad r k c X' Gr' v)) (lin k c 1 (g v) (-1) (grad r k c X' Gr' v)) <= q ^ 2) ->
  forall w t, dist k c (Nat.iter t (gd r k c X Gr lr) w) (Nat.iter t (gd r k c X' Gr' lr) w) <= (INR t * (lr * q)) ^ 2.
Proof.
  intros Hq H w. induction t as [|t IH].
  - change (Nat.iter 0 (gd r k c X Gr lr) w) with w. change (Nat.iter 0 (gd r k c X' Gr' lr) w) with w. change (INR 0) with 0. assert (E0 : (0 * (lr * q)) ^ 2 = 0) by ring. rewrite E0, dist_ip, !ip_lin_l, !ip_lin_r. right. ring.
  - change (Nat.iter (S t) (gd r k c X Gr lr) w) with (gd r k c X Gr lr (Nat.iter t (gd r k c X Gr lr) w)). change (Nat.iter (S t) (gd r k c X' Gr' lr) w) with (gd r k c X' Gr' lr (Nat.iter t (gd r k c X' Gr' lr) w)).
    set (a := Nat.iter t (gd r k c X Gr lr) w) in *. set (b := Nat.iter t (gd r k c X' Gr' lr) w) in *.
    set (ga := gd r k c X Gr lr a). set (gb := gd r k c X Gr lr b). set (D := lin k c (- lr) (lin k c 1 (g b) (-1) (grad r k c X' Gr' b)) 0 b).
    assert (E : dist k c ga (gd r k c X' Gr' lr b) = ip k c (lin k c 1 (lin k c 1 ga (-1) gb) 1 D) (lin k c 1 (lin k c 1 ga (-1) gb) 1 D)).
    { rewrite ip_split. unfold dist, sqdist, sqnorm, D, ga, gb, gd, g, grad, lin. cbn [fst snd]. f_equal; apply rsum_ext; intros a' Ha; apply rsum_ext; intros b' Hb; rewrite !entry_mk by assumption; toR; ring. }
    rewrite E, S_INR. replace ((INR t + 1) * (lr * q)) with (INR t * (lr * q) + lr * q) by ring. apply ip_triangle; [| | | |now left].
    + apply Rmult_le_pos; [apply pos_INR|]. apply Rmult_le_pos; lra.
    + apply Rmult_le_pos; lra.
    + rewrite <- dist_ip. eapply Rle_trans; [apply gd_apart|]. exact IH.
    + unfold D. specialize (H b). revert H. generalize (lin k c 1 (g b) (-1) (grad r k c X' Gr' b)). intros G H. rewrite !ip_lin_l, !ip_lin_r.
      replace (- lr * (- lr * ip k c G G + 0 * ip k c G b) + 0 * (- lr * ip k c b G + 0 * ip k c b b)) with (lr ^ 2 * ip k c G G) by ring. rewrite Rpow_mult_distr. apply Rmult_le_compat_l; [apply pow2_ge_0|exact H].
Qed.
End Steps.

(** ** The cross-entropy *)
Section Entropy.
Variables (n i o : nat).
Hypothesis Hn : (1 <= n)%nat.
Lemma INR_n : 0 < INR n.
Proof. apply lt_0_INR. lia. Qed.
(** The gradient of one sample is at most 2 / n^2 long (squared). *)
Lemma row_grad (Y Z : rpm) a : classes n o Y -> (a < n)%nat -> rsum o (fun j => entry (ceGr n o Y Z) a j ^ 2) <= 2 / INR n ^ 2.
Proof.
  intros HY Ha. pose proof INR_n as Pn. destruct (HY a Ha) as (t & Ht & HYa). assert (Ho : (1 <= o)%nat) by lia.
  assert (E : forall j, (j < o)%nat -> entry (ceGr n o Y Z) a j = (entry (psoftmax (K := RNum) n o Z) a j - entry Y a j) / INR n).
  { intros j Hj. unfold ceGr, pce_back. rewrite entry_mk by assumption. rewrite (HYa j Hj). cbn [feq fsub fdiv ofZ RNum]. rewrite R_Zofnat. unfold f1. cbn [ofZ RNum]. unfold r_eqb.
    destruct (t =? j)%nat; [destruct (Req_EM_T 1 1); [reflexivity|lra]|destruct (Req_EM_T 0 1); [lra|]]. change (F RNum) with R. unfold Rdiv. ring. }
  rewrite (rsum_ext o _ (fun j => (entry (psoftmax (K := RNum) n o Z) a j - entry Y a j) ^ 2 * / INR n ^ 2)).
  2: { intros j Hj. rewrite E by exact Hj. change (F RNum) with R. field. lra. }
  assert (S2 : rsum o (fun j => (entry (psoftmax (K := RNum) n o Z) a j - entry Y a j) ^ 2) <= 2).
  { assert (SP : rsum o (fun j => entry (psoftmax (K := RNum) n o Z) a j) = 1) by (apply R_softmax_sum; [exact Ha|lia]).
    assert (SY : rsum o (fun j => entry Y a j) = 1). { rewrite (rsum_ext o _ (fun j => if (t =? j)%nat then 1 else 0)) by exact HYa. now rewrite (rsum_delta o t (fun _ => 1)). }
    eapply Rle_trans; [|right; transitivity (rsum o (fun j => entry (psoftmax (K := RNum) n o Z) a j) + rsum o (fun j => entry Y a j)); [rewrite <- rsum_plus; reflexivity|rewrite SP, SY; ring]]. apply rsum_le. intros j Hj.
    assert (P1 : 0 <= entry (psoftmax (K := RNum) n o Z) a j) by (left; now apply R_softmax_pos).
    assert (P2 : entry (psoftmax (K := RNum) n o Z) a j <= 1) by (rewrite <- SP; apply (rsum_term_le o (fun j => entry (psoftmax (K := RNum) n o Z) a j) j); [|exact Hj]; intros q Hq; left; now apply R_softmax_pos).
    rewrite (HYa j Hj). destruct (t =? j)%nat; nra. }
  assert (P : 0 < / INR n ^ 2) by (apply Rinv_0_lt_compat, pow_lt; exact Pn).
  assert (E2 : rsum o (fun j => (entry (psoftmax (K := RNum) n o Z) a j - entry Y a j) ^ 2 * / INR n ^ 2) = rsum o (fun j => (entry (psoftmax (K := RNum) n o Z) a j - entry Y a j) ^ 2) * / INR n ^ 2).
  { rewrite Rmult_comm, <- rsum_scal. apply rsum_ext. intros; ring. }
  rewrite E2. apply Rmult_le_compat_r; [lra|exact S2].
Qed.
(** The part of sample [b] in the gradient. *)
Definition part (X Y : rpm) (b : nat) (v : rpm * rpm) : rpm * rpm :=
  let G := ceGr n o Y (paff (K := RNum) n i o X (fst v) (snd v)) in (mk (K := RNum) i o (fun l j => entry X b l * entry G b j), mk (K := RNum) 1 o (fun _ j => entry G b j)).
Lemma part_small X Y b v R2 : classes n o Y -> (b < n)%nat -> rsum i (fun l => entry X b l ^ 2) <= R2 -> ip i o (part X Y b v) (part X Y b v) <= (sqrt (2 * (R2 + 1)) / INR n) ^ 2.
Proof.
  intros HY Hb HR. pose proof INR_n as Pn. assert (P0 : 0 <= rsum i (fun l => entry X b l ^ 2)) by (apply rsum_nonneg; intros; apply pow2_ge_0).
  rewrite ip_split. unfold part. cbn [fst snd]. set (G := ceGr n o Y _). pose proof (row_grad Y (paff (K := RNum) n i o X (fst v) (snd v)) b HY Hb) as HG. fold G in HG.
  assert (E : sqnorm i o (mk (K := RNum) i o (fun l j => entry X b l * entry G b j)) + sqnorm 1 o (mk (K := RNum) 1 o (fun _ j => entry G b j)) = (rsum i (fun l => entry X b l ^ 2) + 1) * rsum o (fun j => entry G b j ^ 2)).
  { unfold sqnorm. rewrite Rmult_plus_distr_r, Rmult_1_l. f_equal.
    - rewrite <- rsum_scal_r. apply rsum_ext. intros l Hl. rewrite <- rsum_scal. apply rsum_ext. intros j Hj. rewrite entry_mk by assumption. toR. ring.
    - rewrite rsum_1. apply rsum_ext. intros j Hj. now rewrite entry_mk by (assumption || lia). }
  rewrite E. unfold Rdiv. rewrite Rpow_mult_distr, pow2_sqrt by lra.
  replace (2 * (R2 + 1) * (/ INR n) ^ 2) with ((R2 + 1) * (2 / INR n ^ 2)) by (field; lra).
  apply Rmult_le_compat; [lra|apply rsum_nonneg; intros; apply pow2_ge_0|lra|exact HG].
Qed.
Lemma grad_parts X Y X' Y' b v : classes n o Y -> classes n o Y' -> (b < n)%nat -> neighbours n i o b X Y X' Y' ->
  ip i o (lin i o 1 (grad n i o X (ceGr n o Y) v) (-1) (grad n i o X' (ceGr n o Y') v)) (lin i o 1 (grad n i o X (ceGr n o Y) v) (-1) (grad n i o X' (ceGr n o Y') v)) =
  ip i o (lin i o 1 (part X Y b v) (-1) (part X' Y' b v)) (lin i o 1 (part X Y b v) (-1) (part X' Y' b v)).
Proof.
  intros HY HY' Hb HN.
  set (G := ceGr n o Y (paff (K := RNum) n i o X (fst v) (snd v))). set (G' := ceGr n o Y' (paff (K := RNum) n i o X' (fst v) (snd v))).
  assert (EG : forall a j, (a < n)%nat -> (j < o)%nat -> a <> b -> entry G' a j = entry G a j).
  { intros a j Ha Hj Hab. destruct (HN a Ha Hab) as (NX & NY). unfold G, G', ceGr, pce_back. rewrite !entry_mk by assumption. rewrite (NY j Hj).
    assert (EA : forall q, (q < o)%nat -> entry (paff (K := RNum) n i o X' (fst v) (snd v)) a q = entry (paff (K := RNum) n i o X (fst v) (snd v)) a q).
    { intros q Hq. unfold paff. rewrite !entry_mk by assumption. f_equal. apply (rsum_ext i). intros l Hl. now rewrite NX. }
    assert (ES : entry (psoftmax (K := RNum) n o (paff (K := RNum) n i o X' (fst v) (snd v))) a j = entry (psoftmax (K := RNum) n o (paff (K := RNum) n i o X (fst v) (snd v))) a j).
    { rewrite !R_softmax_entry by assumption. rewrite (EA j Hj). f_equal. apply rsum_ext. intros q Hq. now rewrite EA. }
    now rewrite ES. }
  assert (ED : forall l j, (l < i)%nat -> (j < o)%nat -> entry (fst (lin i o 1 (grad n i o X (ceGr n o Y) v) (-1) (grad n i o X' (ceGr n o Y') v))) l j = entry (fst (lin i o 1 (part X Y b v) (-1) (part X' Y' b v))) l j).
  { intros l j Hl Hj. unfold lin, grad, dw, part. cbn [fst snd]. fold G G'. rewrite !entry_mk by assumption. unfold pdW, pdot. rewrite !entry_mk by assumption.
    etransitivity; [|exact (rsum_delta n b (fun a => 1 * (entry X a l * entry G a j) + -1 * (entry X' a l * entry G' a j)) Hb)].
    transitivity (rsum n (fun a => 1 * (entry X a l * entry G a j) + -1 * (entry X' a l * entry G' a j))).
    - rewrite rsum_plus, !rsum_scal. f_equal; f_equal; apply rsum_ext; intros a Ha; unfold ptrans; now rewrite entry_mk by assumption.
    - apply rsum_ext. intros a Ha. destruct (Nat.eqb_spec b a) as [->|Nab]; [reflexivity|]. destruct (HN a Ha ltac:(congruence)) as (NX & _). rewrite (NX l Hl), (EG a j) by (congruence || assumption). toR. ring. }
  assert (EB : forall j, (j < o)%nat -> entry (snd (lin i o 1 (grad n i o X (ceGr n o Y) v) (-1) (grad n i o X' (ceGr n o Y') v))) 0 j = entry (snd (lin i o 1 (part X Y b v) (-1) (part X' Y' b v))) 0 j).
  { intros j Hj. unfold lin, grad, db, part. cbn [fst snd]. fold G G'. rewrite !entry_mk by (assumption || lia). unfold psum0. rewrite !entry_mk by (assumption || lia).
    etransitivity; [|exact (rsum_delta n b (fun a => 1 * entry G a j + -1 * entry G' a j) Hb)].
    transitivity (rsum n (fun a => 1 * entry G a j + -1 * entry G' a j)); [rewrite rsum_plus, !rsum_scal; reflexivity|].
    apply rsum_ext. intros a Ha. destruct (Nat.eqb_spec b a) as [->|Nab]; [reflexivity|]. rewrite (EG a j) by (congruence || assumption). toR. ring. }
  rewrite (ip_ext_l i o _ _ _ ED EB), ip_sym. now apply ip_ext_l.
Qed.
Lemma grad_close X Y X' Y' b v R2 : classes n o Y -> classes n o Y' -> (b < n)%nat -> neighbours n i o b X Y X' Y' -> within n i X R2 -> within n i X' R2 ->
  ip i o (lin i o 1 (grad n i o X (ceGr n o Y) v) (-1) (grad n i o X' (ceGr n o Y') v)) (lin i o 1 (grad n i o X (ceGr n o Y) v) (-1) (grad n i o X' (ceGr n o Y') v)) <= (2 * (sqrt (2 * (R2 + 1)) / INR n)) ^ 2.
Proof.
  intros HY HY' Hb HN HW HW'. rewrite (grad_parts X Y X' Y' b v) by assumption. pose proof INR_n as Pn.
  replace (2 * (sqrt (2 * (R2 + 1)) / INR n)) with (sqrt (2 * (R2 + 1)) / INR n + sqrt (2 * (R2 + 1)) / INR n) by ring.
  assert (0 <= sqrt (2 * (R2 + 1)) / INR n) by (apply Rmult_le_pos; [apply sqrt_pos|left; now apply Rinv_0_lt_compat]).
  apply ip_triangle; try assumption; [| |now right]; apply part_small; auto.
Qed.
(** The loss on any samples depends little on the parameters. *)
Lemma loss_close X Y R2 w v d : classes n o Y -> within n i X R2 -> 0 <= R2 -> 0 <= d -> dist i o w v <= d ^ 2 -> obj n i o X (cePhi n o Y) w - obj n i o X (cePhi n o Y) v <= sqrt (2 * (R2 + 1)) * d.
Proof.
  intros HY HW HR Hd HD. pose proof INR_n as Pn.
  assert (Ho : (1 <= o)%nat) by (destruct (HY 0%nat ltac:(lia)) as (t & Ht & _); lia).
  assert (Hone : one_hot n o Y) by (destruct (pce_rows n o [] Y HY) as (lab & HL & _); exists lab; intros a Ha; destruct (HL a Ha) as (A & _ & B); now split).
  pose proof (f_convex n i o X (cePhi n o Y) (ceGr n o Y) (ce_convex n o Y Hn Ho Hone) w v) as H1. rewrite <- inner_grad in H1.
  set (G := ceGr n o Y (paff (K := RNum) n i o X (fst w) (snd w))) in *. set (D := delta n o (paff (K := RNum) n i o X (fst w) (snd w)) (paff (K := RNum) n i o X (fst v) (snd v))) in *.
  set (o1 := mk (K := RNum) 1 o (fun _ _ => 0)).
  assert (NG : sqnorm n o G <= sqrt (2 / INR n) ^ 2).
  { rewrite pow2_sqrt by (apply Rmult_le_pos; [lra|left; now apply Rinv_0_lt_compat]). unfold sqnorm. eapply Rle_trans; [apply rsum_le; intros a Ha; exact (row_grad Y _ a HY Ha)|]. rewrite rsum_const. right. field. lra. }
  assert (ND : sqnorm n o D <= (sqrt (INR n * (R2 + 1)) * d) ^ 2).
  { assert (P : 0 <= INR n * (R2 + 1)) by (apply Rmult_le_pos; lra). rewrite Rpow_mult_distr, pow2_sqrt by exact P.
    rewrite (sqnorm_ext n o D _ (delta_aff n i o X w v)). eapply Rle_trans; [apply affine_bound|].
    assert (EDist : sqnorm i o (mk (K := RNum) i o (fun a b => entry (fst v) a b - entry (fst w) a b)) + sqnorm 1 o (mk (K := RNum) 1 o (fun a b => entry (snd v) a b - entry (snd w) a b)) = dist i o w v).
    { unfold dist, sqdist, sqnorm. f_equal; apply rsum_ext; intros a Ha; apply rsum_ext; intros b Hb; rewrite entry_mk by assumption; toR; ring. }
    rewrite EDist. assert (SX : sqnorm n i X <= INR n * R2). { unfold sqnorm. eapply Rle_trans; [apply rsum_le; intros a Ha; exact (HW a Ha)|]. rewrite rsum_const. lra. }
    pose proof (sqnorm_nonneg n i X). apply Rmult_le_compat; [lra|apply dist_nonneg|lra|exact HD]. }
  assert (EI : - inner n o G D = ip n o (lin n o (-1) (G, o1) 0 (G, o1)) (D, o1)).
  { rewrite ip_lin_l. unfold ip. cbn [fst snd]. unfold o1 at 2 4. rewrite !inner_zero. ring. }
  assert (NO : sqnorm 1 o o1 = 0). { unfold sqnorm. rewrite rsum_1. rewrite (rsum_ext o _ (fun _ => 0)); [apply rsum_zero|]. intros j Hj. unfold o1. rewrite entry_mk by (lia || assumption). toR. ring. }
  assert (EQ : sqrt (2 * (R2 + 1)) = sqrt (2 / INR n) * sqrt (INR n * (R2 + 1))).
  { rewrite <- sqrt_mult_alt by (apply Rmult_le_pos; [lra|left; now apply Rinv_0_lt_compat]). f_equal. field. lra. }
  assert (H2 : - inner n o G D <= sqrt (2 / INR n) * (sqrt (INR n * (R2 + 1)) * d)).
  { rewrite EI. apply ip_cs; [apply sqrt_pos|apply Rmult_le_pos; [apply sqrt_pos|exact Hd]| |].
    - rewrite !ip_lin_l, !ip_lin_r, ip_split. cbn [fst snd]. rewrite NO. lra.
    - rewrite ip_split. cbn [fst snd]. rewrite NO. lra. }
  rewrite EQ. lra.
Qed.
End Entropy.

(** ** Fit *)
Lemma fit_gd s m e x i o k mx rsx y rsy n (X Y : rpm) epochs bs xv yv lr :
  (bs = 0 \/ Z.of_nat n <= bs)%Z -> (Z.of_nat n + bs <= 2 ^ 52)%Z -> (1 <= n)%nat ->
  trainable s m [e] [x] i o k -> data_ok s [e] mx rsx y rsy n i o X Y -> convex_pair k (e_p e) -> plain_sgd lr (x_po x) ->
  exists s' e' x', Fit m mx y epochs bs xv yv 0 s = (Ret tt, s') /\ trainable s' m [e'] [x'] i o k /\ same_place e e' /\ frame (among (prows [e])) s s' /\
    wb (e_p e') = Nat.iter (Z.to_nat epochs) (gd n i o X (one_gr k n o Y (e_p e)) lr) (wb (e_p e)).
Proof.
  intros Hb2 H52 Hn HT HD HK HP. assert (Hb : (0 <= bs)%Z) by (destruct Hb2; lia).
  destruct (fit_trains s m [e] [x] i o k mx rsx y rsy n X Y epochs bs xv yv RNum_min_faithful Hb H52 Hn HT HD) as ([] & s' & E & nn & _ & (es' & xs' & HT' & HPl & HP2 & Htr & HF & _) & _).
  inversion HPl as [|e0 e' ? l1 He' Hn1]; subst. inversion Hn1; subst. inversion HP2 as [|x0 x' ? l2 Hx' Hn2]; subst. inversion Hn2; subst.
  exists s', e', x'. split; [exact E|]. split; [exact HT'|]. split; [exact He'|]. split; [exact HF|].
  destruct HT as ((_ & _ & _ & _ & Hch & Hok) & _). cbn [net map chain] in Hch. destruct Hch as (Hpi & Hpo).
  destruct HD as (HX & HY & _ & _). pose proof (own_shape _ _ _ _ _ _ HX) as (HXl & _). pose proof (own_shape _ _ _ _ _ _ HY) as (HYl & _).
  unfold epochs_of in Htr.
  rewrite !chunks_whole in Htr; cycle 1.
  1,3: destruct X, Y; simpl in *; try discriminate; lia.
  1,2: unfold batch_rows; destruct (Z.eqb_spec bs 0); lia.
  cbn [combine] in Htr. rewrite concat_repeat1 in Htr.
  destruct (one_epochs k o X Y (r_uni (h_rng s)) n lr HXl (Z.to_nat epochs) (e_p e) (x_po x) (r_upos (h_rng s)) HK Hpo HP) as (po' & E2).
  pose proof (eq_trans Htr E2) as Hep'. injection Hep' as Hep _.
  destruct (wb_iter k n o X Y lr (Z.to_nat epochs) (e_p e)) as (Hwb & _). rewrite <- Hep in Hwb. rewrite Hwb, Hpi. reflexivity.
Qed.
Lemma one_dims (s : state RNum) m e x i o k : trainable s m [e] [x] i o k -> p_in (e_p e) = i /\ p_out (e_p e) = o /\ (1 <= o)%nat.
Proof.
  intros ((_ & _ & _ & _ & Hch & Hok) & _). cbn [net map chain] in Hch. destruct Hch as (Hpi & Hpo). split; [exact Hpi|]. split; [exact Hpo|].
  inversion Hok as [|? ? Hlok _]; subst. destruct Hlok as (l & _ & HL). destruct HL as (_ & _ & _ & _ & _ & _ & Ho & _). exact Ho.
Qed.
Lemma no_further s m e x mx rsx y rsy s2 m2 e2 x2 mx2 rsx2 y2 rsy2 i o k n (X Y : rpm) epochs bs xv yv bs2 xv2 yv2 lr L :
  (bs = 0 \/ Z.of_nat n <= bs)%Z -> (Z.of_nat n + bs <= 2 ^ 52)%Z -> (bs2 = 0 \/ Z.of_nat n <= bs2)%Z -> (Z.of_nat n + bs2 <= 2 ^ 52)%Z -> (1 <= n)%nat ->
  trainable s m [e] [x] i o k -> data_ok s [e] mx rsx y rsy n i o X Y -> plain_sgd lr (x_po x) ->
  trainable s2 m2 [e2] [x2] i o k -> data_ok s2 [e2] mx2 rsx2 y2 rsy2 n i o X Y -> plain_sgd lr (x_po x2) ->
  convex_problem k (p_kind (e_p e)) n o Y L -> p_kind (e_p e2) = p_kind (e_p e) -> 0 < lr -> lr * L * (sqnorm n i X + INR n) <= 1 ->
  exists s' e' x' s2' e2' x2', Fit m mx y epochs bs xv yv 0 s = (Ret tt, s') /\ trainable s' m [e'] [x'] i o k /\ same_place e e' /\
    Fit m2 mx2 y2 epochs bs2 xv2 yv2 0 s2 = (Ret tt, s2') /\ trainable s2' m2 [e2'] [x2'] i o k /\ same_place e2 e2' /\
    apart i o (e_p e') (e_p e2') <= apart i o (e_p e) (e_p e2).
Proof.
  intros B1 B2 B3 B4 Hn HT HD HP HT2 HD2 HP2 HC EK Hlr HR. destruct (problem_pair k (e_p e) n o Y L HC) as (HK & Hone & EL).
  assert (HK2 : convex_pair k (e_p e2)) by (unfold convex_pair in *; rewrite EK; exact HK). destruct (one_dims _ _ _ _ _ _ _ HT) as (_ & _ & Ho).
  destruct (fit_gd s m e x i o k mx rsx y rsy n X Y epochs bs xv yv lr B1 B2 Hn HT HD HK HP) as (s' & e' & x' & F1 & T1 & P1 & _ & W1).
  destruct (fit_gd s2 m2 e2 x2 i o k mx2 rsx2 y2 rsy2 n X Y epochs bs2 xv2 yv2 lr B3 B4 Hn HT2 HD2 HK2 HP2) as (s2' & e2' & x2' & F2 & T2 & P2 & _ & W2).
  exists s', e', x', s2', e2', x2'. do 6 (split; [assumption|]).
  destruct (loss_facts k n o Y (e_p e) Hn Ho HK Hone) as (L1 & L2 & _ & _).
  assert (EG : one_gr k n o Y (e_p e2) = one_gr k n o Y (e_p e)) by (destruct k; reflexivity). rewrite EG in W2.
  assert (HB : 0 < smoothness k n o).
  { assert (0 < INR n) by (apply lt_0_INR; lia). assert (0 < INR o) by (apply lt_0_INR; lia). destruct k; simpl; (apply Rmult_lt_0_compat; [lra|now apply Rinv_0_lt_compat]). }
  rewrite EL in HR. pose proof (iter_apart n i o X (loss_of k n o Y) (one_gr k n o Y (e_p e)) (smoothness k n o) lr L1 L2 Hlr HB Hn HR (wb (e_p e)) (wb (e_p e2)) (Z.to_nat epochs)) as H.
  rewrite <- W1, <- W2 in H. exact H.
Qed.
Lemma stable_run s m e x i o mx rsx y rsy mx' rsx' y' rsy' n b (X Y X' Y' : rpm) R2 epochs bs xv yv lr :
  (bs = 0 \/ Z.of_nat n <= bs)%Z -> (Z.of_nat n + bs <= 2 ^ 52)%Z -> (b < n)%nat ->
  trainable s m [e] [x] i o CE -> p_kind (e_p e) = SoftmaxK -> plain_sgd lr (x_po x) -> 0 < lr ->
  data_ok s [e] mx rsx y rsy n i o X Y -> data_ok s [e] mx' rsx' y' rsy' n i o X' Y' -> classes n o Y -> classes n o Y' -> neighbours n i o b X Y X' Y' ->
  within n i X R2 -> within n i X' R2 -> lr * (R2 + 1) <= 1 ->
  exists s1 s2, Fit m mx y epochs bs xv yv 0 s = (Ret tt, s1) /\ Fit m mx' y' epochs bs xv yv 0 s = (Ret tt, s2) /\
    forall N zx rz zy rv Z V, (1 <= N)%nat -> data_ok s [e] zx rz zy rv N i o Z V -> classes N o V -> within N i Z R2 ->
    exists l1 l2 t1 t2, CalculateLoss m zx zy s1 = (Ret l1, t1) /\ CalculateLoss m zx zy s2 = (Ret l2, t2) /\
      Rabs (l1 - l2) <= 4 * (R2 + 1) * lr * INR (Z.to_nat epochs) / INR n.
Proof.
  intros B1 B2 Hb HT HKd HP Hlr HD HD' HY HY' HN HW HW' HR.
  assert (Hn : (1 <= n)%nat) by lia. assert (Pn : 0 < INR n) by (apply lt_0_INR; lia).
  assert (HR0 : 0 <= R2). { specialize (HW b Hb). pose proof (rsum_nonneg i (fun l => entry X b l ^ 2) (fun l _ => pow2_ge_0 _)). lra. }
  assert (HK : convex_pair CE (e_p e)) by (right; now split). destruct (one_dims _ _ _ _ _ _ _ HT) as (Hpi & Hpo & Ho).
  assert (Hhot : forall N V, classes N o V -> one_hot N o V) by (intros N V HV; destruct (pce_rows N o [] V HV) as (lab & HL & _); exists lab; intros a Ha; destruct (HL a Ha) as (A & _ & B); now split).
  destruct (fit_gd s m e x i o CE mx rsx y rsy n X Y epochs bs xv yv lr B1 B2 Hn HT HD HK HP) as (s1 & e1 & x1 & F1 & T1 & P1 & Fr1 & W1).
  destruct (fit_gd s m e x i o CE mx' rsx' y' rsy' n X' Y' epochs bs xv yv lr B1 B2 Hn HT HD' HK HP) as (s2 & e2 & x2 & F2 & T2 & P2 & Fr2 & W2).
  cbn [one_gr] in W1, W2. set (t := Z.to_nat epochs) in *. set (q := 2 * (sqrt (2 * (R2 + 1)) / INR n)).
  assert (Hq : 0 <= q) by (unfold q; apply Rmult_le_pos; [lra|]; apply Rmult_le_pos; [apply sqrt_pos|left; now apply Rinv_0_lt_compat]).
  destruct (loss_facts CE n o Y (e_p e) Hn Ho HK (fun _ => Hhot n Y HY)) as (L1 & L2 & _ & _).
  assert (SX : sqnorm n i X <= INR n * R2). { unfold sqnorm. eapply Rle_trans; [apply rsum_le; intros a Ha; exact (HW a Ha)|]. rewrite rsum_const. lra. }
  assert (HRate : lr * (1 / INR n) * (sqnorm n i X + INR n) <= 1).
  { eapply Rle_trans; [|exact HR]. replace (lr * (R2 + 1)) with (lr * (1 / INR n) * (INR n * R2 + INR n)) by (field; lra). apply Rmult_le_compat_l; [|lra]. apply Rmult_le_pos; [lra|]. apply Rmult_le_pos; [lra|]. left. now apply Rinv_0_lt_compat. }
  assert (HBt : 0 < 1 / INR n) by (apply Rmult_lt_0_compat; [lra|now apply Rinv_0_lt_compat]).
  pose proof (iter_other n i o X (cePhi n o Y) (ceGr n o Y) (1 / INR n) lr L1 L2 Hlr HBt Hn HRate X' (ceGr n o Y') q Hq (fun v => grad_close n i o Hn X Y X' Y' b v R2 HY HY' Hb HN HW HW') (wb (e_p e)) t) as HDist.
  rewrite <- W1, <- W2 in HDist.
  exists s1, s2. split; [exact F1|]. split; [exact F2|]. intros N zx rz zy rv Z V HN1 (OZ & OV & DZ & DV) HV HWZ.
  assert (Keep : forall s' mm rs c A, own s mm rs N c A -> disjoint rs (prows [e]) -> frame (among (prows [e])) s s' -> own s' mm rs N c A).
  { intros s' mm rs c A HO HDj HFr. eapply own_frame; [exact HO|exact HFr|]. intros z Hz HIn. exact (HDj z Hz HIn). }
  assert (Loss : forall s' e' x', trainable s' m [e'] [x'] i o CE -> same_place e e' -> frame (among (prows [e])) s s' ->
    exists t', CalculateLoss m zx zy s' = (Ret (obj N i o Z (cePhi N o V) (wb (e_p e'))), t')).
  { intros s' e' x' HT' HSP HFr. assert (HM : m_loss m = Some (MkLoss CE (Z.of_nat o))) by apply HT'.
    destruct (returns_wp _ _ _ (wp_CalculateLoss s' m [e'] i o CE zx rz zy rv N Z V (proj1 HT') ltac:(cbn; lia) HM (Keep _ _ _ _ _ OZ DZ HFr) (Keep _ _ _ _ _ OV DV HFr) HN1)) as (l & t' & E & -> & _).
    exists t'. rewrite E. f_equal. f_equal. assert (HK' : convex_pair CE (e_p e')) by (right; split; [reflexivity|]; destruct HSP as (_ & _ & _ & HLk & _); congruence).
    destruct (one_dims _ _ _ _ _ _ _ HT') as (Hpi' & Hpo' & _). etransitivity; [|etransitivity; [exact (one_objective CE N o Z V (e_p e') HK' Hpo')|]]; [reflexivity|]. now rewrite Hpi'. }
  destruct (Loss s1 e1 x1 T1 P1 Fr1) as (t1 & E1). destruct (Loss s2 e2 x2 T2 P2 Fr2) as (t2 & E2).
  eexists _, _, t1, t2. split; [exact E1|]. split; [exact E2|].
  assert (Hd : 0 <= INR t * (lr * q)) by (apply Rmult_le_pos; [apply pos_INR|]; apply Rmult_le_pos; lra).
  pose proof (loss_close N i o HN1 Z V R2 _ _ _ HV HWZ HR0 Hd HDist) as H1.
  assert (HDist' : dist i o (wb (e_p e2)) (wb (e_p e1)) <= (INR t * (lr * q)) ^ 2).
  { eapply Rle_trans; [|exact HDist]. right. unfold dist, sqdist. f_equal; apply rsum_ext; intros a Ha; apply rsum_ext; intros c Hc; toR; ring. }
  pose proof (loss_close N i o HN1 Z V R2 _ _ _ HV HWZ HR0 Hd HDist') as H2.
  assert (EB : sqrt (2 * (R2 + 1)) * (INR t * (lr * q)) = 4 * (R2 + 1) * lr * INR t / INR n).
  { unfold q. replace (sqrt (2 * (R2 + 1)) * (INR t * (lr * (2 * (sqrt (2 * (R2 + 1)) / INR n))))) with (2 * (sqrt (2 * (R2 + 1)) * sqrt (2 * (R2 + 1))) * lr * INR t / INR n) by (field; lra). rewrite sqrt_sqrt by lra. field. lra. }
  rewrite EB in H1, H2. apply Rabs_le. split; lra.
Qed.
