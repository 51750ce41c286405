(** * HeavyRec: the recurrence of gradient descent with momentum on one mode. *)
From Coq Require Import Arith Lia Reals Lra Psatz.
Open Scope R_scope.

(** Each error is the last one plus momentum times the last change minus [a] times the last error. *)
Definition heavy (mu a : R) (x : nat -> R) : Prop := x 1%nat = (1 - a) * x 0%nat /\ forall t, x (S (S t)) = x (S t) + mu * (x (S t) - x t) - a * x (S t).

Section Rec.
Variables (mu a : R) (x : nat -> R).
Hypothesis H : heavy mu a x.
Let p := 1 + mu - a.
Lemma heavy_rec t : x (S (S t)) = p * x (S t) - mu * x t.
Proof. rewrite (proj2 H). unfold p. ring. Qed.
(** The quadratic form that shrinks by exactly [mu]. *)
Lemma heavy_form t : x (S t) ^ 2 - p * x (S t) * x t + mu * x t ^ 2 = mu ^ t * (mu * a * x 0%nat ^ 2).
Proof.
  induction t as [|t IH]; [rewrite (proj1 H); unfold p; simpl; ring|]. cbn [pow] in *. rewrite heavy_rec.
  transitivity (mu * (x (S t) * (x (S t) * 1) - p * x (S t) * x t + mu * (x t * (x t * 1)))); [ring|]. rewrite IH. ring.
Qed.
Lemma heavy_under t : p ^ 2 < 4 * mu -> x t ^ 2 <= mu ^ t * (mu * a / (mu - p ^ 2 / 4) * x 0%nat ^ 2).
Proof.
  intros HP. assert (HD : 0 < mu - p ^ 2 / 4) by lra. pose proof (heavy_form t) as E.
  assert (L : (mu - p ^ 2 / 4) * x t ^ 2 <= mu ^ t * (mu * a * x 0%nat ^ 2)).
  { rewrite <- E. pose proof (pow2_ge_0 (x (S t) - p / 2 * x t)) as S0. nra. }
  apply (Rmult_le_reg_l (mu - p ^ 2 / 4)); [exact HD|]. eapply Rle_trans; [exact L|]. right. field. lra.
Qed.
(** With real roots the error is the solution of two first-order recurrences. *)
Lemma heavy_roots r1 r2 t : r1 + r2 = p -> r1 * r2 = mu -> x (S t) - r1 * x t = r2 ^ t * ((1 - a - r1) * x 0%nat).
Proof.
  intros E1 E2. induction t as [|t IH]; [rewrite (proj1 H); simpl; ring|]. rewrite heavy_rec, <- E1, <- E2. cbn [pow].
  transitivity (r2 * (x (S t) - r1 * x t)); [ring|]. rewrite IH. ring.
Qed.
End Rec.

(** First-order recurrence with a decaying disturbance. *)
Lemma chase (x : nat -> R) r rho rho' c : 0 <= rho -> Rabs r <= rho -> rho < rho' -> 0 <= c -> (forall t, Rabs (x (S t) - r * x t) <= c * rho ^ t) ->
  forall t, Rabs (x t) <= (Rabs (x 0%nat) + c / (rho' - rho)) * rho' ^ t.
Proof.
  intros H0 Hr Hr' Hc HX. set (C := Rabs (x 0%nat) + c / (rho' - rho)).
  assert (HQ : 0 <= c / (rho' - rho)) by (apply Rmult_le_pos; [exact Hc|left; apply Rinv_0_lt_compat; lra]).
  assert (HC : c <= (rho' - rho) * C).
  { unfold C. assert (0 <= (rho' - rho) * Rabs (x 0%nat)) by (apply Rmult_le_pos; [lra|apply Rabs_pos]).
    replace ((rho' - rho) * (Rabs (x 0%nat) + c / (rho' - rho))) with ((rho' - rho) * Rabs (x 0%nat) + c) by (field; lra). lra. }
  assert (HC0 : 0 <= C) by (unfold C; pose proof (Rabs_pos (x 0%nat)); lra).
  induction t as [|t IH].
  - cbn [pow]. unfold C. lra.
  - assert (P0 : 0 <= rho' ^ t) by (apply pow_le; lra). assert (P1 : rho ^ t <= rho' ^ t) by (apply pow_incr; lra).
    replace (x (S t)) with ((x (S t) - r * x t) + r * x t) by ring. eapply Rle_trans; [apply Rabs_triang|]. rewrite Rabs_mult.
    assert (B1 : Rabs r * Rabs (x t) <= rho * (C * rho' ^ t)) by (apply Rmult_le_compat; try apply Rabs_pos; assumption).
    assert (B2 : c * rho ^ t <= (rho' - rho) * C * rho' ^ t) by (apply Rmult_le_compat; try assumption; apply pow_le; lra).
    specialize (HX t). cbn [pow]. nra.
Qed.

(** Both roots of z^2 - p z + mu. *)
Lemma roots mu p : 4 * mu <= p ^ 2 -> exists r1 r2, r1 + r2 = p /\ r1 * r2 = mu /\ r2 <= r1.
Proof.
  intros HD. set (d := sqrt (p ^ 2 - 4 * mu)). assert (E : d * d = p ^ 2 - 4 * mu) by (apply sqrt_sqrt; lra). assert (0 <= d) by apply sqrt_pos.
  exists ((p + d) / 2), ((p - d) / 2). split; [field|]. split; [|lra]. replace ((p + d) / 2 * ((p - d) / 2)) with ((p ^ 2 - d * d) / 4) by field. rewrite E. field.
Qed.
Lemma heavy_converges mu a : 0 <= mu < 1 -> 0 < a < 2 * (1 + mu) -> exists rho C, 0 <= rho < 1 /\ 0 <= C /\
  forall x, heavy mu a x -> forall t, Rabs (x t) <= C * rho ^ t * Rabs (x 0%nat).
Proof.
  intros Hm Ha. set (p := 1 + mu - a). destruct (Rlt_dec (p ^ 2) (4 * mu)) as [HD|HD].
  - assert (Hmu : 0 < mu) by (pose proof (pow2_ge_0 p); lra).
    set (K := mu * a / (mu - p ^ 2 / 4)). assert (HK : 0 <= K) by (apply Rmult_le_pos; [nra|left; apply Rinv_0_lt_compat; lra]).
    exists (sqrt mu), (sqrt K). split; [|split; [apply sqrt_pos|]].
    + split; [apply sqrt_pos|]. rewrite <- sqrt_1. apply sqrt_lt_1; lra.
    + intros x Hx t. pose proof (heavy_under mu a x Hx t HD) as B. fold p in B. fold K in B.
      rewrite <- sqrt_Rsqr_abs. rewrite <- (sqrt_Rsqr_abs (x 0%nat)).
      assert (ES : sqrt mu ^ t = sqrt (mu ^ t)).
      { clear - Hmu. induction t as [|t IH]; [cbn; now rewrite sqrt_1|]. cbn [pow]. rewrite sqrt_mult; [now rewrite IH|lra|apply pow_le; lra]. }
      rewrite ES. assert (0 <= mu ^ t) by (apply pow_le; lra). rewrite <- !sqrt_mult; try assumption; try apply Rle_0_sqr; try (apply Rmult_le_pos; assumption).
      apply sqrt_le_1; [apply Rle_0_sqr|apply Rmult_le_pos; [apply Rmult_le_pos; assumption|apply Rle_0_sqr]|]. unfold Rsqr. cbn [pow] in B. lra.
  - destruct (roots mu p ltac:(lra)) as (r1 & r2 & E1 & E2 & HO).
    assert (Hp : -(1 + mu) < p < 1 + mu) by (unfold p; lra).
    assert (F1 : 0 < (1 - r1) * (1 - r2)) by nra. assert (F2 : 0 < (1 + r1) * (1 + r2)) by nra.
    assert (R1 : r1 < 1) by nra. assert (R2 : -1 < r2) by nra.
    set (rho := Rmax (Rabs r1) (Rabs r2)).
    assert (Hrho : 0 <= rho < 1).
    { split; [eapply Rle_trans; [apply Rabs_pos|apply Rmax_l]|]. apply Rmax_lub_lt; apply Rabs_def1; lra. }
    exists ((rho + 1) / 2), (1 + Rabs (1 - a - r1) / ((rho + 1) / 2 - rho)). split; [lra|].
    assert (HQ : 0 <= Rabs (1 - a - r1) / ((rho + 1) / 2 - rho)) by (apply Rmult_le_pos; [apply Rabs_pos|left; apply Rinv_0_lt_compat; lra]).
    split; [lra|]. intros x Hx t.
    pose proof (chase x r1 rho ((rho + 1) / 2) (Rabs ((1 - a - r1) * x 0%nat)) (proj1 Hrho) (Rmax_l _ _) ltac:(lra) (Rabs_pos _)) as CH.
    eapply Rle_trans; [apply CH|].
    + intros u. rewrite (heavy_roots mu a x Hx r1 r2 u E1 E2). rewrite Rabs_mult, <- RPow_abs. rewrite Rmult_comm. apply Rmult_le_compat_l; [apply Rabs_pos|].
      apply pow_incr. split; [apply Rabs_pos|apply Rmax_r].
    + right. rewrite Rabs_mult. field. lra.
Qed.
(** Beyond the threshold the error does not go to zero. *)
Lemma heavy_stays mu a x : 0 <= mu < 1 -> 2 * (1 + mu) <= a -> heavy mu a x -> x 0%nat <> 0 ->
  exists d, 0 < d /\ forall t, d <= Rabs (x t) \/ d <= Rabs (x (S t)).
Proof.
  intros Hm Ha Hx H0. set (p := 1 + mu - a). assert (Hp : p <= - (1 + mu)) by (unfold p; lra).
  destruct (roots mu p ltac:(nra)) as (r1 & r2 & E1 & E2 & HO).
  assert (R2 : r2 <= -1) by nra. assert (R1 : Rabs r1 <= 1) by (apply Rabs_le; nra).
  assert (N : 1 - a - r1 <> 0). { unfold p in *. intros N. nra. }
  assert (HN : 0 < Rabs ((1 - a - r1) * x 0%nat)) by (apply Rabs_pos_lt; nra).
  exists (Rabs ((1 - a - r1) * x 0%nat) / 2). split; [lra|]. intros t.
  pose proof (heavy_roots mu a x Hx r1 r2 t E1 E2) as E. apply (f_equal Rabs) in E. rewrite (Rabs_mult (r2 ^ t)), <- RPow_abs in E.
  assert (P1 : 1 <= Rabs r2 ^ t) by (apply pow_R1_Rle; rewrite Rabs_left; lra).
  assert (T : Rabs (x (S t) - r1 * x t) <= Rabs (x (S t)) + Rabs (x t)).
  { eapply Rle_trans; [apply Rabs_triang|]. rewrite Rabs_Ropp, Rabs_mult. pose proof (Rabs_pos (x t)). nra. }
  destruct (Rle_dec (Rabs ((1 - a - r1) * x 0%nat) / 2) (Rabs (x t))) as [C|C]; [left; exact C|right]. nra.
Qed.

(** ** Acceleration *)
(** Between the square roots of the extreme eigenvalues. *)
Lemma heavy_fast l L rho : 0 < l <= L -> (sqrt L - sqrt l) / (sqrt L + sqrt l) < rho < 1 -> exists eta, 0 < eta /\
  exists C, 0 <= C /\ forall lam, l <= lam <= L -> forall x, heavy (rho ^ 2) (eta * lam) x -> forall t, Rabs (x t) <= C * rho ^ t * Rabs (x 0%nat).
Proof.
  intros Hl Hr. set (sl := sqrt l) in *. set (sL := sqrt L) in *.
  assert (Sl : 0 < sl) by (apply sqrt_lt_R0; lra). assert (SL : sl <= sL) by (apply sqrt_le_1; lra).
  assert (El : sl * sl = l) by (apply sqrt_sqrt; lra). assert (EL : sL * sL = L) by (apply sqrt_sqrt; lra).
  assert (HR : sL - sl < rho * (sL + sl)).
  { destruct Hr as [Hr _]. apply (Rmult_lt_compat_r (sL + sl)) in Hr; [|lra]. unfold Rdiv in Hr. rewrite Rmult_assoc, Rinv_l, Rmult_1_r in Hr by lra. exact Hr. }
  assert (R0 : 0 < rho) by nra.
  (* sqrt eta between (1 - rho) / sl and (1 + rho) / sL *)
  assert (GAP : (1 - rho) / sl < (1 + rho) / sL).
  { apply (Rmult_lt_reg_r (sl * sL)); [nra|]. replace ((1 - rho) / sl * (sl * sL)) with ((1 - rho) * sL) by (field; lra).
    replace ((1 + rho) / sL * (sl * sL)) with ((1 + rho) * sl) by (field; lra). lra. }
  set (h := ((1 - rho) / sl + (1 + rho) / sL) / 2).
  assert (P1 : 0 < (1 - rho) / sl) by (apply Rdiv_lt_0_compat; lra).
  assert (Hh : (1 - rho) / sl < h < (1 + rho) / sL) by (unfold h; lra).
  assert (H1 : 1 - rho < h * sl). { destruct Hh as [A _]. apply (Rmult_lt_compat_r sl) in A; [|lra]. unfold Rdiv in A. rewrite Rmult_assoc, Rinv_l, Rmult_1_r in A by lra. exact A. }
  assert (H2 : h * sL < 1 + rho). { destruct Hh as [_ A]. apply (Rmult_lt_compat_r sL) in A; [|lra]. unfold Rdiv in A. rewrite Rmult_assoc, Rinv_l, Rmult_1_r in A by lra. exact A. }
  exists (h ^ 2). split; [apply pow_lt; lra|].
  set (g := Rmin (h * sl - (1 - rho)) (1 + rho - h * sL)).
  assert (Hg : 0 < g) by (apply Rmin_glb_lt; lra).
  (* mu - p^2/4 >= rho g (..): with b = h sqrt lam, 4 mu - p^2 = (b^2 - (1-rho)^2) ((1+rho)^2 - b^2) *)
  set (D := (g * (1 - rho)) * (g * (1 + rho)) / 4).
  assert (HD : 0 < D) by (unfold D; assert (0 < g * (1 - rho)) by nra; assert (0 < g * (1 + rho)) by nra; nra).
  exists (sqrt (rho ^ 2 * (h ^ 2 * L) / D)). split; [apply sqrt_pos|]. intros lam Hlam x Hx t.
  set (b := h * sqrt lam). assert (Eb : b ^ 2 = h ^ 2 * lam) by (unfold b; rewrite Rpow_mult_distr; f_equal; rewrite <- (sqrt_sqrt lam) at 2 by lra; ring).
  assert (Hh0 : 0 < h) by lra.
  assert (B1 : h * sl <= b) by (apply Rmult_le_compat_l; [lra|apply sqrt_le_1; lra]). assert (B2 : b <= h * sL) by (apply Rmult_le_compat_l; [lra|apply sqrt_le_1; lra]).
  assert (G1 : g <= h * sl - (1 - rho)) by apply Rmin_l. assert (G2 : g <= 1 + rho - h * sL) by apply Rmin_r.
  assert (HP : D <= rho ^ 2 - (1 + rho ^ 2 - h ^ 2 * lam) ^ 2 / 4).
  { rewrite <- Eb. replace (rho ^ 2 - (1 + rho ^ 2 - b ^ 2) ^ 2 / 4) with ((b - (1 - rho)) * (b + (1 - rho)) * ((1 + rho - b) * (1 + rho + b)) / 4) by field.
    unfold D. apply Rmult_le_compat_r; [lra|]. apply Rmult_le_compat; try nra. }
  assert (HA : 0 <= h ^ 2 * lam) by (rewrite <- Eb; apply pow2_ge_0).
  assert (HP4 : (1 + rho ^ 2 - h ^ 2 * lam) ^ 2 < 4 * rho ^ 2) by lra.
  pose proof (heavy_under (rho ^ 2) (h ^ 2 * lam) x Hx t HP4) as B.
  assert (B' : x t ^ 2 <= (rho ^ 2) ^ t * (rho ^ 2 * (h ^ 2 * L) / D * x 0%nat ^ 2)).
  { eapply Rle_trans; [exact B|]. apply Rmult_le_compat_l; [apply pow_le, pow2_ge_0|]. apply Rmult_le_compat_r; [apply pow2_ge_0|].
    unfold Rdiv. apply Rmult_le_compat; [apply Rmult_le_pos; [apply pow2_ge_0|exact HA]|left; apply Rinv_0_lt_compat; lra| |apply Rinv_le_contravar; lra].
    apply Rmult_le_compat_l; [apply pow2_ge_0|]. apply Rmult_le_compat_l; [apply pow2_ge_0|lra]. }
  set (K := rho ^ 2 * (h ^ 2 * L) / D) in *.
  assert (HK : 0 <= K). { unfold K. apply Rmult_le_pos; [|left; apply Rinv_0_lt_compat; exact HD]. apply Rmult_le_pos; [apply pow2_ge_0|]. apply Rmult_le_pos; [apply pow2_ge_0|lra]. }
  apply Rsqr_incr_0_var; [|apply Rmult_le_pos; [apply Rmult_le_pos; [apply sqrt_pos|apply pow_le; lra]|apply Rabs_pos]].
  rewrite !Rsqr_mult, <- !Rsqr_abs. rewrite Rsqr_sqrt by exact HK. rewrite <- pow_mult, Nat.mul_comm, pow_mult in B'. unfold Rsqr. cbn [pow] in B'. rewrite !Rmult_1_r in B'.
  replace (rho ^ t * rho ^ t) with (rho ^ t * (rho ^ t * 1)) by ring. nra.
Qed.
(** Plain gradient descent cannot do better than (L - l) / (L + l) on both ends. *)
Lemma plain_slow l L eta : 0 < l <= L -> (L - l) / (L + l) <= Rabs (1 - eta * l) \/ (L - l) / (L + l) <= Rabs (1 - eta * L).
Proof.
  intros H. set (k := (L - l) / (L + l)). assert (E : k * (L + l) = L - l) by (unfold k; field; lra).
  destruct (Rle_dec k (Rabs (1 - eta * l))) as [C|C]; [left; exact C|]. right. apply Rnot_le_lt in C. apply Rabs_def2 in C as [C1 C2].
  assert (eta * (L + l) > 2). { assert (1 - k < eta * l) by lra. nra. }
  rewrite Rabs_left1; nra.
Qed.
