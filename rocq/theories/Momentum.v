(** * Momentum: heavy-ball descent on one affine layer with a convex, smooth objective. *)
From Coq Require Import String ZArith List Bool Arith Lia Reals Lra Psatz.
From Coquelicot Require Import Coquelicot.
From Verif Require Import Num NumR Heap Spec PureSpec Repr RSum MatrixFacts LayerReal GradSpec Grad Converge.
Import ListNotations.
Open Scope R_scope.

(** ** Pairs of weights and biases as vectors *)
Section Vectors.
Variables (k c : nat).
Definition ip (u v : rpm * rpm) : R := inner k c (fst u) (fst v) + inner 1 c (snd u) (snd v).
Definition lin (a : R) (u : rpm * rpm) (b : R) (v : rpm * rpm) : rpm * rpm :=
  (mk (K := RNum) k c (fun i j => a * entry (fst u) i j + b * entry (fst v) i j),
   mk (K := RNum) 1 c (fun i j => a * entry (snd u) i j + b * entry (snd v) i j)).
Lemma inner_sym r0 c0 (A B : rpm) : inner r0 c0 A B = inner r0 c0 B A.
Proof. unfold inner. apply rsum_ext. intros i Hi. apply rsum_ext. intros j Hj. ring. Qed.
Lemma inner_lin r0 c0 (A B D : rpm) a b : inner r0 c0 (mk (K := RNum) r0 c0 (fun i j => a * entry A i j + b * entry B i j)) D = a * inner r0 c0 A D + b * inner r0 c0 B D.
Proof.
  unfold inner. rewrite <- !rsum_scal, <- rsum_plus. apply rsum_ext. intros i Hi. rewrite <- !rsum_scal, <- rsum_plus. apply rsum_ext. intros j Hj.
  rewrite entry_mk by auto. toR. ring.
Qed.
Lemma ip_sym u v : ip u v = ip v u.
Proof. unfold ip. now rewrite (inner_sym k), (inner_sym 1). Qed.
Lemma ip_lin_l a u b v w : ip (lin a u b v) w = a * ip u w + b * ip v w.
Proof. unfold ip, lin. cbn [fst snd]. rewrite !inner_lin. ring. Qed.
Lemma ip_lin_r a u b v w : ip w (lin a u b v) = a * ip w u + b * ip w v.
Proof. rewrite ip_sym, ip_lin_l, (ip_sym u), (ip_sym v). reflexivity. Qed.
Lemma ip_pos u : 0 <= ip u u.
Proof. unfold ip. rewrite !inner_sq. pose proof (sqnorm_nonneg k c (fst u)). pose proof (sqnorm_nonneg 1 c (snd u)). lra. Qed.
Lemma ip_split u : ip u u = sqnorm k c (fst u) + sqnorm 1 c (snd u).
Proof. unfold ip. now rewrite !inner_sq. Qed.
End Vectors.

(** ** The scalar argument *)
Section Energy.
Variables (lr mu L fv D : R) (f vv vvn gvn gw gv gg dz : nat -> R).
Hypothesis Hlr : 0 < lr.
Hypothesis Hmu : 0 <= mu < 1.
Hypothesis HL : 0 <= L.
Hypothesis Hrate : lr * L <= 1 - mu.
Hypothesis f_pos : forall n, 0 <= f n.
Hypothesis vv0 : vv 0%nat = 0.
Hypothesis vv_pos : forall n, 0 <= vv n.
Hypothesis gg_pos : forall n, 0 <= gg n.
Hypothesis dz0 : dz 0%nat = D.
Hypothesis dz_pos : forall n, 0 <= dz n.
Hypothesis smooth : forall n, f (S n) <= f n + gvn n + L / 2 * vv (S n).
Hypothesis velocity : forall n, vv (S n) = mu * vvn n - lr * gvn n.
Hypothesis young : forall n, 2 * vvn n <= vv n + vv (S n).
Hypothesis convex : forall n, f n - fv <= gw n.
Hypothesis back0 : gv 0%nat = 0.
Hypothesis back : forall n, f (S n) - f n <= gv (S n).
Hypothesis dstep : forall n, dz (S n) = dz n - 2 * (lr / (1 - mu)) * (gw n + mu / (1 - mu) * gv n) + (lr / (1 - mu)) ^ 2 * gg n.
Hypothesis gbound : forall n, lr ^ 2 * gg n <= 2 * mu ^ 2 * vv n + 2 * vv (S n).

Definition energy n : R := f n + mu / (2 * lr) * vv n.
Lemma mu1 : 0 < 1 - mu. Proof. lra. Qed.
Lemma energy_falls n : energy (S n) <= energy n - (1 - mu) / (2 * lr) * vv (S n).
Proof.
  unfold energy. pose proof (smooth n) as H1. pose proof (velocity n) as H2. pose proof (young n) as H3. pose proof (vv_pos (S n)) as H4.
  assert (Hi : 0 < / lr) by (now apply Rinv_0_lt_compat).
  assert (E : gvn n = (mu * vvn n - vv (S n)) / lr) by (rewrite H2; field; lra).
  assert (E1 : gvn n <= mu / (2 * lr) * vv n + mu / (2 * lr) * vv (S n) - vv (S n) / lr).
  { rewrite E. replace (mu / (2 * lr) * vv n + mu / (2 * lr) * vv (S n) - vv (S n) / lr) with ((mu * ((vv n + vv (S n)) / 2) - vv (S n)) / lr) by (field; lra).
    apply Rmult_le_compat_r; [lra|]. nra. }
  assert (E2 : L / 2 * vv (S n) <= (1 - mu) / (2 * lr) * vv (S n)).
  { apply Rmult_le_compat_r; [lra|]. apply (Rmult_le_reg_l (2 * lr)); [lra|]. field_simplify; [|lra..]. lra. }
  replace (vv (S n) / lr) with (mu / (2 * lr) * vv (S n) + mu / (2 * lr) * vv (S n) + 2 * ((1 - mu) / (2 * lr)) * vv (S n)) in E1 by (field; lra).
  lra.
Qed.
Lemma c1_pos : 0 < (1 - mu) / (2 * lr).
Proof. apply Rdiv_lt_0_compat; lra. Qed.
Lemma c2_pos : 0 <= mu / (2 * lr).
Proof. apply Rmult_le_pos; [lra|]. left. apply Rinv_0_lt_compat. lra. Qed.
Lemma energy_le n m : (n <= m)%nat -> energy m <= energy n.
Proof.
  induction 1 as [|m H IH]; [lra|]. pose proof (energy_falls m). pose proof (vv_pos (S m)). pose proof c1_pos.
  assert (0 <= (1 - mu) / (2 * lr) * vv (S m)) by (apply Rmult_le_pos; lra). lra.
Qed.
Lemma energy0 : energy 0 = f 0%nat.
Proof. unfold energy. rewrite vv0. ring. Qed.
Lemma f_le_energy n : f n <= energy n.
Proof. unfold energy. pose proof (vv_pos n). pose proof c2_pos. nra. Qed.
Lemma never_above n : f n <= f 0%nat.
Proof. pose proof (f_le_energy n). pose proof (energy_le 0 n (Nat.le_0_l n)). rewrite energy0 in *. lra. Qed.
Lemma speeds n : (1 - mu) / (2 * lr) * rsum n (fun t => vv (S t)) <= f 0%nat - energy n.
Proof.
  induction n as [|n IH]; [rewrite rsum_0, energy0; lra|]. rewrite rsum_S, Rmult_plus_distr_l. pose proof (energy_falls n). lra.
Qed.
Lemma speeds' n : rsum n (fun t => vv (S t)) <= 2 * lr / (1 - mu) * f 0%nat.
Proof.
  pose proof (speeds n) as H. pose proof (f_le_energy n). pose proof (f_pos n). pose proof c1_pos as Hc.
  apply (Rmult_le_reg_l _ _ _ Hc). replace ((1 - mu) / (2 * lr) * (2 * lr / (1 - mu) * f 0%nat)) with (f 0%nat) by (field; lra). lra.
Qed.
Lemma shift n : rsum n vv <= rsum n (fun t => vv (S t)).
Proof.
  destruct n as [|n]; [rewrite !rsum_0; lra|].
  assert (E : forall m, rsum (S m) vv = vv 0%nat + rsum m (fun t => vv (S t))).
  { induction m as [|m IH]; [rewrite rsum_S, !rsum_0; lra|]. rewrite rsum_S, IH, (rsum_S m). lra. }
  rewrite E, vv0, rsum_S. pose proof (vv_pos (S n)). lra.
Qed.
Lemma gradients n : rsum n gg <= 8 * f 0%nat / (lr * (1 - mu)).
Proof.
  assert (H : lr ^ 2 * rsum n gg <= 4 * rsum n (fun t => vv (S t))).
  { pose proof (shift n) as Hs. assert (Hm : mu ^ 2 <= 1) by nra. assert (0 <= rsum n vv) by (apply rsum_nonneg; intros; apply vv_pos).
    assert (H1 : lr ^ 2 * rsum n gg <= 2 * mu ^ 2 * rsum n vv + 2 * rsum n (fun t => vv (S t))).
    { rewrite <- !rsum_scal, <- rsum_plus. apply rsum_le. intros i _. apply gbound. }
    nra. }
  pose proof (speeds' n) as H2. apply (Rmult_le_reg_l (lr ^ 2)); [nra|].
  replace (lr ^ 2 * (8 * f 0%nat / (lr * (1 - mu)))) with (4 * (2 * lr / (1 - mu) * f 0%nat)) by (field; lra). lra.
Qed.
(** The sum of the excess over the first n steps. *)
Lemma excess n : 2 * (lr / (1 - mu)) * rsum n (fun t => f t - fv) + dz n + 2 * (lr / (1 - mu)) * (mu / (1 - mu)) * (f (pred n) - f 0%nat) <= D + (lr / (1 - mu)) ^ 2 * rsum n gg.
Proof.
  assert (Ha : 0 < lr / (1 - mu)) by (apply Rdiv_lt_0_compat; lra).
  assert (Hb : 0 <= mu / (1 - mu)) by (apply Rmult_le_pos; [lra|left; apply Rinv_0_lt_compat; lra]).
  set (a := lr / (1 - mu)) in *. set (b := mu / (1 - mu)) in *.
  induction n as [|n IH]; [rewrite !rsum_0; simpl; rewrite dz0; lra|]. rewrite !rsum_S. cbn [pred]. rewrite (dstep n). fold a b.
  pose proof (convex n) as Hc.
  assert (Hv : f n - f (pred n) <= gv n). { destruct n as [|n]; [simpl; rewrite back0; lra|apply back]. }
  assert (a * (f n - fv) <= a * gw n) by (apply Rmult_le_compat_l; lra).
  assert (a * b * (f n - f (pred n)) <= a * b * gv n) by (apply Rmult_le_compat_l; [nra|lra]).
  lra.
Qed.
Lemma excess' n : rsum n (fun t => f t - fv) <= (1 - mu) * D / (2 * lr) + (4 / (1 - mu) ^ 2 + mu / (1 - mu)) * f 0%nat.
Proof.
  pose proof (excess n) as H. pose proof (gradients n) as HG. pose proof (dz_pos n). pose proof (f_pos (pred n)) as Hp.
  assert (Ha : 0 < lr / (1 - mu)) by (apply Rdiv_lt_0_compat; lra).
  assert (Hb : 0 <= mu / (1 - mu)) by (apply Rmult_le_pos; [lra|left; apply Rinv_0_lt_compat; lra]).
  assert (H1 : (lr / (1 - mu)) ^ 2 * rsum n gg <= (lr / (1 - mu)) ^ 2 * (8 * f 0%nat / (lr * (1 - mu)))) by (apply Rmult_le_compat_l; [nra|exact HG]).
  apply (Rmult_le_reg_l (2 * (lr / (1 - mu)))); [lra|].
  replace (2 * (lr / (1 - mu)) * ((1 - mu) * D / (2 * lr) + (4 / (1 - mu) ^ 2 + mu / (1 - mu)) * f 0%nat))
    with (D + (lr / (1 - mu)) ^ 2 * (8 * f 0%nat / (lr * (1 - mu))) + 2 * (lr / (1 - mu)) * (mu / (1 - mu)) * f 0%nat) by (field; lra).
  assert (0 <= 2 * (lr / (1 - mu)) * (mu / (1 - mu)) * f (pred n)). { apply Rmult_le_pos; [|exact Hp]. apply Rmult_le_pos; lra. }
  lra.
Qed.
Lemma energies n : INR n * (energy n - fv) <= rsum n (fun t => energy (S t) - fv).
Proof.
  rewrite <- rsum_const. apply rsum_le. intros t Ht. pose proof (energy_le (S t) n Ht). lra.
Qed.
Lemma heavy_ball n : INR n * (f n - fv) <= (1 - mu) * D / (2 * lr) + 6 * f 0%nat / (1 - mu) ^ 2.
Proof.
  pose proof (energies n) as H. pose proof (f_le_energy n) as Hf. pose proof (pos_INR n) as Hn.
  assert (E : rsum n (fun t => energy (S t) - fv) = rsum n (fun t => f t - fv) + (f n - f 0%nat) + mu / (2 * lr) * rsum n (fun t => vv (S t))).
  { clear. unfold energy. induction n as [|n IH]; [rewrite !rsum_0; ring|]. rewrite !rsum_S, IH. ring. }
  rewrite E in H. clear E. pose proof (excess' n) as H1. pose proof (never_above n) as H2. pose proof (speeds' n) as H3. pose proof c2_pos as H4.
  assert (H5 : mu / (2 * lr) * rsum n (fun t => vv (S t)) <= mu / (1 - mu) * f 0%nat).
  { replace (mu / (1 - mu) * f 0%nat) with (mu / (2 * lr) * (2 * lr / (1 - mu) * f 0%nat)) by (field; lra). now apply Rmult_le_compat_l. }
  assert (H6 : mu / (1 - mu) * f 0%nat <= 1 / (1 - mu) ^ 2 * f 0%nat).
  { apply Rmult_le_compat_r; [apply f_pos|]. apply (Rmult_le_reg_l ((1 - mu) ^ 2)); [nra|]. field_simplify; [|lra..]. nra. }
  assert (H7 : INR n * (f n - fv) <= INR n * (energy n - fv)) by (apply Rmult_le_compat_l; lra).
  replace (6 * f 0%nat / (1 - mu) ^ 2) with (4 / (1 - mu) ^ 2 * f 0%nat + 2 * (1 / (1 - mu) ^ 2 * f 0%nat)) by (field; lra).
  rewrite Rmult_plus_distr_r in H1. lra.
Qed.
End Energy.

(** ** The iteration *)
Section Heavy.
Variables (r k c : nat) (X : rpm) (Phi : rpm -> R) (Gr : rpm -> rpm) (beta lr mu : R).
Hypothesis Hconvex : forall Z Z', Phi Z + inner r c (Gr Z) (delta r c Z Z') <= Phi Z'.
Hypothesis Hsmooth : forall Z Z', Phi Z' <= Phi Z + inner r c (Gr Z) (delta r c Z Z') + beta / 2 * sqnorm r c (delta r c Z Z').
Hypothesis Hpos : forall Z, 0 <= Phi Z.
Hypothesis Hlr : 0 < lr.
Hypothesis Hmu : 0 <= mu < 1.
Hypothesis Hrate : lr * beta * (sqnorm r k X + INR r) <= 1 - mu.
Hypothesis Hbeta : 0 <= beta.
Let f := obj r k c X Phi.
Definition grad (w : rpm * rpm) : rpm * rpm := (dw r k c X Gr w, db r k c X Gr w).
Let L := beta * (sqnorm r k X + INR r).
(** Parameters and velocity. *)
Definition hb (q : (rpm * rpm) * (rpm * rpm)) : (rpm * rpm) * (rpm * rpm) :=
  let v := lin k c mu (snd q) (- lr) (grad (fst q)) in (lin k c 1 (fst q) 1 v, v).
Lemma inner_grad (w v : rpm * rpm) :
  inner r c (Gr (paff r k c X (fst w) (snd w))) (delta r c (paff r k c X (fst w) (snd w)) (paff r k c X (fst v) (snd v))) = ip k c (grad w) (lin k c 1 v (-1) w).
Proof.
  rewrite inner_delta. unfold ip, grad, lin. cbn [fst snd]. f_equal; apply inner_ext; intros i j Hi Hj; (split; [reflexivity|]) || idtac; rewrite ?entry_mk by auto; toR; try ring.
Qed.
Lemma f_convex w v : f w + ip k c (grad w) (lin k c 1 v (-1) w) <= f v.
Proof. unfold f, obj. rewrite <- inner_grad. apply Hconvex. Qed.
Lemma f_smooth w u : f (lin k c 1 w 1 u) <= f w + ip k c (grad w) u + L / 2 * ip k c u u.
Proof.
  unfold f, obj. set (v := lin k c 1 w 1 u).
  pose proof (Hsmooth (paff r k c X (fst w) (snd w)) (paff r k c X (fst v) (snd v))) as H. rewrite inner_grad in H.
  assert (EI : ip k c (grad w) (lin k c 1 v (-1) w) = ip k c (grad w) u) by (unfold v; rewrite !ip_lin_r; ring). rewrite EI in H. clear EI.
  rewrite (sqnorm_ext r c _ _ (delta_aff r k c X w v)) in H.
  pose proof (affine_bound r k c X (mk (K := RNum) k c (fun i j => entry (fst v) i j - entry (fst w) i j)) (mk (K := RNum) 1 c (fun i j => entry (snd v) i j - entry (snd w) i j))) as HB.
  set (sn := sqnorm r c _) in *.
  assert (E : sqnorm k c (mk (K := RNum) k c (fun i j => entry (fst v) i j - entry (fst w) i j)) + sqnorm 1 c (mk (K := RNum) 1 c (fun i j => entry (snd v) i j - entry (snd w) i j)) = ip k c u u).
  { rewrite ip_split. f_equal; apply sqnorm_ext; intros i j Hi Hj; rewrite entry_mk by auto; unfold v, lin; cbn [fst snd]; rewrite entry_mk by auto; toR; ring. }
  rewrite E in HB. unfold L.
  assert (beta / 2 * sn <= beta / 2 * ((sqnorm r k X + INR r) * ip k c u u)) by (apply Rmult_le_compat_l; lra). lra.
Qed.
Definition still : rpm * rpm := (mk (K := RNum) k c (fun _ _ => 0), mk (K := RNum) 1 c (fun _ _ => 0)).
Lemma ip_still w : ip k c w still = 0.
Proof. unfold ip, still. cbn [fst snd]. rewrite !inner_zero. ring. Qed.
Section Run.
Variables (w0 V : rpm * rpm).
Let q n := Nat.iter n hb (w0, still).
Let w n := fst (q n). Let v n := snd (q n). Let g n := grad (w n).
Let d n := lin k c 1 (w n) (-1) V.
Let b := mu / (1 - mu).
Lemma q_S n : q (S n) = hb (q n). Proof. reflexivity. Qed.
Lemma v_S n : v (S n) = lin k c mu (v n) (- lr) (g n). Proof. reflexivity. Qed.
Lemma w_S n : w (S n) = lin k c 1 (w n) 1 (v (S n)). Proof. reflexivity. Qed.
Lemma ip_d_S n u : ip k c (d (S n)) u = ip k c (d n) u + ip k c (v (S n)) u.
Proof. unfold d. rewrite w_S, !ip_lin_l. ring. Qed.
Lemma ip_d_S_r n u : ip k c u (d (S n)) = ip k c u (d n) + ip k c u (v (S n)).
Proof. rewrite ip_sym, ip_d_S, (ip_sym k c u), (ip_sym k c u). reflexivity. Qed.
Lemma run_bound n : f (w n) <= f w0 /\ INR n * (f (w n) - f V) <= (1 - mu) * ip k c (lin k c 1 w0 (-1) V) (lin k c 1 w0 (-1) V) / (2 * lr) + 6 * f w0 / (1 - mu) ^ 2.
Proof.
  set (ff := fun n => f (w n)).
  set (vv := fun n => ip k c (v n) (v n)). set (vvn := fun n => ip k c (v n) (v (S n))). set (gvn := fun n => ip k c (g n) (v (S n))).
  set (gw := fun n => ip k c (g n) (d n)). set (gv := fun n => ip k c (g n) (v n)). set (gg := fun n => ip k c (g n) (g n)).
  set (dz := fun n => ip k c (lin k c 1 (d n) b (v n)) (lin k c 1 (d n) b (v n))).
  assert (HL : 0 <= L). { unfold L. apply Rmult_le_pos; [exact Hbeta|]. pose proof (sqnorm_nonneg r k X). pose proof (pos_INR r). lra. }
  assert (HR : lr * L <= 1 - mu) by (unfold L; lra).
  assert (Fp : forall n, 0 <= ff n) by (intros; apply Hpos).
  assert (V0 : vv 0%nat = 0) by (unfold vv; apply ip_still).
  assert (Vp : forall n, 0 <= vv n) by (intros m; exact (ip_pos k c (v m))).
  assert (Z0 : dz 0%nat = ip k c (lin k c 1 w0 (-1) V) (lin k c 1 w0 (-1) V)).
  { unfold dz. rewrite !ip_lin_l, !ip_lin_r. change (v 0%nat) with still. rewrite !(ip_sym k c still), !ip_still. unfold d. change (w 0%nat) with w0.
    rewrite !ip_lin_l, !ip_lin_r, ?ip_lin_l, ?ip_lin_r. rewrite ?(ip_sym k c still), ?ip_still. ring. }
  assert (Zp : forall n, 0 <= dz n) by (intros m; exact (ip_pos k c (lin k c 1 (d m) b (v m)))).
  assert (S1 : forall n, ff (S n) <= ff n + gvn n + L / 2 * vv (S n)) by (intros m; apply f_smooth).
  assert (S2 : forall n, vv (S n) = mu * vvn n - lr * gvn n).
  { intros m. unfold vv, vvn, gvn. rewrite (v_S m) at 1. rewrite ip_lin_l. ring. }
  assert (S3 : forall n, 2 * vvn n <= vv n + vv (S n)).
  { intros m. unfold vv, vvn. pose proof (ip_pos k c (lin k c 1 (v m) (-1) (v (S m)))) as H. rewrite !ip_lin_l, !ip_lin_r, (ip_sym k c (v (S m)) (v m)) in H. lra. }
  assert (S4 : forall n, ff n - f V <= gw n).
  { intros m. pose proof (f_convex (w m) V) as H. unfold gw, d, ff. fold (g m) in H. rewrite ip_lin_r in *. lra. }
  assert (S5 : gv 0%nat = 0) by (unfold gv; apply ip_still).
  assert (S6 : forall n, ff (S n) - ff n <= gv (S n)).
  { intros m. pose proof (f_convex (w (S m)) (w m)) as H. fold (g (S m)) in H. rewrite (ip_lin_r k c 1 (w m)) in H.
    assert (E : ip k c (g (S m)) (w (S m)) = ip k c (g (S m)) (w m) + gv (S m)).
    { unfold gv. generalize (g (S m)). intros G. rewrite (w_S m), ip_lin_r. ring. }
    rewrite E in H. unfold ff. lra. }
  assert (S7 : forall n, dz (S n) = dz n - 2 * (lr / (1 - mu)) * (gw n + mu / (1 - mu) * gv n) + (lr / (1 - mu)) ^ 2 * gg n).
  { intros m. unfold dz, gw, gv, gg. rewrite !ip_lin_l, !ip_lin_r. rewrite !ip_d_S, !ip_d_S_r. rewrite !v_S. rewrite !ip_lin_l, !ip_lin_r.
    rewrite ?(ip_sym k c (v m) (g m)), ?(ip_sym k c (v m) (d m)), ?(ip_sym k c (g m) (d m)). unfold b. field. lra. }
  assert (S8 : forall n, lr ^ 2 * gg n <= 2 * mu ^ 2 * vv n + 2 * vv (S n)).
  { intros m. unfold vv, gg. rewrite (v_S m), !ip_lin_l, !ip_lin_r, (ip_sym k c (v m) (g m)).
    pose proof (ip_pos k c (lin k c (2 * mu) (v m) (- lr) (g m))) as H. rewrite !ip_lin_l, !ip_lin_r, (ip_sym k c (v m) (g m)) in H. lra. }
  split.
  - exact (never_above lr mu L ff vv vvn gvn Hlr Hmu HR V0 Vp S1 S2 S3 n).
  - pose proof (heavy_ball lr mu L (f V) _ ff vv vvn gvn gw gv gg dz Hlr Hmu HR Fp V0 Vp Z0 Zp S1 S2 S3 S4 S5 S6 S7 S8 n) as H. exact H.
Qed.
End Run.
End Heavy.
