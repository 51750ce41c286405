(** * Converge: gradient descent on one affine layer with a convex, smooth objective. *)
From Coq Require Import String ZArith List Bool Arith Lia Reals Lra Psatz.
From Coquelicot Require Import Coquelicot.
From Verif Require Import Num NumR Heap Spec PureSpec Repr RSum MatrixFacts LayerReal GradSpec Grad.
Import ListNotations.
Open Scope R_scope.

(** Squared Frobenius norm and distance of r x c matrices. *)
Definition sqnorm (r c : nat) (A : rpm) : R := rsum r (fun i => rsum c (fun j => entry A i j ^ 2)).
Definition sqdist (r c : nat) (A B : rpm) : R := rsum r (fun i => rsum c (fun j => (entry A i j - entry B i j) ^ 2)).

Lemma sqnorm_nonneg r c A : 0 <= sqnorm r c A.
Proof. apply rsum_nonneg. intros i Hi. apply rsum_nonneg. intros j Hj. apply pow2_ge_0. Qed.
Lemma sqdist_nonneg r c A B : 0 <= sqdist r c A B.
Proof. apply rsum_nonneg. intros i Hi. apply rsum_nonneg. intros j Hj. apply pow2_ge_0. Qed.

Lemma sq_le_le x y : 0 <= y -> x ^ 2 <= y ^ 2 -> x <= y.
Proof. intros Hy H. nra. Qed.
Lemma cauchy_schwarz n (a b : nat -> R) : rsum n (fun i => a i * b i) ^ 2 <= rsum n (fun i => a i ^ 2) * rsum n (fun i => b i ^ 2).
Proof.
  induction n as [|n IH]; [rewrite !rsum_0; lra|]. rewrite !rsum_S.
  set (S := rsum n (fun i => a i * b i)) in *. set (A := rsum n (fun i => a i ^ 2)) in *. set (B := rsum n (fun i => b i ^ 2)) in *.
  assert (HA : 0 <= A) by (apply rsum_nonneg; intros; apply pow2_ge_0).
  assert (HB : 0 <= B) by (apply rsum_nonneg; intros; apply pow2_ge_0).
  assert (H : 2 * S * (a n * b n) <= A * b n ^ 2 + B * a n ^ 2).
  { apply sq_le_le; [pose proof (pow2_ge_0 (a n)); pose proof (pow2_ge_0 (b n)); nra|].
    assert (H1 : (2 * S * (a n * b n)) ^ 2 = 4 * S ^ 2 * (a n * b n) ^ 2) by ring. rewrite H1.
    assert (H2 : (A * b n ^ 2 + B * a n ^ 2) ^ 2 = (A * b n ^ 2 - B * a n ^ 2) ^ 2 + 4 * (A * B) * (a n * b n) ^ 2) by ring. rewrite H2.
    pose proof (pow2_ge_0 (A * b n ^ 2 - B * a n ^ 2)). pose proof (pow2_ge_0 (a n * b n)). nra. }
  replace ((S + a n * b n) ^ 2) with (S ^ 2 + 2 * S * (a n * b n) + a n ^ 2 * b n ^ 2) by ring.
  replace ((A + a n ^ 2) * (B + b n ^ 2)) with (A * B + (A * b n ^ 2 + B * a n ^ 2) + a n ^ 2 * b n ^ 2) by ring. lra.
Qed.
Lemma cauchy_schwarz1 n (a b : nat -> R) c :
  (rsum n (fun i => a i * b i) + c) ^ 2 <= (rsum n (fun i => a i ^ 2) + 1) * (rsum n (fun i => b i ^ 2) + c ^ 2).
Proof.
  pose (a' := fun i => if (i =? n)%nat then 1 else a i). pose (b' := fun i => if (i =? n)%nat then c else b i).
  pose proof (cauchy_schwarz (S n) a' b') as H. rewrite !rsum_S in H. unfold a', b' in H. rewrite !Nat.eqb_refl in H.
  rewrite (rsum_ext n (fun i => (if (i =? n)%nat then 1 else a i) * (if (i =? n)%nat then c else b i)) (fun i => a i * b i)) in H.
  2:{ intros i Hi. destruct (Nat.eqb_spec i n); [lia|reflexivity]. }
  rewrite (rsum_ext n (fun i => (if (i =? n)%nat then 1 else a i) ^ 2) (fun i => a i ^ 2)) in H.
  2:{ intros i Hi. destruct (Nat.eqb_spec i n); [lia|reflexivity]. }
  rewrite (rsum_ext n (fun i => (if (i =? n)%nat then c else b i) ^ 2) (fun i => b i ^ 2)) in H.
  2:{ intros i Hi. destruct (Nat.eqb_spec i n); [lia|reflexivity]. }
  lra.
Qed.

(** The affine map is linear in the parameters; its adjoint gives the gradients of the code. *)
Lemma affine_dual r k c (X G W B : rpm) :
  inner r c G (paff r k c X W B) = inner k c (pdW r k c X G) W + inner 1 c (psum0 r c G) B.
Proof.
  pose proof (affine_adjoint r k c X [] (mk (K := RNum) r k (fun _ _ => 0)) W B G) as H.
  rewrite inner_zero in H. rewrite Rplus_0_r in H. rewrite <- H. apply inner_ext. intros i j Hi Hj. f_equal.
  rewrite paff_entry by auto. unfold paff'. rewrite entry_mk by auto. f_equal. apply rsum_ext. intros n Hn. rewrite entry_mk by auto. toR. ring.
Qed.
Lemma affine_bound r k c (X W B : rpm) :
  sqnorm r c (paff r k c X W B) <= (sqnorm r k X + INR r) * (sqnorm k c W + sqnorm 1 c B).
Proof.
  assert (E : (sqnorm r k X + INR r) * (sqnorm k c W + sqnorm 1 c B) =
     rsum r (fun i => rsum c (fun j => (rsum k (fun n => entry X i n ^ 2) + 1) * (rsum k (fun n => entry W n j ^ 2) + entry B 0 j ^ 2)))).
  { transitivity (rsum r (fun i => (rsum k (fun n => entry X i n ^ 2) + 1) * (sqnorm k c W + sqnorm 1 c B))).
    - rewrite rsum_scal_r. f_equal. rewrite rsum_plus. f_equal. rewrite rsum_const. ring.
    - apply rsum_ext. intros i Hi. rewrite rsum_scal. f_equal. rewrite rsum_plus. unfold sqnorm. rewrite rsum_1. f_equal. apply rsum_swap. }
  rewrite E. unfold sqnorm at 1. apply rsum_le. intros i Hi. apply rsum_le. intros j Hj. rewrite paff_entry by auto. apply cauchy_schwarz1.
Qed.
Lemma inner_sq r c (A : rpm) : inner r c A A = sqnorm r c A.
Proof. unfold inner, sqnorm. apply rsum_ext. intros i Hi. apply rsum_ext. intros j Hj. ring. Qed.

(** ** One step *)
Section Descent.
Variables (r k c : nat) (X : rpm) (Phi : rpm -> R) (Gr : rpm -> rpm) (beta lr : R).
Definition delta (Z Z' : rpm) : rpm := mk (K := RNum) r c (fun i j => entry Z' i j - entry Z i j).
(** [Gr] is a gradient of the convex function [Phi] of r x c matrices, which is [beta]-smooth. *)
Hypothesis Hconvex : forall Z Z', Phi Z + inner r c (Gr Z) (delta Z Z') <= Phi Z'.
Hypothesis Hsmooth : forall Z Z', Phi Z' <= Phi Z + inner r c (Gr Z) (delta Z Z') + beta / 2 * sqnorm r c (delta Z Z').
Hypothesis Hlr : 0 < lr.
Hypothesis Hrate : lr * beta * (sqnorm r k X + INR r) <= 1.
Hypothesis Hbeta : 0 <= beta.

Definition obj (w : rpm * rpm) : R := Phi (paff r k c X (fst w) (snd w)).
Definition dw (w : rpm * rpm) : rpm := pdW r k c X (Gr (paff r k c X (fst w) (snd w))).
Definition db (w : rpm * rpm) : rpm := psum0 r c (Gr (paff r k c X (fst w) (snd w))).
Definition gd (w : rpm * rpm) : rpm * rpm :=
  (mk (K := RNum) k c (fun i j => entry (fst w) i j - lr * entry (dw w) i j),
   mk (K := RNum) 1 c (fun i j => entry (snd w) i j - lr * entry (db w) i j)).
Definition gnorm (w : rpm * rpm) : R := sqnorm k c (dw w) + sqnorm 1 c (db w).
Definition dist (w v : rpm * rpm) : R := sqdist k c (fst w) (fst v) + sqdist 1 c (snd w) (snd v).

Lemma delta_aff (w v : rpm * rpm) : forall i j, (i < r)%nat -> (j < c)%nat ->
  entry (delta (paff r k c X (fst w) (snd w)) (paff r k c X (fst v) (snd v))) i j =
  entry (paff r k c X (mk (K := RNum) k c (fun i j => entry (fst v) i j - entry (fst w) i j)) (mk (K := RNum) 1 c (fun i j => entry (snd v) i j - entry (snd w) i j))) i j.
Proof.
  intros i j Hi Hj. unfold delta. rewrite entry_mk by auto. rewrite !paff_entry by auto. rewrite entry_mk by (auto; lia).
  rewrite (rsum_ext k (fun n => entry X i n * entry (mk (K := RNum) k c (fun i j => entry (fst v) i j - entry (fst w) i j)) n j)
             (fun n => entry X i n * entry (fst v) n j - entry X i n * entry (fst w) n j)).
  - rewrite rsum_minus. toR. ring.
  - intros n Hn. rewrite entry_mk by auto. toR. ring.
Qed.
Lemma inner_delta (w v : rpm * rpm) :
  inner r c (Gr (paff r k c X (fst w) (snd w))) (delta (paff r k c X (fst w) (snd w)) (paff r k c X (fst v) (snd v))) =
  inner k c (dw w) (mk (K := RNum) k c (fun i j => entry (fst v) i j - entry (fst w) i j)) +
  inner 1 c (db w) (mk (K := RNum) 1 c (fun i j => entry (snd v) i j - entry (snd w) i j)).
Proof. unfold dw, db. rewrite <- affine_dual. apply inner_ext. intros i j Hi Hj. now rewrite delta_aff. Qed.
Lemma sqnorm_ext r0 c0 (A B : rpm) : (forall i j, (i < r0)%nat -> (j < c0)%nat -> entry A i j = entry B i j) -> sqnorm r0 c0 A = sqnorm r0 c0 B.
Proof. intros H. apply rsum_ext. intros i Hi. apply rsum_ext. intros j Hj. now rewrite H. Qed.
Lemma inner_step r0 c0 (P D : rpm) : inner r0 c0 D (mk (K := RNum) r0 c0 (fun i j => entry (mk (K := RNum) r0 c0 (fun i j => entry P i j - lr * entry D i j)) i j - entry P i j)) = - lr * sqnorm r0 c0 D.
Proof.
  unfold inner, sqnorm. rewrite <- rsum_scal. apply rsum_ext. intros i Hi. rewrite <- rsum_scal. apply rsum_ext. intros j Hj.
  rewrite !entry_mk by auto. toR. ring.
Qed.
Lemma sqnorm_step r0 c0 (P D : rpm) : sqnorm r0 c0 (mk (K := RNum) r0 c0 (fun i j => entry (mk (K := RNum) r0 c0 (fun i j => entry P i j - lr * entry D i j)) i j - entry P i j)) = lr ^ 2 * sqnorm r0 c0 D.
Proof.
  unfold sqnorm. rewrite <- rsum_scal. apply rsum_ext. intros i Hi. rewrite <- rsum_scal. apply rsum_ext. intros j Hj.
  rewrite !entry_mk by auto. toR. ring.
Qed.
Lemma gnorm_nonneg w : 0 <= gnorm w.
Proof. unfold gnorm. pose proof (sqnorm_nonneg k c (dw w)). pose proof (sqnorm_nonneg 1 c (db w)). lra. Qed.
(** The objective falls by at least half the learning rate times the squared gradient. *)
Lemma step_falls w : obj (gd w) <= obj w - lr / 2 * gnorm w.
Proof.
  unfold obj at 1. pose proof (Hsmooth (paff r k c X (fst w) (snd w)) (paff r k c X (fst (gd w)) (snd (gd w)))) as H.
  rewrite inner_delta in H.
  assert (E1 : inner k c (dw w) (mk (K := RNum) k c (fun i j => entry (fst (gd w)) i j - entry (fst w) i j)) = - lr * sqnorm k c (dw w)) by apply inner_step.
  assert (E2 : inner 1 c (db w) (mk (K := RNum) 1 c (fun i j => entry (snd (gd w)) i j - entry (snd w) i j)) = - lr * sqnorm 1 c (db w)) by apply inner_step.
  rewrite E1, E2 in H. clear E1 E2.
  rewrite (sqnorm_ext r c _ _ (delta_aff w (gd w))) in H.
  pose proof (affine_bound r k c X (mk (K := RNum) k c (fun i j => entry (fst (gd w)) i j - entry (fst w) i j))
     (mk (K := RNum) 1 c (fun i j => entry (snd (gd w)) i j - entry (snd w) i j))) as HB.
  set (sn := sqnorm r c (paff r k c X (mk (K := RNum) k c (fun i j => entry (fst (gd w)) i j - entry (fst w) i j))
     (mk (K := RNum) 1 c (fun i j => entry (snd (gd w)) i j - entry (snd w) i j)))) in *.
  unfold gd in HB. cbn [fst snd] in HB. rewrite !sqnorm_step in HB.
  fold (obj w) in H. unfold gnorm. set (a := sqnorm k c (dw w)) in *. set (b := sqnorm 1 c (db w)) in *. set (Q := sqnorm r k X + INR r) in *.
  assert (Ha : 0 <= a + b) by (unfold a, b; apply gnorm_nonneg).
  assert (H1 : beta / 2 * sn <= beta / 2 * (lr ^ 2 * Q * (a + b))).
  { apply Rmult_le_compat_l; [lra|]. lra. }
  assert (H2 : beta / 2 * (lr ^ 2 * Q * (a + b)) <= lr / 2 * (a + b)).
  { replace (beta / 2 * (lr ^ 2 * Q * (a + b))) with (lr / 2 * (a + b) * (lr * beta * Q)) by field.
    rewrite <- (Rmult_1_r (lr / 2 * (a + b))) at 2. apply Rmult_le_compat_l; [nra|exact Hrate]. }
  lra.
Qed.
Lemma sqdist_step r0 c0 (P D V : rpm) :
  sqdist r0 c0 (mk (K := RNum) r0 c0 (fun i j => entry P i j - lr * entry D i j)) V =
  sqdist r0 c0 P V + 2 * lr * inner r0 c0 D (mk (K := RNum) r0 c0 (fun i j => entry V i j - entry P i j)) + lr ^ 2 * sqnorm r0 c0 D.
Proof.
  unfold inner, sqnorm, sqdist. rewrite <- !rsum_scal, <- !rsum_plus. apply rsum_ext. intros i Hi.
  rewrite <- !rsum_scal, <- !rsum_plus. apply rsum_ext. intros j Hj. rewrite !entry_mk by auto. toR. ring.
Qed.
(** Compared with any parameters [v]. *)
Lemma step_compare w v : obj (gd w) <= obj v + (dist w v - dist (gd w) v) / (2 * lr).
Proof.
  pose proof (step_falls w) as H1.
  pose proof (Hconvex (paff r k c X (fst w) (snd w)) (paff r k c X (fst v) (snd v))) as H2. rewrite inner_delta in H2. fold (obj w) (obj v) in H2.
  unfold dist. unfold gd at 2 3. cbn [fst snd]. rewrite !sqdist_step. unfold gnorm in H1.
  set (I1 := inner k c _ _) in *. set (I2 := inner 1 c _ _) in *.
  match goal with |- _ <= _ + ?q / _ => replace (q / (2 * lr)) with (- (I1 + I2) - lr / 2 * (sqnorm k c (dw w) + sqnorm 1 c (db w))) by (field; lra) end.
  lra.
Qed.
Lemma dist_nonneg w v : 0 <= dist w v.
Proof. unfold dist. pose proof (sqdist_nonneg k c (fst w) (fst v)). pose proof (sqdist_nonneg 1 c (snd w) (snd v)). lra. Qed.
Lemma steps_fall w n : obj (Nat.iter n gd w) <= obj w.
Proof. induction n as [|n IH]; [simpl; lra|]. simpl. pose proof (step_falls (Nat.iter n gd w)). pose proof (gnorm_nonneg (Nat.iter n gd w)). nra. Qed.
Lemma steps_compare w v n : INR n * obj (Nat.iter n gd w) + dist (Nat.iter n gd w) v / (2 * lr) <= INR n * obj v + dist w v / (2 * lr).
Proof.
  induction n as [|n IH]; [simpl; lra|]. rewrite S_INR. simpl Nat.iter. set (wn := Nat.iter n gd w) in *.
  pose proof (step_compare wn v) as H. pose proof (step_falls wn). pose proof (gnorm_nonneg wn). pose proof (pos_INR n).
  assert (obj (gd wn) <= obj wn) by nra.
  replace ((dist wn v - dist (gd wn) v) / (2 * lr)) with (dist wn v / (2 * lr) - dist (gd wn) v / (2 * lr)) in H by (field; lra).
  assert (INR n * obj (gd wn) <= INR n * obj wn) by (apply Rmult_le_compat_l; lra). lra.
Qed.
Lemma descent_rate w v n : (1 <= n)%nat -> obj (Nat.iter n gd w) <= obj v + dist w v / (2 * lr * INR n).
Proof.
  intros Hn. pose proof (steps_compare w v n) as H. pose proof (dist_nonneg (Nat.iter n gd w) v) as HD.
  assert (Hp : 0 < INR n) by (apply lt_0_INR; lia).
  assert (0 <= dist (Nat.iter n gd w) v / (2 * lr)) by (apply Rmult_le_pos; [exact HD|left; apply Rinv_0_lt_compat; lra]).
  apply (Rmult_le_reg_l (INR n)); [exact Hp|]. rewrite Rmult_plus_distr_l.
  replace (INR n * (dist w v / (2 * lr * INR n))) with (dist w v / (2 * lr)) by (field; lra). lra.
Qed.
End Descent.

(** ** Squared error *)
Section Squares.
Variables (r c : nat) (Y : rpm).
Hypothesis Hc : (1 <= c)%nat.
Definition msePhi (Z : rpm) : R := rsum r (fun i => rsum c (fun j => (entry Z i j - entry Y i j) ^ 2) / INR c).
Definition mseGr (Z : rpm) : rpm := mk (K := RNum) r c (fun i j => (entry Z i j - entry Y i j) * (2 / INR c)).
Lemma mse_expand Z Z' : msePhi Z' = msePhi Z + inner r c (mseGr Z) (delta r c Z Z') + (2 / INR c) / 2 * sqnorm r c (delta r c Z Z').
Proof.
  assert (0 < INR c) by (apply lt_0_INR; lia).
  unfold msePhi, inner, sqnorm. rewrite <- rsum_scal, <- !rsum_plus. apply rsum_ext. intros i Hi.
  rewrite <- !rsum_div, <- rsum_scal, <- !rsum_plus. apply rsum_ext. intros j Hj. unfold mseGr, delta. rewrite !entry_mk by auto. toR. field. lra.
Qed.
Lemma mse_convex Z Z' : msePhi Z + inner r c (mseGr Z) (delta r c Z Z') <= msePhi Z'.
Proof.
  rewrite (mse_expand Z Z'). pose proof (sqnorm_nonneg r c (delta r c Z Z')). assert (0 < INR c) by (apply lt_0_INR; lia).
  assert (0 <= 2 / INR c) by (apply Rmult_le_pos; [lra|left; now apply Rinv_0_lt_compat]). nra.
Qed.
Lemma mse_smooth Z Z' : msePhi Z' <= msePhi Z + inner r c (mseGr Z) (delta r c Z Z') + (2 / INR c) / 2 * sqnorm r c (delta r c Z Z').
Proof. rewrite (mse_expand Z Z') at 1. lra. Qed.
End Squares.

(** ** Log-sum-exp *)
Section LSE.
Variables (c : nat) (z d : nat -> R).
Hypothesis Hc : (1 <= c)%nat.
Definition S0 (t : R) : R := rsum c (fun j => exp (z j + t * d j)).
Definition S1 (t : R) : R := rsum c (fun j => exp (z j + t * d j) * d j).
Definition S2 (t : R) : R := rsum c (fun j => exp (z j + t * d j) * d j * d j).
Lemma S0_pos t : 0 < S0 t.
Proof. apply rsum_pos; [exact Hc|]. intros. apply exp_pos. Qed.
Lemma d_line j t : is_derive (fun t => z j + t * d j) t (d j).
Proof. eapply d_eq; [|apply d_plus; [apply d_const|apply d_scal_r; exact (is_derive_id t)]]. toR. unfold one; simpl. ring. Qed.
Lemma d_S0 t : is_derive S0 t (S1 t).
Proof. unfold S0, S1. apply (d_rsum c (fun j t => exp (z j + t * d j))). intros j Hj. apply (d_exp (fun t => z j + t * d j)), d_line. Qed.
Lemma d_S1 t : is_derive S1 t (S2 t).
Proof. unfold S1, S2. apply (d_rsum c (fun j t => exp (z j + t * d j) * d j)). intros j Hj. apply (d_scal_r (fun t => exp (z j + t * d j))), (d_exp (fun t => z j + t * d j)), d_line. Qed.
Lemma d_lse t : is_derive (fun t => ln (S0 t)) t (S1 t / S0 t).
Proof.
  eapply d_eq; [|apply (d_comp ln S0 t (S1 t) (/ S0 t)); [apply is_derive_Reals, derivable_pt_lim_ln, S0_pos|apply d_S0]]. unfold Rdiv. ring.
Qed.
Definition dd : R := rsum c (fun j => d j ^ 2).
Lemma d_slope t : is_derive (fun t => S1 t / S0 t) t ((S2 t * S0 t - S1 t ^ 2) / S0 t ^ 2).
Proof.
  pose proof (S0_pos t). eapply d_eq; [|apply (d_mult S1 (fun t => / S0 t) t (S2 t)); [apply d_S1|apply d_inv; [lra|apply d_S0]]]. field. lra.
Qed.
Lemma slope_bound t : (S2 t * S0 t - S1 t ^ 2) / S0 t ^ 2 <= dd.
Proof.
  pose proof (S0_pos t) as H0. apply (Rmult_le_reg_r (S0 t ^ 2)); [nra|]. unfold Rdiv. rewrite Rmult_assoc, Rinv_l by nra. rewrite Rmult_1_r.
  assert (H2 : S2 t <= dd * S0 t).
  { unfold S2, S0. rewrite <- rsum_scal. apply rsum_le. intros j Hj.
    assert (d j ^ 2 <= dd) by (apply (rsum_term_le c (fun j => d j ^ 2)); [intros; apply pow2_ge_0|exact Hj]).
    pose proof (exp_pos (z j + t * d j)). nra. }
  pose proof (pow2_ge_0 (S1 t)). nra.
Qed.
(** A function with nonnegative derivative does not fall. *)
Lemma nondecreasing (f f' : R -> R) : (forall t, 0 <= t -> is_derive f t (f' t)) -> (forall t, 0 <= t -> 0 <= f' t) -> forall t, 0 <= t -> f 0 <= f t.
Proof.
  intros Hd Hp t Ht. destruct (Req_dec t 0) as [->|Hne]; [lra|]. assert (H0 : 0 < t) by lra.
  destruct (MVT_gen f 0 t f') as (x & Hx & E).
  - intros x. rewrite Rmin_left, Rmax_right by lra. intros. apply Hd. lra.
  - intros x. rewrite Rmin_left, Rmax_right by lra. intros. apply derivable_continuous_pt. exists (f' x). apply is_derive_Reals, Hd. lra.
  - rewrite Rmin_left, Rmax_right in Hx by lra. pose proof (Hp x ltac:(lra)). nra.
Qed.
Lemma lse_upper : ln (S0 1) <= ln (S0 0) + S1 0 / S0 0 + dd / 2.
Proof.
  pose (g := fun t => S1 0 / S0 0 + t * dd - S1 t / S0 t).
  assert (Hg : forall t, 0 <= t -> 0 <= g t).
  { intros t Ht. pose proof (nondecreasing g (fun t => dd - (S2 t * S0 t - S1 t ^ 2) / S0 t ^ 2)) as H.
    replace 0 with (g 0) at 1 by (unfold g; ring). apply H; auto.
    - intros x _. unfold g. apply d_minus; [|apply d_slope]. eapply d_eq; [|apply d_plus; [apply d_const|apply d_scal_r; exact (is_derive_id x)]]. toR. unfold one; simpl. ring.
    - intros x _. pose proof (slope_bound x). lra. }
  pose (h := fun t => S1 0 / S0 0 * t + dd / 2 * t ^ 2 - ln (S0 t)).
  assert (H : h 0 <= h 1).
  { apply (nondecreasing h g); [|exact Hg|lra]. intros x _. unfold h, g. apply d_minus; [|apply d_lse].
    apply d_plus.
    - eapply d_eq; [|apply d_scal; exact (is_derive_id x)]. toR. unfold one; simpl. ring.
    - eapply d_eq; [|apply d_scal; apply (d_mult (fun t => t) (fun t => t * 1) x 1 1); [exact (is_derive_id x)|]]; [toR; field|].
      apply (d_ext (fun t => t)); [intros; ring|exact (is_derive_id x)]. }
  unfold h in H. simpl in H. lra.
Qed.
Lemma lse_lower : ln (S0 0) + S1 0 / S0 0 <= ln (S0 1).
Proof.
  set (m := S1 0 / S0 0). pose proof (S0_pos 0) as H0. pose proof (S0_pos 1) as H1.
  assert (H : S0 0 * exp m <= S0 1).
  { assert (E : S0 1 = exp m * rsum c (fun j => exp (z j) * exp (d j - m))).
    { unfold S0. rewrite <- rsum_scal. apply rsum_ext. intros j Hj. rewrite <- !exp_plus. f_equal. ring. }
    rewrite E, Rmult_comm. apply Rmult_le_compat_l; [left; apply exp_pos|].
    apply Rle_trans with (rsum c (fun j => exp (z j) * (1 + (d j - m)))).
    - right. transitivity (rsum c (fun j => exp (z j + 0 * d j)) + (rsum c (fun j => exp (z j + 0 * d j) * d j) - m * rsum c (fun j => exp (z j + 0 * d j)))).
      + fold (S0 0) (S1 0). unfold m. field. lra.
      + rewrite <- rsum_scal, <- rsum_minus, <- rsum_plus. apply rsum_ext. intros j Hj. replace (z j + 0 * d j) with (z j) by ring. ring.
    - apply rsum_le. intros j Hj. apply Rmult_le_compat_l; [left; apply exp_pos|apply exp_ineq1_le]. }
  rewrite <- (ln_exp m). rewrite <- ln_mult by (auto; apply exp_pos). apply Rcomplements.ln_le; [apply Rmult_lt_0_compat; [exact H0|apply exp_pos]|exact H].
Qed.
End LSE.
