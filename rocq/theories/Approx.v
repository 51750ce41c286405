(** * Approx: one hidden ReLU layer approximates every continuous function of one variable. *)
From Coq Require Import ZArith List Bool Arith Lia Reals Lra.
From Verif Require Import Num NumR Heap Spec Matrix Loss Network Optimizers ModelGo PureSpec Repr HeapLemmas MatrixFacts MiscProofs MiscFacts RSum OptSpec ModelSpec EvalProofs FitProofs ModelRefute Params CapacitySpec Capacity CapacityFit.
Import ListNotations.
Open Scope R_scope.

(** ** Interpolation on a grid *)
Section Grid.
Variables (a h : R).
Hypothesis (Hh : 0 < h).
Definition gridpt (k : nat) : R := a + INR k * h.
Lemma grid_S k : gridpt (S k) = gridpt k + h.
Proof. unfold gridpt. rewrite S_INR. ring. Qed.
Lemma grid_le k l : (k <= l)%nat -> gridpt k <= gridpt l.
Proof. intros H. unfold gridpt. apply Rplus_le_compat_l. apply Rmult_le_compat_r; [lra|]. now apply le_INR. Qed.
Definition poly (n : nat) (c : nat -> R) (d t : R) : R := rsum n (fun k => Rmax (t - gridpt k) 0 * c k) + d.
Lemma interpolate (g : nat -> R) n : exists c m, (forall k, (k < n)%nat -> forall t, gridpt k <= t <= gridpt (S k) -> poly n c (g O) t = g k + (t - gridpt k) / h * (g (S k) - g k)) /\
  (forall t, gridpt n <= t -> poly n c (g O) t = g n + m * (t - gridpt n)).
Proof.
  induction n as [|n (c & m & H1 & H2)].
  - exists (fun _ => 0), 0. split; [intros k Hk; lia|]. intros t _. unfold poly. rewrite rsum_0. lra.
  - set (v := (g (S n) - g n) / h - m). exists (fun k => if (k =? n)%nat then v else c k), ((g (S n) - g n) / h).
    assert (E : forall t, poly (S n) (fun k => if (k =? n)%nat then v else c k) (g O) t = poly n c (g O) t + Rmax (t - gridpt n) 0 * v).
    { intros t. unfold poly. rewrite rsum_S, Nat.eqb_refl. rewrite (rsum_ext n _ (fun k => Rmax (t - gridpt k) 0 * c k)); [ring|].
      intros k Hk. destruct (Nat.eqb_spec k n); [lia|reflexivity]. }
    split.
    + intros k Hk t Ht. rewrite E. destruct (Nat.eq_dec k n) as [->|N].
      * rewrite H2 by lra. rewrite Rmax_left by lra. unfold v. field. lra.
      * rewrite (H1 k) by (lia || assumption). assert (gridpt (S k) <= gridpt n) by (apply grid_le; lia). rewrite Rmax_right by lra. lra.
    + intros t Ht. rewrite E. rewrite grid_S in Ht. rewrite H2 by lra. rewrite Rmax_left by lra. rewrite grid_S. unfold v. field. lra.
Qed.
Lemma grid_find n t : a <= t <= gridpt n -> (1 <= n)%nat -> exists k, (k < n)%nat /\ gridpt k <= t <= gridpt (S k).
Proof.
  induction n as [|n IH]; intros Ht Hn; [lia|]. destruct (Rle_dec (gridpt n) t) as [C|C].
  - exists n. split; [lia|]. lra.
  - destruct n as [|n]; [exfalso; apply C; unfold gridpt; simpl; lra|]. destruct (IH ltac:(lra) ltac:(lia)) as (k & Hk & H). exists k. split; [lia|exact H].
Qed.
End Grid.
Lemma between x y z t eps : 0 <= t <= 1 -> Rabs (x - z) <= eps -> Rabs (y - z) <= eps -> Rabs (x + t * (y - x) - z) <= eps.
Proof.
  intros Ht Hx Hy. replace (x + t * (y - x) - z) with ((1 - t) * (x - z) + t * (y - z)) by ring.
  eapply Rle_trans; [apply Rabs_triang|]. rewrite !Rabs_mult, (Rabs_right (1 - t)), (Rabs_right t) by lra.
  apply Rle_trans with ((1 - t) * eps + t * eps); [|lra]. apply Rplus_le_compat; apply Rmult_le_compat_l; lra.
Qed.
Definition continuous_on (a b : R) (f : R -> R) : Prop := forall x, a <= x <= b -> continuity_pt f x.
Lemma fine (f : R -> R) a b eps : a < b -> continuous_on a b f -> 0 < eps -> exists N, (1 <= N)%nat /\ forall n, (N <= n)%nat ->
  forall x y, a <= x <= b -> a <= y <= b -> Rabs (x - y) <= (b - a) / INR n -> Rabs (f x - f y) <= eps.
Proof.
  intros Hab HC He. destruct (Heine f (fun x => a <= x <= b) (compact_P3 a b) HC (mkposreal eps He)) as (d & Hd).
  destruct (archimed_cor1 (d / (b - a))) as (N & H1 & H2); [apply Rdiv_lt_0_compat; [apply cond_pos|lra]|].
  exists N. split; [lia|]. intros n Hn x y Hx Hy Hxy. left. apply Hd; [exact Hx|exact Hy|]. eapply Rle_lt_trans; [exact Hxy|].
  assert (0 < INR N) by (apply lt_0_INR; lia). assert (INR N <= INR n) by now apply le_INR.
  assert (/ INR n <= / INR N) by (apply Rinv_le_contravar; assumption).
  apply Rle_lt_trans with ((b - a) * / INR N); [apply Rmult_le_compat_l; lra|]. apply (Rmult_lt_compat_l (b - a)) in H1; [|lra].
  replace ((b - a) * (d / (b - a))) with (pos d) in H1 by (field; lra). exact H1.
Qed.
Lemma fine_all (f : nat -> R -> R) a b eps o : a < b -> (forall j, (j < o)%nat -> continuous_on a b (f j)) -> 0 < eps -> exists N, (1 <= N)%nat /\ forall n, (N <= n)%nat ->
  forall j x y, (j < o)%nat -> a <= x <= b -> a <= y <= b -> Rabs (x - y) <= (b - a) / INR n -> Rabs (f j x - f j y) <= eps.
Proof.
  intros Hab HC He. induction o as [|o IH]; [exists 1%nat; split; [lia|]; intros; lia|].
  destruct IH as (N1 & A1 & B1); [intros j Hj; apply HC; lia|]. destruct (fine (f o) a b eps Hab (HC o ltac:(lia)) He) as (N2 & A2 & B2).
  exists (Nat.max N1 N2). split; [lia|]. intros n Hn j x y Hj. destruct (Nat.eq_dec j o) as [->|]; [apply B2; lia|apply B1; lia].
Qed.
Lemma approx_line (f : R -> R) a b n eps : a < b -> (1 <= n)%nat ->
  (forall x y, a <= x <= b -> a <= y <= b -> Rabs (x - y) <= (b - a) / INR n -> Rabs (f x - f y) <= eps) ->
  exists c, forall t, a <= t <= b -> Rabs (poly a ((b - a) / INR n) n c (f a) t - f t) <= eps.
Proof.
  intros Hab Hn HF. set (h := (b - a) / INR n). assert (HI : 0 < INR n) by (apply lt_0_INR; lia). assert (Hh : 0 < h) by (apply Rdiv_lt_0_compat; lra).
  assert (Eb : gridpt a h n = b) by (unfold gridpt, h; field; lra).
  destruct (interpolate a h Hh (fun k => f (gridpt a h k)) n) as (c & m & H1 & _). exists c. intros t Ht.
  destruct (grid_find a h n t) as (k & Hk & Hkt); [rewrite Eb; exact Ht|exact Hn|].
  assert (E0 : gridpt a h 0 = a) by (unfold gridpt; simpl; ring). specialize (H1 k Hk t Hkt). cbv beta in H1. rewrite E0 in H1. rewrite H1.
  assert (G0 : a <= gridpt a h k) by (rewrite <- E0 at 1; apply grid_le; [exact Hh|lia]).
  assert (G1 : gridpt a h (S k) <= b) by (rewrite <- Eb; apply grid_le; [exact Hh|lia]). rewrite grid_S in *.
  apply between.
  - split; [apply Rmult_le_pos; [lra|left; now apply Rinv_0_lt_compat]|]. apply (Rmult_le_reg_r h); [exact Hh|]. unfold Rdiv. rewrite Rmult_assoc, Rinv_l by lra. lra.
  - apply HF; [lra|lra|]. fold h. unfold Rabs. destruct (Rcase_abs _); lra.
  - apply HF; [lra|lra|]. fold h. unfold Rabs. destruct (Rcase_abs _); lra.
Qed.

(** ** Models *)
Lemma choose (o : nat) (Q : nat -> (nat -> R) -> Prop) : (forall j, (j < o)%nat -> exists c, Q j c) -> exists cs : nat -> nat -> R, forall j, (j < o)%nat -> Q j (fun k => cs k j).
Proof.
  induction o as [|o IH]; intros H; [exists (fun _ _ => 0); intros j Hj; lia|].
  destruct IH as (cs & H1); [intros j Hj; apply H; lia|]. destruct (H o ltac:(lia)) as (c & H2).
  exists (fun k j => if (j =? o)%nat then c k else cs k j). intros j Hj. destruct (Nat.eqb_spec j o) as [->|]; [exact H2|apply H1; lia].
Qed.
Lemma approximate (f : nat -> R -> R) (a b eps : R) (o : nat) : a < b -> (forall j, (j < o)%nat -> continuous_on a b (f j)) -> 0 < eps ->
  exists N, forall s m es xs k n, (N <= n)%nat -> trainable s m es xs 1 o k -> one_hidden es n Linear -> m_acctype m = 0%Z ->
  exists s' es', Forall2 same_place es es' /\ frame (among (prows es)) s s' /\ rest s s' /\ trainable s' m es' xs 1 o k /\
    forall s2 x rsx r X, consistent s2 m es' 1 o -> own s2 x rsx r 1 X -> (1 <= r)%nat -> (forall c, (c < r)%nat -> a <= entry X c 0 <= b) ->
      returns (Predict m x) s2 (fun out s3 => exists rs P, own s3 out rs r o P /\
        forall c j, (c < r)%nat -> (j < o)%nat -> Rabs (entry P c j - f j (entry X c 0%nat)) <= eps).
Proof.
  intros Hab HC He. destruct (fine_all f a b eps o Hab HC He) as (N & HN & HF). exists N. intros s m es xs k n Hn HT H1 HM.
  destruct (choose o (fun j c => forall t, a <= t <= b -> Rabs (poly a ((b - a) / INR n) n c (f j a) t - f j t) <= eps)) as (cs & Hcs).
  { intros j Hj. apply approx_line; [exact Hab|lia|]. intros x y. now apply HF. }
  set (W1 := mk (K := RNum) 1 n (fun _ _ => 1)). set (B1 := mk (K := RNum) 1 n (fun _ k => - gridpt a ((b - a) / INR n) k)).
  set (W2 := mk (K := RNum) n o cs). set (B2 := mk (K := RNum) 1 o (fun _ j => f j a)).
  destruct (two_params s m es xs 1 o k n Linear W1 B1 W2 B2 HT H1 (shape_mk _ _ _) (shape_mk _ _ _) (shape_mk _ _ _) (shape_mk _ _ _))
    as (s' & es' & p & q & P1 & P2 & P3 & P4 & EN & K1 & E1 & E2 & K2 & E3 & E4 & E5 & E6 & E7 & E8).
  exists s', es'. do 4 (split; [assumption|]). intros s2 x rsx r X HC2 HX Hr HXr.
  destruct (predict_spec s2 m es' 1 o x rsx r X o (pnet (net es') r X) HC2 (shapes _ _ _ _ _ _ _ P4) ltac:(unfold ppredict; now rewrite HM) HX Hr) as (out & s3 & E & rs & Q & _).
  exists out, s3. split; [exact E|]. exists rs, (pnet (net es') r X). split; [exact Q|]. intros c j Hc Hj.
  rewrite EN. cbn [pnet fold_left]. unfold pforward at 1, pact. rewrite K2. rewrite two_entry by (congruence || lia). rewrite E1, E3, E5, E6, E7, E8.
  specialize (Hcs j Hj (entry X c 0%nat) (HXr c Hc)). unfold poly in Hcs. unfold B2 at 1. rewrite entry_mk by lia.
  match goal with |- Rabs (?u + _ - _) <= _ => match type of Hcs with Rabs (?v + _ - _) <= _ => replace u with v; [exact Hcs|] end end.
  apply rsum_ext. intros l Hl. unfold W1, B1, W2. rewrite rsum_1, !entry_mk by lia. rewrite Rmult_1_r. reflexivity.
Qed.
