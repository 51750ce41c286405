(** * RSum: algebra of finite sums and products over the reals. *)
From Coq Require Import ZArith List Arith Lia Reals Lra.
From Verif Require Import Num Spec NumR.
Import ListNotations.
Open Scope R_scope.

(** The model's left-to-right sum, read in the reals. *)
Definition rsum (n : nat) (g : nat -> R) : R := fsum (K := RNum) n g.

Lemma rsum_0 g : rsum 0 g = 0.
Proof. reflexivity. Qed.
Lemma rsum_S n g : rsum (S n) g = rsum n g + g n.
Proof. unfold rsum. rewrite fsum_S. reflexivity. Qed.
Lemma rsum_1 g : rsum 1 g = g O.
Proof. rewrite rsum_S, rsum_0. lra. Qed.
Lemma rsum_ext n f g : (forall i, (i < n)%nat -> f i = g i) -> rsum n f = rsum n g.
Proof. intros H. exact (fsum_ext (K := RNum) n f g H). Qed.
Lemma rsum_plus n f g : rsum n (fun i => f i + g i) = rsum n f + rsum n g.
Proof. induction n; rewrite ?rsum_S, ?rsum_0; [lra|]. rewrite IHn. lra. Qed.
Lemma rsum_minus n f g : rsum n (fun i => f i - g i) = rsum n f - rsum n g.
Proof. induction n; rewrite ?rsum_S, ?rsum_0; [lra|]. rewrite IHn. lra. Qed.
Lemma rsum_scal n a f : rsum n (fun i => a * f i) = a * rsum n f.
Proof. induction n; rewrite ?rsum_S, ?rsum_0; [lra|]. rewrite IHn. lra. Qed.
Lemma rsum_scal_r n a f : rsum n (fun i => f i * a) = rsum n f * a.
Proof. induction n; rewrite ?rsum_S, ?rsum_0; [lra|]. rewrite IHn. lra. Qed.
Lemma rsum_div n a f : rsum n (fun i => f i / a) = rsum n f / a.
Proof. unfold Rdiv. apply rsum_scal_r. Qed.
Lemma rsum_opp n f : rsum n (fun i => - f i) = - rsum n f.
Proof. induction n; rewrite ?rsum_S, ?rsum_0; [lra|]. rewrite IHn. lra. Qed.
Lemma rsum_zero n : rsum n (fun _ => 0) = 0.
Proof. induction n; rewrite ?rsum_S, ?rsum_0; [lra|]. rewrite IHn. lra. Qed.
Lemma rsum_const n a : rsum n (fun _ => a) = INR n * a.
Proof. induction n; rewrite ?rsum_S, ?rsum_0; [simpl; lra|]. rewrite IHn, S_INR. lra. Qed.
Lemma rsum_swap m n (f : nat -> nat -> R) :
  rsum m (fun i => rsum n (fun j => f i j)) = rsum n (fun j => rsum m (fun i => f i j)).
Proof.
  induction m.
  - rewrite rsum_0. symmetry. apply rsum_zero.
  - rewrite rsum_S, IHm. rewrite <- rsum_plus. apply rsum_ext. intros. now rewrite rsum_S.
Qed.
Lemma rsum_delta n k f : (k < n)%nat -> rsum n (fun i => if (k =? i)%nat then f i else 0) = f k.
Proof.
  intros Hk. induction n; [lia|]. rewrite rsum_S. destruct (Nat.eq_dec k n) as [->|Hne].
  - rewrite Nat.eqb_refl. rewrite rsum_ext with (g := fun _ => 0), rsum_zero; [lra|].
    intros i Hi. destruct (Nat.eqb_spec n i); [lia|reflexivity].
  - rewrite IHn by lia. destruct (Nat.eqb_spec k n); [lia|lra].
Qed.
Lemma rsum_nonneg n f : (forall i, (i < n)%nat -> 0 <= f i) -> 0 <= rsum n f.
Proof.
  induction n; intros H; rewrite ?rsum_S, ?rsum_0; [lra|].
  assert (0 <= rsum n f) by (apply IHn; intros; apply H; lia). specialize (H n ltac:(lia)). lra.
Qed.
Lemma rsum_le n f g : (forall i, (i < n)%nat -> f i <= g i) -> rsum n f <= rsum n g.
Proof.
  intros H. assert (0 <= rsum n (fun i => g i - f i)) by (apply rsum_nonneg; intros i Hi; specialize (H i Hi); lra).
  rewrite rsum_minus in H0. lra.
Qed.
Lemma rsum_pos n f : (1 <= n)%nat -> (forall i, (i < n)%nat -> 0 < f i) -> 0 < rsum n f.
Proof.
  destruct n; [lia|]. intros _ H. rewrite rsum_S.
  assert (0 <= rsum n f) by (apply rsum_nonneg; intros; left; apply H; lia). specialize (H n ltac:(lia)). lra.
Qed.
Lemma rsum_term_le n f k : (forall i, (i < n)%nat -> 0 <= f i) -> (k < n)%nat -> f k <= rsum n f.
Proof.
  intros H Hk. rewrite <- (rsum_delta n k f Hk). apply rsum_le. intros i Hi. destruct (k =? i)%nat; [lra|auto].
Qed.
Lemma rsum_zero_inv n f : (forall i, (i < n)%nat -> 0 <= f i) -> rsum n f = 0 -> forall i, (i < n)%nat -> f i = 0.
Proof. intros H H0 i Hi. pose proof (rsum_term_le n f i H Hi). specialize (H i Hi). lra. Qed.

(** ** Matrix products over the reals *)
Notation rpm := (pm RNum).

Lemma pdot_assoc r k l c (A B C : rpm) :
  pdot r l c (pdot r k l A B) C = pdot r k c A (pdot k l c B C).
Proof.
  unfold pdot. apply mk_ext. intros i j Hi Hj.
  change (rsum l (fun n => entry (mk r l (fun i j => rsum k (fun n => entry A i n * entry B n j))) i n * entry C n j)
        = rsum k (fun n => entry A i n * entry (mk k c (fun i j => rsum l (fun n => entry B i n * entry C n j))) n j)).
  rewrite rsum_ext with (g := fun n => rsum k (fun m => entry A i m * entry B m n * entry C n j)).
  2:{ intros n Hn. rewrite entry_mk by auto. now rewrite <- rsum_scal_r. }
  rewrite rsum_swap. apply rsum_ext. intros m Hm. rewrite entry_mk by auto. rewrite <- rsum_scal. apply rsum_ext.
  intros. simpl. ring.
Qed.

Lemma pdot_add_l r k c (A B C : rpm) :
  pdot r k c (pmap2 r k fadd A B) C = pmap2 r c fadd (pdot r k c A C) (pdot r k c B C).
Proof.
  unfold pdot, pmap2. apply mk_ext. intros i j Hi Hj. rewrite !entry_mk by auto. 
  change (rsum k (fun n => entry (mk r k (fun i j => entry A i j + entry B i j : RNum)) i n * entry C n j)
        = rsum k (fun n => entry A i n * entry C n j) + rsum k (fun n => entry B i n * entry C n j)).
  rewrite <- rsum_plus. apply rsum_ext. intros n Hn. rewrite entry_mk by auto. simpl. ring.
Qed.
Lemma pdot_add_r r k c (A B C : rpm) :
  pdot r k c A (pmap2 k c fadd B C) = pmap2 r c fadd (pdot r k c A B) (pdot r k c A C).
Proof.
  unfold pdot, pmap2. apply mk_ext. intros i j Hi Hj. rewrite !entry_mk by auto. 
  change (rsum k (fun n => entry A i n * entry (mk k c (fun i j => entry B i j + entry C i j : RNum)) n j)
        = rsum k (fun n => entry A i n * entry B n j) + rsum k (fun n => entry A i n * entry C n j)).
  rewrite <- rsum_plus. apply rsum_ext. intros n Hn. rewrite entry_mk by auto. simpl. ring.
Qed.
