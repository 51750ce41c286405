(** * Spec: plain matrices, independent of the heap model.

    A plain matrix is a list of rows.  Everything a property says about the contents of a
    matrix is said with [entry], [shape] and [mk]. *)
From Coq Require Import String ZArith List Bool Arith Lia.
From Verif Require Import Num.
Import ListNotations.

Section WithNum.
Context {K : Num}.

Definition pm : Type := list (list K).

(** The (i,j) entry. *)
Definition entry (A : pm) (i j : nat) : K := nth j (nth i A []) f0.
(** A has r rows of length c. *)
Definition shape (r c : nat) (A : pm) : Prop :=
  length A = r /\ Forall (fun row => length row = c) A.
(** The r x c matrix with entries f i j. *)
Definition mk (r c : nat) (f : nat -> nat -> K) : pm :=
  map (fun i => map (f i) (seq 0 c)) (seq 0 r).

(** ((0 + g 0) + g 1) + ... + g (n-1): the summation order of the code. *)
Definition fsum (n : nat) (g : nat -> K) : K :=
  fold_left (fun s k => fadd s (g k)) (seq 0 n) f0.

Lemma nth_map_seq {A} (f : nat -> A) (n i : nat) (d : A) :
  i < n -> nth i (map f (seq 0 n)) d = f i.
Proof.
  intros H. rewrite nth_indep with (d' := f 0) by (rewrite map_length, seq_length; lia).
  rewrite map_nth. rewrite seq_nth by lia. reflexivity.
Qed.

Lemma entry_mk r c f i j : i < r -> j < c -> entry (mk r c f) i j = f i j.
Proof.
  intros Hi Hj. unfold entry, mk.
  rewrite nth_map_seq by lia. rewrite nth_map_seq by lia. reflexivity.
Qed.

Lemma shape_mk r c f : shape r c (mk r c f).
Proof.
  unfold shape, mk. split.
  - now rewrite map_length, seq_length.
  - apply Forall_forall. intros row Hin. apply in_map_iff in Hin as (i & <- & _).
    now rewrite map_length, seq_length.
Qed.

Lemma length_mk r c f : length (mk r c f) = r.
Proof. apply shape_mk. Qed.

Lemma mk_ext r c f g :
  (forall i j, i < r -> j < c -> f i j = g i j) -> mk r c f = mk r c g.
Proof.
  intros H. unfold mk. apply map_ext_in. intros i Hi. apply in_seq in Hi.
  apply map_ext_in. intros j Hj. apply in_seq in Hj. apply H; lia.
Qed.

Lemma list_eq_nth {A} (l1 l2 : list A) (d : A) :
  length l1 = length l2 -> (forall i, i < length l1 -> nth i l1 d = nth i l2 d) -> l1 = l2.
Proof. intros. apply nth_ext with (d := d) (d' := d); assumption. Qed.

Lemma shape_row r c A i : shape r c A -> i < r -> length (nth i A []) = c.
Proof.
  intros [HL HF] Hi. rewrite Forall_forall in HF. apply HF. apply nth_In. lia.
Qed.

Lemma mk_entry r c A : shape r c A -> mk r c (entry A) = A.
Proof.
  intros HS. apply list_eq_nth with (d := []).
  - rewrite length_mk. symmetry. apply HS.
  - intros i Hi. rewrite length_mk in Hi.
    apply list_eq_nth with (d := f0).
    + rewrite shape_row with (r := r) (c := c) by (auto using shape_mk).
      symmetry. eapply shape_row; eauto.
    + intros j Hj. rewrite shape_row with (r := r) (c := c) in Hj by (auto using shape_mk).
      change (entry (mk r c (entry A)) i j = entry A i j). now apply entry_mk.
Qed.

Lemma shape_ext r c A C :
  shape r c A -> shape r c C -> (forall i j, i < r -> j < c -> entry A i j = entry C i j) -> A = C.
Proof.
  intros HA HC H. rewrite <- (mk_entry r c A HA), <- (mk_entry r c C HC). now apply mk_ext.
Qed.

Lemma fsum_ext n f g : (forall k, k < n -> f k = g k) -> fsum n f = fsum n g.
Proof.
  intros H. unfold fsum. generalize (@f0 K) as a.
  assert (Hin : forall k, In k (seq 0 n) -> f k = g k) by (intros k Hk; apply in_seq in Hk; apply H; lia).
  revert Hin. generalize (seq 0 n) as l. induction l as [|k l IH]; intros Hin a; simpl; auto.
  rewrite Hin by (simpl; auto). apply IH. intros; apply Hin; simpl; auto.
Qed.

Lemma fsum_S n g : fsum (S n) g = fadd (fsum n g) (g n).
Proof. unfold fsum. rewrite seq_S, fold_left_app. reflexivity. Qed.

Lemma fsum_0 g : fsum 0 g = f0.
Proof. reflexivity. Qed.

End WithNum.
Arguments pm K : clear implicits.

(** Plain matrix operations. *)
Section Ops.
Context {K : Num}.
Definition pmap (r c : nat) (f : K -> K) (A : pm K) : pm K := mk r c (fun i j => f (entry A i j)).
Definition pmap2 (r c : nat) (f : K -> K -> K) (A B : pm K) : pm K :=
  mk r c (fun i j => f (entry A i j) (entry B i j)).
Definition pdot (r k c : nat) (A B : pm K) : pm K :=
  mk r c (fun i j => fsum k (fun n => fmul (entry A i n) (entry B n j))).
Definition ptrans (r c : nat) (A : pm K) : pm K := mk c r (fun i j => entry A j i).
Definition psum0 (r c : nat) (A : pm K) : pm K := mk 1 c (fun _ j => fsum r (fun i => entry A i j)).
Definition psum1 (r c : nat) (A : pm K) : pm K := mk 1 r (fun _ i => fsum c (fun j => entry A i j)).
End Ops.
