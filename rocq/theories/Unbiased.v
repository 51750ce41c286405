(** * Unbiased: averages over all draws of the random numbers (exact arithmetic). *)
From Coq Require Import ZArith List Bool Arith Lia Reals Lra.
From Verif Require Import Num NumR Heap Spec Matrix Network PureSpec Repr HeapLemmas LoopLemmas LayerProofs MatrixFacts MiscFacts LayerFacts LayerReal LayerGlue RSum Grad BinomialProofs.
Import ListNotations.
Local Open Scope R_scope.
Local Open Scope go_scope.

(** The state with [U] as the uniform numbers to come. *)
Definition with_uniforms (s : state RNum) (U : nat -> R) : state RNum :=
  with_rng s (MkRng (K := RNum) U (r_nrm (h_rng s)) (r_int (h_rng s)) 0 (r_npos (h_rng s)) (r_ipos (h_rng s))).
(** The sum of [f] over a list. *)
Definition total {A} (l : list A) (f : A -> R) : R := fold_right (fun a t => f a + t) 0 l.

Lemma total_ext {A} (l : list A) f g : (forall a, In a l -> f a = g a) -> total l f = total l g.
Proof. induction l as [|a l IH]; intros H; [reflexivity|]. cbn. rewrite (H a) by (left; reflexivity). f_equal. apply IH. intros b Hb. apply H. right. exact Hb. Qed.
Lemma total_app {A} (l l' : list A) f : total (l ++ l') f = total l f + total l' f.
Proof. induction l as [|a l IH]; cbn [total fold_right app]; unfold total in *; [lra|]. cbn [app fold_right]. rewrite IH. lra. Qed.
Lemma total_map {A B} (g : A -> B) l f : total (map g l) f = total l (fun a => f (g a)).
Proof. induction l as [|a l IH]; cbn; [reflexivity|]. unfold total in *. rewrite IH. reflexivity. Qed.
Lemma total_flat {A B} (g : A -> list B) l f : total (flat_map g l) f = total l (fun a => total (g a) f).
Proof. induction l as [|a l IH]; [reflexivity|]. cbn [flat_map]. rewrite total_app, IH. reflexivity. Qed.
Lemma total_scal {A} (l : list A) c f : total l (fun a => c * f a) = c * total l f.
Proof. induction l as [|a l IH]; cbn [total fold_right app]; unfold total in *; [lra|]. cbn [app fold_right]. rewrite IH. lra. Qed.
Lemma total_scal_r {A} (l : list A) c f : total l (fun a => f a * c) = total l f * c.
Proof. induction l as [|a l IH]; cbn [total fold_right app]; unfold total in *; [lra|]. cbn [app fold_right]. rewrite IH. lra. Qed.
Lemma total_const {A} (l : list A) c : total l (fun _ => c) = INR (length l) * c.
Proof. induction l as [|a l IH]; [cbn; lra|]. cbn [total fold_right length]. unfold total in IH. rewrite IH, S_INR. lra. Qed.

(** The sum over all digits. *)
Definition digits (m : nat) (f : nat -> R) : R := total (seq 0 m) f.

Lemma tuples_const m n c : total (tuples m n) (fun _ => c) = INR m ^ n * c.
Proof.
  induction n as [|n IH]; [cbn; lra|]. cbn [tuples]. rewrite total_flat.
  rewrite (total_ext _ _ (fun _ => INR m ^ n * c)). 2:{ intros a _. rewrite total_map. exact IH. }
  rewrite total_const, seq_length. cbn [pow]. ring.
Qed.
Lemma tuples_one m n a (f : nat -> R) : (a < n)%nat -> total (tuples m n) (fun w => f (nth a w O)) = INR m ^ (n - 1) * digits m f.
Proof.
  revert a. induction n as [|n IH]; intros a Ha; [lia|]. cbn [tuples]. rewrite total_flat. replace (S n - 1)%nat with n by lia. destruct a as [|a].
  - rewrite (total_ext _ _ (fun x => INR m ^ n * f x)).
    + rewrite total_scal. reflexivity.
    + intros x _. rewrite total_map. cbn [nth]. apply tuples_const.
  - rewrite (total_ext _ _ (fun _ => INR m ^ (n - 1) * digits m f)).
    + rewrite total_const, seq_length. destruct n as [|n]; [lia|]. replace (S n - 1)%nat with n by lia. cbn [pow]. ring.
    + intros x _. rewrite total_map. cbn [nth]. apply IH. lia.
Qed.
Lemma tuples_two m n : forall a b (f g : nat -> R), (a < b)%nat -> (b < n)%nat ->
  total (tuples m n) (fun w => f (nth a w O) * g (nth b w O)) = INR m ^ (n - 2) * (digits m f * digits m g).
Proof.
  induction n as [|n IH]; intros a b f g Hab Hb; [lia|]. cbn [tuples]. rewrite total_flat. destruct b as [|b]; [lia|].
  destruct n as [|n]; [lia|]. replace (S (S n) - 2)%nat with n by lia. destruct a as [|a].
  - rewrite (total_ext _ _ (fun x => INR m ^ n * digits m g * f x)).
    + rewrite (total_scal _ (INR m ^ n * digits m g) f). unfold digits. ring.
    + intros x _. rewrite total_map. cbn [nth]. rewrite total_scal. rewrite tuples_one by lia. replace (S n - 1)%nat with n by lia. ring.
  - rewrite (total_ext _ _ (fun _ => INR m ^ (S n - 2) * (digits m f * digits m g))).
    + rewrite total_const, seq_length. destruct n as [|n]; [lia|]. replace (S (S n) - 2)%nat with n by lia. cbn [pow]. ring.
    + intros x _. rewrite total_map. cbn [nth]. apply IH; lia.
Qed.

(** ** The dropout mask *)
Lemma mask_digits m k a : (k < m)%nat -> (a < m)%nat -> mask1 (K := RNum) (INR k / INR m) (INR a / INR m) = (if Rlt_dec (INR k / INR m) (1 / 2) then if (k <=? a)%nat then 1 else 0 else if (a <? m - k)%nat then 1 else 0).
Proof.
  intros Hk Ha. assert (Hm : 0 < INR m) by (apply lt_0_INR; lia).
  assert (L : forall x y, (INR x / INR m < INR y / INR m <-> (x < y)%nat)).
  { intros x y. split; intros H.
    - apply INR_lt. apply (Rmult_lt_reg_r (/ INR m)); [apply Rinv_0_lt_compat; exact Hm|exact H].
    - apply Rmult_lt_compat_r; [apply Rinv_0_lt_compat; exact Hm|apply lt_INR; exact H]. }
  assert (E : 1 - INR k / INR m = INR (m - k) / INR m) by (rewrite minus_INR by lia; field; lra).
  assert (B : forall x, (x < m)%nat -> 0 <= INR x / INR m < 1).
  { intros x Hx. split; [apply Rmult_le_pos; [apply pos_INR|left; apply Rinv_0_lt_compat; exact Hm]|].
    replace 1 with (INR m / INR m) by (field; lra). apply L. exact Hx. }
  pose proof (B k Hk). pose proof (B a Ha). rewrite R_mask by lra.
  destruct (Rlt_dec (INR k / INR m) (1 / 2)) as [h|h].
  - destruct (Rle_dec (INR k / INR m) (INR a / INR m)) as [h'|h'].
    + apply Rle_not_lt in h'. rewrite L in h'. replace (k <=? a)%nat with true by (symmetry; apply Nat.leb_le; lia). reflexivity.
    + apply Rnot_le_lt in h'. apply L in h'. replace (k <=? a)%nat with false by (symmetry; apply Nat.leb_gt; lia). reflexivity.
  - rewrite E. destruct (Rlt_dec (INR a / INR m) (INR (m - k) / INR m)) as [h'|h'].
    + apply L in h'. replace (a <? m - k)%nat with true by (symmetry; apply Nat.ltb_lt; exact h'). reflexivity.
    + rewrite L in h'. replace (a <? m - k)%nat with false by (symmetry; apply Nat.ltb_ge; lia). reflexivity.
Qed.
Lemma digits_ge k : forall m s, (s <= k)%nat -> (k <= s + m)%nat -> total (seq s m) (fun a => if (k <=? a)%nat then 1 else 0) = INR (s + m - k).
Proof.
  induction m as [|m IH]; intros s H1 H2; cbn [seq total fold_right]; [replace (s + 0 - k)%nat with O by lia; reflexivity|].
  destruct (Nat.eq_dec s k) as [->|].
  - replace (k <=? k)%nat with true by (symmetry; apply Nat.leb_refl).
    change (1 + total (seq (S k) m) (fun a => if (k <=? a)%nat then 1 else 0) = INR (k + S m - k)).
    rewrite (total_ext _ _ (fun _ => 1)). { rewrite total_const, seq_length. replace (k + S m - k)%nat with (S m) by lia. rewrite S_INR. lra. }
    intros a Ha. apply in_seq in Ha. replace (k <=? a)%nat with true by (symmetry; apply Nat.leb_le; lia). reflexivity.
  - replace (k <=? s)%nat with false by (symmetry; apply Nat.leb_gt; lia).
    change (0 + total (seq (S s) m) (fun a => if (k <=? a)%nat then 1 else 0) = INR (s + S m - k)).
    rewrite IH by lia. rewrite Rplus_0_l. f_equal. lia.
Qed.
Lemma digits_lt k : forall m s, (s <= k)%nat -> (k <= s + m)%nat -> total (seq s m) (fun a => if (a <? k)%nat then 1 else 0) = INR (k - s).
Proof.
  induction m as [|m IH]; intros s H1 H2; cbn [seq total fold_right]; [replace (k - s)%nat with O by lia; reflexivity|].
  destruct (Nat.eq_dec s k) as [->|].
  - replace (k <? k)%nat with false by (symmetry; apply Nat.ltb_irrefl).
    change (0 + total (seq (S k) m) (fun a => if (a <? k)%nat then 1 else 0) = INR (k - k)).
    rewrite (total_ext _ _ (fun _ => 0)). { rewrite total_const, Nat.sub_diag. cbn [INR]. lra. }
    intros a Ha. apply in_seq in Ha. replace (a <? k)%nat with false by (symmetry; apply Nat.ltb_ge; lia). reflexivity.
  - replace (s <? k)%nat with true by (symmetry; apply Nat.ltb_lt; lia).
    change (1 + total (seq (S s) m) (fun a => if (a <? k)%nat then 1 else 0) = INR (k - s)).
    rewrite IH by lia. replace (k - s)%nat with (S (k - S s)) by lia. rewrite S_INR. lra.
Qed.
Lemma mask_total m k : (k < m)%nat -> digits m (fun a => mask1 (K := RNum) (INR k / INR m) (INR a / INR m)) = INR (m - k).
Proof.
  intros Hk. unfold digits. destruct (Rlt_dec (INR k / INR m) (1 / 2)) as [h|h] eqn:Eh.
  - rewrite (total_ext _ _ (fun a => if (k <=? a)%nat then 1 else 0)).
    + rewrite digits_ge by lia. reflexivity.
    + intros a Ha. apply in_seq in Ha. rewrite mask_digits by lia. rewrite Eh. reflexivity.
  - rewrite (total_ext _ _ (fun a => if (a <? m - k)%nat then 1 else 0)).
    + rewrite digits_lt by lia. f_equal. lia.
    + intros a Ha. apply in_seq in Ha. rewrite mask_digits by lia. rewrite Eh. reflexivity.
Qed.

(** ** The layer *)
Definition drop_out (p : player RNum) r (X : pm RNum) m (w : list nat) : pm RNum := pforward_drop p r X (grid m w).
Lemma cell_lt r c i j : (i < r)%nat -> (j < c)%nat -> (i * c + j < r * c)%nat.
Proof. intros. nia. Qed.
Lemma cell_inj c i j i' j' : (j < c)%nat -> (j' < c)%nat -> (i * c + j = i' * c + j')%nat -> i = i' /\ j = j'.
Proof. intros. assert (i = i') by nia. subst. split; lia. Qed.

Section Layer.
Context (p : player RNum) (r : nat) (X : pm RNum) (m k : nat).
Hypotheses (Hkind : p_kind p = Dropout) (Hdrop : p_drop p = INR k / INR m) (Hk : (k < m)%nat).

Definition cellf (i j a : nat) : R := relu1 (K := RNum) (entry (paffine p r X) i j) * (mask1 (K := RNum) (INR k / INR m) (INR a / INR m) / (1 - INR k / INR m)).
Lemma drop_cell w i j : (i < r)%nat -> (j < p_out p)%nat -> entry (drop_out p r X m w) i j = cellf i j (nth (i * p_out p + j) w O).
Proof.
  intros Hi Hj. unfold drop_out, pforward_drop. rewrite entry_mk by auto. rewrite Hdrop. reflexivity.
Qed.
Lemma infer_cell i j : (i < r)%nat -> (j < p_out p)%nat -> entry (pforward p r X) i j = relu1 (K := RNum) (entry (paffine p r X) i j).
Proof. intros Hi Hj. unfold pforward, pact, act1. rewrite Hkind. unfold pmap. rewrite entry_mk by auto. reflexivity. Qed.
Lemma cell_total i j : (i < r)%nat -> (j < p_out p)%nat -> digits m (cellf i j) = INR m * entry (pforward p r X) i j.
Proof.
  intros Hi Hj. unfold cellf, digits. rewrite total_scal. unfold Rdiv.
  rewrite (total_scal_r (seq 0 m) (/ (1 - INR k * / INR m)) (fun a => mask1 (K := RNum) (INR k * / INR m) (INR a * / INR m))).
  change (total (seq 0 m) (fun a => mask1 (K := RNum) (INR k * / INR m) (INR a * / INR m))) with (digits m (fun a => mask1 (K := RNum) (INR k / INR m) (INR a / INR m))).
  rewrite mask_total by exact Hk. rewrite minus_INR by lia. rewrite infer_cell by assumption.
  assert (INR k < INR m) by (apply lt_INR; exact Hk). assert (0 <= INR k) by apply pos_INR. field. lra.
Qed.
Lemma drop_mean i j : (i < r)%nat -> (j < p_out p)%nat ->
  total (tuples m (r * p_out p)) (fun w => entry (drop_out p r X m w) i j) = INR m ^ (r * p_out p) * entry (pforward p r X) i j.
Proof.
  intros Hi Hj. rewrite (total_ext _ _ (fun w => cellf i j (nth (i * p_out p + j) w O))) by (intros w _; apply drop_cell; assumption).
  pose proof (cell_lt r (p_out p) i j Hi Hj). rewrite tuples_one by assumption. rewrite cell_total by assumption.
  destruct (r * p_out p)%nat as [|n]; [lia|]. replace (S n - 1)%nat with n by lia. cbn [pow]. ring.
Qed.
Lemma drop_pair i j i' j' : (i < r)%nat -> (j < p_out p)%nat -> (i' < r)%nat -> (j' < p_out p)%nat -> (i, j) <> (i', j') ->
  total (tuples m (r * p_out p)) (fun w => entry (drop_out p r X m w) i j * entry (drop_out p r X m w) i' j')
  = INR m ^ (r * p_out p) * (entry (pforward p r X) i j * entry (pforward p r X) i' j').
Proof.
  intros Hi Hj Hi' Hj' Hne.
  rewrite (total_ext _ _ (fun w => cellf i j (nth (i * p_out p + j) w O) * cellf i' j' (nth (i' * p_out p + j') w O))) by (intros w _; rewrite !drop_cell by assumption; reflexivity).
  pose proof (cell_lt r (p_out p) i j Hi Hj). pose proof (cell_lt r (p_out p) i' j' Hi' Hj').
  assert (i * p_out p + j <> i' * p_out p + j')%nat. { intros E. apply cell_inj in E; [|assumption..]. destruct E; subst. congruence. }
  assert (P2 : forall n, (2 <= n)%nat -> INR m ^ n = INR m ^ (n - 2) * (INR m * INR m)).
  { intros n Hn. replace n with (2 + (n - 2))%nat at 1 by lia. rewrite pow_add. cbn [pow]. ring. }
  destruct (Nat.lt_ge_cases (i * p_out p + j) (i' * p_out p + j')) as [Hlt|Hge].
  - rewrite tuples_two by lia. rewrite !cell_total by assumption. rewrite (P2 (r * p_out p)%nat) by lia. ring.
  - rewrite (total_ext _ _ (fun w => cellf i' j' (nth (i' * p_out p + j') w O) * cellf i j (nth (i * p_out p + j) w O))) by (intros w _; ring).
    rewrite tuples_two by lia. rewrite !cell_total by assumption. rewrite (P2 (r * p_out p)%nat) by lia. ring.
Qed.
Lemma mask_01 a : (a < m)%nat -> mask1 (K := RNum) (INR k / INR m) (INR a / INR m) = 0 \/ mask1 (K := RNum) (INR k / INR m) (INR a / INR m) = 1.
Proof.
  intros Ha. rewrite mask_digits by assumption.
  destruct (Rlt_dec (INR k / INR m) (1 / 2)); [destruct (k <=? a)%nat|destruct (a <? m - k)%nat]; auto.
Qed.
Lemma tuple_digit w n a : In w (tuples m n) -> (a < n)%nat -> (nth a w O < m)%nat.
Proof. intros Hw Ha. apply in_tuples in Hw. destruct Hw as (Hl & HF). rewrite Forall_forall in HF. apply HF. apply nth_In. lia. Qed.
Lemma keep_pos : 0 < 1 - INR k / INR m.
Proof.
  assert (INR k < INR m) by (apply lt_INR; exact Hk). assert (0 <= INR k) by apply pos_INR.
  replace (1 - INR k / INR m) with ((INR m - INR k) / INR m) by (field; lra). apply Rdiv_lt_0_compat; lra.
Qed.
Lemma drop_square i j : (i < r)%nat -> (j < p_out p)%nat ->
  total (tuples m (r * p_out p)) (fun w => entry (drop_out p r X m w) i j ^ 2)
  = INR m ^ (r * p_out p) * (entry (pforward p r X) i j ^ 2 / (1 - INR k / INR m)).
Proof.
  intros Hi Hj. pose proof (cell_lt r (p_out p) i j Hi Hj) as Hc. pose proof keep_pos as HP. set (d := INR k / INR m) in *.
  rewrite (total_ext _ _ (fun w => (fun a => relu1 (K := RNum) (entry (paffine p r X) i j) / (1 - d) * cellf i j a) (nth (i * p_out p + j) w O))).
  2:{ intros w Hw. rewrite drop_cell by assumption. pose proof (mask_01 _ (tuple_digit w _ _ Hw Hc)) as HM. unfold cellf. fold d in HM |- *.
      destruct HM as [-> | ->]; field; lra. }
  rewrite (tuples_one m _ _ (fun a => relu1 (K := RNum) (entry (paffine p r X) i j) / (1 - d) * cellf i j a)) by assumption.
  unfold digits. rewrite total_scal. change (total (seq 0 m) (cellf i j)) with (digits m (cellf i j)).
  rewrite cell_total, infer_cell by assumption. destruct (r * p_out p)%nat as [|n]; [lia|]. replace (S n - 1)%nat with n by lia. cbn [pow]. field. lra.
Qed.

(** The gradient that reaches the pre-activations of the executed pass, and of the ReLU layer. *)
Definition drop_grad (G : pm RNum) (w : list nat) : pm RNum := pback p r (drop_out p r X m w) (ptrain_mask p r (grid m w)) G.
Definition relu_grad (G : pm RNum) i j : R := if Rlt_dec 0 (entry (paffine p r X) i j) then entry G i j else 0.
Lemma drop_grad_cell G w i j : In w (tuples m (r * p_out p)) -> (i < r)%nat -> (j < p_out p)%nat ->
  entry (drop_grad G w) i j = relu_grad G i j * mask1 (K := RNum) (INR k / INR m) (INR (nth (i * p_out p + j) w O) / INR m).
Proof.
  intros Hw Hi Hj. pose proof (cell_lt r (p_out p) i j Hi Hj) as Hc. pose proof keep_pos as HP.
  unfold drop_grad, pback, ptrain_mask. rewrite Hkind. unfold pmask. rewrite !entry_pmap2 by assumption. rewrite entry_mk by assumption.
  rewrite drop_cell by assumption. rewrite relu_prime_R, Hdrop. unfold grid, cellf, relu_grad. rewrite R_relu. cbn [fmul RNum].
  pose proof (mask_01 _ (tuple_digit w _ _ Hw Hc)) as HM. set (d := INR k / INR m) in *.
  set (u := mask1 (K := RNum) d (INR (nth (i * p_out p + j) w O) / INR m)) in *. set (z := entry (paffine p r X) i j) in *.
  destruct (Rlt_dec 0 z) as [hz|hz].
  - rewrite Rmax_left by lra. destruct HM as [-> | ->].
    + destruct (Rlt_dec 0 (z * (0 / (1 - d)))) as [h|h]; lra.
    + destruct (Rlt_dec 0 (z * (1 / (1 - d)))) as [h|h]; [lra|]. exfalso. apply h. apply Rmult_lt_0_compat; [exact hz|]. apply Rdiv_lt_0_compat; lra.
  - rewrite Rmax_right by lra. destruct (Rlt_dec 0 (0 * (u / (1 - d)))); lra.
Qed.
Lemma drop_grad_total G i j : (i < r)%nat -> (j < p_out p)%nat ->
  total (tuples m (r * p_out p)) (fun w => entry (drop_grad G w) i j) = INR m ^ (r * p_out p) * ((1 - INR k / INR m) * relu_grad G i j).
Proof.
  intros Hi Hj. pose proof (cell_lt r (p_out p) i j Hi Hj) as Hc.
  rewrite (total_ext _ _ (fun w => relu_grad G i j * (fun a => mask1 (K := RNum) (INR k / INR m) (INR a / INR m)) (nth (i * p_out p + j) w O))) by (intros w Hw; apply drop_grad_cell; assumption).
  rewrite total_scal. rewrite (tuples_one m _ _ (fun a => mask1 (K := RNum) (INR k / INR m) (INR a / INR m))) by assumption. rewrite mask_total by exact Hk. rewrite minus_INR by lia.
  assert (INR k < INR m) by (apply lt_INR; exact Hk). assert (0 <= INR k) by apply pos_INR.
  destruct (r * p_out p)%nat as [|n]; [lia|]. replace (S n - 1)%nat with n by lia. cbn [pow]. field. lra.
Qed.
Lemma total_rsum {A} (l : list A) n (f : A -> nat -> R) : total l (fun a => rsum n (f a)) = rsum n (fun i => total l (fun a => f a i)).
Proof.
  induction n as [|n IH].
  - rewrite rsum_0. rewrite (total_ext _ _ (fun _ => 0)) by (intros; apply rsum_0). rewrite total_const. lra.
  - rewrite rsum_S, <- IH. rewrite (total_ext _ _ (fun a => rsum n (f a) + f a n)) by (intros; apply rsum_S).
    clear IH. induction l as [|a l IHl]; cbn [total fold_right]; [lra|]. unfold total in IHl. rewrite IHl. lra.
Qed.
End Layer.

Lemma dropout_average (s : state RNum) lref l rw rb p x rsx r X m k :
  nth_error (h_layers s) lref = Some l -> lown s l rw rb p -> p_kind p = Dropout -> p_drop p = INR k / INR m -> (k < m)%nat ->
  own s x rsx r (p_in p) X -> (1 <= r)%nat ->
  exists A : list nat -> pm RNum,
    (forall w, returns (Layer_Forward lref x) (with_uniforms s (grid m w)) (fun out s' => exists rs, own s' out rs r (p_out p) (A w))) /\
    returns (Dropout_ForwardNoDropout lref x) s (fun out s' => exists rs, own s' out rs r (p_out p) (pforward p r X)) /\
    (forall i j, (i < r)%nat -> (j < p_out p)%nat ->
       total (tuples m (r * p_out p)) (fun w => entry (A w) i j) = INR m ^ (r * p_out p) * entry (pforward p r X) i j) /\
    (forall i j, (i < r)%nat -> (j < p_out p)%nat ->
       total (tuples m (r * p_out p)) (fun w => entry (A w) i j ^ 2) = INR m ^ (r * p_out p) * (entry (pforward p r X) i j ^ 2 / (1 - p_drop p))) /\
    (forall i j i' j', (i < r)%nat -> (j < p_out p)%nat -> (i' < r)%nat -> (j' < p_out p)%nat -> (i, j) <> (i', j') ->
       total (tuples m (r * p_out p)) (fun w => entry (A w) i j * entry (A w) i' j')
       = INR m ^ (r * p_out p) * (entry (pforward p r X) i j * entry (pforward p r X) i' j')).
Proof.
  intros HE HO HKd HD Hk HX Hr. exists (drop_out p r X m). split; [|split; [|split; [|split]]].
  - intros w. destruct (dropout_training (with_uniforms s (grid m w)) lref l rw rb p x rsx r X) as (out & s' & E & (rs & HF) & _); auto.
    exists out, s'. split; [exact E|]. exists rs. apply HF.
  - apply returns_wp. pose proof (wp_forward_plain s lref l rw rb p x rsx r X false HE HO HX Hr (or_introl eq_refl)) as H.
    destruct HO as (H1 & _). rewrite H1, HKd in H. eapply wp_conseq; [exact H|].
    cbv beta. intros out s' (rs & (HO & _) & _). exists rs. exact HO.
  - intros. eapply drop_mean; eauto.
  - intros. rewrite HD. eapply drop_square; eauto.
  - intros. eapply drop_pair; eauto.
Qed.

Lemma dropout_gradients (s : state RNum) lref l rw rb p x rsx r X dv rsg G m k :
  nth_error (h_layers s) lref = Some l -> lown s l rw rb p -> p_kind p = Dropout -> p_drop p = INR k / INR m -> (k < m)%nat ->
  own s x rsx r (p_in p) X -> (1 <= r)%nat -> own s dv rsg r (p_out p) G -> NoDup rsg ->
  disjoint rsx rsg -> disjoint rw rsg -> disjoint rb rsg ->
  let H i j := if Rlt_dec 0 (entry (paffine p r X) i j) then entry G i j else 0 in
  exists dW dB dX : list nat -> pm RNum,
    (forall w, returns (out <- Layer_Forward lref x ;; Layer_Backward lref x dv) (with_uniforms s (grid m w)) (fun g s' =>
       bwd_result s s' g (p_in p) (p_out p) r (dW w) (dB w) (dX w))) /\
    (forall i j, (i < p_in p)%nat -> (j < p_out p)%nat ->
       total (tuples m (r * p_out p)) (fun w => entry (dW w) i j) = INR m ^ (r * p_out p) * ((1 - p_drop p) * rsum r (fun n => entry X n i * H n j))) /\
    (forall j, (j < p_out p)%nat ->
       total (tuples m (r * p_out p)) (fun w => entry (dB w) 0 j) = INR m ^ (r * p_out p) * ((1 - p_drop p) * rsum r (fun n => H n j))) /\
    (forall i j, (i < r)%nat -> (j < p_in p)%nat ->
       total (tuples m (r * p_out p)) (fun w => entry (dX w) i j) = INR m ^ (r * p_out p) * ((1 - p_drop p) * rsum (p_out p) (fun n => H i n * entry (p_w p) j n))).
Proof.
  intros HE HO HKd HD Hk HX Hr HG HN D1 D2 D3 H.
  set (GG := fun w => drop_grad p r X m G w).
  exists (fun w => mk (p_in p) (p_out p) (fun i j => rsum r (fun n => entry X n i * entry (GG w) n j))),
    (fun w => mk 1 (p_out p) (fun _ j => rsum r (fun n => entry (GG w) n j))),
    (fun w => mk r (p_in p) (fun i j => rsum (p_out p) (fun n => entry (GG w) i n * entry (p_w p) j n))).
  split; [|split; [|split]].
  - intros w. destruct (backward_formula (K := RNum) (with_uniforms s (grid m w)) lref l rw rb p x rsx r X dv rsg G) as ((out & g) & s' & E & _ & HB & _); auto.
    { rewrite HKd. discriminate. }
    exists g, s'. split.
    + revert E. unfold bind. destruct (Layer_Forward lref x (with_uniforms s (grid m w))) as [[o|e|q] s1]; try discriminate.
      destruct (Layer_Backward lref x dv s1) as [[g'|e|q] s2]; try discriminate. cbn. intros E. injection E as <- <- <-. reflexivity.
    + cbn [snd] in HB. unfold ptrain in HB. rewrite HKd in HB. exact HB.
  - intros i j Hi Hj. rewrite HD. erewrite total_ext by (intros; rewrite entry_mk by assumption; reflexivity).
    rewrite total_rsum. rewrite <- !rsum_scal. apply rsum_ext. intros n Hn. rewrite total_scal. unfold GG. erewrite drop_grad_total by eassumption. change (H n j) with (relu_grad p r X G n j). cbn [F RNum]. ring.
  - intros j Hj. rewrite HD. erewrite total_ext by (intros; rewrite entry_mk by (assumption || lia); reflexivity).
    rewrite total_rsum. rewrite <- !rsum_scal. apply rsum_ext. intros n Hn. unfold GG. erewrite drop_grad_total by eassumption. change (H n j) with (relu_grad p r X G n j). cbn [F RNum]. ring.
  - intros i j Hi Hj. rewrite HD. erewrite total_ext by (intros; rewrite entry_mk by assumption; reflexivity).
    rewrite total_rsum. rewrite <- !rsum_scal. apply rsum_ext. intros n Hn. rewrite total_scal_r. unfold GG. erewrite drop_grad_total by eassumption. change (H i n) with (relu_grad p r X G i n). cbn [F RNum]. ring.
Qed.
