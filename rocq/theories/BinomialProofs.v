(** * BinomialProofs: what binomial.Rand returns *)
From Coq Require Import ZArith List Bool Lia Reals Lra FinFun.
From Flocq Require Import Core.Raux IEEE754.BinarySingleNaN IEEE754.Binary IEEE754.Bits.
From Verif Require Import Num NumR NumB64 Heap Network Binomial.
Import ListNotations.

(** The number of entries below [p]. *)
Fixpoint below (p : R) (xs : list R) : nat :=
  match xs with
  | [] => O
  | x :: t => ((if Rlt_dec x p then 1 else 0) + below p t)%nat
  end.
Lemma below_le p xs : (below p xs <= length xs)%nat.
Proof. induction xs as [|x t IH]; simpl; [lia|]. destruct (Rlt_dec x p); lia. Qed.

Fixpoint choose (n k : nat) : nat :=
  match n, k with
  | _, O => 1
  | O, S _ => 0
  | S n', S k' => choose n' k' + choose n' (S k')
  end.

Local Open Scope R_scope.

Ltac dif E := match goal with |- context [if ?b then _ else _] => destruct b eqn:E end.

Definition window (U : nat -> R) (u n : nat) : list R := map U (seq u n).

Lemma trials_count (U : nat -> R) (P : R) n : forall c u,
  bin_trials (K := RNum) U P n (INR c) u
  = (INR (c + below (bin_p (K := RNum) P) (window U u n)), (u + n)%nat).
Proof.
  induction n as [|n IH]; intros c u; simpl bin_trials.
  - unfold window. simpl. rewrite !Nat.add_0_r. reflexivity.
  - unfold window. simpl seq. simpl map. simpl below. fold (window U (S u) n).
    set (p := bin_p (K := RNum) P) in *. change (r_ltb (U u) p) with (r_ltb (U u) p).
    unfold r_ltb at 1. destruct (Rlt_dec (U u) p).
    + change (INR c + f1 (K := RNum)) with (INR c + 1). rewrite <- S_INR, IH. replace (u + S n)%nat with (S u + n)%nat by lia. do 2 f_equal. lia.
    + rewrite IH. replace (u + S n)%nat with (S u + n)%nat by lia. reflexivity.
Qed.

Lemma p_low P : P <= 1 / 2 -> bin_p (K := RNum) P = P.
Proof.
  intros H. unfold bin_p, lit_half. cbn [flt RNum fdiv ofZ]. destruct (r_ltb (1 / 2) P) eqn:E; [|reflexivity].
  apply r_ltb_true in E. lra.
Qed.
Lemma p_high P : 1 / 2 < P -> bin_p (K := RNum) P = 1 - P.
Proof.
  intros H. unfold bin_p, lit_half. cbn [flt RNum fdiv ofZ fsub]. destruct (r_ltb (1 / 2) P) eqn:E; [reflexivity|].
  apply r_ltb_false in E. lra.
Qed.
Lemma out_low N P x : P <= 1 / 2 -> bin_out (K := RNum) N P x = x.
Proof.
  intros H. unfold bin_out. rewrite p_low by exact H. cbn [feq RNum].
  replace (r_eqb P P) with true by (symmetry; apply r_eqb_true; reflexivity). reflexivity.
Qed.
Lemma out_high N P x : 1 / 2 < P -> bin_out (K := RNum) N P x = N - x.
Proof.
  intros H. unfold bin_out. rewrite p_high by exact H. cbn [feq RNum].
  replace (r_eqb (1 - P) P) with false by (symmetry; apply r_eqb_false; lra). reflexivity.
Qed.

Lemma count_N n : Z.to_nat (toZ (INR n : RNum)) = n.
Proof. cbn [toZ RNum]. rewrite INR_IZR_INZ, Ztrunc_IZR. apply Nat2Z.id. Qed.

Lemma few n : (n < 25)%nat -> flt (INR n : RNum) (ofZ 25) = true.
Proof.
  intros H. cbn [flt RNum ofZ]. apply r_ltb_true. rewrite INR_IZR_INZ. apply IZR_lt. lia.
Qed.
Lemma many n : (25 <= n)%nat -> flt (INR n : RNum) (ofZ 25) = false.
Proof.
  intros H. cbn [flt RNum ofZ]. apply r_ltb_false. rewrite INR_IZR_INZ. apply IZR_le. lia.
Qed.

(** The number of successes the direct method returns. *)
Definition successes (P : R) (xs : list R) : nat :=
  if Rle_dec P (1 / 2) then below P xs else (length xs - below (1 - P) xs)%nat.

Lemma window_length U u n : length (window U u n) = n.
Proof. unfold window. rewrite map_length, seq_length. reflexivity. Qed.

Lemma Rand_direct lib (U E : nat -> R) n P fuel u e : (n < 25)%nat ->
  bin_Rand (K := RNum) lib U E (INR n) P fuel (MkDraws u e)
  = Some (INR (successes P (map U (seq u n))), MkDraws (u + n) e).
Proof.
  intros Hn. unfold bin_Rand. rewrite few by exact Hn. rewrite count_N. cbn [d_uni d_exp].
  change (f0 (K := RNum)) with (INR 0). rewrite trials_count. fold (window U u n).
  unfold successes. rewrite window_length. destruct (Rle_dec P (1 / 2)).
  - rewrite out_low by assumption. rewrite p_low by assumption. reflexivity.
  - rewrite out_high by lra. rewrite p_high by lra. simpl (0 + _)%nat.
    rewrite minus_INR; [reflexivity|]. pose proof (below_le (1 - P) (window U u n)).
    rewrite window_length in H. exact H.
Qed.

(** ** The law of the direct method *)

(** All lists of [n] numbers below [m]. *)
Fixpoint tuples (m n : nat) : list (list nat) :=
  match n with
  | O => [[]]
  | S n' => flat_map (fun a => map (cons a) (tuples m n')) (seq 0 m)
  end.

Lemma in_tuples m n w : In w (tuples m n) <-> length w = n /\ List.Forall (fun a => (a < m)%nat) w.
Proof.
  revert w. induction n as [|n IH]; intros w; simpl.
  - split.
    + intros [<-|[]]. split; [reflexivity|constructor].
    + intros [H _]. destruct w; [left; reflexivity|discriminate].
  - rewrite in_flat_map. split.
    + intros (a & Ha & Hw). apply in_seq in Ha. apply in_map_iff in Hw. destruct Hw as (w' & <- & Hw').
      apply IH in Hw'. destruct Hw' as [H1 H2]. split; [simpl; lia|]. constructor; [lia|exact H2].
    + intros [H1 H2]. destruct w as [|a w']; [discriminate|]. inversion H2; subst.
      exists a. split; [apply in_seq; lia|]. apply in_map. apply IH. split; [simpl in H1; lia|assumption].
Qed.

Lemma nodup_flat {A B} (f : A -> list B) l : NoDup l -> (forall a, In a l -> NoDup (f a)) ->
  (forall a b x, In a l -> In b l -> In x (f a) -> In x (f b) -> a = b) -> NoDup (flat_map f l).
Proof.
  induction l as [|a l IH]; intros Hl Hf Hd; simpl; [constructor|]. inversion Hl; subst.
  assert (G : forall l1 l2 : list B, NoDup l1 -> NoDup l2 -> (forall x, In x l1 -> In x l2 -> False) -> NoDup (l1 ++ l2)).
  { clear. induction l1 as [|x l1 IH]; intros l2 H1 H2 H; simpl; [exact H2|]. inversion H1; subst. constructor.
    - rewrite in_app_iff. intros [?|?]; [contradiction|]. apply (H x); [left; reflexivity|assumption].
    - apply IH; [assumption|assumption|]. intros y Hy1 Hy2. apply (H y); [right; assumption|assumption]. }
  apply G.
  - apply Hf. left. reflexivity.
  - apply IH; [assumption| |].
    + intros b Hb. apply Hf. right. exact Hb.
    + intros b c x Hb Hc. apply Hd; right; assumption.
  - intros x Hx Hx'. apply in_flat_map in Hx'. destruct Hx' as (b & Hb & Hxb).
    assert (a = b) by (apply (Hd a b x); [left; reflexivity|right; exact Hb|exact Hx|exact Hxb]).
    subst. contradiction.
Qed.

Lemma nodup_tuples m n : NoDup (tuples m n).
Proof.
  induction n as [|n IH]; simpl; [repeat constructor; intros []|].
  apply nodup_flat.
  - apply seq_NoDup.
  - intros a _. apply FinFun.Injective_map_NoDup; [|exact IH]. intros x y H. injection H. auto.
  - intros a b x _ _ Ha Hb. apply in_map_iff in Ha, Hb. destruct Ha as (w & <- & _).
    destruct Hb as (w' & H & _). injection H. intros. congruence.
Qed.

(** How many entries are below [k]. *)
Fixpoint nbelow (k : nat) (w : list nat) : nat :=
  match w with [] => O | a :: t => ((if (a <? k)%nat then 1 else 0) + nbelow k t)%nat end.

Definition hitting (m n k j : nat) : list (list nat) := filter (fun w => (nbelow k w =? j)%nat) (tuples m n).

Lemma length_flat {A B} (f : A -> list B) l : length (flat_map f l) = fold_right (fun a s => (length (f a) + s)%nat) O l.
Proof. induction l as [|a l IH]; simpl; [reflexivity|]. rewrite app_length, IH. reflexivity. Qed.
Lemma filter_flat {A B} (p : B -> bool) (f : A -> list B) l : filter p (flat_map f l) = flat_map (fun a => filter p (f a)) l.
Proof. induction l as [|a l IH]; simpl; [reflexivity|]. rewrite filter_app, IH. reflexivity. Qed.
Lemma filter_cons_map (p : list nat -> bool) (a : nat) l : filter p (map (cons a) l) = map (cons a) (filter (fun w => p (a :: w)) l).
Proof. induction l as [|x l IH]; simpl; [reflexivity|]. destruct (p (a :: x)); simpl; rewrite IH; reflexivity. Qed.

Lemma split_sum k x y : forall m s, (s <= k)%nat -> (k <= s + m)%nat ->
  fold_right (fun a r => ((if (a <? k)%nat then x else y) + r)%nat) O (seq s m) = ((k - s) * x + (s + m - k) * y)%nat.
Proof.
  assert (G : forall m s, (k <= s)%nat -> fold_right (fun a r => ((if (a <? k)%nat then x else y) + r)%nat) O (seq s m) = (m * y)%nat).
  { induction m as [|m IH]; intros s Hs; simpl; [reflexivity|]. rewrite IH by lia.
    replace (s <? k)%nat with false by (symmetry; apply Nat.ltb_ge; lia). reflexivity. }
  induction m as [|m IH]; intros s Hs Hk; simpl.
  - replace (k - s)%nat with O by lia. replace (s + 0 - k)%nat with O by lia. reflexivity.
  - destruct (Nat.eq_dec s k) as [->|Hne].
    + rewrite G by lia. replace (k <? k)%nat with false by (symmetry; apply Nat.ltb_irrefl).
      replace (k - k)%nat with O by lia. replace (k + S m - k)%nat with (S m) by lia. simpl. lia.
    + rewrite IH by lia. replace (s <? k)%nat with true by (symmetry; apply Nat.ltb_lt; lia).
      replace (k - s)%nat with (S (k - S s)) by lia. replace (s + S m - k)%nat with (S s + m - k)%nat by lia. simpl. lia.
Qed.

Lemma fold_ext {A} (f g : A -> nat -> nat) l : (forall a s, f a s = g a s) -> fold_right f O l = fold_right g O l.
Proof. intros H. induction l as [|a l IH]; simpl; [reflexivity|]. rewrite IH, H. reflexivity. Qed.

Lemma choose_over n : forall k, (n < k)%nat -> choose n k = O.
Proof.
  induction n as [|n IH]; intros [|k] H; simpl; try lia. rewrite !IH by lia. reflexivity.
Qed.
Lemma choose_sym n : forall k, (k <= n)%nat -> choose n (n - k) = choose n k.
Proof.
  induction n as [|n IH]; intros k Hk.
  - replace k with O by lia. reflexivity.
  - destruct k as [|k].
    + rewrite Nat.sub_0_r. simpl. destruct n.
      * reflexivity.
      * rewrite (choose_over (S n) (S (S n))) by lia. pose proof (IH O (Nat.le_0_l _)) as E.
        rewrite Nat.sub_0_r in E. rewrite E. destruct n; reflexivity.
    + destruct (Nat.eq_dec k n) as [->|Hne].
      * rewrite Nat.sub_diag. change (choose (S n) 0) with 1%nat. simpl (choose (S n) (S n)).
        rewrite (choose_over n (S n)) by lia. pose proof (IH O (Nat.le_0_l _)) as E. rewrite Nat.sub_0_r in E. rewrite E.
        destruct n; reflexivity.
      * replace (S n - S k)%nat with (S (n - S k)) by lia. simpl.
        replace (S (n - S k)) with (n - k)%nat by lia. rewrite (IH k) by lia. rewrite (IH (S k)) by lia. lia.
Qed.

Lemma hitting_count m k : (k <= m)%nat -> forall n j,
  length (hitting m n k j) = (choose n j * k ^ j * (m - k) ^ (n - j))%nat.
Proof.
  intros Hk. induction n as [|n IH]; intros j.
  - unfold hitting. simpl. destruct j; simpl; reflexivity.
  - unfold hitting. simpl tuples. rewrite filter_flat, length_flat.
    assert (T : forall j', length (filter (fun w => (nbelow k w =? j')%nat) (tuples m n)) = (choose n j' * k ^ j' * (m - k) ^ (n - j'))%nat)
      by (intros j'; exact (IH j')).
    destruct j as [|j].
    + rewrite (fold_ext _ (fun a s => ((if (a <? k)%nat then O else (choose n 0 * k ^ 0 * (m - k) ^ (n - 0))%nat) + s)%nat)).
      2:{ intros a s. f_equal. rewrite filter_cons_map, map_length.
          destruct (a <? k)%nat eqn:Ea.
          - rewrite (filter_ext _ (fun _ => false)).
            + clear. induction (tuples m n); simpl; auto.
            + intros w. simpl. rewrite Ea. reflexivity.
          - rewrite (filter_ext _ (fun w => (nbelow k w =? 0)%nat)); [apply T|].
            intros w. simpl. rewrite Ea. reflexivity. }
      rewrite split_sum by lia. rewrite Nat.mul_0_r, Nat.sub_0_r. simpl (0 + _)%nat.
      replace (choose n 0) with 1%nat by (destruct n; reflexivity). simpl (choose (S n) 0).
      rewrite !Nat.sub_0_r. simpl. lia.
    + rewrite (fold_ext _ (fun a s => ((if (a <? k)%nat then (choose n j * k ^ j * (m - k) ^ (n - j))%nat
                                        else (choose n (S j) * k ^ (S j) * (m - k) ^ (n - S j))%nat) + s)%nat)).
      2:{ intros a s. f_equal. rewrite filter_cons_map, map_length.
          destruct (a <? k)%nat eqn:Ea.
          - rewrite (filter_ext _ (fun w => (nbelow k w =? j)%nat)); [apply T|].
            intros w. simpl. rewrite Ea. reflexivity.
          - rewrite (filter_ext _ (fun w => (nbelow k w =? S j)%nat)); [apply T|].
            intros w. simpl. rewrite Ea. reflexivity. }
      rewrite split_sum by lia. rewrite Nat.sub_0_r. simpl (0 + m)%nat.
      change (choose (S n) (S j)) with (choose n j + choose n (S j))%nat. simpl (S n - S j)%nat.
      destruct (Nat.le_gt_cases (S j) n) as [Hj|Hj].
      * replace (n - j)%nat with (S (n - S j)) by lia. simpl Nat.pow. ring.
      * rewrite (choose_over n (S j)) by lia. simpl Nat.pow. ring.
Qed.

(** The uniform numbers that are multiples of [1/m], as [rand.Float64] returns them. *)
Definition grid (m : nat) (w : list nat) : nat -> R := fun i => INR (nth i w O) / INR m.

Lemma grid_window m w : window (grid m w) 0 (length w) = map (fun a => INR a / INR m) w.
Proof.
  unfold window, grid. induction w as [|a w IH]; simpl; [reflexivity|]. f_equal.
  rewrite <- seq_shift, map_map. exact IH.
Qed.
Lemma below_grid m k w : (0 < m)%nat -> below (INR k / INR m) (map (fun a => INR a / INR m) w) = nbelow k w.
Proof.
  intros Hm. induction w as [|a w IH]; simpl; [reflexivity|]. rewrite IH. f_equal.
  assert (H0 : 0 < / INR m) by (apply Rinv_0_lt_compat, lt_0_INR; exact Hm). unfold Rdiv.
  destruct (Rlt_dec (INR a * / INR m) (INR k * / INR m)) as [h|h]; destruct (a <? k)%nat eqn:E; try reflexivity; exfalso.
  - apply Nat.ltb_ge in E. apply le_INR in E. apply (Rmult_le_compat_r (/ INR m)) in E; lra.
  - apply Nat.ltb_lt in E. apply lt_INR in E. apply (Rmult_lt_compat_r (/ INR m)) in E; lra.
Qed.
Lemma nbelow_le k w : (nbelow k w <= length w)%nat.
Proof. induction w as [|a w IH]; simpl; [lia|]. destruct (a <? k)%nat; lia. Qed.

(** Of the [m^n] equally likely choices of the uniform numbers, exactly
    [choose n j * k^j * (m-k)^(n-j)] make Rand return [j], when P is [k/m]. *)
Lemma Rand_law lib (E : nat -> R) m n k j fuel : (0 < m)%nat -> (k <= m)%nat -> (n < 25)%nat -> (j <= n)%nat ->
  exists ws, NoDup ws /\
    (forall w, In w ws <-> length w = n /\ List.Forall (fun a => (a < m)%nat) w /\
       exists d, bin_Rand (K := RNum) lib (grid m w) E (INR n) (INR k / INR m) fuel (MkDraws 0 0) = Some (INR j, d)) /\
    length ws = (choose n j * k ^ j * (m - k) ^ (n - j))%nat.
Proof.
  intros Hm Hk Hn Hj.
  assert (Hm' : 0 < INR m) by (apply lt_0_INR; exact Hm).
  assert (R : forall w, length w = n ->
    bin_Rand (K := RNum) lib (grid m w) E (INR n) (INR k / INR m) fuel (MkDraws 0 0)
    = Some (INR (if Rle_dec (INR k / INR m) (1 / 2) then nbelow k w else n - nbelow (m - k) w), MkDraws n 0)).
  { intros w Hw. rewrite Rand_direct by exact Hn. fold (window (grid m w) 0 n). rewrite <- Hw at 1. rewrite grid_window.
    unfold successes. rewrite map_length, below_grid by exact Hm.
    replace (1 - INR k / INR m) with (INR (m - k) / INR m).
    - rewrite below_grid by exact Hm. rewrite Hw. reflexivity.
    - rewrite minus_INR by exact Hk. field. lra. }
  destruct (Rle_dec (INR k / INR m) (1 / 2)) as [h|h].
  - exists (hitting m n k j). split; [apply NoDup_filter, nodup_tuples|]. split; [|apply hitting_count; exact Hk].
    intros w. unfold hitting. rewrite filter_In, in_tuples. split.
    + intros [[H1 H2] H3]. apply Nat.eqb_eq in H3. split; [exact H1|]. split; [exact H2|].
      eexists. rewrite R by exact H1. rewrite H3. reflexivity.
    + intros (H1 & H2 & d & H3). split; [split; assumption|]. rewrite R in H3 by exact H1. injection H3. intros _ H4.
      apply INR_eq in H4. apply Nat.eqb_eq. exact H4.
  - exists (hitting m n (m - k) (n - j)). split; [apply NoDup_filter, nodup_tuples|]. split.
    + intros w. unfold hitting. rewrite filter_In, in_tuples. split.
      * intros [[H1 H2] H3]. apply Nat.eqb_eq in H3. split; [exact H1|]. split; [exact H2|].
        eexists. rewrite R by exact H1. rewrite H3. replace (n - (n - j))%nat with j by lia. reflexivity.
      * intros (H1 & H2 & d & H3). split; [split; assumption|]. rewrite R in H3 by exact H1. injection H3. intros _ H4.
        apply INR_eq in H4. apply Nat.eqb_eq. pose proof (nbelow_le (m - k) w). lia.
    + rewrite hitting_count by lia. rewrite choose_sym by exact Hj.
      replace (n - (n - j))%nat with j by lia. replace (m - (m - k))%nat with k by lia. ring.
Qed.

(** ** The range of the result, whichever method is used *)
Lemma arrivals_count (E : nat -> R) N P n : forall t c e bnl e',
  bin_arrivals (K := RNum) E N P n t (INR c) e = (bnl, e') -> exists i, (i <= n)%nat /\ bnl = INR (c + i).
Proof.
  induction n as [|n IH]; intros t c e bnl e'; simpl bin_arrivals.
  - intros H. injection H. intros _ <-. exists O. split; [lia|]. rewrite Nat.add_0_r. reflexivity.
  - cbn zeta. dif Edif.
    + intros H. injection H. intros _ <-. exists O. split; [lia|]. rewrite Nat.add_0_r. reflexivity.
    + change (INR c + f1 (K := RNum)) with (INR c + 1). rewrite <- S_INR. intros H. apply IH in H.
      destruct H as (i & Hi & ->). exists (S i). split; [lia|]. f_equal. lia.
Qed.
Lemma poisson_S {K : Num} (E : nat -> K) N P f e : bin_poisson E N P (S f) e =
  (let '(bnl, e1) := bin_arrivals E N P (Z.to_nat (toZ N)) f0 f0 e in
   if fle (bin_accept N P bnl) (E e1) then Some (bnl, S e1) else bin_poisson E N P f (S e1)).
Proof. reflexivity. Qed.
Lemma poisson_count (E : nat -> R) n P fuel : forall e bnl e',
  bin_poisson (K := RNum) E (INR n) P fuel e = Some (bnl, e') -> exists i, (i <= n)%nat /\ bnl = INR i.
Proof.
  induction fuel as [|f IH]; intros e bnl e'; [discriminate|]. rewrite poisson_S.
  destruct (bin_arrivals (K := RNum) E (INR n) P (Z.to_nat (toZ (INR n : RNum))) f0 f0 e) as [b e1] eqn:Ea.
  dif Edif.
  - intros H. injection H. intros _ <-. change (f0 (K := RNum)) with (INR 0) in Ea at 2.
    apply arrivals_count in Ea. rewrite count_N in Ea. exact Ea.
  - intros H. apply IH in H. exact H.
Qed.

(** math.Floor *)
Definition is_floor (f : R -> R) : Prop := forall x, exists z : Z, f x = IZR z /\ IZR z <= x < IZR z + 1.

Lemma propose_range lib (U : nat -> R) N P fuel : forall u y em u',
  bin_propose (K := RNum) lib U N P fuel u = Some (y, em, u') -> 0 <= em < N + 1.
Proof.
  induction fuel as [|f IH]; intros u y em u'; simpl bin_propose; [discriminate|]. cbn zeta.
  dif E.
  - intros H. injection H. intros _ <- _. apply andb_true_iff in E. destruct E as [E1 E2].
    apply r_leb_true in E1. apply r_ltb_true in E2. split; [exact E1|exact E2].
  - apply IH.
Qed.
Lemma cauchy_count lib (U : nat -> R) n P : is_floor (b_floor lib) -> forall fuel u em u',
  bin_cauchy (K := RNum) lib U (INR n) P fuel u = Some (em, u') -> exists i, (i <= n)%nat /\ em = INR i.
Proof.
  intros Hf. induction fuel as [|f IH]; intros u em u'; [discriminate|].
  change (bin_cauchy (K := RNum) lib U (INR n) P (S f) u) with
    (match bin_propose (K := RNum) lib U (INR n) P (S f) u with
     | None => None
     | Some (y, em0, u1) =>
         let em := b_floor lib em0 in
         if fle (U u1 : RNum) (bin_ratio lib (INR n : RNum) P y em) then Some (em, S u1)
         else bin_cauchy (K := RNum) lib U (INR n) P f (S u1)
     end).
  destruct (bin_propose _ _ _ _ _ _) as [[[y em0] u1]|] eqn:E; [|discriminate]. cbn zeta.
  dif Edif.
  - intros H. injection H. intros _ <-. apply propose_range in E. destruct (Hf em0) as (z & Hz & H1 & H2).
    rewrite Hz. exists (Z.to_nat z). rewrite INR_IZR_INZ in E. assert (0 <= z)%Z.
    { apply Z.lt_succ_r. apply lt_IZR. rewrite succ_IZR. lra. }
    assert (z <= Z.of_nat n)%Z. { apply Z.lt_succ_r. apply lt_IZR. rewrite succ_IZR. lra. }
    split; [lia|]. rewrite INR_IZR_INZ, Z2Nat.id by assumption. reflexivity.
  - apply IH.
Qed.

Lemma out_count n P i : (i <= n)%nat -> exists j, (j <= n)%nat /\ bin_out (K := RNum) (INR n) P (INR i) = INR j.
Proof.
  intros H. destruct (Rle_dec P (1 / 2)).
  - rewrite out_low by assumption. exists i. split; [exact H|reflexivity].
  - rewrite out_high by lra. exists (n - i)%nat. split; [lia|]. rewrite minus_INR by exact H. reflexivity.
Qed.

Lemma Rand_range lib (U E : nat -> R) n P fuel d x d' : is_floor (b_floor lib) ->
  bin_Rand (K := RNum) lib U E (INR n) P fuel d = Some (x, d') -> exists j, (j <= n)%nat /\ x = INR j.
Proof.
  intros Hf. destruct (Nat.lt_ge_cases n 25) as [Hn|Hn].
  - destruct d as [u e]. rewrite Rand_direct by exact Hn. intros H. injection H. intros _ <-.
    eexists. split; [|reflexivity]. unfold successes. pose proof (below_le P (map U (seq u n))).
    rewrite map_length, seq_length in *. destruct (Rle_dec P (1 / 2)); lia.
  - unfold bin_Rand. rewrite many by exact Hn. dif Edif.
    + destruct (bin_poisson _ _ _ _ _) as [[b e]|] eqn:Ep; [|discriminate]. intros H. injection H. intros _ <-.
      apply poisson_count in Ep. destruct Ep as (i & Hi & ->). destruct (out_count n P i Hi) as (j & Hj & ->). exists j. auto.
    + destruct (bin_cauchy _ _ _ _ _ _) as [[b e]|] eqn:Ep; [|discriminate]. intros H. injection H. intros _ <-.
      apply cauchy_count in Ep; [|exact Hf]. destruct Ep as (i & Hi & ->). destruct (out_count n P i Hi) as (j & Hj & ->). exists j. auto.
Qed.

(** ** Certain outcomes *)
Lemma below_zero p xs : List.Forall (fun x => p <= x) xs -> below p xs = O.
Proof. induction 1 as [|x xs Hx _ IH]; simpl; [reflexivity|]. rewrite IH. destruct (Rlt_dec x p); [lra|reflexivity]. Qed.

Lemma arrivals_zero (E : nat -> R) N P n e : (forall i, 0 <= E i) -> bin_am (K := RNum) N P = 0 -> (0 < n)%nat ->
  bin_arrivals (K := RNum) E N P n f0 f0 e = (f0, S e).
Proof.
  intros HE Ha Hn. destruct n as [|n]; [lia|]. cbn [bin_arrivals]. cbn zeta. rewrite Ha.
  dif Edif; [reflexivity|exfalso]. apply r_leb_false in Edif. revert Edif. apply Rle_not_lt.
  change (0 <= 0 + E e). specialize (HE e). lra.
Qed.
Lemma poisson_zero (E : nat -> R) n P fuel : (forall i, 0 <= E i) -> bin_am (K := RNum) (INR n) P = 0 -> (0 < n)%nat ->
  forall e bnl e', bin_poisson (K := RNum) E (INR n) P fuel e = Some (bnl, e') -> bnl = 0.
Proof.
  intros HE Ha Hn. induction fuel as [|f IH]; intros e bnl e'; [discriminate|]. rewrite poisson_S.
  rewrite count_N, arrivals_zero by assumption. dif Edif; [|apply IH].
  intros H. injection H. intros _ <-. reflexivity.
Qed.

Lemma Rand_certain lib (U E : nat -> R) n P fuel d x d' : (0 < n)%nat ->
  (forall i, 0 <= U i) -> (forall i, 0 <= E i) -> P = 0 \/ P = 1 ->
  bin_Rand (K := RNum) lib U E (INR n) P fuel d = Some (x, d') -> x = INR n * P.
Proof.
  intros Hn HU HE HP.
  assert (Hp : bin_p (K := RNum) P = 0) by (destruct HP; subst; [rewrite p_low by lra|rewrite p_high by lra]; lra).
  assert (Hout : bin_out (K := RNum) (INR n) P 0 = INR n * P).
  { destruct HP; subst; [rewrite out_low by lra|rewrite out_high by lra]; lra. }
  destruct (Nat.lt_ge_cases n 25) as [Hs|Hs].
  - destruct d as [u e]. rewrite Rand_direct by exact Hs. intros H. injection H. intros _ <-.
    unfold successes. assert (B : below 0 (map U (seq u n)) = O).
    { apply below_zero. apply List.Forall_map. apply List.Forall_forall. intros i _. apply HU. }
    destruct HP; subst; destruct (Rle_dec _ _); try lra.
    + rewrite B. simpl. lra.
    + replace (1 - 1) with 0 by lra. rewrite B, map_length, seq_length, Nat.sub_0_r. lra.
  - assert (Ha : bin_am (K := RNum) (INR n) P = 0). { unfold bin_am. rewrite Hp. cbn [fmul RNum]. lra. }
    unfold bin_Rand. rewrite many by exact Hs. rewrite Ha.
    replace (flt (0 : RNum) f1) with true by (symmetry; apply r_ltb_true; change (0 < 1); lra).
    destruct (bin_poisson _ _ _ _ _) as [[b e]|] eqn:Ep; [|discriminate]. intros H. injection H. intros _ <-.
    apply poisson_zero in Ep; [|assumption..]. rewrite Ep. exact Hout.
Qed.

(** ** The one-trial call of the library *)
Lemma Rand_one {K : Num} (lib : binlib K) E (P : K) fuel e (s : state K) :
  flt (n := K) f1 (ofZ 25) = true -> toZ (n := K) f1 = 1%Z ->
  exists x, bin_Rand lib (r_uni (h_rng s)) E f1 P fuel (MkDraws (r_upos (h_rng s)) e)
            = Some (x, MkDraws (S (r_upos (h_rng s))) e)
    /\ fst (binomial1_Rand P s) = Ret x /\ r_upos (h_rng (snd (binomial1_Rand P s))) = S (r_upos (h_rng s)).
Proof.
  intros H1 H2. unfold bin_Rand. rewrite H1, H2. change (Z.to_nat 1) with 1%nat. cbn [bin_trials d_uni d_exp].
  eexists. split; [reflexivity|]. split; reflexivity.
Qed.

(** ** A NaN probability *)
Definition bnanp : binary64 := b64_div mode_NE (b64_ofZ 0) (b64_ofZ 0).

Lemma mult_nan (x y : binary64) : b64_nan y = true -> b64_nan (b64_mult mode_NE x y) = true.
Proof. destruct y; try discriminate. intros _. destruct x; reflexivity. Qed.
Lemma plus_nan (x y : binary64) : b64_nan y = true -> b64_nan (b64_plus mode_NE x y) = true.
Proof. destruct y; try discriminate. intros _. destruct x; reflexivity. Qed.
Lemma le_nan (x y : binary64) : b64_nan y = true -> b64_le x y = false.
Proof. destruct y; try discriminate. intros _. destruct x; reflexivity. Qed.

Lemma propose_S {K : Num} (lib : binlib K) U N P f u : bin_propose lib U N P (S f) u =
  (let y := b_tan lib (fmul (b_pi lib) (U u)) in
   let em := fadd (fmul (bin_sq N P) y) (bin_am N P) in
   if fle f0 em && flt em (fadd N f1) then Some (y, em, S u) else bin_propose lib U N P f (S u)).
Proof. reflexivity. Qed.
Lemma cauchy_S {K : Num} (lib : binlib K) U N P f u : bin_cauchy lib U N P (S f) u =
  match bin_propose lib U N P (S f) u with
  | None => None
  | Some (y, em0, u1) =>
      let em := b_floor lib em0 in
      if fle (U u1) (bin_ratio lib N P y em) then Some (em, S u1) else bin_cauchy lib U N P f (S u1)
  end.
Proof. reflexivity. Qed.

Lemma Rand_nan (L : libm) (lib : binlib (B64 L)) U E (N P : B64 L) fuel d : b64_nan P = true -> b64_lt N (b64_ofZ 25) = false ->
  bin_Rand lib U E N P fuel d = None.
Proof.
  intros HP Hn.
  assert (Hp : bin_p P = P). { unfold bin_p. cbn [flt B64]. rewrite b64_lt_nan_r by exact HP. reflexivity. }
  assert (Ha : b64_nan (bin_am N P) = true).
  { unfold bin_am. rewrite Hp. cbn [fmul B64]. apply mult_nan. exact HP. }
  unfold bin_Rand. cbn [flt B64 ofZ]. rewrite Hn. rewrite b64_lt_nan_l by exact Ha.
  assert (G : forall f u, bin_propose lib U N P f u = None).
  { induction f as [|f IH]; intros u; [reflexivity|]. rewrite propose_S. cbn zeta.
    match goal with |- context [fle (n := B64 L) ?a ?b] => replace (fle (n := B64 L) a b) with false end; [|symmetry; apply le_nan, plus_nan; exact Ha].
    cbn [andb]. apply IH. }
  destruct fuel as [|f]; [reflexivity|].
  rewrite cauchy_S, G. reflexivity.
Qed.

(** ** Mirror image *)
Lemma Rand_mirror lib (U E : nat -> R) N P fuel d : P < 1 / 2 ->
  bin_Rand (K := RNum) lib U E N (1 - P) fuel d
  = match bin_Rand (K := RNum) lib U E N P fuel d with Some (x, d') => Some (N - x, d') | None => None end.
Proof.
  intros HP.
  assert (Hp : bin_p (K := RNum) (1 - P) = bin_p (K := RNum) P) by (rewrite (p_low P), (p_high (1 - P)) by lra; lra).
  assert (T : bin_trials (K := RNum) U (1 - P) = bin_trials (K := RNum) U P) by (unfold bin_trials; rewrite Hp; reflexivity).
  assert (A : bin_am (K := RNum) N (1 - P) = bin_am (K := RNum) N P) by (unfold bin_am; rewrite Hp; reflexivity).
  assert (Q : bin_poisson (K := RNum) E N (1 - P) = bin_poisson (K := RNum) E N P)
    by (unfold bin_poisson, bin_arrivals, bin_accept; rewrite Hp, A; reflexivity).
  assert (C : bin_cauchy (K := RNum) lib U N (1 - P) = bin_cauchy (K := RNum) lib U N P)
    by (unfold bin_cauchy, bin_propose, bin_ratio, bin_sq; rewrite Hp, A; reflexivity).
  unfold bin_Rand. rewrite T, Q, C, A. dif D1; [|dif D2].
  - destruct (bin_trials _ _ _ _ _) as [b u]. rewrite (out_high N (1 - P)), (out_low N P) by lra. reflexivity.
  - destruct (bin_poisson _ _ _ _ _) as [[b u]|]; [|reflexivity]. rewrite (out_high N (1 - P)), (out_low N P) by lra. reflexivity.
  - destruct (bin_cauchy _ _ _ _ _ _) as [[b u]|]; [|reflexivity]. rewrite (out_high N (1 - P)), (out_low N P) by lra. reflexivity.
Qed.

(** ** Fuel *)
Section Fuel.
Context {K : Num} (lib : binlib K) (U E : nat -> K) (N P : K).
Lemma propose_fuel f : forall f' u r, (f <= f')%nat -> bin_propose lib U N P f u = Some r -> bin_propose lib U N P f' u = Some r.
Proof.
  induction f as [|f IH]; intros f' u r Hf; [discriminate|]. destruct f' as [|f']; [lia|].
  rewrite !propose_S. cbn zeta. dif Edif; [exact (fun h => h)|]. apply IH. lia.
Qed.
Lemma poisson_fuel f : forall f' e r, (f <= f')%nat -> bin_poisson E N P f e = Some r -> bin_poisson E N P f' e = Some r.
Proof.
  induction f as [|f IH]; intros f' e r Hf; [discriminate|]. destruct f' as [|f']; [lia|].
  rewrite !poisson_S. destruct (bin_arrivals _ _ _ _ _ _ _) as [b e1]. dif Edif; [exact (fun h => h)|]. apply IH. lia.
Qed.
Lemma cauchy_fuel f : forall f' u r, (f <= f')%nat -> bin_cauchy lib U N P f u = Some r -> bin_cauchy lib U N P f' u = Some r.
Proof.
  induction f as [|f IH]; intros f' u r Hf; [discriminate|]. destruct f' as [|f']; [lia|].
  rewrite !cauchy_S. destruct (bin_propose lib U N P (S f) u) as [[[y em] u1]|] eqn:Ep; [|discriminate].
  rewrite (propose_fuel (S f) (S f') u _ Hf Ep). cbn zeta. dif Edif; [exact (fun h => h)|]. apply IH. lia.
Qed.
Lemma Rand_fuel f f' d r : (f <= f')%nat -> bin_Rand lib U E N P f d = Some r -> bin_Rand lib U E N P f' d = Some r.
Proof.
  intros Hf. unfold bin_Rand. dif D1; [exact (fun h => h)|]. dif D2.
  - destruct (bin_poisson E N P f (d_exp d)) as [[b e]|] eqn:Ep; [|discriminate].
    rewrite (poisson_fuel _ _ _ _ Hf Ep). exact (fun h => h).
  - destruct (bin_cauchy lib U N P f (d_uni d)) as [[b e]|] eqn:Ep; [|discriminate].
    rewrite (cauchy_fuel _ _ _ _ Hf Ep). exact (fun h => h).
Qed.
End Fuel.
