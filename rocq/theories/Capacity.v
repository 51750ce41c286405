(** * Capacity: what networks with one hidden ReLU layer can fit. *)
From Coq Require Import ZArith List Bool Arith Lia Reals Lra.
From Verif Require Import Num NumR Heap Spec Network PureSpec Repr HeapLemmas MatrixFacts MiscProofs MiscFacts RSum OptSpec ModelSpec Params CapacitySpec.
Import ListNotations.
Open Scope R_scope.

(** ** A direction in which finitely many non-zero vectors are non-zero *)
Lemma above (l : list R) : exists t, forall x, In x l -> x < t.
Proof.
  induction l as [|a l (t & H)]; [exists 0; intros x []|]. exists (Rmax t (a + 1)). intros x [->|Hx].
  - pose proof (Rmax_r t (x + 1)). lra.
  - specialize (H x Hx). pose proof (Rmax_l t (a + 1)). lra.
Qed.
Lemma direction d : forall D : list (nat -> R), exists w : nat -> R, forall g, In g D -> (exists l, (l < d)%nat /\ g l <> 0) -> rsum d (fun l => g l * w l) <> 0.
Proof.
  induction d as [|d IH]; intros D; [exists (fun _ => 0); intros g _ (l & Hl & _); lia|].
  destruct (IH D) as (w & Hw). destruct (above (map (fun g => - rsum d (fun l => g l * w l) / g d) D)) as (t & Ht).
  exists (fun l => if (l =? d)%nat then t else w l). intros g Hg HN. rewrite rsum_S, Nat.eqb_refl.
  rewrite (rsum_ext d _ (fun l => g l * w l)). 2:{ intros l Hl. destruct (Nat.eqb_spec l d); [lia|reflexivity]. }
  destruct (Req_dec (g d) 0) as [E|E].
  - rewrite E, Rmult_0_l, Rplus_0_r. apply Hw; [exact Hg|]. destruct HN as (l & Hl & Hn). exists l. split; [|exact Hn].
    destruct (Nat.eq_dec l d); [subst; contradiction|lia].
  - intros H. assert (T := Ht _ (in_map _ _ _ Hg)). cbv beta in T. apply (Rlt_irrefl t). replace t with (- rsum d (fun l => g l * w l) / g d) at 1; [exact T|].
    field_simplify_eq; [|exact E]. lra.
Qed.

(** ** Points on a line *)
Lemma largest (U : nat -> R) L : L <> [] -> exists m, In m L /\ forall a, In a L -> U a <= U m.
Proof.
  induction L as [|x L IH]; intros H; [congruence|]. destruct L as [|y L].
  - exists x. split; [now left|]. intros a [->|[]]. lra.
  - destruct (IH ltac:(discriminate)) as (m & H1 & H2). destruct (Rle_dec (U m) (U x)) as [C|C].
    + exists x. split; [now left|]. intros a [->|Ha]; [lra|]. specialize (H2 a Ha). lra.
    + exists m. split; [now right|]. intros a [->|Ha]; [lra|]. now apply H2.
Qed.
Definition below (U : nat -> R) v (L : list nat) : list nat := filter (fun a => if Rlt_dec (U a) v then true else false) L.
Lemma below_in U v L a : In a (below U v L) <-> In a L /\ U a < v.
Proof. unfold below. rewrite filter_In. destruct (Rlt_dec (U a) v); intuition congruence. Qed.
Lemma below_le U v L : (length (below U v L) <= length L)%nat.
Proof. induction L as [|x L IH]; [simpl; lia|]. unfold below in *. simpl. destruct (Rlt_dec (U x) v); simpl; lia. Qed.
Lemma below_length U m L : In m L -> (length (below U (U m) L) < length L)%nat.
Proof.
  induction L as [|x L IH]; intros H; [destruct H|]. unfold below. simpl. fold (below U (U m) L). destruct (Rlt_dec (U x) (U m)) as [C|C]; simpl.
  - destruct H as [->|H]; [lra|]. specialize (IH H). lia.
  - pose proof (below_le U (U m) L). lia.
Qed.
Lemma fit_line (U : nat -> R) (Y : nat -> nat -> R) n : forall L, (length L <= n)%nat ->
  (forall a b, In a L -> In b L -> U a = U b -> forall j, Y a j = Y b j) ->
  exists (bs : nat -> R) (cs : nat -> nat -> R), forall a j, In a L -> rsum n (fun k => Rmax (U a + bs k) 0 * cs k j) = Y a j.
Proof.
  induction n as [|n IH]; intros L HL HY.
  - exists (fun _ => 0), (fun _ _ => 0). intros a j Ha. destruct L; [destruct Ha|simpl in HL; lia].
  - destruct L as [|x L0] eqn:EL; [exists (fun _ => 0), (fun _ _ => 0); intros a j []|]. rewrite <- EL in *.
    destruct (largest U L) as (m & Hm & Hmax); [congruence|].
    destruct (IH (below U (U m) L)) as (bs & cs & H).
    { pose proof (below_length U m L Hm). lia. }
    { intros a b Ha Hb. apply below_in in Ha, Hb. apply HY; tauto. }
    assert (HB : exists b, b < U m /\ forall a, In a (below U (U m) L) -> U a <= b).
    { destruct (below U (U m) L) as [|y L1] eqn:EB.
      - exists (U m - 1). split; [lra|]. intros a [].
      - rewrite <- EB. destruct (largest U (below U (U m) L)) as (v & Hv & Hvm); [congruence|]. exists (U v). split; [now apply below_in in Hv|exact Hvm]. }
    destruct HB as (b & Hb & Hbelow).
    set (g := fun u j => rsum n (fun k => Rmax (u + bs k) 0 * cs k j)).
    exists (fun k => if (k =? n)%nat then - b else bs k), (fun k j => if (k =? n)%nat then (Y m j - g (U m) j) / (U m - b) else cs k j).
    intros a j Ha. rewrite rsum_S, Nat.eqb_refl. rewrite (rsum_ext n _ (fun k => Rmax (U a + bs k) 0 * cs k j)).
    2:{ intros k Hk. destruct (Nat.eqb_spec k n); [lia|reflexivity]. }
    destruct (Rlt_dec (U a) (U m)) as [C|C].
    + assert (Hin : In a (below U (U m) L)) by now apply below_in. rewrite H by exact Hin. rewrite Rmax_right; [lra|]. specialize (Hbelow a Hin). lra.
    + assert (E : U a = U m) by (specialize (Hmax a Ha); lra). rewrite E. rewrite Rmax_left by lra. fold (g (U m) j). rewrite (HY a m Ha Hm E). field. lra.
Qed.

(** ** Two layers *)
Definition hid (n i : nat) (w : nat -> nat -> R) (b : nat -> R) slope drop : player RNum :=
  PL (K := RNum) Hidden i n (mk (K := RNum) i n w) (mk (K := RNum) 1 n (fun _ k => b k)) slope drop.
Lemma two_entry (p q : player RNum) r X a j : p_kind p = Hidden -> p_out p = p_in q -> (a < r)%nat -> (j < p_out q)%nat ->
  entry (paffine q r (pforward p r X)) a j =
  rsum (p_in q) (fun k => Rmax (rsum (p_in p) (fun l => entry X a l * entry (p_w p) l k) + entry (p_b p) 0 k) 0 * entry (p_w q) k j) + entry (p_b q) 0 j.
Proof.
  intros HK E Ha Hj. unfold paffine at 1, paff. rewrite entry_mk by assumption. change (fsum (K := RNum) ?n ?g) with (rsum n g). cbn [fadd fmul RNum]. f_equal.
  apply rsum_ext. intros k Hk. f_equal. unfold pforward, pact. rewrite HK. rewrite entry_pmap by (assumption || lia). unfold act1. rewrite HK, R_relu.
  unfold paffine, paff. rewrite entry_mk by (assumption || lia). reflexivity.
Qed.

(** ** Any targets *)
Lemma fit_net (i o n r : nat) (X Y : rpm) : (r <= n)%nat -> agree r i o X Y ->
  exists (W1 B1 W2 B2 : rpm), shape i n W1 /\ shape 1 n B1 /\ shape n o W2 /\ shape 1 o B2 /\
    forall p q, p_kind p = Hidden -> p_in p = i -> p_out p = n -> p_in q = n -> p_out q = o -> p_w p = W1 -> p_b p = B1 -> p_w q = W2 -> p_b q = B2 ->
      forall a j, (a < r)%nat -> (j < o)%nat -> entry (paffine q r (pforward p r X)) a j = entry Y a j.
Proof.
  intros Hn HA.
  destruct (direction i (map (fun ab l => entry X (fst ab) l - entry X (snd ab) l) (list_prod (seq 0 r) (seq 0 r)))) as (w & Hw).
  set (U := fun a => rsum i (fun l => entry X a l * w l)).
  set (T := fun a j => if (j <? o)%nat then (entry Y a j : R) else 0).
  destruct (fit_line U T n (seq 0 r)) as (bs & cs & H).
  { now rewrite seq_length. }
  { intros a b Ha Hb E j. apply in_seq in Ha, Hb. unfold T. destruct (Nat.ltb_spec j o) as [Hj|]; [|reflexivity].
    apply HA; [lia|lia| |exact Hj]. intros l Hl. destruct (Req_dec (entry X a l) (entry X b l)) as [|N]; [assumption|exfalso].
    apply (Hw (fun l => entry X a l - entry X b l)).
    - apply in_map_iff. exists (a, b). split; [reflexivity|]. apply in_prod; apply in_seq; lia.
    - exists l. split; [exact Hl|]. lra.
    - rewrite (rsum_ext i _ (fun l => entry X a l * w l - entry X b l * w l)) by (intros; ring). rewrite rsum_minus. fold (U a) (U b). lra. }
  exists (mk (K := RNum) i n (fun l _ => w l)), (mk (K := RNum) 1 n (fun _ k => bs k)), (mk (K := RNum) n o cs), (mk (K := RNum) 1 o (fun _ _ => 0)).
  do 4 (split; [apply shape_mk|]). intros p q HK E1 E2 E3 E4 EW EB EV EC a j Ha Hj.
  rewrite two_entry by (congruence || lia). rewrite EW, EB, EV, EC, E3, E1. rewrite entry_mk by lia. rewrite Rplus_0_r.
  rewrite (rsum_ext n _ (fun k => Rmax (U a + bs k) 0 * cs k j)).
  - rewrite H by (apply in_seq; lia). unfold T. destruct (Nat.ltb_spec j o); [reflexivity|lia].
  - intros k Hk. rewrite !entry_mk by lia. f_equal. f_equal. f_equal. apply rsum_ext. intros l Hl. now rewrite entry_mk by lia.
Qed.

(** ** Alternating targets *)
Definition unit_at (w c x : R) : R := Rmax (x * w + c) 0.
(** The argument of the unit changes sign strictly inside [2t, 2t+2]. *)
Definition crosses (w c : R) (t : nat) : bool :=
  if Rlt_dec ((INR (2 * t) * w + c) * (INR (2 * t + 2) * w + c)) 0 then true else false.
Lemma crosses_once w c t t' : crosses w c t = true -> crosses w c t' = true -> (t <= t')%nat -> t = t'.
Proof.
  unfold crosses. destruct (Rlt_dec _ 0) as [A|]; [|discriminate]. destruct (Rlt_dec _ 0) as [B|]; [|discriminate]. intros _ _ H.
  destruct (Nat.eq_dec t t') as [|N]; [assumption|exfalso].
  assert (HI : INR (2 * t + 2) <= INR (2 * t')) by (apply le_INR; lia).
  assert (E1 : INR (2 * t + 2) = INR (2 * t) + 2) by (rewrite plus_INR; simpl; lra).
  assert (E2 : INR (2 * t' + 2) = INR (2 * t') + 2) by (rewrite plus_INR; simpl; lra).
  rewrite E1 in *. rewrite E2 in *. set (x := INR (2 * t)) in *. set (y := INR (2 * t')) in *.
  assert (HM : forall u v, u * v < 0 -> u < 0 < v \/ v < 0 < u).
  { intros u v Huv. destruct (Rlt_dec u 0) as [P|P].
    - left. split; [exact P|]. destruct (Rlt_dec 0 v) as [|Q]; [assumption|]. exfalso. assert (0 <= (- u) * (- v)) by (apply Rmult_le_pos; lra). lra.
    - right. destruct (Rlt_dec v 0) as [Q|Q]; [|exfalso; assert (0 <= u * v) by (apply Rmult_le_pos; lra); lra]. split; [exact Q|].
      destruct (Req_dec u 0) as [->|]; [lra|lra]. }
  apply HM in A, B. destruct A as [(A1 & A2)|(A1 & A2)].
  - assert (0 < w) by lra. assert (x * w + 2 * w <= y * w) by (replace (x * w + 2 * w) with ((x + 2) * w) by ring; apply Rmult_le_compat_r; lra). lra.
  - assert (w < 0) by lra. assert ((x + 2) * (- w) <= y * (- w)) by (apply Rmult_le_compat_r; lra). lra.
Qed.
Lemma crosses_not w c t : crosses w c t = false ->
  unit_at w c (INR (2 * t)) - 2 * unit_at w c (INR (2 * t + 1)) + unit_at w c (INR (2 * t + 2)) = 0.
Proof.
  unfold crosses, unit_at. destruct (Rlt_dec _ 0) as [|A]; [discriminate|]. intros _.
  assert (E0 : INR (2 * t + 1) = INR (2 * t) + 1) by (rewrite plus_INR; simpl; lra).
  assert (E1 : INR (2 * t + 2) = INR (2 * t) + 2) by (rewrite plus_INR; simpl; lra).
  rewrite E0, E1 in *. set (x := INR (2 * t)) in *. set (u := x * w + c) in *.
  replace ((x + 1) * w + c) with (u + w) by (unfold u; ring). replace ((x + 2) * w + c) with (u + 2 * w) in * by (unfold u; ring).
  assert (D : (0 <= u /\ 0 <= u + 2 * w) \/ (u <= 0 /\ u + 2 * w <= 0)).
  { destruct (Rle_dec 0 u) as [P|P], (Rle_dec 0 (u + 2 * w)) as [Q|Q]; [left; auto| | |right; split; lra].
    - destruct (Req_dec u 0) as [E|E]; [right; split; lra|]. exfalso. apply A. assert (0 < u * (- (u + 2 * w))) by (apply Rmult_lt_0_compat; lra). lra.
    - destruct (Req_dec (u + 2 * w) 0) as [E|E]; [right; split; lra|]. exfalso. apply A. assert (0 < (- u) * (u + 2 * w)) by (apply Rmult_lt_0_compat; lra). lra. }
  destruct D as [(D1 & D2)|(D1 & D2)].
  - rewrite !Rmax_left by lra. lra.
  - rewrite !Rmax_right by lra. lra.
Qed.
(** Each of n things hits at most one of more than n places: some place is missed. *)
Lemma missed (hit : nat -> nat -> bool) : (forall k t t', hit k t = true -> hit k t' = true -> t = t') ->
  forall n T, NoDup T -> (n < length T)%nat -> exists t, In t T /\ forall k, (k < n)%nat -> hit k t = false.
Proof.
  intros H1. induction n as [|n IH]; intros T ND HT.
  - destruct T as [|t T]; [simpl in HT; lia|]. exists t. split; [now left|]. intros k Hk. lia.
  - destruct (existsb (hit n) T) eqn:E.
    + apply existsb_exists in E as (t0 & Ht0 & Hh). destruct (in_split _ _ Ht0) as (A & B & ->).
      destruct (IH (A ++ B)) as (t & Ht & Hm).
      * now apply NoDup_remove_1 in ND.
      * rewrite app_length in *. simpl in HT. lia.
      * exists t. split; [apply in_app_iff in Ht as [Ht|Ht]; apply in_app_iff; [now left|right; now right]|]. intros k Hk.
        destruct (Nat.eq_dec k n) as [->|]; [|apply Hm; lia]. destruct (hit n t) eqn:Eh; [|reflexivity]. exfalso.
        assert (t = t0) by (eapply H1; eauto). subst t. apply NoDup_remove_2 in ND. contradiction.
    + destruct (IH T ND ltac:(lia)) as (t & Ht & Hm). exists t. split; [exact Ht|]. intros k Hk.
      destruct (Nat.eq_dec k n) as [->|]; [|apply Hm; lia]. destruct (hit n t) eqn:Eh; [|reflexivity].
      exfalso. assert (existsb (hit n) T = true) by (apply existsb_exists; eauto). congruence.
Qed.
Lemma zig_miss n (w c v : nat -> R) (d : R) : let P x := rsum n (fun k => unit_at (w k) (c k) x * v k) + d in
  exists a, (a < 2 * n + 3)%nat /\ 1 / 2 <= Rabs (P (INR a) - (if Nat.even a then 0 else 1)).
Proof.
  intros P. destruct (missed (fun k t => crosses (w k) (c k) t)) with (n := n) (T := seq 0 (S n)) as (t & Ht & Hm).
  { intros k t t' A B. destruct (Nat.le_ge_cases t t'); [eapply crosses_once; eauto|symmetry; eapply crosses_once; eauto]. }
  { apply seq_NoDup. } { rewrite seq_length. lia. }
  apply in_seq in Ht.
  assert (E : P (INR (2 * t)) - 2 * P (INR (2 * t + 1)) + P (INR (2 * t + 2)) = 0).
  { unfold P. transitivity (rsum n (fun k => (unit_at (w k) (c k) (INR (2 * t)) - 2 * unit_at (w k) (c k) (INR (2 * t + 1)) + unit_at (w k) (c k) (INR (2 * t + 2))) * v k)).
    - rewrite (rsum_ext n (fun k => (_ - _ + _) * v k) (fun k => unit_at (w k) (c k) (INR (2 * t)) * v k - 2 * (unit_at (w k) (c k) (INR (2 * t + 1)) * v k) + unit_at (w k) (c k) (INR (2 * t + 2)) * v k)) by (intros; ring).
      rewrite rsum_plus, rsum_minus, rsum_scal. ring.
    - rewrite (rsum_ext n _ (fun _ => 0)); [apply rsum_zero|]. intros k Hk. rewrite crosses_not by now apply Hm. ring. }
  destruct (Rle_dec (1 / 2) (Rabs (P (INR (2 * t)) - 0))) as [A|A].
  { exists (2 * t)%nat. split; [lia|]. rewrite Nat.even_mul. exact A. }
  destruct (Rle_dec (1 / 2) (Rabs (P (INR (2 * t + 1)) - 1))) as [B|B].
  { exists (2 * t + 1)%nat. split; [lia|]. rewrite Nat.even_add, Nat.even_mul. exact B. }
  exists (2 * t + 2)%nat. split; [lia|]. rewrite Nat.even_add, Nat.even_mul. simpl Nat.even. cbn [Bool.eqb orb].
  apply Rnot_le_lt in A, B. apply Rabs_def2 in A, B. unfold Rabs. destruct (Rcase_abs _); lra.
Qed.
