(** * Deep: deep ReLU networks of bounded width approximate every uniformly continuous function on the unit cube. *)
From Coq Require Import ZArith List Bool Arith Lia Reals Lra.
From Verif Require Import Num NumR Heap Spec Matrix Loss Network Optimizers ModelGo PureSpec Repr HeapLemmas MatrixFacts MiscProofs MiscFacts RSum LayerReal OptSpec ModelSpec EvalProofs FitProofs MiniBatch ModelRefute ModelFacts FitFacts Params CapacitySpec Capacity CapacityFit Approx DeepSpec.
Import ListNotations.
Open Scope R_scope.

(** ** Functions on the cube *)
Lemma rabs_le x y : Rabs x <= y -> - y <= x <= y.
Proof. unfold Rabs. destruct Rcase_abs; lra. Qed.
Lemma cube_nth d x j : cube d x -> 0 <= nth j x 0 <= 1.
Proof.
  intros (E & H). destruct (Nat.lt_ge_cases j (length x)) as [C|C]; [|rewrite nth_overflow by exact C; lra].
  rewrite List.Forall_forall in H. apply H. now apply nth_In.
Qed.
Fixpoint grid (N d : nat) : list (list R) :=
  match d with O => [[]] | S d' => flat_map (fun k => map (cons (INR k / INR N)) (grid N d')) (seq 0 (S N)) end.
Lemma grid_cube N d : (1 <= N)%nat -> List.Forall (cube d) (grid N d).
Proof.
  intros HN. induction d as [|d IH]; [constructor; [split; [reflexivity|constructor]|constructor]|].
  apply List.Forall_forall. intros x Hx. cbn [grid] in Hx. apply in_flat_map in Hx. destruct Hx as (k & Hk & Hx). apply in_map_iff in Hx. destruct Hx as (y & <- & Hy).
  rewrite List.Forall_forall in IH. destruct (IH y Hy) as (E & F). split; [simpl; congruence|]. constructor; [|exact F].
  apply in_seq in Hk.
  assert (0 < INR N) by (apply lt_0_INR; lia). assert (0 <= INR k) by apply pos_INR. assert (INR k <= INR N) by (apply le_INR; lia).
  split; [apply Rmult_le_pos; [assumption|left; now apply Rinv_0_lt_compat]|]. apply Rmult_le_reg_r with (INR N); [assumption|]. unfold Rdiv. rewrite Rmult_assoc, Rinv_l by lra. lra.
Qed.
Lemma grid_near N d x : (1 <= N)%nat -> cube d x -> exists c, In c (grid N d) /\ forall j, (j < d)%nat -> Rabs (nth j x 0 - nth j c 0) <= / INR N.
Proof.
  intros HN. assert (HP : 0 < INR N) by (apply lt_0_INR; lia).
  revert x. induction d as [|d IH]; intros x (E & F); [exists []; split; [now left|intros; lia]|].
  destruct x as [|t x]; [discriminate|]. inversion F as [|? ? Ht Fx]; subst.
  destruct (IH x) as (c & Hc & H); [split; [now injection E|exact Fx]|].
  destruct (grid_find 0 (/ INR N) N t) as (k & Hk & H1 & H2).
  { unfold gridpt. rewrite Rinv_r by lra. lra. }
  { exact HN. }
  exists (INR k / INR N :: c). split.
  - cbn [grid]. apply in_flat_map. exists k. split; [apply in_seq; lia|]. now apply in_map.
  - intros [|j] Hj; [|simpl; apply H; lia]. simpl. unfold gridpt in H1, H2. rewrite S_INR in H2. unfold Rdiv. apply Rabs_le. lra.
Qed.
Lemma ucont_all (f : nat -> list R -> R) d o eps : (forall j, (j < o)%nat -> ucont d (f j)) -> 0 < eps -> exists del, 0 < del /\
  forall j x y, (j < o)%nat -> cube d x -> cube d y -> (forall l, (l < d)%nat -> Rabs (nth l x 0 - nth l y 0) <= del) -> Rabs (f j x - f j y) <= eps.
Proof.
  intros H He. induction o as [|o IH]; [exists 1; split; [lra|intros; lia]|].
  destruct IH as (d1 & P1 & H1); [intros j Hj; apply H; lia|]. destruct (H o ltac:(lia) eps He) as (d2 & P2 & H2).
  exists (Rmin d1 d2). split; [now apply Rmin_pos|]. intros j x y Hj Hx Hy Hl. destruct (Nat.eq_dec j o) as [->|N].
  - apply H2; [exact Hx|exact Hy|]. intros l Hl'. eapply Rle_trans; [now apply Hl|apply Rmin_r].
  - apply H1; [lia|exact Hx|exact Hy|]. intros l Hl'. eapply Rle_trans; [now apply Hl|apply Rmin_l].
Qed.
Definition shrink (t : R) (x : list R) : list R := map (Rmult t) x.
Lemma shrink_nth t x j : nth j (shrink t x) 0 = t * nth j x 0.
Proof. unfold shrink. rewrite <- (Rmult_0_r t) at 1. apply (map_nth (Rmult t)). Qed.
Lemma shrink_cube d t x : 0 <= t <= 1 -> cube d x -> cube d (shrink t x).
Proof.
  intros Ht (E & F). split; [unfold shrink; now rewrite map_length|]. unfold shrink. apply List.Forall_map. eapply List.Forall_impl; [|exact F].
  cbn beta. intros u Hu. split; [apply Rmult_le_pos; lra|]. apply Rle_trans with (t * 1); [apply Rmult_le_compat_l; lra|lra].
Qed.
Lemma ucont_bounded d f : ucont d f -> exists M, 0 <= M /\ forall x, cube d x -> Rabs (f x) <= M.
Proof.
  intros H. destruct (H 1 ltac:(lra)) as (del & Hd & HF). destruct (archimed_cor1 del Hd) as (n & Hn & Hp).
  assert (HP : 0 < INR n) by (apply lt_0_INR; lia).
  assert (HS : forall x, cube d x -> forall k, (k <= n)%nat -> Rabs (f (shrink (INR k / INR n) x)) <= Rabs (f (shrink 0 x)) + INR k).
  { intros x Hx. assert (HQ : forall k, (k <= n)%nat -> 0 <= INR k / INR n <= 1).
    { intros k Hk. assert (0 <= INR k) by apply pos_INR. assert (INR k <= INR n) by (apply le_INR; lia).
      split; [apply Rmult_le_pos; [assumption|left; now apply Rinv_0_lt_compat]|]. apply Rmult_le_reg_r with (INR n); [assumption|]. unfold Rdiv. rewrite Rmult_assoc, Rinv_l by lra. lra. }
    induction k as [|k IH]; intros Hk; [simpl INR; unfold Rdiv; rewrite Rmult_0_l; lra|]. specialize (IH ltac:(lia)).
    assert (D : Rabs (f (shrink (INR (S k) / INR n) x) - f (shrink (INR k / INR n) x)) <= 1).
    { apply HF; try (apply shrink_cube; [apply HQ; lia|exact Hx]). intros j Hj. rewrite !shrink_nth. rewrite S_INR.
      replace ((INR k + 1) / INR n * nth j x 0 - INR k / INR n * nth j x 0) with (/ INR n * nth j x 0) by (field; lra).
      pose proof (cube_nth d x j Hx). assert (0 < / INR n) by now apply Rinv_0_lt_compat. rewrite Rabs_right by (apply Rle_ge; apply Rmult_le_pos; lra).
      apply Rle_trans with (/ INR n * 1); [apply Rmult_le_compat_l; lra|lra]. }
    rewrite S_INR in *. revert D IH. unfold Rabs. repeat destruct Rcase_abs; lra. }
  assert (H0 : forall x, cube d x -> Rabs (f (shrink 0 x)) <= Rabs (f (repeat 0 d)) + 1).
  { intros x Hx. assert (D : Rabs (f (shrink 0 x) - f (repeat 0 d)) <= 1).
    { apply HF; [apply shrink_cube; [lra|exact Hx]| |].
      - split; [apply repeat_length|]. apply List.Forall_forall. intros t Ht. apply repeat_spec in Ht. lra.
      - intros j Hj. rewrite shrink_nth, nth_repeat. rewrite Rmult_0_l, Rminus_0_r, Rabs_R0. lra. }
    revert D. unfold Rabs. repeat destruct Rcase_abs; lra. }
  exists (Rabs (f (repeat 0 d)) + 1 + INR n). pose proof (Rabs_pos (f (repeat 0 d))). split; [lra|].
  intros x Hx. specialize (HS x Hx n (le_n _)). specialize (H0 x Hx).
  assert (E : shrink (INR n / INR n) x = x).
  { unfold Rdiv. rewrite Rinv_r by lra. unfold shrink. rewrite <- (map_id x) at 2. apply map_ext. intros t. ring. }
  rewrite E in HS. lra.
Qed.
Lemma bounded_all (f : nat -> list R -> R) d o : (forall j, (j < o)%nat -> ucont d (f j)) -> exists M, 0 <= M /\ forall j x, (j < o)%nat -> cube d x -> Rabs (f j x) <= M.
Proof.
  intros H. induction o as [|o IH]; [exists 0; split; [lra|intros; lia]|].
  destruct IH as (M1 & P1 & H1); [intros j Hj; apply H; lia|]. destruct (ucont_bounded d (f o) (H o ltac:(lia))) as (M2 & P2 & H2).
  exists (Rmax M1 M2). split; [eapply Rle_trans; [exact P1|apply Rmax_l]|]. intros j x Hj Hx. destruct (Nat.eq_dec j o) as [->|N].
  - eapply Rle_trans; [now apply H2|apply Rmax_r].
  - eapply Rle_trans; [apply H1; [lia|exact Hx]|apply Rmax_l].
Qed.

(** ** The running maximum *)
Section Max.
Variables (d : nat) (L : R) (f : nat -> list R -> R) (C : R).
Definition dist (x : nat -> R) (c : list R) : R := rsum d (fun j => Rabs (x j - nth j c 0)).
Definition cand (op : nat * list R) (x : nat -> R) : R := f (fst op) (snd op) + C - L * dist x (snd op).
Definition raise (x : nat -> R) (acc : nat -> R) (op : nat * list R) : nat -> R := fun l => if (l =? fst op)%nat then Rmax (acc l) (cand op x) else acc l.
Definition best (x : nat -> R) (acc : nat -> R) (ops : list (nat * list R)) : nat -> R := fold_left (raise x) ops acc.
Lemma best_above x ops : forall acc l, acc l <= best x acc ops l.
Proof.
  induction ops as [|op ops IH]; intros acc l; [simpl; lra|]. unfold best in *. simpl. eapply Rle_trans; [|apply IH].
  unfold raise. destruct (l =? fst op)%nat; [apply Rmax_l|lra].
Qed.
Lemma best_ge x ops : forall acc op, In op ops -> cand op x <= best x acc ops (fst op).
Proof.
  induction ops as [|op' ops IH]; intros acc op H; [contradiction|]. unfold best in *. simpl. destruct H as [->|H]; [|now apply IH].
  eapply Rle_trans; [|apply best_above]. unfold raise. rewrite Nat.eqb_refl. apply Rmax_r.
Qed.
Lemma best_le x ops : forall acc l u, acc l <= u -> (forall op, In op ops -> fst op = l -> cand op x <= u) -> best x acc ops l <= u.
Proof.
  induction ops as [|op ops IH]; intros acc l u Ha H; [exact Ha|]. unfold best in *. simpl. apply IH; [|intros; apply H; [now right|assumption]].
  unfold raise. destruct (Nat.eqb_spec l (fst op)) as [E|E]; [|exact Ha]. apply Rmax_lub; [exact Ha|]. apply H; [now left|now symmetry].
Qed.
End Max.

(** ** The layers *)
Definition job : Type := ((lkind * nat * nat) * (rpm * rpm))%type.
Definition looks (p : player RNum) (j : job) : Prop := (p_kind p, p_in p, p_out p) = fst j /\ p_w p = fst (snd j) /\ p_b p = snd (snd j).
Definition jshape (j : job) : Prop := shape (K := RNum) (snd (fst (fst j))) (snd (fst j)) (fst (snd j)) /\ shape (K := RNum) 1 (snd (fst j)) (snd (snd j)).
Definition ind (a b : nat) : R := if (a =? b)%nat then 1 else 0.
Lemma sum_ind n v k : (k < n)%nat -> rsum n (fun i => v i * ind i k) = v k.
Proof.
  intros H. rewrite <- (rsum_delta n k v H). apply rsum_ext. intros i Hi. unfold ind. rewrite (Nat.eqb_sym i k). destruct (k =? i)%nat; ring.
Qed.
Lemma hid_entry (p : player RNum) i o W B r X a j : looks p ((Hidden, i, o), (W, B)) -> (a < r)%nat -> (j < o)%nat ->
  entry (pforward p r X) a j = Rmax (rsum i (fun l => entry X a l * entry W l j) + entry B 0 j) 0.
Proof.
  intros (E & EW & EB) Ha Hj. cbn [fst snd] in *. injection E as E1 E2 E3. subst W B i o. unfold pforward, pact. rewrite E1. rewrite entry_pmap by assumption.
  unfold act1. rewrite E1, R_relu. unfold paffine, paff. rewrite entry_mk by assumption. reflexivity.
Qed.
Lemma lin_entry (p : player RNum) i o W B r X a j : looks p ((Linear, i, o), (W, B)) -> (a < r)%nat -> (j < o)%nat ->
  entry (pforward p r X) a j = rsum i (fun l => entry X a l * entry W l j) + entry B 0 j.
Proof.
  intros (E & EW & EB) Ha Hj. cbn [fst snd] in *. injection E as E1 E2 E3. subst W B i o. unfold pforward, pact. rewrite E1.
  unfold paffine, paff. rewrite entry_mk by assumption. reflexivity.
Qed.
Section Jobs.
Variables (d o : nat) (L : R) (f : nat -> list R -> R) (C : R).
Definition job0 : job := ((Hidden, d, d + o + 1)%nat, (mk (K := RNum) d (d + o + 1) ind, mk (K := RNum) 1 (d + o + 1) (fun _ _ => 0))).
Definition jobA (t : nat) (c : list R) : job := ((Hidden, d + o + 1, d + o + d)%nat,
  (mk (K := RNum) (d + o + 1) (d + o + d) (fun i j => if (j <? d + o)%nat then ind i j + (if (j =? d + t)%nat then ind i (d + o) else 0) else ind i (j - (d + o))),
   mk (K := RNum) 1 (d + o + d) (fun _ j => if (j <? d + o)%nat then 0 else - nth (j - (d + o)) c 0))).
Definition jobB (t : nat) (c : list R) : job := ((Hidden, d + o + d, d + o + 1)%nat,
  (mk (K := RNum) (d + o + d) (d + o + 1) (fun i j => if (j <? d + o)%nat then ind i j else if (i <? d)%nat then L else if (i <? d + o)%nat then - ind i (d + t) else - 2 * L),
   mk (K := RNum) 1 (d + o + 1) (fun _ j => if (j <? d + o)%nat then 0 else f t c + C - L * rsum d (fun l => nth l c 0)))).
Definition jobZ (t : nat) : job := ((Linear, d + o + 1, o)%nat,
  (mk (K := RNum) (d + o + 1) o (fun i j => ind i (d + j) + (if (j =? t)%nat then ind i (d + o) else 0)), mk (K := RNum) 1 o (fun _ _ => - C))).
Fixpoint jobs (t : nat) (ops : list (nat * list R)) : list job :=
  match ops with [] => [jobZ t] | op :: ops' => jobA t (snd op) :: jobB (fst op) (snd op) :: jobs (fst op) ops' end.

Definition inv (t : nat) (x acc : nat -> R) (X : rpm) (a : nat) : Prop :=
  (forall j, (j < d)%nat -> entry X a j = x j) /\ 0 <= entry X a (d + o)%nat /\
  forall l, (l < o)%nat -> 0 <= entry X a (d + l)%nat /\ entry X a (d + l)%nat + (if (l =? t)%nat then entry X a (d + o)%nat else 0) = acc l.

Lemma start_inv p r X a (x : nat -> R) : looks p job0 -> (a < r)%nat -> (forall j, (j < d)%nat -> entry X a j = x j) -> (forall j, (j < d)%nat -> 0 <= x j) ->
  inv 0 x (fun _ => 0) (pforward p r X) a.
Proof.
  intros HP Ha HX H0.
  assert (Z : forall j, (d <= j < d + o + 1)%nat -> entry (pforward p r X) a j = 0).
  { intros j Hj. rewrite (hid_entry p _ _ _ _ r X a j HP) by lia. rewrite entry_mk by lia. rewrite (rsum_ext d _ (fun _ => 0)).
    - rewrite rsum_zero, Rplus_0_r. apply Rmax_left. lra.
    - intros i Hi. rewrite entry_mk by lia. unfold ind. destruct (Nat.eqb_spec i j); [lia|]. apply Rmult_0_r. }
  split; [|split].
  - intros j Hj. rewrite (hid_entry p _ _ _ _ r X a j HP) by lia. rewrite entry_mk by lia. rewrite (rsum_ext d _ (fun i => entry X a i * ind i j)).
    + rewrite sum_ind by exact Hj. rewrite Rplus_0_r, HX by exact Hj. apply Rmax_left. now apply H0.
    + intros i Hi. now rewrite entry_mk by lia.
  - rewrite Z by lia. lra.
  - intros l Hl. rewrite !Z by lia. destruct (l =? 0)%nat; lra.
Qed.
Lemma fold_A p r X a (x acc : nat -> R) t c : looks p (jobA t c) -> (a < r)%nat -> (t < o)%nat -> inv t x acc X a -> (forall j, (j < d)%nat -> 0 <= x j) ->
  (forall j, (j < d)%nat -> entry (pforward p r X) a j = x j) /\ (forall l, (l < o)%nat -> entry (pforward p r X) a (d + l)%nat = acc l /\ 0 <= acc l) /\
  (forall j, (j < d)%nat -> entry (pforward p r X) a (d + o + j)%nat = Rmax (x j - nth j c 0) 0).
Proof.
  intros HP Ha Ht (I1 & I2 & I3) H0.
  assert (E : forall j, (j < d + o)%nat -> entry (pforward p r X) a j = Rmax (entry X a j + (if (j =? d + t)%nat then entry X a (d + o)%nat else 0)) 0).
  { intros j Hj. rewrite (hid_entry p _ _ _ _ r X a j HP) by lia. rewrite entry_mk by lia. destruct (Nat.ltb_spec j (d + o)); [|lia]. f_equal. rewrite Rplus_0_r.
    rewrite (rsum_ext (d + o + 1) _ (fun i => entry X a i * ind i j + (if (j =? d + t)%nat then entry X a i * ind i (d + o) else 0))).
    - rewrite rsum_plus, sum_ind by lia. f_equal. destruct (j =? d + t)%nat; [now rewrite sum_ind by lia|apply rsum_zero].
    - intros i Hi. rewrite entry_mk by lia. destruct (Nat.ltb_spec j (d + o)); [|lia]. destruct (j =? d + t)%nat; ring. }
  split; [|split].
  - intros j Hj. rewrite E by lia. destruct (Nat.eqb_spec j (d + t)); [lia|]. rewrite Rplus_0_r, I1 by exact Hj. apply Rmax_left. now apply H0.
  - intros l Hl. destruct (I3 l Hl) as (Q1 & Q2). rewrite E by lia.
    assert (EE : ((d + l =? d + t) = (l =? t))%nat) by (destruct (Nat.eqb_spec (d + l) (d + t)), (Nat.eqb_spec l t); lia || reflexivity). rewrite EE, Q2.
    assert (0 <= acc l) by (rewrite <- Q2; destruct (l =? t)%nat; lra). split; [now apply Rmax_left|assumption].
  - intros j Hj. rewrite (hid_entry p _ _ _ _ r X a _ HP) by lia. rewrite entry_mk by lia. destruct (Nat.ltb_spec (d + o + j) (d + o)); [lia|].
    replace (d + o + j - (d + o))%nat with j by lia. f_equal. rewrite (rsum_ext (d + o + 1) _ (fun i => entry X a i * ind i j)).
    + rewrite sum_ind, I1 by lia. ring.
    + intros i Hi. rewrite entry_mk by lia. destruct (Nat.ltb_spec (d + o + j) (d + o)); [lia|]. now replace (d + o + j - (d + o))%nat with j by lia.
Qed.
Lemma fold_B p r X a (x acc : nat -> R) t c : looks p (jobB t c) -> (a < r)%nat -> (t < o)%nat -> (forall j, (j < d)%nat -> 0 <= x j) ->
  (forall j, (j < d)%nat -> entry X a j = x j) -> (forall l, (l < o)%nat -> entry X a (d + l)%nat = acc l /\ 0 <= acc l) ->
  (forall j, (j < d)%nat -> entry X a (d + o + j)%nat = Rmax (x j - nth j c 0) 0) ->
  inv t x (raise d L f C x acc (t, c)) (pforward p r X) a.
Proof.
  intros HP Ha Ht H0 H1 H2 H3.
  assert (E : forall j, (j < d + o)%nat -> entry (pforward p r X) a j = Rmax (entry X a j) 0).
  { intros j Hj. rewrite (hid_entry p _ _ _ _ r X a j HP) by lia. rewrite entry_mk by lia. destruct (Nat.ltb_spec j (d + o)); [|lia]. f_equal. rewrite Rplus_0_r.
    rewrite (rsum_ext (d + o + d) _ (fun i => entry X a i * ind i j)); [apply sum_ind; lia|].
    intros i Hi. rewrite entry_mk by lia. destruct (Nat.ltb_spec j (d + o)); [reflexivity|lia]. }
  assert (EZ : entry (pforward p r X) a (d + o)%nat = Rmax (cand d L f C (t, c) x - acc t) 0).
  { rewrite (hid_entry p _ _ _ _ r X a _ HP) by lia. rewrite entry_mk by lia. destruct (Nat.ltb_spec (d + o) (d + o)); [lia|]. f_equal.
    rewrite (rsum_ext (d + o + d) _ (fun i => if (i <? d)%nat then entry X a i * L else if (i <? d + o)%nat then - (entry X a i * ind i (d + t)) else entry X a i * (- 2 * L))).
    2: { intros i Hi. rewrite entry_mk by lia. destruct (Nat.ltb_spec (d + o) (d + o)); [lia|]. destruct (i <? d)%nat; [reflexivity|]. destruct (i <? d + o)%nat; ring. }
    rewrite !rsum_app.
    rewrite (rsum_ext d (fun i => if (i <? d)%nat then _ else _) (fun i => x i * L)).
    2: { intros i Hi. destruct (Nat.ltb_spec i d); [|lia]. now rewrite H1. }
    rewrite (rsum_ext o _ (fun l => - (acc l * ind l t))).
    2: { intros l Hl. destruct (Nat.ltb_spec (d + l) d); [lia|]. destruct (Nat.ltb_spec (d + l) (d + o)); [|lia]. destruct (H2 l Hl) as (-> & _). f_equal. f_equal.
         unfold ind. destruct (Nat.eqb_spec (d + l) (d + t)), (Nat.eqb_spec l t); lia || reflexivity. }
    rewrite (rsum_ext d (fun i => if (d + o + i <? d)%nat then _ else _) (fun i => Rmax (x i - nth i c 0) 0 * (- 2 * L))).
    2: { intros i Hi. destruct (Nat.ltb_spec (d + o + i) d); [lia|]. destruct (Nat.ltb_spec (d + o + i) (d + o)); [lia|]. now rewrite H3. }
    rewrite rsum_opp, sum_ind by exact Ht. rewrite !rsum_scal_r. unfold cand, dist. cbn [fst snd].
    rewrite (rsum_ext d (fun j => Rabs (x j - nth j c 0)) (fun j => 2 * Rmax (x j - nth j c 0) 0 - (x j - nth j c 0))).
    - rewrite rsum_minus, rsum_scal, rsum_minus. ring.
    - intros j Hj. unfold Rabs, Rmax. destruct Rcase_abs, Rle_dec; lra. }
  split; [|split].
  - intros j Hj. rewrite E, H1 by lia. apply Rmax_left. now apply H0.
  - rewrite EZ. apply Rmax_r.
  - intros l Hl. destruct (H2 l Hl) as (Q1 & Q2). rewrite E by lia. rewrite Q1, (Rmax_left (acc l)) by exact Q2. split; [exact Q2|].
    unfold raise. cbn [fst]. destruct (Nat.eqb_spec l t) as [->|N]; [|ring]. rewrite EZ. unfold Rmax. repeat destruct Rle_dec; lra.
Qed.
Lemma fold_jobs ops : List.Forall (fun op => (fst op < o)%nat) ops -> forall ps t r X a (x acc : nat -> R), Forall2 looks ps (jobs t ops) -> (a < r)%nat -> (t < o)%nat -> (forall j, (j < d)%nat -> 0 <= x j) ->
  inv t x acc X a -> forall l, (l < o)%nat -> entry (pnet ps r X) a l = best d L f C x acc ops l - C.
Proof.
  induction 1 as [|[t' c] ops Hop _ IH]; intros ps t r X a x acc HP Ha Ht H0 HI l Hl; cbn [jobs fst snd] in *.
  - inversion HP as [|p ? ? ? HP1 HP2]; subst. inversion HP2; subst. cbn [pnet fold_left best]. destruct HI as (I1 & I2 & I3). destruct (I3 l Hl) as (_ & Q).
    rewrite (lin_entry p _ _ _ _ r X a l HP1) by assumption. rewrite entry_mk by lia. rewrite <- Q.
    rewrite (rsum_ext (d + o + 1) _ (fun i => entry X a i * ind i (d + l) + (if (l =? t)%nat then entry X a i * ind i (d + o) else 0))).
    + rewrite rsum_plus, sum_ind by lia. unfold Rminus. f_equal. f_equal. destruct (l =? t)%nat; [now rewrite sum_ind by lia|apply rsum_zero].
    + intros i Hi. rewrite entry_mk by lia. destruct (l =? t)%nat; ring.
  - inversion HP as [|p ? ps1 ? HP1 HP2]; subst. inversion HP2 as [|q ? ps2 ? HQ1 HQ2]; subst. cbn [pnet fold_left best].
    destruct (fold_A p r X a x acc t c HP1 Ha Ht HI H0) as (A1 & A2 & A3).
    exact (IH ps2 t' r (pforward q r (pforward p r X)) a x _ HQ2 Ha Hop H0 (fold_B q r _ a x acc t' c HQ1 Ha Hop H0 A1 A2 A3) l Hl).
Qed.
Lemma jobs_shape ops : forall t, List.Forall jshape (job0 :: jobs t ops).
Proof.
  intros t. constructor; [split; apply shape_mk|]. revert t. induction ops as [|op ops IH]; intros t; cbn [jobs].
  - constructor; [split; apply shape_mk|constructor].
  - constructor; [split; apply shape_mk|]. constructor; [split; apply shape_mk|apply IH].
Qed.
Lemma jobs_tower ops : forall t, map fst (job0 :: jobs t ops) = tower d o (length ops).
Proof.
  intros t. unfold tower. cbn [map fst job0]. f_equal. revert t. induction ops as [|op ops IH]; intros t; [reflexivity|]. cbn [jobs map fst length repeat concat app jobA jobB]. rewrite IH. reflexivity.
Qed.
End Jobs.
Lemma place_jobs : forall (es : list (lent RNum)) js, map (fun p => (p_kind p, p_in p, p_out p)) (net es) = map fst js -> List.Forall jshape js ->
  exists ps, Forall2 fits_in es ps /\ Forall2 looks ps js.
Proof.
  induction es as [|e es IH]; intros [|j js] E F; try discriminate; [exists []; split; constructor|].
  cbn [net map] in E. injection E as E1 E2. inversion F as [|? ? (F1 & F2) F3]; subst. destruct (IH js E2 F3) as (ps & G1 & G2).
  exists (newp (e_p e) (fst (snd j)) (snd (snd j)) :: ps). split; constructor; try assumption.
  - rewrite <- E1 in F1, F2. cbn [fst snd] in F1, F2. repeat split; cbn [newp p_kind p_in p_out p_w p_b p_slope p_drop]; try reflexivity; first [apply F1 | apply F2].
  - split; [exact E1|]. split; reflexivity.
Qed.

(** ** Every uniformly continuous function *)
Lemma best_close d o L f C M eps del N ops x : 0 < eps -> 0 < del -> (1 <= N)%nat -> 0 <= M -> L = (2 * M + eps) / del -> C = M + eps -> / INR N <= del -> INR d * L * / INR N <= eps / 2 ->
  (forall j x, (j < o)%nat -> cube d x -> Rabs (f j x) <= M) ->
  (forall j x y, (j < o)%nat -> cube d x -> cube d y -> (forall l, (l < d)%nat -> Rabs (nth l x 0 - nth l y 0) <= del) -> Rabs (f j x - f j y) <= eps / 2) ->
  List.Forall (fun op => (fst op < o)%nat /\ cube d (snd op)) ops -> (forall j c, (j < o)%nat -> In c (grid N d) -> In (j, c) ops) -> cube d x ->
  forall l, (l < o)%nat -> Rabs (best d L f C (fun j => nth j x 0) (fun _ => 0) ops l - C - f l x) <= eps.
Proof.
  intros He Hd HN HM EL EC HN1 HN2 HB HU HO HG Hx l Hl.
  assert (HL : 0 <= L) by (rewrite EL; apply Rmult_le_pos; [lra|left; now apply Rinv_0_lt_compat]).
  destruct (grid_near N d x HN Hx) as (c0 & Hc0 & Hn0).
  assert (Q0 : cube d c0) by (pose proof (grid_cube N d HN) as HH; rewrite List.Forall_forall in HH; now apply HH).
  assert (F0 : Rabs (f l x - f l c0) <= eps / 2) by (apply HU; auto; intros j Hj; eapply Rle_trans; [now apply Hn0|exact HN1]).
  pose proof (HB l c0 Hl Q0) as B0. pose proof (HB l x Hl Hx) as BX. apply rabs_le in F0, B0, BX.
  assert (LO : f l x + C - eps <= best d L f C (fun j => nth j x 0) (fun _ => 0) ops l).
  { eapply Rle_trans; [|exact (best_ge d L f C (fun j => nth j x 0) ops (fun _ => 0) (l, c0) (HG l c0 Hl Hc0))]. unfold cand. cbn [fst snd].
    assert (D : dist d (fun j => nth j x 0) c0 <= INR d * / INR N).
    { unfold dist. rewrite <- rsum_const. apply rsum_le. exact Hn0. }
    apply (Rmult_le_compat_l L) in D; [|exact HL]. replace (L * (INR d * / INR N)) with (INR d * L * / INR N) in D by ring. lra. }
  assert (HI : best d L f C (fun j => nth j x 0) (fun _ => 0) ops l <= f l x + C + eps).
  { apply best_le; [lra|]. intros [t c] Ho E. cbn [fst] in E. subst t. unfold cand. cbn [fst snd].
    rewrite List.Forall_forall in HO. destruct (HO _ Ho) as (_ & Hc). cbn [snd] in Hc. pose proof (HB l c Hl Hc) as BC. apply rabs_le in BC.
    assert (DP : forall j, (j < d)%nat -> 0 <= Rabs (nth j x 0 - nth j c 0)) by (intros; apply Rabs_pos).
    assert (0 <= dist d (fun j => nth j x 0) c) by (apply rsum_nonneg; exact DP).
    assert (0 <= L * dist d (fun j => nth j x 0) c) by now apply Rmult_le_pos.
    destruct (Rle_dec (dist d (fun j => nth j x 0) c) del) as [S|S].
    - assert (U : Rabs (f l x - f l c) <= eps / 2).
      { apply HU; auto. intros j Hj. eapply Rle_trans; [|exact S]. exact (rsum_term_le d (fun j => Rabs (nth j x 0 - nth j c 0)) j DP Hj). }
      apply rabs_le in U. lra.
    - assert (L * del <= L * dist d (fun j => nth j x 0) c) by (apply Rmult_le_compat_l; lra).
      assert (L * del = 2 * M + eps) by (rewrite EL; field; lra). lra. }
  apply Rabs_le. lra.
Qed.
Lemma deep_approximate (f : nat -> list R -> R) (d o : nat) (eps : R) : (forall j, (j < o)%nat -> ucont d (f j)) -> 0 < eps ->
  exists N, forall s m es xs k n, (N <= n)%nat -> trainable s m es xs d o k -> deep es d o n -> m_acctype m = 0%Z ->
  exists s' es', Forall2 same_place es es' /\ frame (among (prows es)) s s' /\ rest s s' /\ trainable s' m es' xs d o k /\
    forall s2 x rsx r X, consistent s2 m es' d o -> own s2 x rsx r d X -> (1 <= r)%nat -> (forall c, (c < r)%nat -> cube d (nth c X [])) ->
      returns (Predict m x) s2 (fun out s3 => exists rs P, own s3 out rs r o P /\
        forall c j, (c < r)%nat -> (j < o)%nat -> Rabs (entry P c j - f j (nth c X [])) <= eps).
Proof.
  intros HC He. destruct (ucont_all f d o (eps / 2) HC ltac:(lra)) as (del & Hd & HU). destruct (bounded_all f d o HC) as (M & HM & HB).
  set (L := (2 * M + eps) / del). set (C := M + eps). assert (HL : 0 <= L) by (apply Rmult_le_pos; [lra|left; now apply Rinv_0_lt_compat]).
  assert (HdL : 0 <= INR d * L) by (apply Rmult_le_pos; [apply pos_INR|exact HL]).
  destruct (archimed_cor1 (Rmin del (eps / 2 / (INR d * L + 1)))) as (N & H1 & H2); [apply Rmin_pos; [exact Hd|apply Rdiv_lt_0_compat; lra]|].
  assert (HN1 : / INR N <= del) by (left; eapply Rlt_le_trans; [exact H1|apply Rmin_l]).
  assert (HI : 0 < / INR N) by (apply Rinv_0_lt_compat, lt_0_INR; lia).
  assert (HN2 : INR d * L * / INR N <= eps / 2).
  { assert (G : / INR N <= eps / 2 / (INR d * L + 1)) by (left; eapply Rlt_le_trans; [exact H1|apply Rmin_r]).
    apply (Rmult_le_compat_l (INR d * L + 1)) in G; [|lra]. replace ((INR d * L + 1) * (eps / 2 / (INR d * L + 1))) with (eps / 2) in G by (field; lra). lra. }
  set (ops0 := list_prod (seq 0 o) (grid N d)).
  exists (length ops0). intros s m es xs k n Hn HT HD HA.
  destruct (Nat.eq_dec o 0) as [E0|N0].
  { exists s, es. split; [|split; [|split; [|split; [exact HT|]]]].
    - clear. induction es; constructor; [repeat split|assumption].
    - apply frame_refl.
    - apply rest_refl.
    - intros s2 x rsx r X HC2 HX Hr HXr.
      destruct (predict_spec s2 m es d o x rsx r X o (pnet (net es) r X) HC2 (shapes _ _ _ _ _ _ _ HT) ltac:(unfold ppredict; now rewrite HA) HX Hr) as (out & s3 & E & rs & Q & _).
      exists out, s3. split; [exact E|]. exists rs, (pnet (net es) r X). split; [exact Q|]. intros c j Hc Hj. lia. }
  set (ops := ops0 ++ repeat (0%nat, repeat 0 d) (n - length ops0)).
  assert (EN : length ops = n) by (unfold ops; rewrite app_length, repeat_length; lia).
  assert (HO : List.Forall (fun op => (fst op < o)%nat /\ cube d (snd op)) ops).
  { apply List.Forall_forall. intros [t c] H. unfold ops in H. apply in_app_or in H. cbn [fst snd]. destruct H as [H|H].
    - apply in_prod_iff in H. destruct H as (Q1 & Q2). apply in_seq in Q1. split; [lia|]. pose proof (grid_cube N d ltac:(lia)) as HH. rewrite List.Forall_forall in HH. now apply HH.
    - apply repeat_spec in H. injection H as -> ->. split; [lia|]. split; [apply repeat_length|]. apply List.Forall_forall. intros u Hu. apply repeat_spec in Hu. lra. }
  unfold deep in HD. rewrite <- EN, <- (jobs_tower d o L f C ops 0) in HD.
  destruct (place_jobs es _ HD (jobs_shape d o L f C ops 0)) as (ps & P1 & P2).
  destruct (set_params s m es xs d o k ps HT P1) as (s' & F1 & F2 & F3). pose proof (f2len _ _ _ P1) as EL.
  exists s', (refits es ps). split; [now apply refits_places|]. do 3 (split; [assumption|]). intros s2 x rsx r X HC2 HX Hr HXr.
  destruct (predict_spec s2 m (refits es ps) d o x rsx r X o (pnet ps r X) HC2 (shapes _ _ _ _ _ _ _ F3) ltac:(unfold ppredict; rewrite HA, refits_net by exact EL; reflexivity) HX Hr) as (out & s3 & E & rs & Q & _).
  exists out, s3. split; [exact E|]. exists rs, (pnet ps r X). split; [exact Q|]. intros c j Hc Hj.
  inversion P2 as [|p ? ps' ? HP1 HP2]; subst ps. cbn [pnet fold_left].
  assert (HZ : forall l, (l < d)%nat -> 0 <= nth l (nth c X []) 0) by (intros l _; apply (cube_nth d _ l (HXr c Hc))).
  pose proof (fold_jobs d o L f C ops (List.Forall_impl _ (fun op (H : _ /\ _) => proj1 H) HO) ps' 0 r (pforward p r X) c (fun l => nth l (nth c X []) 0) (fun _ => 0) HP2 Hc ltac:(lia) HZ
    (start_inv d o p r X c (fun l => nth l (nth c X []) 0) HP1 Hc (fun l _ => eq_refl) HZ) j Hj) as EF.
  change (fold_left (fun acc q => pforward q r acc) ps' (pforward p r X)) with (pnet ps' r (pforward p r X)).
  setoid_rewrite EF.
  apply (best_close d o L f C M eps del N ops (nth c X [])); auto; try lia.
  intros t g Ht Hg. unfold ops, ops0. apply in_or_app. left. apply in_prod_iff. split; [apply in_seq; lia|exact Hg].
Qed.

(** ** A narrow first layer *)
Definition skip (k i : nat) : nat := if (i <? k)%nat then i else S i.
Lemma rsum_skip m : forall k g, (k <= m)%nat -> rsum (S m) g = g k + rsum m (fun i => g (skip k i)).
Proof.
  induction m as [|m IH]; intros k g Hk.
  - replace k with O by lia. rewrite rsum_1, rsum_0. ring.
  - rewrite rsum_S. destruct (Nat.eq_dec k (S m)) as [->|N].
    + rewrite (rsum_ext (S m) (fun i => g (skip (S m) i)) g); [ring|]. intros i Hi. unfold skip. destruct (Nat.ltb_spec i (S m)); [reflexivity|lia].
    + rewrite (IH k) by lia. rewrite (rsum_S m (fun i => g (skip k i))). unfold skip at 3. destruct (Nat.ltb_spec m k); [lia|]. ring.
Qed.
Lemma kernel n : forall d (w : nat -> nat -> R), (n < d)%nat -> exists v, (exists j, (j < d)%nat /\ v j <> 0) /\ forall k, (k < n)%nat -> rsum d (fun j => v j * w k j) = 0.
Proof.
  induction n as [|n IH]; intros d w Hd.
  - exists (fun _ => 1). split; [exists O; split; [lia|lra]|]. intros; lia.
  - assert (DEC : (exists j0, (j0 < d)%nat /\ w n j0 <> 0) \/ forall j, (j < d)%nat -> w n j = 0).
    { clear. induction d as [|d IH]; [right; intros; lia|]. destruct IH as [(j & Hj & H)|H]; [left; exists j; split; [lia|exact H]|].
      destruct (Req_dec (w n d) 0) as [E|E]; [|left; exists d; split; [lia|exact E]]. right. intros j Hj. destruct (Nat.eq_dec j d) as [->|N]; [exact E|apply H; lia]. }
    destruct DEC as [(j0 & Hj0 & HP)|HZ].
    + destruct d as [|m]; [lia|].
      destruct (IH m (fun k i => w k (skip j0 i) - w k j0 / w n j0 * w n (skip j0 i)) ltac:(lia)) as (v' & (i0 & Hi0 & Hv) & HK).
      set (top := - rsum m (fun i => v' i * w n (skip j0 i)) / w n j0).
      set (v := fun j => if (j =? j0)%nat then top else if (j <? j0)%nat then v' j else v' (j - 1)%nat).
      assert (ES : forall i, v (skip j0 i) = v' i).
      { intros i. unfold v, skip. destruct (Nat.ltb_spec i j0).
        - destruct (Nat.eqb_spec i j0); [lia|]. destruct (Nat.ltb_spec i j0); [reflexivity|lia].
        - destruct (Nat.eqb_spec (S i) j0); [lia|]. destruct (Nat.ltb_spec (S i) j0); [lia|]. f_equal. lia. }
      assert (E0 : v j0 = top) by (unfold v; now rewrite Nat.eqb_refl).
      assert (EX : forall k, rsum (S m) (fun j => v j * w k j) = top * w k j0 + rsum m (fun i => v' i * w k (skip j0 i))).
      { intros k. rewrite (rsum_skip m j0) by lia. rewrite E0. f_equal. apply rsum_ext. intros i _. now rewrite ES. }
      exists v. split.
      * exists (skip j0 i0). rewrite ES. split; [unfold skip; destruct (i0 <? j0)%nat; lia|exact Hv].
      * intros k Hk. rewrite EX. destruct (Nat.eq_dec k n) as [->|N]; [unfold top; field; exact HP|].
        specialize (HK k ltac:(lia)). cbv beta in HK.
        rewrite (rsum_ext m _ (fun i => v' i * w k (skip j0 i) - w k j0 / w n j0 * (v' i * w n (skip j0 i)))) in HK by (intros; ring).
        rewrite rsum_minus, rsum_scal in HK. unfold top. replace (rsum m (fun i => v' i * w k (skip j0 i))) with (w k j0 / w n j0 * rsum m (fun i => v' i * w n (skip j0 i))) by lra. field. exact HP.
    + destruct (IH d w ltac:(lia)) as (v & H1 & H2). exists v. split; [exact H1|]. intros k Hk. destruct (Nat.eq_dec k n) as [->|N]; [|apply H2; lia].
      rewrite (rsum_ext d _ (fun _ => 0)); [apply rsum_zero|]. intros j Hj. rewrite HZ by exact Hj. ring.
Qed.
Lemma largest d (v : nat -> R) : (1 <= d)%nat -> exists j, (j < d)%nat /\ forall i, (i < d)%nat -> Rabs (v i) <= Rabs (v j).
Proof.
  induction d as [|d IH]; intros H; [lia|]. destruct d as [|d]; [exists O; split; [lia|]; intros i Hi; replace i with O by lia; lra|].
  destruct (IH ltac:(lia)) as (j & Hj & HM). destruct (Rle_dec (Rabs (v j)) (Rabs (v (S d)))) as [C|C].
  - exists (S d). split; [lia|]. intros i Hi. destruct (Nat.eq_dec i (S d)) as [->|N]; [lra|]. eapply Rle_trans; [apply HM; lia|exact C].
  - exists j. split; [lia|]. intros i Hi. destruct (Nat.eq_dec i (S d)) as [->|N]; [lra|]. apply HM. lia.
Qed.
Lemma nth_map_seq d (g : nat -> R) j : (j < d)%nat -> nth j (map g (seq 0 d)) 0 = g j.
Proof. intros H. rewrite (nth_indep _ 0 (g O)) by (rewrite map_length, seq_length; exact H). rewrite map_nth, seq_nth by exact H. reflexivity. Qed.
Lemma centre_cube d : cube d (centre d).
Proof. split; [apply repeat_length|]. apply List.Forall_forall. intros t Ht. apply repeat_spec in Ht. lra. Qed.
Lemma centre_nth d j : (j < d)%nat -> nth j (centre d) 0 = 1 / 2.
Proof. intros H. unfold centre. rewrite (nth_indep _ 0 (1 / 2)) by (rewrite repeat_length; exact H). apply nth_repeat. Qed.
Lemma off_centre_0 d : off_centre d (centre d) = 0.
Proof.
  unfold off_centre. rewrite (rsum_ext d _ (fun _ => 0)); [apply rsum_zero|]. intros j Hj. rewrite centre_nth by exact Hj. rewrite Rminus_diag_eq by reflexivity. apply Rabs_R0.
Qed.
(** A direction that the first layer does not see. *)
Lemma blind (p : player RNum) d : p_in p = d -> (p_out p < d)%nat -> exists z, cube d z /\ 1 / 2 <= off_centre d z /\ pforward p 1 [z] = pforward p 1 [centre d].
Proof.
  intros HI HO. destruct (kernel (p_out p) d (fun k j => entry (p_w p) j k) HO) as (v & (j1 & Hj1 & Hv) & HK).
  destruct (largest d v ltac:(lia)) as (j0 & Hj0 & HM).
  assert (HA : 0 < Rabs (v j0)) by (eapply Rlt_le_trans; [apply Rabs_pos_lt; exact Hv|now apply HM]). set (A := Rabs (v j0)) in *.
  set (z := map (fun j => 1 / 2 + v j / (2 * A)) (seq 0 d)).
  assert (EZ : forall j, (j < d)%nat -> nth j z 0 = 1 / 2 + v j / (2 * A)) by (intros j Hj; unfold z; now rewrite nth_map_seq).
  exists z. split; [|split].
  - split; [unfold z; now rewrite map_length, seq_length|]. apply List.Forall_forall. intros t Ht. unfold z in Ht. apply in_map_iff in Ht. destruct Ht as (j & <- & Hj).
    apply in_seq in Hj. specialize (HM j ltac:(lia)). apply rabs_le in HM. assert (- (1 / 2) <= v j / (2 * A) <= 1 / 2); [|lra].
    split; apply Rmult_le_reg_r with (2 * A); try lra; unfold Rdiv at 2 || unfold Rdiv; field_simplify; lra.
  - unfold off_centre. apply Rle_trans with (Rabs (nth j0 z 0 - 1 / 2)).
    + rewrite EZ by exact Hj0. replace (1 / 2 + v j0 / (2 * A) - 1 / 2) with (v j0 * / (2 * A)) by (unfold Rdiv; ring). rewrite Rabs_mult, (Rabs_right (/ (2 * A))).
      * fold A. right. field. lra.
      * apply Rle_ge. left. apply Rinv_0_lt_compat. lra.
    + apply (rsum_term_le d (fun j => Rabs (nth j z 0 - 1 / 2)) j0); [intros; apply Rabs_pos|exact Hj0].
  - unfold pforward. f_equal. unfold paffine, paff. apply mk_ext. intros a k Ha Hk. replace a with O by lia. cbn [fadd fmul RNum]. f_equal. rewrite HI. change (fsum (K := RNum) ?n ?g) with (rsum n g).
    unfold entry at 1 3. cbn [nth]. change (@f0 RNum) with 0.
    rewrite (rsum_ext d _ (fun j => nth j (centre d) 0 * entry (p_w p) j k + / (2 * A) * (v j * entry (p_w p) j k))).
    + rewrite rsum_plus, rsum_scal. setoid_rewrite (HK k Hk). rewrite Rmult_0_r. apply Rplus_0_r.
    + intros j Hj. rewrite EZ, centre_nth by exact Hj. unfold Rdiv. ring.
Qed.
Lemma narrow_fails (s : state RNum) m es d : consistent s m es d 1 -> narrow es d -> m_acctype m = 0%Z ->
  exists z, cube d z /\ forall s2 x rsx, consistent s2 m es d 1 -> own s2 x rsx 2 d [centre d; z] ->
    returns (Predict m x) s2 (fun out s3 => exists rs P, own s3 out rs 2 1 P /\
      (1 / 4 <= Rabs (entry P 0 0 - off_centre d (centre d)) \/ 1 / 4 <= Rabs (entry P 1 0 - off_centre d z))).
Proof.
  intros HC (e & es' & -> & HN) HA. pose proof HC as (_ & _ & _ & _ & HCh & _). cbn [net map chain] in HCh. destruct HCh as (HI & _).
  destruct (blind (e_p e) d HI HN) as (z & Hz & HO & EP). exists z. split; [exact Hz|]. intros s2 x rsx HC2 HX.
  destruct (predict_spec s2 m (e :: es') d 1 x rsx 2 [centre d; z] 1 (pnet (net (e :: es')) 2 [centre d; z]) HC2 ltac:(simpl; lia) ltac:(unfold ppredict; now rewrite HA) HX ltac:(lia)) as (out & s3 & E & rs & Q & _).
  exists out, s3. split; [exact E|]. exists rs, (pnet (net (e :: es')) 2 [centre d; z]). split; [exact Q|].
  assert (EQ : entry (pnet (net (e :: es')) 2 [centre d; z]) 0 0 = entry (pnet (net (e :: es')) 2 [centre d; z]) 1 0).
  { pose proof (pnet_row (net (e :: es')) 2 [centre d; z] 0 ltac:(lia)) as A. pose proof (pnet_row (net (e :: es')) 2 [centre d; z] 1 ltac:(lia)) as B.
    cbn [nth] in A, B. assert (AB : pnet (net (e :: es')) 1 [centre d] = pnet (net (e :: es')) 1 [z]).
    { cbn [net map pnet fold_left]. now rewrite EP. }
    pose proof (eq_trans (eq_sym A) (eq_trans AB B)) as AB'. injection AB' as AB'. unfold entry. exact (f_equal (fun l : list R => nth 0 l 0) AB'). }
  rewrite EQ, off_centre_0. set (P := entry _ 1 0). destruct (Rle_dec (1 / 4) (Rabs (P - 0))) as [C|C]; [now left|right].
  apply Rnot_le_lt in C. revert C. unfold Rabs. repeat destruct Rcase_abs; lra.
Qed.
Lemma narrow_kept es es' d : Forall2 (same_place (K := RNum)) es es' -> narrow es d -> narrow es' d.
Proof.
  intros H (e & es1 & -> & HN). inversion H as [|? e' ? es1' H1 H2]; subst. exists e', es1'. split; [reflexivity|]. destruct H1 as (_ & _ & _ & _ & _ & -> & _). exact HN.
Qed.
Lemma narrow_trained s m es xs d k x rsx y rsy r X Y epochs bs xv yv : (0 <= bs)%Z -> (Z.of_nat r + bs <= 2 ^ 52)%Z -> (1 <= r)%nat -> trainable s m es xs d 1 k -> narrow es d -> m_acctype m = 0%Z ->
  data_ok s es x rsx y rsy r d 1 X Y ->
  returns (Fit m x y epochs bs xv yv 0) s (fun _ s' => exists es' z, Forall2 same_place es es' /\ consistent s' m es' d 1 /\ cube d z /\ forall s2 x rsx, consistent s2 m es' d 1 -> own s2 x rsx 2 d [centre d; z] ->
    returns (Predict m x) s2 (fun out s3 => exists rs P, own s3 out rs 2 1 P /\
      (1 / 4 <= Rabs (entry P 0 0 - off_centre d (centre d)) \/ 1 / 4 <= Rabs (entry P 1 0 - off_centre d z)))).
Proof.
  intros Hb H52 Hr HT HN HM HD.
  destruct (fit_trains s m es xs d 1 k x rsx y rsy r X Y epochs bs xv yv RNum_min_faithful Hb H52 Hr HT HD) as ([] & s' & E & nn & _ & (es' & xs' & HT' & HPl & _) & _).
  exists tt, s'. split; [exact E|]. destruct (narrow_fails s' m es' d (proj1 HT') (narrow_kept _ _ _ HPl HN) HM) as (z & Hz & H).
  exists es', z. split; [exact HPl|]. split; [exact (proj1 HT')|]. split; [exact Hz|exact H].
Qed.
Lemma off_centre_ucont d : ucont d (off_centre d).
Proof.
  intros eps He. assert (HP : 0 < INR d + 1) by (pose proof (pos_INR d); lra). exists (eps / (INR d + 1)). split; [now apply Rdiv_lt_0_compat|]. intros x y Hx Hy H.
  assert (D : forall u w, (forall j, (j < d)%nat -> Rabs (nth j u 0 - nth j w 0) <= eps / (INR d + 1)) -> off_centre d u - off_centre d w <= eps).
  { intros u w HH. unfold off_centre. rewrite <- rsum_minus. apply Rle_trans with (rsum d (fun _ => eps / (INR d + 1))).
    - apply rsum_le. intros j Hj. eapply Rle_trans; [|exact (HH j Hj)]. unfold Rabs. repeat destruct Rcase_abs; lra.
    - rewrite rsum_const. apply Rmult_le_reg_r with (INR d + 1); [exact HP|]. replace (INR d * (eps / (INR d + 1)) * (INR d + 1)) with (INR d * eps) by (field; lra). pose proof (pos_INR d).
      replace (eps * (INR d + 1)) with (INR d * eps + eps) by ring. lra. }
  apply Rabs_le. split; [|now apply D]. assert (off_centre d y - off_centre d x <= eps); [|lra]. apply D. intros j Hj. rewrite Rabs_minus_sym. now apply H.
Qed.
