(** * HeapLemmas: reasoning rules for the heap monad. *)
From Coq Require Import String ZArith List Bool Arith Lia ZifyBool.
From Verif Require Export PureSpec Repr.
From Verif Require Import Num Heap Spec.
Import ListNotations.
Open Scope Z_scope.

Section WithNum.
Context {K : Num}.
Implicit Types s : state K.

(** ** Total-correctness weakest precondition *)
Definition wp {A} (m : M K A) (s : state K) (Q : A -> state K -> Prop) : Prop :=
  match m s with (Ret a, s') => Q a s' | _ => False end.

Lemma wp_ex {A} (m : M K A) s Q : wp m s Q <-> exists a s', m s = (Ret a, s') /\ Q a s'.
Proof.
  unfold wp. destruct (m s) as [[a|e|p] s']; split; intros H.
  - eauto.
  - destruct H as (a' & s'' & E & HQ). now inversion E; subst.
  - contradiction.
  - destruct H as (? & ? & E & _). discriminate.
  - contradiction.
  - destruct H as (? & ? & E & _). discriminate.
Qed.

Lemma wp_ret {A} (a : A) s (Q : A -> state K -> Prop) : Q a s -> wp (ret a) s Q.
Proof. auto. Qed.

Lemma wp_bind {A B} (m : M K A) (f : A -> M K B) s Q :
  wp m s (fun a s' => wp (f a) s' Q) -> wp (bind m f) s Q.
Proof. unfold wp, bind. destruct (m s) as [[a|e|p] s']; auto. Qed.

Lemma wp_conseq {A} (m : M K A) s (Q Q' : A -> state K -> Prop) :
  wp m s Q -> (forall a s', Q a s' -> Q' a s') -> wp m s Q'.
Proof. unfold wp. destruct (m s) as [[a|e|p] s']; auto. Qed.

Lemma wp_eq {A} (m : M K A) s a s' (Q : A -> state K -> Prop) :
  m s = (Ret a, s') -> Q a s' -> wp m s Q.
Proof. unfold wp. now intros ->. Qed.

Lemma wp_ignore_err {A} (z : A) (m : M K A) s Q : wp m s Q -> wp (ignore_err z m) s Q.
Proof. unfold wp, ignore_err. destruct (m s) as [[a|e|p] s']; tauto. Qed.

Lemma wp_catch {A} (m : M K A) s (Q : A + err -> state K -> Prop) :
  wp m s (fun a s' => Q (inl a) s') -> wp (catch m) s Q.
Proof. unfold wp, catch. destruct (m s) as [[a|e|p] s']; tauto. Qed.

Lemma bind_eq {A B} (m : M K A) (f : A -> M K B) s a s' :
  m s = (Ret a, s') -> bind m f s = f a s'.
Proof. unfold bind. now intros ->. Qed.

Lemma bind_fail {A B} (m : M K A) (f : A -> M K B) s e s' :
  m s = (Fail e, s') -> bind m f s = (Fail e, s').
Proof. unfold bind. now intros ->. Qed.

Lemma bind_panic {A B} (m : M K A) (f : A -> M K B) s p s' :
  m s = (Panic p, s') -> bind m f s = (Panic p, s').
Proof. unfold bind. now intros ->. Qed.

(** ** Loops *)
Lemma wp_loop {A} (body : Z -> A -> M K A) (I : nat -> A -> state K -> Prop) (Q : A -> state K -> Prop) :
  forall n k acc s,
  I k acc s ->
  (forall i a s1, (k <= i < k + n)%nat -> I i a s1 -> wp (body (Z.of_nat i) a) s1 (I (S i))) ->
  (forall a s1, I (k + n)%nat a s1 -> Q a s1) ->
  wp (loop n (Z.of_nat k) body acc) s Q.
Proof.
  induction n as [|n IH]; intros k acc s HI Hstep HQ; cbn [loop].
  - apply wp_ret. apply HQ. now rewrite Nat.add_0_r.
  - apply wp_bind. eapply wp_conseq. { apply Hstep; [lia|exact HI]. }
    intros a s1 HI1. replace (Z.of_nat k + 1) with (Z.of_nat (S k)) by lia.
    apply IH; auto.
    + intros; apply Hstep; auto; lia.
    + intros a' s' H'. apply HQ. now replace (k + S n)%nat with (S k + n)%nat by lia.
Qed.

Lemma wp_for_acc {A} (n : nat) (body : Z -> A -> M K A) acc s
      (I : nat -> A -> state K -> Prop) (Q : A -> state K -> Prop) :
  I 0%nat acc s ->
  (forall i a s1, (i < n)%nat -> I i a s1 -> wp (body (Z.of_nat i) a) s1 (I (S i))) ->
  (forall a s1, I n a s1 -> Q a s1) ->
  wp (for_acc (Z.of_nat n) body acc) s Q.
Proof.
  intros H0 Hs HQ. unfold for_acc. rewrite Nat2Z.id.
  apply (wp_loop body I Q n 0%nat); auto. intros; apply Hs; auto; lia.
Qed.

Lemma wp_for (n : nat) (body : Z -> M K unit) s
      (I : nat -> state K -> Prop) (Q : unit -> state K -> Prop) :
  I 0%nat s ->
  (forall i s1, (i < n)%nat -> I i s1 -> wp (body (Z.of_nat i)) s1 (fun _ => I (S i))) ->
  (forall s1, I n s1 -> Q tt s1) ->
  wp (for_ (Z.of_nat n) body) s Q.
Proof.
  intros H0 Hs HQ. unfold for_.
  apply wp_for_acc with (I := fun i _ s1 => I i s1); auto.
  intros [] s1 H; auto.
Qed.

Lemma for_nonpos {A} n (body : Z -> A -> M K A) acc s :
  n <= 0 -> for_acc n body acc s = (Ret acc, s).
Proof. intros H. unfold for_acc. replace (Z.to_nat n) with 0%nat by lia. reflexivity. Qed.

(** Loops that only read. *)
Lemma loop_read {A} (body : Z -> A -> M K A) (f : nat -> A -> A) s :
  forall n k acc,
  (forall i a, (k <= i < k + n)%nat -> body (Z.of_nat i) a s = (Ret (f i a), s)) ->
  loop n (Z.of_nat k) body acc s = (Ret (fold_left (fun a i => f i a) (seq k n) acc), s).
Proof.
  induction n as [|n IH]; intros k acc H; cbn [loop seq fold_left]; auto.
  erewrite bind_eq by (apply H; lia).
  replace (Z.of_nat k + 1) with (Z.of_nat (S k)) by lia.
  apply IH. intros; apply H; lia.
Qed.

Lemma for_acc_read {A} (n : nat) (body : Z -> A -> M K A) (f : nat -> A -> A) s acc :
  (forall i a, (i < n)%nat -> body (Z.of_nat i) a s = (Ret (f i a), s)) ->
  for_acc (Z.of_nat n) body acc s = (Ret (fold_left (fun a i => f i a) (seq 0 n) acc), s).
Proof.
  intros H. unfold for_acc. rewrite Nat2Z.id. apply (loop_read body f s n 0%nat).
  intros; apply H; lia.
Qed.

(** A loop stops at the first failing / panicking iteration. *)
Lemma loop_app {A} (body : Z -> A -> M K A) : forall n1 n2 k acc s,
  loop (n1 + n2) k body acc s = bind (loop n1 k body acc) (loop n2 (k + Z.of_nat n1) body) s.
Proof.
  induction n1 as [|n1 IH]; intros n2 k acc s.
  - cbn. unfold bind, ret. now rewrite Z.add_0_r.
  - cbn [loop Nat.add]. unfold bind at 1 2 3. destruct (body k acc s) as [[a|e|p] s1]; auto.
    rewrite IH. unfold bind. destruct (loop n1 (k+1) body a s1) as [[a'|e|p] s2]; auto.
    now replace (k + 1 + Z.of_nat n1) with (k + Z.of_nat (S n1)) by lia.
Qed.

(** ** Memory relations *)


Lemma row_at_valid s r row : row_at s r = Some row -> (r <= nrows s)%nat.
Proof.
  unfold row_at, nrows. destruct r as [|k]; [lia|].
  intros H. assert (nth_error (h_rows s) k <> None) by congruence.
  apply nth_error_Some in H0. lia.
Qed.







Lemma rest_refl s : rest s s.
Proof. repeat split. Qed.
Lemma rest_trans s1 s2 s3 : rest s1 s2 -> rest s2 s3 -> rest s1 s3.
Proof. unfold rest. intuition congruence. Qed.

Lemma frame_refl W s : frame W s s.
Proof. repeat split; eauto. Qed.

Lemma frame_trans (W1 W2 W : nat -> Prop) s1 s2 s3 :
  frame W1 s1 s2 -> frame W2 s2 s3 ->
  (forall r, (r <= nrows s1)%nat -> W1 r \/ W2 r -> W r) -> frame W s1 s3.
Proof.
  intros (A1 & B1 & C1 & D1) (A2 & B2 & C2 & D2) HW. repeat split; eauto.
  - intros r row Hr HnW. pose proof (row_at_valid _ _ _ Hr). apply B2; [apply B1; auto|]; intros Hw; apply HnW; auto.
  - intros r row Hr. destruct (C1 _ _ Hr) as (row1 & H1 & L1).
    destruct (C2 _ _ H1) as (row2 & H2 & L2). exists row2. split; congruence.
  - lia.
Qed.

Lemma frame_weaken (W W' : nat -> Prop) s s' :
  frame W s s' -> (forall r, (r <= nrows s)%nat -> W r -> W' r) -> frame W' s s'.
Proof. intros H HW. eapply frame_trans; [exact H|apply (frame_refl nothing)|]. intros r Hr [?|[]]; auto. Qed.

Lemma frame_nothing W s s' : frame nothing s s' -> frame W s s'.
Proof. intros H. eapply frame_weaken; eauto. intros ? ? []. Qed.

Lemma frame_fresh rs s s' : frame (among rs) s s' -> fresh s rs -> frame nothing s s'.
Proof.
  intros H Hf. eapply frame_weaken; eauto. intros r Hr Hin. red in Hin.
  red in Hf. rewrite Forall_forall in Hf. apply Hf in Hin. lia.
Qed.

Lemma ext_refl s : ext s s.
Proof. split; [apply frame_refl|apply rest_refl]. Qed.
Lemma ext_trans s1 s2 s3 : ext s1 s2 -> ext s2 s3 -> ext s1 s3.
Proof.
  intros [F1 R1] [F2 R2]. split; [|eapply rest_trans; eauto].
  eapply frame_trans; eauto. intros r _ [H|H]; exact H.
Qed.
Lemma frame_nrows W s s' : frame W s s' -> (nrows s <= nrows s')%nat.
Proof. intros (_ & _ & _ & H); exact H. Qed.
Lemma ext_nrows s s' : ext s s' -> (nrows s <= nrows s')%nat.
Proof. intros [H _]. eapply frame_nrows; eauto. Qed.

Lemma slice_refs_frame W s s' sl rs : frame W s s' -> slice_refs s sl rs -> slice_refs s' sl rs.
Proof. intros (H & _) (arr & Ha & Hl & E). exists arr. auto. Qed.

Lemma slice_refs_fun s sl rs1 rs2 : slice_refs s sl rs1 -> slice_refs s sl rs2 -> rs1 = rs2.
Proof. intros (a1 & H1 & _ & E1) (a2 & H2 & _ & E2). congruence. Qed.

Lemma own_frame W s s' m rs r c A :
  own s m rs r c A -> frame W s s' -> (forall x, In x rs -> ~ W x) -> own s' m rs r c A.
Proof.
  intros (H1 & H2 & H3 & H4 & H5 & H6) HF HW. unfold own.
  repeat (split; [now eauto using slice_refs_frame|]).
  destruct HF as (_ & B & _).
  revert HW. clear - H6 B. induction H6 as [|x row rs A Hx HF IH]; intros HW; constructor.
  - apply B; auto. apply HW. simpl; auto.
  - apply IH. intros; apply HW; simpl; auto.
Qed.

Lemma own_ext s s' m rs r c A : own s m rs r c A -> ext s s' -> own s' m rs r c A.
Proof. intros H [HF _]. eapply own_frame; eauto. Qed.

Lemma own_old s m rs r c A : own s m rs r c A -> Forall (fun x => (x <= nrows s)%nat) rs.
Proof.
  intros (_ & _ & _ & _ & _ & H). induction H; constructor; auto.
  eapply row_at_valid; eauto.
Qed.

Lemma own_shape s m rs r c A : own s m rs r c A -> shape r c A.
Proof. intros (_ & _ & _ & H & _); exact H. Qed.
Lemma own_rows s m rs r c A : own s m rs r c A -> mrows m = Z.of_nat r.
Proof. intros (H & _); exact H. Qed.
Lemma own_cols s m rs r c A : own s m rs r c A -> mcols m = Z.of_nat c.
Proof. intros (_ & H & _); exact H. Qed.

Lemma own_fun s m rs r c A rs' r' c' A' :
  own s m rs r c A -> own s m rs' r' c' A' -> rs = rs' /\ r = r' /\ c = c' /\ A = A'.
Proof.
  intros (H1 & H2 & H3 & H4 & H5 & H6) (G1 & G2 & G3 & G4 & G5 & G6).
  assert (rs = rs') by (eapply slice_refs_fun; eauto). subst rs'.
  assert (r = r') by lia. assert (c = c') by lia. subst.
  repeat split; auto.
  clear - H6 G6. revert A' G6. induction H6; intros A' G6; inversion G6; subst; auto.
  f_equal; auto. congruence.
Qed.

Lemma disjoint_old_fresh s rs1 rs2 :
  Forall (fun x => (x <= nrows s)%nat) rs1 -> fresh s rs2 -> disjoint rs1 rs2.
Proof.
  unfold fresh, disjoint. rewrite !Forall_forall. intros H1 H2 r I1 I2.
  specialize (H1 _ I1). specialize (H2 _ I2). simpl in *. lia.
Qed.
Lemma disjoint_sym rs1 rs2 : disjoint rs1 rs2 -> disjoint rs2 rs1.
Proof. unfold disjoint. intros H r H2 H1. eapply H; eauto. Qed.
Lemma fresh_mono s s' rs : (nrows s <= nrows s')%nat -> fresh s' rs -> fresh s rs.
Proof. unfold fresh. rewrite !Forall_forall. intros H H1 x Hx. specialize (H1 x Hx). simpl in *. lia. Qed.

(** ** Cell access on owned matrices *)

Lemma Forall2_length {A B} (R : A -> B -> Prop) l1 l2 : Forall2 R l1 l2 -> length l1 = length l2.
Proof. induction 1; simpl; auto. Qed.
Lemma Forall2_mono {A B} (R R' : A -> B -> Prop) l1 l2 :
  (forall a b, R a b -> R' a b) -> Forall2 R l1 l2 -> Forall2 R' l1 l2.
Proof. intros H. induction 1; constructor; auto. Qed.
Lemma nth_error_skipn {A} (l : list A) k i : nth_error (skipn k l) i = nth_error l (k + i).
Proof. revert l; induction k; intros [|x l]; simpl; auto. now destruct i. Qed.
Lemma nth_error_firstn_lt {A} (l : list A) k i :
  (i < k)%nat -> nth_error (firstn k l) i = nth_error l i.
Proof.
  revert l i; induction k; intros [|x l] i Hi; simpl; auto; try lia.
  destruct i; simpl; auto. apply IHk; lia.
Qed.

Lemma own_ref s m rs r c A i :
  own s m rs r c A -> (i < r)%nat ->
  exists x, nth_error rs i = Some x /\
    idx_out (mdata m) (Z.of_nat i) s = (Ret x, s) /\ row_at s x = Some (nth i A []) /\
    nth i rs O = x.
Proof.
  intros (H1 & H2 & H3 & [HL HS] & (arr & Ha & Hlen & E) & H6) Hi.
  assert (Hx : exists x, nth_error rs i = Some x).
  { destruct (nth_error rs i) eqn:En; eauto. apply nth_error_None in En.
    apply Forall2_length in H6. lia. }
  destruct Hx as (x & Hx). exists x. split; [exact Hx|]. split; [|split].
  - unfold idx_out. rewrite H3, Ha.
    replace ((0 <=? Z.of_nat i) && (Z.of_nat i <? Z.of_nat r)) with true by lia.
    rewrite Nat2Z.id.
    assert (En : nth_error arr (sl_off (mdata m) + i) = Some x).
    { rewrite E in Hx. rewrite <- Hx.
      rewrite nth_error_firstn_lt by lia. now rewrite nth_error_skipn. }
    now rewrite En.
  - clear - H6 Hx. revert i Hx. induction H6; intros i Hx; [destruct i; discriminate|].
    destruct i; simpl in *; [congruence|]. now apply IHForall2.
  - eapply nth_error_nth; eauto.
Qed.

Lemma getc_own s m rs r c A i j :
  own s m rs r c A -> (i < r)%nat -> (j < c)%nat ->
  getc m (Z.of_nat i) (Z.of_nat j) s = (Ret (entry A i j), s).
Proof.
  intros HO Hi Hj. destruct (own_ref _ _ _ _ _ _ _ HO Hi) as (x & Hx & Hidx & Hrow & _).
  unfold getc. rewrite (bind_eq _ _ _ _ _ Hidx). unfold idx_row. rewrite Hrow.
  assert (HL : length (nth i A []) = c) by (eapply shape_row; eauto using own_shape).
  rewrite HL. replace ((0 <=? Z.of_nat j) && (Z.of_nat j <? Z.of_nat c)) with true by lia.
  rewrite Nat2Z.id. rewrite nth_error_nth' with (d := f0) by lia. reflexivity.
Qed.

Lemma upd_length {A} k (x : A) l : length (upd k x l) = length l.
Proof. revert k; induction l; intros [|k]; simpl; auto. Qed.
Lemma nth_error_upd {A} k k' (x : A) l :
  nth_error (upd k x l) k' = if (k =? k')%nat then (if (k <? length l)%nat then Some x else None) else nth_error l k'.
Proof.
  revert k k'. induction l as [|h t IH]; intros k k'; simpl.
  - destruct k, k'; simpl; try reflexivity; destruct (_ =? _)%nat; reflexivity.
  - destruct k as [|k], k' as [|k']; simpl; auto.
    rewrite IH. destruct (k =? k')%nat; auto.
Qed.
Lemma nth_upd {A} k k' (x d : A) l :
  nth k' (upd k x l) d = if ((k =? k') && (k <? length l))%nat then x else nth k' l d.
Proof.
  revert k k'. induction l as [|h t IH]; intros k k'; simpl.
  - destruct k, k'; simpl; try reflexivity; now rewrite andb_false_r.
  - destruct k as [|k], k' as [|k']; simpl; auto.
    now rewrite IH.
Qed.

(** Plain cell update. *)
Definition pset (A : pm K) (i j : nat) (v : K) : pm K := upd i (upd j v (nth i A [])) A.

Lemma shape_pset r c A i j v : shape r c A -> shape r c (pset A i j v).
Proof.
  intros [HL HF]. unfold pset. split; [now rewrite upd_length|].
  apply Forall_forall. intros row Hin. apply In_nth_error in Hin as (k & Hk).
  rewrite nth_error_upd in Hk. rewrite Forall_forall in HF.
  destruct (Nat.eqb_spec i k) as [->|Hne].
  - destruct (Nat.ltb_spec k (length A)); [|discriminate].
    inversion Hk; subst. rewrite upd_length. apply HF. now apply nth_In.
  - apply HF. eapply nth_error_In; eauto.
Qed.

Lemma entry_pset r c A i j v i' j' :
  shape r c A -> (i < r)%nat -> (j < c)%nat ->
  entry (pset A i j v) i' j' = if ((i =? i') && (j =? j'))%nat then v else entry A i' j'.
Proof.
  intros HS Hi Hj. unfold entry, pset. destruct HS as [HL HF].
  rewrite nth_upd. destruct (Nat.eqb_spec i i') as [->|Hne]; simpl; auto.
  replace (i' <? length A)%nat with true by lia. rewrite nth_upd.
  assert (HLr : length (nth i' A []) = c) by (eapply shape_row; eauto; split; eauto).
  rewrite HLr. replace (j <? c)%nat with true by lia. rewrite andb_true_r. reflexivity.
Qed.

Lemma row_at_with_rows_upd s k row r :
  (k < length (h_rows s))%nat ->
  row_at (with_rows s (upd k row (h_rows s))) r = if (r =? S k)%nat then Some row else row_at s r.
Proof.
  intros Hk. destruct r as [|r]; simpl; auto.
  rewrite nth_error_upd. rewrite Nat.eqb_sym.
  destruct (Nat.eqb_spec r k) as [->|]; auto.
  replace (k <? length (h_rows s))%nat with true by lia. reflexivity.
Qed.

Lemma setc_own s m rs r c A i j v :
  own s m rs r c A -> NoDup rs -> (i < r)%nat -> (j < c)%nat ->
  exists s', setc m (Z.of_nat i) (Z.of_nat j) v s = (Ret tt, s') /\
    own s' m rs r c (pset A i j v) /\ frame (fun x => x = nth i rs O) s s' /\ rest s s'
    /\ h_outs s' = h_outs s /\ nrows s' = nrows s.
Proof.
  intros HO HND Hi Hj. destruct (own_ref _ _ _ _ _ _ _ HO Hi) as (x & Hx & Hidx & Hrow & Hnth).
  assert (HL : length (nth i A []) = c) by (eapply shape_row; eauto using own_shape).
  assert (Hx0 : exists k, x = S k).
  { destruct x; eauto. simpl in Hrow. inversion Hrow as [E]. rewrite <- E in HL. simpl in HL. lia. }
  destruct Hx0 as (k & ->). simpl in Hrow.
  assert (Hk : (k < length (h_rows s))%nat) by (apply nth_error_Some; congruence).
  exists (with_rows s (upd k (upd j v (nth i A [])) (h_rows s))).
  split; [|split; [|split; [|split; [|split]]]].
  - unfold setc. rewrite (bind_eq _ _ _ _ _ Hidx). unfold set_row. rewrite Hrow, HL.
    replace ((0 <=? Z.of_nat j) && (Z.of_nat j <? Z.of_nat c)) with true by lia.
    now rewrite Nat2Z.id.
  - destruct HO as (H1 & H2 & H3 & H4 & H5 & H6). unfold own.
    repeat (split; [solve [auto using shape_pset]|]).
    unfold pset. clear - H6 Hx Hk HND.
    assert (G : forall rw' rs A, Forall2 (fun ref row => row_at s ref = Some row) rs A -> NoDup rs ->
      forall i, nth_error rs i = Some (S k) ->
      Forall2 (fun ref row => row_at (with_rows s (upd k rw' (h_rows s))) ref = Some row) rs (upd i rw' A)).
    { intros rw' rs0 A0 HF. clear Hx; revert i; induction HF as [|x row rs0 A0 Hx0 HF IH]; intros i0 ND i Hi; clear i0.
      - destruct i; discriminate.
      - inversion ND as [|? ? Hnin ND']; subst. destruct i as [|i]; simpl in *.
        + inversion Hi; subst x. constructor.
          * rewrite row_at_with_rows_upd by auto. now rewrite Nat.eqb_refl.
          * clear IH ND ND'. induction HF as [|y row' rs1 A1 Hy HF IH]; constructor.
            -- rewrite row_at_with_rows_upd by auto. destruct (Nat.eqb_spec y (S k)); auto.
               subst. exfalso. apply Hnin. simpl; auto.
            -- apply IH. intros Hin. apply Hnin. simpl; auto.
        + constructor.
          * rewrite row_at_with_rows_upd by auto. destruct (Nat.eqb_spec x (S k)); auto.
            subst. exfalso. apply Hnin. eapply nth_error_In; eauto.
          * apply IH; auto. }
    apply G; auto.
  - rewrite Hnth. unfold frame. repeat split; auto.
    + intros y row Hy HW. rewrite row_at_with_rows_upd by auto.
      destruct (Nat.eqb_spec y (S k)); auto. contradiction.
    + intros y row Hy. rewrite row_at_with_rows_upd by auto.
      destruct (Nat.eqb_spec y (S k)); eauto. subst y. simpl in Hy.
      exists (upd j v (nth i A [])). split; auto. rewrite upd_length. congruence.
    + unfold nrows. simpl. rewrite upd_length. lia.
  - repeat split.
  - reflexivity.
  - unfold nrows. simpl. now rewrite upd_length.
Qed.

End WithNum.
