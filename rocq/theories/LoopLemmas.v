(** * LoopLemmas: allocation, matrix-building loops and in-place loops. *)
From Coq Require Import String ZArith List Bool Arith Lia ZifyBool.
From Verif Require Import Num Heap Spec HeapLemmas Matrix.
Import ListNotations.
Open Scope Z_scope.

Section WithNum.
Context {K : Num}.
Implicit Types s : state K.


Lemma out_at_valid s o arr : out_at s o = Some arr -> (o <= nouts s)%nat.
Proof.
  unfold out_at, nouts. destruct o as [|k]; [lia|]. intros H.
  assert (nth_error (h_outs s) k <> None) by congruence. apply nth_error_Some in H0. lia.
Qed.

Lemma frame_nouts W s s' : frame W s s' -> (nouts s <= nouts s')%nat.
Proof.
  intros (H & _). unfold nouts. destruct (length (h_outs s)) eqn:E; [lia|].
  destruct (nth_error (h_outs s) n) eqn:En.
  - specialize (H (S n) l En). apply out_at_valid in H. unfold nouts in H. lia.
  - apply nth_error_None in En. lia.
Qed.

(** The state reached by NewMatrix, exactly. *)
Definition zeros (c : nat) : list K := repeat f0 c.
Definition new_state s (r c : nat) : state K :=
  with_outs (with_rows s (h_rows s ++ repeat (zeros c) r)) (h_outs s ++ [seq (S (nrows s)) r]).
Definition new_header s (r c : nat) : matrix :=
  MkMatrix (Z.of_nat r) (Z.of_nat c) (MkSlice (S (nouts s)) 0 r).

Lemma repeat_snoc {A} (x : A) n : repeat x n ++ [x] = repeat x (S n).
Proof. induction n as [|n IH]; simpl; [reflexivity|]. rewrite IH. reflexivity. Qed.

Lemma NewMatrix_run s (r c : nat) : (1 <= r)%nat -> (1 <= c)%nat ->
  NewMatrix (Z.of_nat r) (Z.of_nat c) s = (Ret (new_header s r c), new_state s r c).
Proof.
  intros Hr Hc. unfold NewMatrix.
  replace ((Z.of_nat r <? 1) || (Z.of_nat c <? 1)) with false by lia.
  assert (HW : wp (for_ (Z.of_nat r) (fun i : Z =>
              bind (alloc_row (repeat f0 (Z.to_nat (Z.of_nat c))))
                (fun r0 => set_out (MkSlice (S (nouts s)) 0 r) i r0)))
     (with_outs s (h_outs s ++ [repeat O r]))
     (fun _ s1 => s1 = new_state s r c)).
  { apply wp_for with (I := fun i s1 =>
      s1 = with_outs (with_rows s (h_rows s ++ repeat (zeros c) i))
                     (h_outs s ++ [seq (S (nrows s)) i ++ repeat O (r - i)])).
    - simpl. rewrite app_nil_r, Nat.sub_0_r. destruct s; reflexivity.
    - intros i s1 Hi ->. unfold wp, bind, alloc_row, set_out. simpl sl_len. simpl sl_loc. simpl sl_off.
      replace ((0 <=? Z.of_nat i) && (Z.of_nat i <? Z.of_nat r)) with true by lia.
      cbn [h_rows h_outs with_rows with_outs].
      unfold nouts. rewrite nth_error_app2 by lia. rewrite Nat.sub_diag. simpl nth_error.
      cbv beta iota. rewrite !Nat2Z.id. unfold with_outs, with_rows. simpl. f_equal.
      + rewrite <- app_assoc. f_equal. unfold zeros. now rewrite repeat_snoc.
      + set (x := S (length (h_rows s ++ repeat (zeros c) i))).
        assert (Hx : x = (S (nrows s) + i)%nat).
        { unfold x, nrows. rewrite app_length, repeat_length. lia. }
        rewrite Hx. clear x Hx.
        assert (U : forall (l1 l2 : list (list nat)) y z, l2 = [z] -> upd (length l1) y (l1 ++ l2) = l1 ++ [y]).
        { clear. intros l1 l2 y z ->. induction l1; simpl; congruence. }
        erewrite U by reflexivity. f_equal. f_equal.
        change (S (nrows s) :: seq (S (S (nrows s))) i ++ repeat O (r - S i)) with (seq (S (nrows s)) (S i) ++ repeat O (r - S i)).
        rewrite seq_S, <- app_assoc.
        assert (U2 : forall (l1 : list nat) y z l2, length l1 = i -> upd i y (l1 ++ z :: l2) = l1 ++ y :: l2).
        { clear. intros l1. revert i. induction l1; intros [|i] y z l2 E; simpl in *; try lia; auto. f_equal. apply IHl1. lia. }
        replace (r - i)%nat with (S (r - S i)) by lia. simpl repeat.
        rewrite U2 by (now rewrite seq_length). reflexivity.
    - intros s1 ->. unfold new_state. now rewrite Nat.sub_diag, app_nil_r. }
  apply wp_ex in HW as ([] & s' & E & ->).
  assert (EA : alloc_out (repeat O (Z.to_nat (Z.of_nat r))) s =
    (Ret (MkSlice (S (nouts s)) 0 r), with_outs s (h_outs s ++ [repeat O r]))).
  { unfold alloc_out. now rewrite Nat2Z.id, repeat_length. }
  rewrite (bind_eq _ _ _ _ _ EA). rewrite (bind_eq _ _ _ _ _ E). reflexivity.
Qed.

Lemma NewMatrix__run s (r c : nat) : (1 <= r)%nat -> (1 <= c)%nat ->
  NewMatrix_ (Z.of_nat r) (Z.of_nat c) s = (Ret (new_header s r c), new_state s r c).
Proof. intros. unfold NewMatrix_, ignore_err. now rewrite NewMatrix_run. Qed.

Lemma NewMatrix_err s rows cols : rows < 1 \/ cols < 1 ->
  NewMatrix rows cols s = (Fail (EMatDims rows cols), s).
Proof. intros H. unfold NewMatrix. replace ((rows <? 1) || (cols <? 1)) with true by lia. reflexivity. Qed.

Lemma NewMatrix__err s rows cols : rows < 1 \/ cols < 1 ->
  NewMatrix_ rows cols s = (Ret matrix0, s).
Proof. intros. unfold NewMatrix_, ignore_err. now rewrite NewMatrix_err. Qed.

Lemma row_at_app s s' k l : h_rows s' = h_rows s ++ l ->
  row_at s' (S (nrows s) + k) = nth_error l k.
Proof.
  intros E. unfold nrows. simpl. rewrite E. rewrite nth_error_app2 by lia.
  f_equal. lia.
Qed.

Lemma new_state_ext s r c : ext s (new_state s r c).
Proof.
  unfold new_state. split; [|repeat split].
  assert (HR : forall x row, row_at s x = Some row -> row_at (new_state s r c) x = Some row).
  { intros [|x] row Hx; auto. simpl in *. rewrite nth_error_app1; auto.
    apply nth_error_Some. congruence. }
  repeat split; eauto.
  - intros [|o] arr Ho; auto. simpl in *. rewrite nth_error_app1; auto.
    apply nth_error_Some. congruence.
  - unfold nrows. simpl. rewrite app_length. lia.
Qed.


Lemma new_state_own s r c :
  fresh_mat s (new_state s r c) (new_header s r c) (seq (S (nrows s)) r) r c (mk r c (fun _ _ => f0)).
Proof.
  unfold fresh_mat. split; [|split; [|split]].
  - unfold own, new_header. simpl. repeat (split; [solve [auto using shape_mk]|]). split.
    + exists (seq (S (nrows s)) r). simpl. split; [|split].
      * unfold nouts. rewrite nth_error_app2 by lia. now rewrite Nat.sub_diag.
      * rewrite seq_length. lia.
      * rewrite firstn_all2; auto. rewrite seq_length. lia.
    + assert (E : mk r c (fun _ _ => f0) = repeat (zeros c) r).
      { unfold mk, zeros.
        assert (R : forall {T} (x : T) n k, map (fun _ => x) (seq k n) = repeat x n).
        { clear. induction n; intros k; simpl; congruence. }
        rewrite R. f_equal. apply R. }
      rewrite E. clear E.
      assert (G : forall n k, (k + n <= r)%nat ->
          Forall2 (fun ref row => row_at (new_state s r c) ref = Some row) (seq (S (nrows s) + k) n) (repeat (zeros c) n)).
      { induction n as [|n IH]; intros k Hk; simpl; constructor.
        - change (row_at (new_state s r c) (S (nrows s) + k) = Some (zeros c)).
          rewrite row_at_app with (l := repeat (zeros c) r) by reflexivity.
          rewrite nth_error_nth' with (d := zeros c) by (rewrite repeat_length; lia).
          now rewrite nth_repeat.
        - replace (S (S (nrows s + k)))%nat with (S (nrows s) + S k)%nat by lia. apply IH. lia. }
      specialize (G r 0%nat). rewrite Nat.add_0_r in G. apply G. lia.
  - apply Forall_forall. intros x Hx. apply in_seq in Hx. lia.
  - apply seq_NoDup.
  - simpl. lia.
Qed.

Lemma wp_NewMatrix_ s (r c : nat) (Q : matrix -> state K -> Prop) :
  (1 <= r)%nat -> (1 <= c)%nat ->
  (forall m rs s', fresh_mat s s' m rs r c (mk r c (fun _ _ => f0)) -> ext s s' -> Q m s') ->
  wp (NewMatrix_ (Z.of_nat r) (Z.of_nat c)) s Q.
Proof.
  intros Hr Hc H. eapply wp_eq; [now apply NewMatrix__run|].
  eapply H; [apply new_state_own|apply new_state_ext].
Qed.

(** ** Row-major loops *)
Lemma wp_each_cell (r c : nat) (body : Z -> Z -> M K unit) s
    (I : nat -> nat -> state K -> Prop) (Q : unit -> state K -> Prop) :
  I 0%nat 0%nat s ->
  (forall i j s1, (i < r)%nat -> (j < c)%nat -> I i j s1 ->
     wp (body (Z.of_nat i) (Z.of_nat j)) s1 (fun _ => I i (S j))) ->
  (forall i s1, (i < r)%nat -> I i c s1 -> I (S i) 0%nat s1) ->
  (forall s1, I r 0%nat s1 -> Q tt s1) ->
  wp (each_cell (Z.of_nat r) (Z.of_nat c) body) s Q.
Proof.
  intros H0 Hstep Hrow HQ. unfold each_cell.
  apply wp_for with (I := fun i s1 => I i 0%nat s1); auto.
  intros i s1 Hi HI. apply wp_for with (I := fun j s2 => I i j s2); auto.
Qed.

(** Cells before (i,j) in row-major order. *)
Definition before (i j i' j' : nat) : bool := ((i' <? i) || ((i' =? i) && (j' <? j)))%nat.
Definition merge (r c : nat) (f : nat -> nat -> K) (A : pm K) (i j : nat) : pm K :=
  mk r c (fun i' j' => if before i j i' j' then f i' j' else entry A i' j').

Lemma merge_0 r c f A : shape r c A -> merge r c f A 0 0 = A.
Proof.
  intros HS. unfold merge. transitivity (mk r c (entry A)); [|now apply mk_entry]. apply mk_ext.
  intros i j _ _. unfold before. replace ((i <? 0) || ((i =? 0) && (j <? 0)))%nat with false by lia. reflexivity.
Qed.
Lemma merge_row r c f A i : merge r c f A i c = merge r c f A (S i) 0.
Proof.
  unfold merge. apply mk_ext. intros i' j' Hi Hj. unfold before.
  replace ((i' <? i) || (i' =? i) && (j' <? c))%nat with ((i' <? S i) || (i' =? S i) && (j' <? 0))%nat; auto. lia.
Qed.
Lemma merge_end r c f A : merge r c f A r 0 = mk r c f.
Proof.
  unfold merge. apply mk_ext. intros i' j' Hi Hj. unfold before.
  replace ((i' <? r) || (i' =? r) && (j' <? 0))%nat with true by lia. reflexivity.
Qed.
Lemma merge_step r c f A i j : (i < r)%nat -> (j < c)%nat ->
  pset (merge r c f A i j) i j (f i j) = merge r c f A i (S j).
Proof.
  intros Hi Hj. eapply shape_ext.
  - apply shape_pset, shape_mk.
  - apply shape_mk.
  - intros i' j' Hi' Hj'. rewrite entry_pset with (r := r) (c := c) by (auto; apply shape_mk).
    unfold merge. rewrite !entry_mk by auto. unfold before.
    destruct (Nat.eqb_spec i i') as [->|Hne]; simpl.
    + destruct (Nat.eqb_spec j j') as [->|Hne2]; simpl.
      * replace ((i' <? i') || (i' =? i') && (j' <? S j'))%nat with true by lia. reflexivity.
      * replace ((i' <? i') || (i' =? i') && (j' <? j))%nat with ((i' <? i') || (i' =? i') && (j' <? S j))%nat by lia. reflexivity.
    + replace ((i' <? i) || (i' =? i) && (j' <? j))%nat with ((i' <? i) || (i' =? i) && (j' <? S j))%nat by lia. reflexivity.
Qed.
Lemma entry_merge r c f A i j : (i < r)%nat -> (j < c)%nat -> entry (merge r c f A i j) i j = entry A i j.
Proof.
  intros. unfold merge. rewrite entry_mk by auto. unfold before.
  replace ((i <? i) || (i =? i) && (j <? j))%nat with false by lia. reflexivity.
Qed.
Lemma shape_merge r c f A i j : shape r c (merge r c f A i j).
Proof. apply shape_mk. Qed.

Lemma pset_same r c (A : pm K) i j : shape r c A -> (i < r)%nat -> (j < c)%nat -> pset A i j (entry A i j) = A.
Proof.
  intros HS Hi Hj. eapply shape_ext; eauto using shape_pset.
  intros i' j' Hi' Hj'. erewrite entry_pset by eauto.
  destruct (Nat.eqb_spec i i'), (Nat.eqb_spec j j'); subst; simpl; auto.
Qed.

(** Rewriting all cells of an owned matrix with distinct rows. *)
Lemma wp_inplace (r c : nat) m rs A (f : nat -> nat -> K) (body : Z -> Z -> M K unit) s :
  own s m rs r c A -> NoDup rs ->
  (forall i j s1 A1, (i < r)%nat -> (j < c)%nat ->
     own s1 m rs r c A1 -> frame (among rs) s s1 -> rest s s1 -> entry A1 i j = entry A i j ->
     wp (body (Z.of_nat i) (Z.of_nat j)) s1 (fun _ s2 =>
       own s2 m rs r c (pset A1 i j (f i j)) /\ frame (among rs) s1 s2 /\ rest s1 s2)) ->
  wp (each_cell (mrows m) (mcols m) body) s (fun _ s' =>
    own s' m rs r c (mk r c f) /\ frame (among rs) s s' /\ rest s s').
Proof.
  intros HO HND Hb. rewrite (own_rows _ _ _ _ _ _ HO), (own_cols _ _ _ _ _ _ HO).
  apply wp_each_cell with (I := fun i j s1 =>
    own s1 m rs r c (merge r c f A i j) /\ frame (among rs) s s1 /\ rest s s1).
  - rewrite merge_0 by (eapply own_shape; eauto). auto using frame_refl, rest_refl.
  - intros i j s1 Hi Hj (HO1 & HF1 & HR1). eapply wp_conseq.
    { eapply Hb; eauto. now apply entry_merge. }
    simpl. intros _ s2 (HO2 & HF2 & HR2). rewrite merge_step in HO2 by auto.
    split; [exact HO2|]. split; [|eapply rest_trans; eauto].
    eapply frame_trans; eauto. intros x _ [H|H]; exact H.
  - intros i s1 Hi H. now rewrite <- merge_row.
  - intros s1 H. now rewrite merge_end in H.
Qed.

(** The usual body: assign one cell. *)
Lemma wp_setc s m rs r c A i j v :
  own s m rs r c A -> NoDup rs -> (i < r)%nat -> (j < c)%nat ->
  wp (setc m (Z.of_nat i) (Z.of_nat j) v) s (fun _ s' =>
    own s' m rs r c (pset A i j v) /\ frame (among rs) s s' /\ rest s s').
Proof.
  intros HO HND Hi Hj. destruct (setc_own _ _ _ _ _ _ _ _ v HO HND Hi Hj) as (s' & E & HO' & HF & HR & _).
  eapply wp_eq; eauto. split; [exact HO'|]. split; auto.
  eapply frame_weaken; eauto. intros x _ ->. red. apply nth_In.
  destruct HO as (_ & _ & _ & [HL _] & _ & HF2). apply Forall2_length in HF2. lia.
Qed.

Lemma wp_setc_ext s0 s m rs r c A i j v :
  fresh_mat s0 s m rs r c A -> ext s0 s -> (i < r)%nat -> (j < c)%nat ->
  wp (setc m (Z.of_nat i) (Z.of_nat j) v) s (fun _ s' =>
    fresh_mat s0 s' m rs r c (pset A i j v) /\ ext s0 s').
Proof.
  intros (HO & HFr & HND & HNo) [HF HR] Hi Hj. eapply wp_conseq; [eapply wp_setc; eauto|].
  simpl. intros _ s' (HO' & HF' & HR'). split; [unfold fresh_mat; auto|].
  split; [|eapply rest_trans; eauto].
  eapply frame_fresh; eauto.
  eapply frame_trans; [exact HF|exact HF'|]. intros x _ [[]|H]; exact H.
Qed.

(** Building a new matrix cell by cell from reads of the initial state. *)
Lemma wp_tabulate (r c : nat) (cell : Z -> Z -> M K K) (f : nat -> nat -> K) s
      (Q : matrix -> state K -> Prop) :
  (1 <= r)%nat -> (1 <= c)%nat ->
  (forall i j s1, (i < r)%nat -> (j < c)%nat -> ext s s1 ->
     cell (Z.of_nat i) (Z.of_nat j) s1 = (Ret (f i j), s1)) ->
  (forall m rs s', fresh_mat s s' m rs r c (mk r c f) -> ext s s' -> Q m s') ->
  wp (tabulate (Z.of_nat r) (Z.of_nat c) cell) s Q.
Proof.
  intros Hr Hc Hcell HQ. unfold tabulate. apply wp_bind. apply wp_NewMatrix_; auto.
  intros m rs s0 HM HE. apply wp_bind.
  apply wp_each_cell with (I := fun i j s1 =>
    fresh_mat s s1 m rs r c (merge r c f (mk r c (fun _ _ => f0)) i j) /\ ext s s1).
  - rewrite merge_0 by apply shape_mk. auto.
  - intros i j s1 Hi Hj (HM1 & HE1). unfold wp. erewrite bind_eq by (apply Hcell; eauto).
    fold (wp (setc m (Z.of_nat i) (Z.of_nat j) (f i j)) s1
      (fun _ s1 => fresh_mat s s1 m rs r c (merge r c f (mk r c (fun _ _ => f0)) i (S j)) /\ ext s s1)).
    rewrite <- merge_step by auto. eapply wp_setc_ext; eauto.
  - intros i s1 Hi H. now rewrite <- merge_row.
  - intros s1 [H HE1]. rewrite merge_end in H. apply wp_ret. eauto.
Qed.

End WithNum.

(** Step through a bind whose first part is a known read. *)
Ltac step_eq := erewrite bind_eq by (first [eassumption | solve [eauto]]).
