(** * MatrixProofs: behaviour of the functions of matrix.go. *)
From Coq Require Import String ZArith List Bool Arith Lia ZifyBool.
From Verif Require Import Num Heap Spec HeapLemmas LoopLemmas Matrix.
Import ListNotations.
Open Scope Z_scope.

Section WithNum.
Context {K : Num}.
Implicit Types s : state K.

Ltac own_dims :=
  repeat match goal with
  | H : own _ ?m _ _ _ _ |- context [mrows ?m] => rewrite (own_rows _ _ _ _ _ _ H)
  | H : own _ ?m _ _ _ _ |- context [mcols ?m] => rewrite (own_cols _ _ _ _ _ _ H)
  end.

Lemma getc_ext s s1 m rs r c A i j :
  own s m rs r c A -> ext s s1 -> (i < r)%nat -> (j < c)%nat ->
  getc m (Z.of_nat i) (Z.of_nat j) s1 = (Ret (entry A i j), s1).
Proof. intros. eapply getc_own; eauto using own_ext. Qed.


Lemma wp_map1 s m rs r c A (f : K -> K) :
  own s m rs r c A -> (1 <= r)%nat -> (1 <= c)%nat ->
  wp (tabulate (mrows m) (mcols m) (fun i j => bind (getc m i j) (fun x => ret (f x)))) s
     (fresh_result s r c (pmap r c f A)).
Proof.
  intros HO Hr Hc. own_dims. eapply wp_tabulate; auto.
  - intros i j s1 Hi Hj HE. erewrite bind_eq by (eapply getc_ext; eauto). reflexivity.
  - intros m' rs' s' HM HE. exists rs'. auto.
Qed.

Lemma wp_map2 s m b rs rs2 r c A B (f : K -> K -> K) :
  own s m rs r c A -> own s b rs2 r c B -> (1 <= r)%nat -> (1 <= c)%nat ->
  wp (tabulate (mrows m) (mcols m) (fun i j =>
        bind (getc m i j) (fun x => bind (getc b i j) (fun y => ret (f x y))))) s
     (fresh_result s r c (pmap2 r c f A B)).
Proof.
  intros HO HO2 Hr Hc. own_dims. eapply wp_tabulate; auto.
  - intros i j s1 Hi Hj HE. erewrite bind_eq by (eapply getc_ext; eauto).
    erewrite bind_eq by (eapply getc_ext; eauto). reflexivity.
  - intros m' rs' s' HM HE. exists rs'. auto.
Qed.

Lemma wp_Add s m b rs rs2 r c A B :
  own s m rs r c A -> own s b rs2 r c B -> (1 <= r)%nat -> (1 <= c)%nat ->
  wp (Add m b) s (fresh_result s r c (pmap2 r c fadd A B)).
Proof.
  intros HO HO2 Hr Hc. unfold Add. own_dims. rewrite !Z.eqb_refl. simpl.
  rewrite <- (own_rows _ _ _ _ _ _ HO), <- (own_cols _ _ _ _ _ _ HO). eapply wp_map2; eauto.
Qed.
Lemma wp_Sub s m b rs rs2 r c A B :
  own s m rs r c A -> own s b rs2 r c B -> (1 <= r)%nat -> (1 <= c)%nat ->
  wp (Sub m b) s (fresh_result s r c (pmap2 r c fsub A B)).
Proof.
  intros HO HO2 Hr Hc. unfold Sub. own_dims. rewrite !Z.eqb_refl. simpl.
  rewrite <- (own_rows _ _ _ _ _ _ HO), <- (own_cols _ _ _ _ _ _ HO). eapply wp_map2; eauto.
Qed.
Lemma Add_err s m b : mrows m <> mrows b \/ mcols m <> mcols b ->
  Add m b s = (Fail (EMatDims (mrows b) (mcols b)), s).
Proof. intros H. unfold Add. replace (negb (mrows m =? mrows b) || negb (mcols m =? mcols b)) with true by lia. reflexivity. Qed.
Lemma Sub_err s m b : mrows m <> mrows b \/ mcols m <> mcols b ->
  Sub m b s = (Fail (EMatDims (mrows b) (mcols b)), s).
Proof. intros H. unfold Sub. replace (negb (mrows m =? mrows b) || negb (mcols m =? mcols b)) with true by lia. reflexivity. Qed.
Lemma wp_Neg s m rs r c A : own s m rs r c A -> (1 <= r)%nat -> (1 <= c)%nat ->
  wp (Neg m) s (fresh_result s r c (pmap r c fneg A)).
Proof. intros. eapply wp_map1 with (f := fneg); eauto. Qed.
Lemma wp_AddScalar s m rs r c A a : own s m rs r c A -> (1 <= r)%nat -> (1 <= c)%nat ->
  wp (AddScalar m a) s (fresh_result s r c (pmap r c (fun x => fadd x a) A)).
Proof. intros. eapply wp_map1 with (f := fun x => fadd x a); eauto. Qed.
Lemma wp_MulScalar s m rs r c A a : own s m rs r c A -> (1 <= r)%nat -> (1 <= c)%nat ->
  wp (MulScalar m a) s (fresh_result s r c (pmap r c (fun x => fmul x a) A)).
Proof. intros. eapply wp_map1 with (f := fun x => fmul x a); eauto. Qed.
Lemma wp_PowScalar s m rs r c A a : own s m rs r c A -> (1 <= r)%nat -> (1 <= c)%nat ->
  wp (PowScalar m a) s (fresh_result s r c (pmap r c (fun x => fpow x a) A)).
Proof. intros. eapply wp_map1 with (f := fun x => fpow x a); eauto. Qed.

Lemma wp_Dot s m b rs rs2 r k c A B :
  own s m rs r k A -> own s b rs2 k c B -> (1 <= r)%nat -> (1 <= c)%nat ->
  wp (Dot m b) s (fresh_result s r c (pdot r k c A B)).
Proof.
  intros HO HO2 Hr Hc. unfold Dot. own_dims. rewrite !Z.eqb_refl. simpl.
  eapply wp_tabulate; auto.
  - intros i j s1 Hi Hj HE.
    rewrite for_acc_read with (f := fun n a => fadd a (fmul (entry A i n) (entry B n j))).
    + reflexivity.
    + intros n a Hn. erewrite bind_eq by (eapply getc_ext; eauto).
      erewrite bind_eq by (eapply getc_ext; eauto). reflexivity.
  - intros m' rs' s' HM HE. exists rs'. auto.
Qed.
Lemma Dot_err s m b : mcols m <> mrows b ->
  Dot m b s = (Fail (EMatDims (mrows b) (mcols b)), s).
Proof. intros H. unfold Dot. replace (mcols m =? mrows b) with false by lia. reflexivity. Qed.

(** ** Transpose *)
Definition colmerge (r c : nat) (A : pm K) (i j : nat) : pm K :=
  mk c r (fun a b => if ((b <? i) || ((b =? i) && (a <? j)))%nat then entry A b a else f0).

Lemma colmerge_step r c A i j : (i < r)%nat -> (j < c)%nat ->
  pset (colmerge r c A i j) j i (entry A i j) = colmerge r c A i (S j).
Proof.
  intros Hi Hj. eapply shape_ext.
  - apply shape_pset, shape_mk.
  - apply shape_mk.
  - intros a b Ha Hb. rewrite entry_pset with (r := c) (c := r) by (auto; apply shape_mk).
    unfold colmerge. rewrite !entry_mk by auto.
    destruct (Nat.eqb_spec j a) as [->|Hne]; simpl.
    + destruct (Nat.eqb_spec i b) as [->|Hne2]; simpl.
      * replace ((b <? b) || (b =? b) && (a <? S a))%nat with true by lia. reflexivity.
      * replace ((b <? i) || (b =? i) && (a <? S a))%nat with ((b <? i) || (b =? i) && (a <? a))%nat by lia. reflexivity.
    + replace ((b <? i) || (b =? i) && (a <? S j))%nat with ((b <? i) || (b =? i) && (a <? j))%nat by lia. reflexivity.
Qed.

Lemma wp_T s m rs r c A : own s m rs r c A -> (1 <= r)%nat -> (1 <= c)%nat ->
  wp (T m) s (fresh_result s c r (ptrans r c A)).
Proof.
  intros HO Hr Hc. unfold T. own_dims. apply wp_bind. apply wp_NewMatrix_; auto.
  intros ans rsa s0 HM HE. apply wp_bind.
  apply wp_for with (I := fun i s1 => fresh_mat s s1 ans rsa c r (colmerge r c A i 0) /\ ext s s1).
  - split; auto. replace (colmerge r c A 0 0) with (mk c r (fun _ _ => @f0 K)); auto.
    apply mk_ext. intros a b _ _. replace ((b <? 0) || (b =? 0) && (a <? 0))%nat with false by lia. reflexivity.
  - intros i s1 Hi (HM1 & HE1). apply wp_bind. apply wp_ignore_err.
    assert (HO1 : own s1 m rs r c A) by (eauto using own_ext).
    destruct (own_ref _ _ _ _ _ _ _ HO1 Hi) as (x & Hx & Hidx & Hrow & _).
    unfold GetRow. own_dims. replace (Z.of_nat i >=? Z.of_nat r) with false by lia.
    eapply wp_eq; [exact Hidx|]. apply wp_ignore_err.
    pose proof HM1 as (HOa & HFr & _).
    unfold SetColumn. own_dims. replace (Z.of_nat i >=? Z.of_nat r) with false by lia.
    assert (HL : length (nth i A []) = c) by (eapply shape_row; eauto using own_shape).
    apply wp_bind. eapply wp_eq. { unfold row_len. rewrite Hrow. reflexivity. }
    rewrite HL, Z.eqb_refl. simpl.
    apply wp_for with (I := fun j s2 => fresh_mat s s2 ans rsa c r (colmerge r c A i j) /\ ext s s2
       /\ row_at s2 x = Some (nth i A [])).
    + auto.
    + intros j s2 Hj (HM2 & HE2 & Hrow2). apply wp_bind. eapply wp_eq.
      { unfold idx_row. rewrite Hrow2, HL.
        replace ((0 <=? Z.of_nat j) && (Z.of_nat j <? Z.of_nat c)) with true by lia.
        rewrite Nat2Z.id. rewrite nth_error_nth' with (d := f0) by lia. reflexivity. }
      change (nth j (nth i A []) f0) with (entry A i j).
      pose proof HM2 as (HO2' & HFr2 & HND2 & Hno2).
      destruct (setc_own s2 ans rsa c r _ j i (entry A i j) HO2' HND2 Hj Hi)
        as (s3 & E3 & HO3 & HF3 & HR3 & _).
      eapply wp_eq; [exact E3|]. rewrite colmerge_step in HO3 by auto.
      split; [unfold fresh_mat; auto|].
      assert (Hin : In (nth j rsa O) rsa).
      { apply nth_In. destruct HO2' as (_ & _ & _ & [HL2 _] & _ & HF2). apply Forall2_length in HF2. lia. }
      assert (Hfr : (nrows s < nth j rsa O)%nat).
      { red in HFr2. rewrite Forall_forall in HFr2. now apply HFr2. }
      split.
      * destruct HE2 as [HF2 HR2]. split; [|eapply rest_trans; eauto].
        eapply frame_trans; eauto. intros y Hy [[] | ->]. lia.
      * destruct HF3 as (_ & HB & _). apply HB; auto.
        assert (Hxin : In x rs) by (eapply nth_error_In; eauto).
        apply own_old in HO. rewrite Forall_forall in HO. specialize (HO _ Hxin). simpl in HO. lia.
    + intros s2 (HM2 & HE2 & _). split; auto.
      replace (colmerge r c A (S i) 0) with (colmerge r c A i c); auto.
      apply mk_ext. intros a b Ha Hb.
      replace ((b <? i) || (b =? i) && (a <? c))%nat with ((b <? S i) || (b =? S i) && (a <? 0))%nat by lia. reflexivity.
  - intros s1 (HM1 & HE1). apply wp_ret. exists rsa. split; auto.
    unfold ptrans. replace (mk c r (fun i j => entry A j i)) with (colmerge r c A r 0); auto.
    apply mk_ext. intros a b Ha Hb. replace ((b <? r) || (b =? r) && (a <? 0))%nat with true by lia. reflexivity.
Qed.

(** ** Sums *)
Lemma wp_Sum0 s m rs r c A : own s m rs r c A -> (1 <= c)%nat ->
  wp (Sum m 0) s (fresh_result s 1 c (psum0 r c A)).
Proof.
  intros HO Hc. unfold Sum. simpl. own_dims. apply wp_bind.
  change 1 with (Z.of_nat 1). apply wp_NewMatrix_; auto.
  intros ans rsa s0 HM HE. apply wp_bind.
  apply wp_for with (I := fun i s1 => fresh_mat s s1 ans rsa 1 c
      (merge 1 c (fun _ j => fsum r (fun i => entry A i j)) (mk 1 c (fun _ _ => f0)) 0 i) /\ ext s s1).
  - rewrite merge_0 by apply shape_mk. auto.
  - intros j s1 Hj (HM1 & HE1). apply wp_bind. eapply wp_eq.
    { apply for_acc_read with (f := fun i a => fadd a (entry A i j)). intros i a Hi.
      erewrite bind_eq by (eapply getc_ext; eauto). reflexivity. }
    change (fold_left (fun a i => fadd a (entry A i j)) (seq 0 r) f0) with (fsum r (fun i => entry A i j)).
    change 0 with (Z.of_nat 0) at 1.
    eapply wp_conseq; [eapply wp_setc_ext; eauto|]. simpl. intros _ s2 H2.
    now rewrite (merge_step 1 c (fun _ j => fsum r (fun i => entry A i j)) (mk 1 c (fun _ _ => f0)) 0 j) in H2 by auto.
  - intros s1 (HM1 & HE1). apply wp_ret. exists rsa. rewrite merge_row, merge_end in HM1. auto.
Qed.

Lemma wp_Sum1 s m rs r c A : own s m rs r c A -> (1 <= r)%nat ->
  wp (Sum m 1) s (fresh_result s 1 r (psum1 r c A)).
Proof.
  intros HO Hc. unfold Sum. simpl. own_dims. apply wp_bind.
  change 1 with (Z.of_nat 1). apply wp_NewMatrix_; auto.
  intros ans rsa s0 HM HE. apply wp_bind.
  apply wp_for with (I := fun i s1 => fresh_mat s s1 ans rsa 1 r
      (merge 1 r (fun _ i => fsum c (fun j => entry A i j)) (mk 1 r (fun _ _ => f0)) 0 i) /\ ext s s1).
  - rewrite merge_0 by apply shape_mk. auto.
  - intros i s1 Hj (HM1 & HE1). apply wp_bind. eapply wp_eq.
    { apply for_acc_read with (f := fun j a => fadd a (entry A i j)). intros j a Hi.
      erewrite bind_eq by (eapply getc_ext; eauto). reflexivity. }
    change (fold_left (fun a j => fadd a (entry A i j)) (seq 0 c) f0) with (fsum c (fun j => entry A i j)).
    change 0 with (Z.of_nat 0) at 1.
    eapply wp_conseq; [eapply wp_setc_ext; eauto|]. simpl. intros _ s2 H2.
    now rewrite (merge_step 1 r (fun _ i => fsum c (fun j => entry A i j)) (mk 1 r (fun _ _ => f0)) 0 i) in H2 by auto.
  - intros s1 (HM1 & HE1). apply wp_ret. exists rsa. rewrite merge_row, merge_end in HM1. auto.
Qed.

(** ** Equals *)
Definition all_cells (r c : nat) (p : nat -> nat -> bool) : bool :=
  forallb (fun i => forallb (p i) (seq 0 c)) (seq 0 r).

Lemma all_cells_true r c p : all_cells r c p = true <-> forall i j, (i < r)%nat -> (j < c)%nat -> p i j = true.
Proof.
  unfold all_cells. rewrite forallb_forall. split.
  - intros H i j Hi Hj. specialize (H i). rewrite in_seq, forallb_forall in H.
    apply H; [lia|]. apply in_seq. lia.
  - intros H i Hi. apply in_seq in Hi. apply forallb_forall. intros j Hj. apply in_seq in Hj. apply H; lia.
Qed.

Lemma fold_and {X} (p : X -> bool) l : forall b,
  fold_left (fun (ok : bool) i => if ok then p i else false) l b = b && forallb p l.
Proof.
  induction l as [|x l IH]; intros b; simpl; [now rewrite andb_true_r|].
  rewrite IH. destruct b; simpl; auto.
Qed.

Lemma Equals_run s m b rs rs2 r c r2 c2 A B :
  own s m rs r c A -> own s b rs2 r2 c2 B ->
  Equals m b s = (Ret ((r =? r2)%nat && (c =? c2)%nat && all_cells r c (fun i j => feq (entry A i j) (entry B i j))), s).
Proof.
  intros HO HO2. unfold Equals. own_dims.
  destruct (Nat.eqb_spec r r2) as [->|Hne].
  2:{ replace (Z.of_nat r =? Z.of_nat r2) with false by lia. reflexivity. }
  destruct (Nat.eqb_spec c c2) as [->|Hne].
  2:{ replace (Z.of_nat c =? Z.of_nat c2) with false by lia. rewrite Z.eqb_refl. reflexivity. }
  rewrite !Z.eqb_refl. cbn [negb orb andb].
  rewrite for_acc_read with (f := fun i (ok : bool) => if ok then forallb (fun j => feq (entry A i j) (entry B i j)) (seq 0 c2) else false).
  - rewrite fold_and. reflexivity.
  - intros i ok Hi.
    rewrite for_acc_read with (f := fun j (ok : bool) => if ok then feq (entry A i j) (entry B i j) else false).
    + rewrite fold_and. destruct ok; reflexivity.
    + intros j ok' Hj. destruct ok'; auto.
      erewrite bind_eq by (eapply getc_own; eauto). erewrite bind_eq by (eapply getc_own; eauto). reflexivity.
Qed.

(** ** Get, Set *)
Lemma Get_run s m rs r c A i j : own s m rs r c A -> (i < r)%nat -> (j < c)%nat ->
  Get m (Z.of_nat i) (Z.of_nat j) s = (Ret (entry A i j), s).
Proof.
  intros HO Hi Hj. unfold Get. own_dims.
  replace ((Z.of_nat i >=? Z.of_nat r) || (Z.of_nat j >=? Z.of_nat c)) with false by lia.
  eapply getc_own; eauto.
Qed.
Lemma Get_err s m row col : row >= mrows m \/ col >= mcols m ->
  Get m row col s = (Fail (EMatIndex row col), s).
Proof. intros H. unfold Get. replace ((row >=? mrows m) || (col >=? mcols m)) with true by lia. reflexivity. Qed.
Lemma Set_err s m row col v : row >= mrows m \/ col >= mcols m ->
  Set_ m row col v s = (Fail (EMatIndex row col), s).
Proof. intros H. unfold Set_. replace ((row >=? mrows m) || (col >=? mcols m)) with true by lia. reflexivity. Qed.
Lemma Set_run s m rs r c A i j v : own s m rs r c A -> NoDup rs -> (i < r)%nat -> (j < c)%nat ->
  exists s', Set_ m (Z.of_nat i) (Z.of_nat j) v s = (Ret tt, s') /\
    own s' m rs r c (pset A i j v) /\ frame (fun x => x = nth i rs O) s s' /\ rest s s'
    /\ h_outs s' = h_outs s /\ nrows s' = nrows s.
Proof.
  intros HO HND Hi Hj. unfold Set_. own_dims.
  replace ((Z.of_nat i >=? Z.of_nat r) || (Z.of_nat j >=? Z.of_nat c)) with false by lia.
  eapply setc_own; eauto.
Qed.



Lemma wp_map_inplace s m rs r c A (f : K -> K) (body : Z -> Z -> M K unit) :
  own s m rs r c A -> NoDup rs ->
  (forall i j s1 A1, (i < r)%nat -> (j < c)%nat -> own s1 m rs r c A1 ->
      wp (body (Z.of_nat i) (Z.of_nat j)) s1 (fun _ s2 =>
        own s2 m rs r c (pset A1 i j (f (entry A1 i j))) /\ frame (among rs) s1 s2 /\ rest s1 s2)) ->
  wp (bind (each_cell (mrows m) (mcols m) body) (fun _ => ret m)) s
     (inplace_result s m rs r c (pmap r c f A)).
Proof.
  intros HO HND Hb. apply wp_bind. eapply wp_conseq.
  - apply wp_inplace with (f := fun i j => f (entry A i j)) (A := A); eauto.
    intros i j s1 A1 Hi Hj HO1 HF1 HR1 HE. rewrite <- HE. now apply Hb.
  - simpl. intros _ s' (HO' & HF & HR). apply wp_ret. repeat split; auto; try apply HR; try apply HF; apply HO'.
Qed.

Lemma own_same_inplace s m rs r c A i j : own s m rs r c A -> (i < r)%nat -> (j < c)%nat ->
  own s m rs r c (pset A i j (entry A i j)) /\ frame (among rs) s s /\ rest s s.
Proof.
  intros HO Hi Hj. erewrite pset_same by (eauto using own_shape). auto using frame_refl, rest_refl.
Qed.

Lemma wp_Clip s m rs r c A : own s m rs r c A -> NoDup rs ->
  wp (Clip m) s (inplace_result s m rs r c (pmap r c clip1 A)).
Proof.
  intros HO HND. apply wp_map_inplace; auto.
  intros i j s1 A1 Hi Hj HO1. apply wp_bind. eapply wp_eq; [eapply getc_own; eauto|].
  unfold clip1. destruct (flt (entry A1 i j) f0); [now apply wp_setc|].
  destruct (flt f1 (entry A1 i j)); [now apply wp_setc|].
  apply wp_ret. now apply own_same_inplace.
Qed.

End WithNum.

Ltac own_dims :=
  repeat match goal with
  | H : own _ ?m _ _ _ _ |- context [mrows ?m] => rewrite (own_rows _ _ _ _ _ _ H)
  | H : own _ ?m _ _ _ _ |- context [mcols ?m] => rewrite (own_cols _ _ _ _ _ _ H)
  end.
