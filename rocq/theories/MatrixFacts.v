(** * MatrixFacts: consequences of the matrix specifications used by the property files. *)
From Coq Require Import String ZArith List Bool Arith Lia ZifyBool.
From Verif Require Import Num Heap Spec HeapLemmas LoopLemmas Matrix MatrixProofs Activation Misc
  ActivationProofs LayerProofs MiscProofs.
Import ListNotations.
Open Scope Z_scope.

Section WithNum.
Context {K : Num}.
Implicit Types s : state K.

Lemma returns_wp {A} (m : M K A) s Q : wp m s Q -> returns m s Q.
Proof. intros H. apply wp_ex in H. exact H. Qed.

Lemma fresh_result_trans s s1 s2 r c (A : pm K) m : ext s s1 -> fresh_result s1 r c A m s2 -> fresh_result s r c A m s2.
Proof.
  intros HE (rs & HM & HE2). exists rs. split; [|exact (ext_trans _ _ _ HE HE2)].
  destruct HE as [HF _]. eapply fresh_mat_mono; eauto.
Qed.
Lemma fresh_result_ext s r c (A : pm K) m s' : fresh_result s r c A m s' -> ext s s'.
Proof. intros (rs & _ & H). exact H. Qed.
Lemma fresh_result_own s r c (A : pm K) m s' : fresh_result s r c A m s' -> exists rs, own s' m rs r c A.
Proof. intros (rs & (H & _) & _). eauto. Qed.

(** One call after the other. *)
Lemma fresh_then {X} s r c (A : pm K) (m1 : M K matrix) (k : matrix -> M K X) (Q : X -> state K -> Prop) :
  wp m1 s (fresh_result s r c A) ->
  (forall m rs s1, own s1 m rs r c A -> ext s s1 -> wp (k m) s1 Q) -> wp (bind m1 k) s Q.
Proof.
  intros H1 H2. apply wp_bind. eapply wp_conseq; [exact H1|]. simpl. intros m s1 HR.
  destruct (fresh_result_own _ _ _ _ _ _ HR) as (rs & HO). eapply H2; eauto using fresh_result_ext.
Qed.

Lemma ptrans_ptrans r c (A : pm K) : shape r c A -> ptrans c r (ptrans r c A) = A.
Proof.
  intros HS. unfold ptrans. transitivity (mk r c (entry A)); [|now apply mk_entry]. apply mk_ext. intros i j Hi Hj. now rewrite entry_mk.
Qed.
Lemma ptrans_pdot r k c (A B : pm K) : (forall x y : K, fmul x y = fmul y x) ->
  ptrans r c (pdot r k c A B) = pdot c k r (ptrans k c B) (ptrans r k A).
Proof.
  intros HC. unfold ptrans, pdot. apply mk_ext. intros i j Hi Hj. rewrite entry_mk by auto.
  apply fsum_ext. intros n Hn. rewrite !entry_mk by auto. apply HC.
Qed.

Lemma pset_as_mk r c (A : pm K) i j v : shape r c A -> (i < r)%nat -> (j < c)%nat ->
  pset A i j v = mk r c (fun a b => if ((a =? i) && (b =? j))%nat then v else entry A a b).
Proof.
  intros HS Hi Hj. rewrite <- (mk_entry r c A HS) at 1. rewrite pset_mk by auto. apply mk_ext. intros a b _ _.
  now rewrite (Nat.eqb_sym i a), (Nat.eqb_sym j b).
Qed.

Lemma getc_neg_row s m rs r c A row col : own s m rs r c A -> row < 0 -> getc m row col s = (Panic PIndex, s).
Proof. intros HO Hr. unfold getc, bind, idx_out. replace (0 <=? row) with false by lia. reflexivity. Qed.
Lemma getc_neg_col s m rs r c A i col : own s m rs r c A -> (i < r)%nat -> col < 0 -> getc m (Z.of_nat i) col s = (Panic PIndex, s).
Proof.
  intros HO Hi Hc. destruct (own_ref _ _ _ _ _ _ _ HO Hi) as (x & Hx & Hidx & Hrow & _).
  unfold getc. rewrite (bind_eq _ _ _ _ _ Hidx). unfold idx_row. rewrite Hrow.
  replace (0 <=? col) with false by lia. reflexivity.
Qed.
Lemma Get_negative s m rs r c A row col : own s m rs r c A -> row < Z.of_nat r -> col < Z.of_nat c -> row < 0 \/ col < 0 ->
  Get m row col s = (Panic PIndex, s).
Proof.
  intros HO Hr Hc Hneg. unfold Get. rewrite (own_rows _ _ _ _ _ _ HO), (own_cols _ _ _ _ _ _ HO).
  replace ((row >=? Z.of_nat r) || (col >=? Z.of_nat c)) with false by lia.
  destruct (Z.ltb_spec row 0).
  - eapply getc_neg_row; eauto.
  - replace row with (Z.of_nat (Z.to_nat row)) by lia. eapply getc_neg_col; eauto; lia.
Qed.
Lemma Set_negative s m rs r c A row col v : own s m rs r c A -> row < Z.of_nat r -> col < Z.of_nat c -> row < 0 \/ col < 0 ->
  Set_ m row col v s = (Panic PIndex, s).
Proof.
  intros HO Hr Hc Hneg. unfold Set_. rewrite (own_rows _ _ _ _ _ _ HO), (own_cols _ _ _ _ _ _ HO).
  replace ((row >=? Z.of_nat r) || (col >=? Z.of_nat c)) with false by lia.
  destruct (Z.ltb_spec row 0).
  - unfold setc, bind, idx_out. replace (0 <=? row) with false by lia. reflexivity.
  - replace row with (Z.of_nat (Z.to_nat row)) by lia.
    assert (Hi : (Z.to_nat row < r)%nat) by lia.
    destruct (own_ref _ _ _ _ _ _ _ HO Hi) as (x & Hx & Hidx & Hrow & _).
    unfold setc. rewrite (bind_eq _ _ _ _ _ Hidx). unfold set_row. destruct x as [|x]; auto. simpl in Hrow. rewrite Hrow.
    replace (0 <=? col) with false by lia. reflexivity.
Qed.

(** Set changes one cell: every other row keeps its contents, and so do the other cells of that row. *)
Lemma Set_spec s m rs r c A i j v : own s m rs r c A -> NoDup rs -> (i < r)%nat -> (j < c)%nat ->
  exists s', Set_ m (Z.of_nat i) (Z.of_nat j) v s = (Ret tt, s') /\
    own s' m rs r c (mk r c (fun a b => if ((a =? i) && (b =? j))%nat then v else entry A a b)) /\
    frame (fun x => x = nth i rs O) s s' /\ rest s s' /\
    Get m (Z.of_nat i) (Z.of_nat j) s' = (Ret v, s').
Proof.
  intros HO HND Hi Hj. destruct (Set_run _ _ _ _ _ _ _ _ v HO HND Hi Hj) as (s' & E & HO' & HF & HR & _).
  rewrite (pset_as_mk r c) in HO' by eauto using own_shape. exists s'. split; [exact E|]. split; [exact HO'|]. split; auto. split; auto.
  rewrite (Get_run _ _ _ _ _ _ _ _ HO' Hi Hj). rewrite entry_mk by auto. now rewrite !Nat.eqb_refl.
Qed.

Lemma Equals_sym s m b rs rs2 r c r2 c2 A B : (forall x y : K, feq x y = feq y x) ->
  own s m rs r c A -> own s b rs2 r2 c2 B -> Equals m b s = Equals b m s.
Proof.
  intros HC H1 H2. rewrite (Equals_run _ _ _ _ _ _ _ _ _ _ _ H1 H2), (Equals_run _ _ _ _ _ _ _ _ _ _ _ H2 H1).
  rewrite (Nat.eqb_sym r2 r), (Nat.eqb_sym c2 c).
  destruct (Nat.eqb_spec r r2), (Nat.eqb_spec c c2); subst; cbn [andb]; auto.
  do 2 f_equal. apply eq_true_iff_eq. rewrite !all_cells_true. split; intros H i j Hi Hj; rewrite HC; auto.
Qed.

(** Sum with a bad axis. *)
Lemma Sum_panics s m axis : axis <> 0 -> axis <> 1 ->
  Sum m axis s = (Panic (PUser "nn.Matrix: Invalid for sum axis"%string), s).
Proof. intros H0 H1. unfold Sum. replace (axis =? 0) with false by lia. replace (axis =? 1) with false by lia. reflexivity. Qed.

End WithNum.
