(** * ActivationProofs: behaviour of activation.go, misc.go and accuracy.go. *)
From Coq Require Import String ZArith List Bool Arith Lia ZifyBool Permutation.
From Verif Require Import Num Heap Spec HeapLemmas LoopLemmas Matrix MatrixProofs Activation Misc Accuracy.
Import ListNotations.
Open Scope Z_scope.

Section WithNum.
Context {K : Num}.
Implicit Types s : state K.

Lemma pset_mk r c g i j v : (i < r)%nat -> (j < c)%nat ->
  pset (mk r c g) i j v = mk r c (fun a b => if ((i =? a) && (j =? b))%nat then v else g a b) :> pm K.
Proof.
  intros Hi Hj. eapply shape_ext; [apply shape_pset; apply shape_mk|apply shape_mk|].
  intros a b Ha Hb. rewrite entry_pset with (r := r) (c := c) by (auto; apply shape_mk).
  now rewrite !entry_mk by auto.
Qed.


Lemma wp_RELU s m rs r c A : own s m rs r c A -> NoDup rs ->
  wp (RELU m) s (inplace_result s m rs r c (pmap r c relu1 A)).
Proof.
  intros HO HND. apply wp_map_inplace; auto.
  intros i j s1 A1 Hi Hj HO1. apply wp_bind. eapply wp_eq; [eapply getc_own; eauto|]. now apply wp_setc.
Qed.

Lemma wp_Sigmoid s m rs r c A : own s m rs r c A -> NoDup rs ->
  wp (Sigmoid m) s (inplace_result s m rs r c (pmap r c sigmoid1 A)).
Proof.
  intros HO HND. apply wp_map_inplace; auto.
  intros i j s1 A1 Hi Hj HO1. apply wp_bind. eapply wp_eq; [eapply getc_own; eauto|]. now apply wp_setc.
Qed.

Lemma wp_LeakyRELU s m rs r c A slope : own s m rs r c A -> NoDup rs ->
  wp (LeakyRELU m slope) s (inplace_result s m rs r c (pmap r c (leaky1 slope) A)).
Proof.
  intros HO HND. apply wp_map_inplace; auto.
  intros i j s1 A1 Hi Hj HO1. apply wp_bind. eapply wp_eq; [eapply getc_own; eauto|].
  unfold leaky1. destruct (flt (entry A1 i j) f0); [now apply wp_setc|].
  apply wp_ret. now apply own_same_inplace.
Qed.

Lemma wp_OutputBinaryValues s m rs r c A : own s m rs r c A -> NoDup rs ->
  wp (OutputBinaryValues m) s (inplace_result s m rs r c (pmap r c binary1 A)).
Proof.
  intros HO HND. apply wp_map_inplace; auto.
  intros i j s1 A1 Hi Hj HO1. apply wp_bind. eapply wp_eq; [eapply getc_own; eauto|].
  unfold binary1. destruct (flt (entry A1 i j) lit_half); now apply wp_setc.
Qed.

(** Two-argument in-place loops: the second matrix is read and either disjoint from the first
    or the first itself. *)
Lemma wp_map2_inplace s m rs x rsx r c A X (f : K -> K -> K) (body : Z -> Z -> M K unit) :
  own s m rs r c A -> own s x rsx r c X -> NoDup rs -> disjoint rsx rs ->
  (forall i j s1 A1, (i < r)%nat -> (j < c)%nat -> own s1 m rs r c A1 -> own s1 x rsx r c X ->
      wp (body (Z.of_nat i) (Z.of_nat j)) s1 (fun _ s2 =>
        own s2 m rs r c (pset A1 i j (f (entry A1 i j) (entry X i j))) /\ frame (among rs) s1 s2 /\ rest s1 s2)) ->
  wp (bind (each_cell (mrows m) (mcols m) body) (fun _ => ret m)) s
     (inplace_result s m rs r c (pmap2 r c f A X)).
Proof.
  intros HO HOx HND HD Hb. apply wp_bind. eapply wp_conseq.
  - apply wp_inplace with (f := fun i j => f (entry A i j) (entry X i j)) (A := A); eauto.
    intros i j s1 A1 Hi Hj HO1 HF1 HR1 HE. rewrite <- HE. apply Hb; auto.
    eapply own_frame; eauto. 
  - simpl. intros _ s' (HO' & HF & HR). apply wp_ret. repeat split; auto; try apply HR; try apply HF; apply HO'.
Qed.


Lemma wp_RELUPrime s m rs x rsx r c A X :
  own s m rs r c A -> own s x rsx r c X -> NoDup rs -> disjoint rsx rs ->
  wp (RELUPrime m x) s (inplace_result s m rs r c (pmap2 r c relu_prime1 A X)).
Proof.
  intros HO HOx HND HD. eapply wp_map2_inplace; eauto.
  intros i j s1 A1 Hi Hj HO1 HOx1. apply wp_bind. eapply wp_eq; [eapply getc_own; eauto|].
  unfold relu_prime1. destruct (fle (entry X i j) f0); [now apply wp_setc|].
  apply wp_ret. now apply own_same_inplace.
Qed.

Lemma wp_LeakyRELUPrime s m rs x rsx r c A X slope :
  own s m rs r c A -> own s x rsx r c X -> NoDup rs -> disjoint rsx rs ->
  wp (LeakyRELUPrime m x slope) s (inplace_result s m rs r c (pmap2 r c (leaky_prime1 slope) A X)).
Proof.
  intros HO HOx HND HD. eapply wp_map2_inplace; eauto.
  intros i j s1 A1 Hi Hj HO1 HOx1. apply wp_bind. eapply wp_eq; [eapply getc_own; eauto|].
  unfold leaky_prime1. destruct (flt (entry X i j) f0).
  - apply wp_bind. eapply wp_eq; [eapply getc_own; eauto|]. now apply wp_setc.
  - apply wp_ret. now apply own_same_inplace.
Qed.

Lemma pmap2_ext r c f g (A B A' B' : pm K) :
  (forall i j, (i < r)%nat -> (j < c)%nat -> f (entry A i j) (entry B i j) = g (entry A' i j) (entry B' i j)) ->
  pmap2 r c f A B = pmap2 r c g A' B'.
Proof. intros H. apply mk_ext. auto. Qed.

Lemma wp_SigmoidPrime s m rs x rsx r c A X :
  own s m rs r c A -> own s x rsx r c X -> NoDup rs -> disjoint rsx rs ->
  wp (SigmoidPrime m x) s (inplace_result s m rs r c (pmap2 r c sigmoid_prime1 A X)).
Proof.
  intros HO HOx HND HD. unfold SigmoidPrime. apply wp_bind.
  eapply wp_conseq; [eapply wp_Sigmoid; eauto|]. intros m' s1 (-> & HO1 & HF1 & HR1).
  assert (HOx1 : own s1 x rsx r c X) by (eapply own_frame; eauto).
  eapply wp_conseq.
  - apply wp_map2_inplace with (f := fun v d => fmul (fmul d v) (fsub f1 v)) (rs := rs) (r := r) (c := c)
      (A := pmap r c sigmoid1 A) (X := X) (rsx := rsx) (x := x); auto.
    intros i j s2 A1 Hi Hj HO2 HOx2. apply wp_bind. eapply wp_eq; [eapply getc_own; eauto|].
    apply wp_bind. eapply wp_eq; [eapply getc_own; eauto|]. now apply wp_setc.
  - intros m2 s2 (-> & HO2 & HF2 & HR2). split; [reflexivity|]. split; [|split].
    + erewrite pmap2_ext in HO2; [exact HO2|]. intros i j Hi Hj. simpl.
      unfold pmap. rewrite entry_mk by auto. reflexivity.
    + eapply frame_trans; eauto. tauto.
    + eapply rest_trans; eauto.
Qed.

(** Softmax. *)
Lemma wp_Softmax s m rs r c A : own s m rs r c A -> NoDup rs ->
  wp (Softmax m) s (inplace_result s m rs r c (psoftmax r c A)).
Proof.
  intros HO HND. unfold Softmax. own_dims. apply wp_bind.
  set (sm := fun a b => fdiv (fexp (entry A a b)) (fsum c (fun k => fexp (entry A a k)))).
  set (G1 := fun i j a b => if (a <? i)%nat then sm a b
                      else if ((a =? i) && (b <? j))%nat then fexp (entry A a b) else entry A a b).
  set (G2 := fun i j a b => if ((a <? i) || (a =? i) && (b <? j))%nat then sm a b
                      else if (a =? i)%nat then fexp (entry A a b) else entry A a b).
  set (good := fun (g : nat -> nat -> K) s1 => own s1 m rs r c (mk r c g) /\ frame (among rs) s s1 /\ rest s s1).
  assert (Hset : forall g s1 i j v g', (i < r)%nat -> (j < c)%nat -> good g s1 ->
     (forall a b, (a < r)%nat -> (b < c)%nat -> g' a b = if ((i =? a) && (j =? b))%nat then v else g a b) ->
     wp (setc m (Z.of_nat i) (Z.of_nat j) v) s1 (fun _ s2 => good g' s2)).
  { intros g s1 i j v g' Hi Hj (HO1 & HF1 & HR1) Hg. eapply wp_conseq; [eapply wp_setc; eauto|].
    simpl. intros _ s2 (HO2 & HF2 & HR2). split; [|split].
    - rewrite pset_mk in HO2 by auto. erewrite mk_ext; [exact HO2|]. exact Hg.
    - eapply frame_trans; eauto. tauto.
    - eapply rest_trans; eauto. }
  assert (Hget : forall g s1 i j, (i < r)%nat -> (j < c)%nat -> good g s1 ->
     getc m (Z.of_nat i) (Z.of_nat j) s1 = (Ret (g i j), s1)).
  { intros g s1 i j Hi Hj (HO1 & _). erewrite getc_own by eauto. now rewrite entry_mk. }
  apply wp_for with (I := fun i s1 => good (G1 i 0%nat) s1).
  - split; [|split]; auto using frame_refl, rest_refl.
    erewrite mk_ext; [rewrite (mk_entry r c A); eauto using own_shape|].
    intros a b _ _. unfold G1. replace (a <? 0)%nat with false by lia.
    replace ((a =? 0) && (b <? 0))%nat with false by lia. reflexivity.
  - intros i s1 Hi Hg. apply wp_bind.
    apply wp_for_acc with (I := fun j acc s2 => acc = fsum j (fun k => fexp (entry A i k)) /\ good (G1 i j) s2).
    + auto.
    + intros j acc s2 Hj (-> & Hg2). apply wp_bind. eapply wp_eq; [eapply Hget; eauto|].
      replace (G1 i j i j) with (entry A i j).
      2:{ unfold G1. replace (i <? i)%nat with false by lia. replace ((i =? i) && (j <? j))%nat with false by lia. reflexivity. }
      apply wp_bind. eapply wp_conseq; [eapply (Hset _ _ _ _ _ (G1 i (S j))); eauto|].
      * intros a b Ha Hb. unfold G1.
        destruct (Nat.eqb_spec i a), (Nat.eqb_spec j b); subst; simpl.
        -- replace (a <? a)%nat with false by lia. replace ((a =? a) && (b <? S b))%nat with true by lia. reflexivity.
        -- replace (b <? S j)%nat with (b <? j)%nat by lia. reflexivity.
        -- replace (a =? i)%nat with false by lia. reflexivity.
        -- replace (a =? i)%nat with false by lia. reflexivity.
      * intros [] s3 Hg3. apply wp_bind. eapply wp_eq; [eapply Hget; eauto|].
        apply wp_ret. split; auto. rewrite fsum_S. f_equal. unfold G1.
        replace (i <? i)%nat with false by lia. replace ((i =? i) && (j <? S j))%nat with true by lia. reflexivity.
    + intros acc s2 (-> & Hg2).
      apply wp_for with (I := fun j s3 => good (G2 i j) s3).
      * unfold good in *. erewrite mk_ext; [exact Hg2|]. intros a b Ha Hb. unfold G1, G2.
        destruct (Nat.ltb_spec a i); simpl; auto. destruct (Nat.eqb_spec a i); simpl; auto.
        replace (b <? c)%nat with true by lia. reflexivity.
      * intros j s3 Hj Hg3. apply wp_bind. eapply wp_eq; [eapply Hget; eauto|].
        replace (G2 i j i j) with (fexp (entry A i j)).
        2:{ unfold G2. replace ((i <? i) || (i =? i) && (j <? j))%nat with false by lia. rewrite Nat.eqb_refl. reflexivity. }
        eapply Hset; eauto. intros a b Ha Hb. unfold G2.
        destruct (Nat.eqb_spec i a), (Nat.eqb_spec j b); subst; simpl.
        -- replace ((a <? a) || (a =? a) && (b <? S b))%nat with true by lia. reflexivity.
        -- replace (b <? S j)%nat with (b <? j)%nat by lia. reflexivity.
        -- replace (a =? i)%nat with false by lia. reflexivity.
        -- replace (a =? i)%nat with false by lia. reflexivity.
      * intros s3 Hg3. unfold good in *. erewrite mk_ext; [exact Hg3|]. intros a b Ha Hb. unfold G1, G2.
        destruct (Nat.ltb_spec a (S i)); simpl.
        -- replace ((a <? i) || (a =? i) && (b <? c))%nat with true by lia. reflexivity.
        -- replace ((a <? i) || (a =? i) && (b <? c))%nat with false by lia.
           replace (a =? i)%nat with false by lia. replace ((a =? S i) && (b <? 0))%nat with false by lia. reflexivity.
  - intros s1 (HO1 & HF1 & HR1). apply wp_ret. split; [reflexivity|]. split; [|split]; auto.
    unfold psoftmax. erewrite mk_ext; [exact HO1|]. intros a b Ha Hb. unfold G1.
    replace (a <? r)%nat with true by lia. reflexivity.
Qed.


Lemma wp_SparseToOneHot s m rs r c A (size : nat) (lab : nat -> nat) :
  own s m rs r c A -> (1 <= r)%nat -> (1 <= c)%nat -> (1 <= size)%nat ->
  (forall i, (i < r)%nat -> toZ (entry A i 0) = Z.of_nat (lab i) /\ (lab i < size)%nat) ->
  wp (SparseToOneHot m (Z.of_nat size)) s (fresh_result s r size (onehot r size lab)).
Proof.
  intros HO Hr Hc Hs Hlab. unfold SparseToOneHot.
  replace (Z.of_nat size <=? 0) with false by lia. own_dims.
  apply wp_bind. apply wp_NewMatrix_; auto. intros ans rsa s0 HM HE. apply wp_bind.
  apply wp_for with (I := fun i s1 =>
     fresh_mat s s1 ans rsa r size (mk r size (fun a b => if ((a <? i) && (b =? lab a))%nat then f1 else f0)) /\ ext s s1).
  - split; auto.
  - intros i s1 Hi (HM1 & HE1). apply wp_bind. eapply wp_eq.
    { change 0 with (Z.of_nat 0). eapply getc_ext; eauto. }
    destruct (Hlab i Hi) as (-> & Hl). eapply wp_conseq; [eapply wp_setc_ext; eauto|].
    simpl. intros _ s2 (HM2 & HE2). split; auto. rewrite pset_mk in HM2 by auto.
    erewrite mk_ext; [exact HM2|]. intros a b Ha Hb. simpl.
    destruct (Nat.eqb_spec i a) as [->|Hne]; simpl.
    + replace (a <? S a)%nat with true by lia. replace (a <? a)%nat with false by lia. simpl.
      rewrite Nat.eqb_sym. destruct (lab a =? b)%nat; reflexivity.
    + replace (a <? S i)%nat with (a <? i)%nat by lia. reflexivity.
  - intros s1 (HM1 & HE1). apply wp_ret. exists rsa. split; auto.
    unfold onehot. erewrite mk_ext; [exact HM1|]. intros a b Ha Hb. simpl.
    replace (a <? r)%nat with true by lia. reflexivity.
Qed.


Lemma wp_RowMax s m rs r c A : own s m rs r c A -> (1 <= r)%nat ->
  wp (RowMax m) s (fresh_result s r 1 (row_max r c A)).
Proof.
  intros HO Hr. unfold RowMax. own_dims. apply wp_bind. change 1 with (Z.of_nat 1).
  apply wp_NewMatrix_; auto. intros ans rsa s0 HM HE. apply wp_bind.
  apply wp_for with (I := fun i s1 =>
     fresh_mat s s1 ans rsa r 1 (mk r 1 (fun a b => if (a <? i)%nat then ofZ (Z.of_nat (fst (scan_max c (entry A a)))) else f0)) /\ ext s s1).
  - split; auto. 
  - intros i s1 Hi (HM1 & HE1). apply wp_bind. eapply wp_eq.
    { instantiate (1 := s1). instantiate (1 := (Z.of_nat (fst (scan_max c (entry A i))), snd (scan_max c (entry A i)))).
      unfold for_acc. rewrite Nat2Z.id. unfold scan_max.
      assert (G : forall n k (b : nat * K), (k + n <= c)%nat ->
        loop n (Z.of_nat k) (fun j best => bind (getc m (Z.of_nat i) j) (fun v =>
            if flt (snd best) v then bind (getc m (Z.of_nat i) j) (fun v' => ret (j, v')) else ret best))
          (Z.of_nat (fst b), snd b) s1 =
        let b' := fold_left (fun best j => if flt (snd best) (entry A i j) then (j, entry A i j) else best) (seq k n) b in
        (Ret (Z.of_nat (fst b'), snd b'), s1)).
      { induction n as [|n IH]; intros k b Hk; cbn [loop seq fold_left]; auto.
        assert (Eg : getc m (Z.of_nat i) (Z.of_nat k) s1 = (Ret (entry A i k), s1)) by (eapply getc_ext; eauto; lia).
        replace (Z.of_nat k + 1) with (Z.of_nat (S k)) by lia.
        set (b2 := if flt (snd b) (entry A i k) then (k, entry A i k) else b).
        erewrite bind_eq with (a := (Z.of_nat (fst b2), snd b2)) (s' := s1).
        - apply IH. lia.
        - rewrite (bind_eq _ _ _ _ _ Eg). unfold b2. cbn [snd].
          destruct (flt (snd b) (entry A i k)); [|reflexivity].
          rewrite (bind_eq _ _ _ _ _ Eg). reflexivity. }
      apply (G c 0%nat (0%nat, f0)). lia. }
    cbn [fst]. change 0 with (Z.of_nat 0).
    eapply wp_conseq; [eapply wp_setc_ext; eauto|].
    simpl. intros _ s2 (HM2 & HE2). split; auto. rewrite pset_mk in HM2 by auto.
    erewrite mk_ext; [exact HM2|]. intros a b Ha Hb. simpl.
    destruct (Nat.eqb_spec i a) as [->|Hne]; simpl.
    + replace (a <? S a)%nat with true by lia. destruct b; [reflexivity|lia].
    + replace (a <? S i)%nat with (a <? i)%nat by lia. reflexivity.
  - intros s1 (HM1 & HE1). apply wp_ret. exists rsa. split; auto.
    unfold row_max. erewrite mk_ext; [exact HM1|]. intros a b Ha Hb. simpl.
    replace (a <? r)%nat with true by lia. reflexivity.
Qed.


Lemma fold_count {X} (p : X -> bool) l : forall a : Z,
  fold_left (fun a x => if p x then a + 1 else a) l a = a + Z.of_nat (length (filter p l)).
Proof.
  induction l as [|x l IH]; intros a; simpl; [lia|]. rewrite IH. destruct (p x); simpl; lia.
Qed.

Lemma filter_map_length {X Y} (p : Y -> bool) (f : X -> Y) l :
  length (filter p (map f l)) = length (filter (fun x => p (f x)) l).
Proof. induction l; simpl; auto. destruct (p (f a)); simpl; auto. Qed.

Lemma filter_app_length {X} (p : X -> bool) l1 l2 :
  length (filter p (l1 ++ l2)) = (length (filter p l1) + length (filter p l2))%nat.
Proof. induction l1; simpl; auto. destruct (p a); simpl; lia. Qed.

Lemma fold_count_cells (p : nat -> nat -> bool) l2 : forall l1 (a : Z),
  fold_left (fun a i => fold_left (fun a j => if p i j then a + 1 else a) l2 a) l1 a
  = a + Z.of_nat (length (filter (fun ij => p (fst ij) (snd ij)) (list_prod l1 l2))).
Proof.
  induction l1 as [|i l1 IH]; intros a; simpl; [lia|].
  rewrite IH, (fold_count (fun j => p i j)), filter_app_length, filter_map_length. cbn [fst snd]. lia.
Qed.

Lemma count_cells_le r c p : (count_cells r c p <= r * c)%nat.
Proof.
  unfold count_cells. replace (r * c)%nat with (length (list_prod (seq 0 r) (seq 0 c))) by (now rewrite prod_length, !seq_length).
  generalize (list_prod (seq 0 r) (seq 0 c)) as l. induction l; simpl; auto. destruct (p (fst a) (snd a)); simpl; lia.
Qed.
Lemma count_rows_le r p : (count_rows r p <= r)%nat.
Proof.
  unfold count_rows. rewrite <- (seq_length r 0) at 2.
  generalize (seq 0 r) as l. induction l; simpl; auto. destruct (p a); simpl; lia.
Qed.


Lemma RegressionAccuracy_run s yhat y rs1 rs2 r c P Y prec :
  own s yhat rs1 r c P -> own s y rs2 r c Y ->
  RegressionAccuracy yhat y prec s = (Ret (regression_accuracy r c P Y prec), s).
Proof.
  intros HP HY. unfold RegressionAccuracy. rewrite (own_rows _ _ _ _ _ _ HY), (own_cols _ _ _ _ _ _ HY).
  erewrite bind_eq.
  2:{ apply for_acc_read with (f := fun i (a : Z) =>
        fold_left (fun a j => if flt (fabs (fsub (entry P i j) (entry Y i j))) prec then a + 1 else a) (seq 0 c) a).
      intros i a Hi.
      apply for_acc_read with (f := fun j (a : Z) => if flt (fabs (fsub (entry P i j) (entry Y i j))) prec then a + 1 else a).
      intros j a' Hj. erewrite bind_eq by (eapply getc_own; eauto). erewrite bind_eq by (eapply getc_own; eauto). reflexivity. }
  rewrite fold_count_cells. unfold ret, regression_accuracy, count_cells. rewrite Nat2Z.inj_mul. reflexivity.
Qed.


Lemma scan_max_lt n (g : nat -> K) : (1 <= n)%nat -> (fst (scan_max n g) < n)%nat.
Proof.
  intros Hn. unfold scan_max.
  assert (G : forall l b, (fst b < n)%nat -> (forall j, In j l -> (j < n)%nat) ->
    (fst (fold_left (fun best j => if flt (snd best) (g j) then (j, g j) else best) l b) < n)%nat).
  { induction l as [|x l IH]; intros b Hb Hl; simpl; auto.
    apply IH; [|intros; apply Hl; simpl; auto]. destruct (flt (snd b) (g x)); auto. apply Hl; simpl; auto. }
  apply G; simpl; [lia|]. intros j Hj. apply in_seq in Hj. lia.
Qed.

Lemma wp_CategoricalAccuracy s yhat y rs1 rs2 r c P Y :
  int_faithful K -> Z.of_nat c <= 2 ^ 53 ->
  own s yhat rs1 r c P -> own s y rs2 r c Y -> (1 <= r)%nat -> (1 <= c)%nat ->
  wp (CategoricalAccuracy yhat y) s (fun a s' => a = categorical_accuracy r c P Y /\ ext s s').
Proof.
  intros HI Hc53 HP HY Hr Hc. unfold CategoricalAccuracy. apply wp_bind.
  eapply wp_conseq; [eapply wp_RowMax; eauto|]. intros o s1 (rso & (HO & _) & HE).
  rewrite (own_rows _ _ _ _ _ _ HY). apply wp_bind. eapply wp_eq.
  { apply for_acc_read with (f := fun i (a : Z) => if feq (entry Y i (fst (scan_max c (entry P i)))) f1 then a + 1 else a).
    intros i a Hi. change 0 with (Z.of_nat 0).
    erewrite bind_eq by (eapply getc_own; eauto). unfold row_max at 1. rewrite entry_mk by lia.
    pose proof (scan_max_lt c (entry P i) Hc).
    rewrite HI by (unfold small_int; lia). erewrite bind_eq by (eapply getc_ext; eauto). reflexivity. }
  rewrite fold_count. apply wp_ret. split; auto.
Qed.


Lemma wp_BinaryCategoricalAccuracy s yhat y rs1 rs2 r c P Y :
  own s yhat rs1 r c P -> NoDup rs1 -> own s y rs2 r c Y -> disjoint rs2 rs1 ->
  wp (BinaryCategoricalAccuracy yhat y) s (fun a s' =>
    a = binary_accuracy r c P Y /\ own s' yhat rs1 r c (pmap r c binary1 P) /\ frame (among rs1) s s' /\ rest s s').
Proof.
  intros HP HND HY HD. unfold BinaryCategoricalAccuracy. apply wp_bind.
  eapply wp_conseq; [eapply wp_OutputBinaryValues; eauto|]. intros o s1 (-> & HO & HF & HR).
  assert (HY1 : own s1 y rs2 r c Y) by (eapply own_frame; eauto).
  rewrite (own_rows _ _ _ _ _ _ HY), (own_cols _ _ _ _ _ _ HY). apply wp_bind. eapply wp_eq.
  { apply for_acc_read with (f := fun i (a : Z) =>
        fold_left (fun a j => if feq (binary1 (entry P i j)) (entry Y i j) then a + 1 else a) (seq 0 c) a).
    intros i a Hi.
    apply for_acc_read with (f := fun j (a : Z) => if feq (binary1 (entry P i j)) (entry Y i j) then a + 1 else a).
    intros j a' Hj. erewrite bind_eq by (eapply getc_own; eauto). erewrite bind_eq by (eapply getc_own; eauto).
    unfold pmap. rewrite entry_mk by auto. reflexivity. }
  rewrite fold_count_cells. apply wp_ret. split; auto.
  unfold binary_accuracy, count_cells. rewrite Nat2Z.inj_mul. reflexivity.
Qed.

End WithNum.
