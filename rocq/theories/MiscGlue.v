(** * Proofs and definitions used by PropMisc.v *)
From Coq Require Import String ZArith List Bool Arith Lia Reals QArith Permutation.
From Verif Require Import Num NumR NumB64 NumQ Heap Spec PureSpec Repr Matrix Activation Misc Accuracy
  HeapLemmas LoopLemmas MatrixProofs ActivationProofs MiscProofs MatrixFacts B64Facts MiscFacts RSum Ex.
Import ListNotations.
Open Scope Z_scope.
Open Scope go_scope.

Lemma C11_bad_size_proof (K : Num) (s : state K) m size : size <= 0 ->
  SparseToOneHot m size s = (Fail (EMsg "nn.SparseToOneHot: Invalid size attribute."), s).
Proof. intros H. unfold SparseToOneHot. replace (size <=? 0) with true by lia. reflexivity. Qed.

Lemma C11_bad_label_error_refuted_proof : exists (s : state QNum) m rs A,
  own s m rs 2 2 A /\ fst (SparseToOneHot m 3 s) = Panic PIndex.
Proof. exists exs, mX, [10;11]%nat, pX. split; [exact own_mX|reflexivity]. Qed.

Definition first_argmax_or_zero {K : Num} (r c : nat) (A : pm K) (idx : nat -> nat) : Prop :=
  forall i, (i < r)%nat -> (idx i < c)%nat /\
    ((exists j, (j < c)%nat /\ flt f0 (entry A i j) = true) ->
       (forall j, (j < c)%nat -> flt (entry A i (idx i)) (entry A i j) = false) /\
       (forall j, (j < idx i)%nat -> flt (entry A i j) (entry A i (idx i)) = true)) /\
    ((forall j, (j < c)%nat -> flt f0 (entry A i j) = false) -> idx i = O).

Lemma row_max_argmax (K : Num) (P : K -> Prop) r c (A : pm K) : weak_order P -> P f0 ->
  (forall i j, (i < r)%nat -> (j < c)%nat -> P (entry A i j)) -> (1 <= c)%nat ->
  first_argmax_or_zero r c A (fun i => fst (scan_max c (entry A i))).
Proof.
  intros HW H0 HP Hc i Hi. split; [|split].
  - now apply scan_max_lt.
  - intros Hex. destruct (scan_max_argmax P c (entry A i) HW H0) as (_ & H1 & H2); auto.
  - apply scan_max_nonpos.
Qed.

Lemma C12_argmax_refuted_proof : exists (s : state QNum) m rs A s' m',
  own s m rs 1 2 A /\ flt (entry A 0 0) (entry A 0 1) = true /\
  RowMax m s = (Ret m', s') /\ fst (Get m' 0 0 s') = Ret (q 0).
Proof.
  exists (MkState [[q (-2); q (-1)]] [[1]%nat] [] [] ex_rng true []), (MkMatrix 1 2 (MkSlice 1 0 1)), [1]%nat, [[q (-2); q (-1)]].
  eexists _, _. split; [own_tac|]. repeat split; reflexivity.
Qed.

Lemma binary_twice (K : Num) (s : state K) m rs r c A :
  flt (n := K) f0 lit_half = true -> flt (n := K) f1 lit_half = false -> own s m rs r c A -> NoDup rs ->
  wp (m' <- OutputBinaryValues m ;; OutputBinaryValues m') s (inplace_result s m rs r c (pmap r c binary1 A)).
Proof.
  intros H1 H2 HO HND. apply wp_bind. eapply wp_conseq; [apply wp_OutputBinaryValues; eauto|].
  intros m1 s1 (-> & HO1 & HF1 & HR1). eapply wp_conseq; [apply wp_OutputBinaryValues; eauto|].
  intros m2 s2 (-> & HO2 & HF2 & HR2). split; [reflexivity|]. rewrite pmap_pmap in HO2. split; [|split].
  - erewrite pmap_ext; [exact HO2|]. intros i j _ _. symmetry. apply binary_binary; auto.
  - eapply frame_trans; eauto. tauto.
  - eapply rest_trans; eauto.
Qed.

Lemma C13_nan_becomes_one_proof (L : libm) (s : state (B64 L)) m rs r c (A : pm (B64 L)) i j :
  own s m rs r c A -> NoDup rs -> (i < r)%nat -> (j < c)%nat -> b64_nan (entry A i j) = true ->
  returns (OutputBinaryValues m) s (fun m' s' => m' = m /\ exists B, own s' m rs r c B /\ entry B i j = f1).
Proof.
  intros HO HND Hi Hj HN. apply returns_wp. eapply wp_conseq; [apply wp_OutputBinaryValues; eauto|].
  intros m' s' (-> & HO' & _). split; [reflexivity|]. eexists. split; [exact HO'|].
  unfold pmap. rewrite entry_mk by auto. unfold binary1. simpl. now rewrite b64_lt_nan_l.
Qed.

Lemma C15_unit_interval_real_proof r c p : (1 <= r)%nat -> (1 <= c)%nat ->
  (0 <= fdiv (n := RNum) (ofZ (Z.of_nat (count_cells r c p))) (ofZ (Z.of_nat (r * c))) <= 1)%R.
Proof.
  intros Hr Hc. pose proof (count_cells_le r c p). assert (1 <= r * c)%nat by nia. simpl.
  apply IZR_le_frac; lia.
Qed.

Lemma C15_unit_interval_rows_real_proof r p : (1 <= r)%nat ->
  (0 <= fdiv (n := RNum) (ofZ (Z.of_nat (count_rows r p))) (ofZ (Z.of_nat r)) <= 1)%R.
Proof. intros Hr. pose proof (count_rows_le r p). simpl. apply IZR_le_frac; lia. Qed.

Lemma C15_unit_interval_binary64_proof (L : libm) r c p : (1 <= r)%nat -> (1 <= c)%nat -> Z.of_nat (r * c) < 2 ^ 63 ->
  let a := fdiv (n := B64 L) (ofZ (Z.of_nat (count_cells r c p))) (ofZ (Z.of_nat (r * c))) in
  fle f0 a = true /\ fle a f1 = true.
Proof. intros Hr Hc Hb. pose proof (count_cells_le r c p). apply b64_ratio_01; nia. Qed.

Lemma C15_unit_interval_rows_binary64_proof (L : libm) r p : (1 <= r)%nat -> Z.of_nat r < 2 ^ 63 ->
  let a := fdiv (n := B64 L) (ofZ (Z.of_nat (count_rows r p))) (ofZ (Z.of_nat r)) in
  fle f0 a = true /\ fle a f1 = true.
Proof. intros Hr Hb. pose proof (count_rows_le r p). apply b64_ratio_01; lia. Qed.

Lemma C15_perfect_binary64_proof (L : libm) (s : state (B64 L)) yhat y rs1 rs2 r c (lab : nat -> nat) :
  (1 <= r)%nat -> (1 <= c)%nat -> Z.of_nat c <= 2 ^ 53 -> Z.of_nat (r * c) < 2 ^ 63 ->
  (forall i, (i < r)%nat -> (lab i < c)%nat) ->
  own s yhat rs1 r c (onehot r c lab) -> own s y rs2 r c (onehot r c lab) -> NoDup rs1 -> disjoint rs2 rs1 ->
  returns (CategoricalAccuracy yhat y) s (fun a _ => feq a f1 = true) /\
  returns (BinaryCategoricalAccuracy yhat y) s (fun a _ => feq a f1 = true).
Proof.
  intros Hr Hc Hc53 Hrc Hlab HO1 HO2 HND HD. destruct (B64_01 L) as (E00 & E11 & _ & L01 & _ & L10 & L00).
  split; apply returns_wp.
  - eapply wp_conseq; [eapply wp_CategoricalAccuracy; eauto using B64_int_faithful|]. intros a s' (-> & _).
    unfold categorical_accuracy. rewrite perfect_rows by auto. apply b64_ratio_1. nia.
  - eapply wp_conseq; [eapply wp_BinaryCategoricalAccuracy; eauto|]. intros a s' (-> & _).
    unfold binary_accuracy. rewrite perfect_cells by (auto; apply B64_half). apply b64_ratio_1. nia.
Qed.

Lemma C15_perfect_real_proof (s : state RNum) yhat y rs1 rs2 r c (lab : nat -> nat) :
  (1 <= r)%nat -> (1 <= c)%nat -> Z.of_nat c <= 2 ^ 53 ->
  (forall i, (i < r)%nat -> (lab i < c)%nat) ->
  own s yhat rs1 r c (onehot r c lab) -> own s y rs2 r c (onehot r c lab) -> NoDup rs1 -> disjoint rs2 rs1 ->
  returns (CategoricalAccuracy yhat y) s (fun a _ => a = 1%R) /\
  returns (BinaryCategoricalAccuracy yhat y) s (fun a _ => a = 1%R).
Proof.
  intros Hr Hc Hc53 Hlab HO1 HO2 HND HD. destruct RNum_01 as (E00 & E11 & L01 & L10 & L00).
  split; apply returns_wp.
  - eapply wp_conseq; [eapply wp_CategoricalAccuracy; eauto using RNum_int_faithful|]. intros a s' (-> & _).
    unfold categorical_accuracy. rewrite perfect_rows by auto. apply Rinv_r. apply IZR_neq. nia.
  - eapply wp_conseq; [eapply wp_BinaryCategoricalAccuracy; eauto|]. intros a s' (-> & _).
    unfold binary_accuracy. rewrite perfect_cells by (auto; apply RNum_half). apply Rinv_r. apply IZR_neq. nia.
Qed.
