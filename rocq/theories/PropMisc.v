(** * Properties C11-C15: misc.go and accuracy.go. *)
From Coq Require Import String ZArith List Bool Arith Lia Reals QArith Permutation.
From Verif Require Import Num NumR NumB64 NumQ Heap Spec PureSpec Repr Matrix Activation Misc Accuracy
  HeapLemmas LoopLemmas MatrixProofs ActivationProofs MiscProofs MatrixFacts B64Facts MiscFacts RSum Ex MiscGlue.
Import ListNotations.
Open Scope Z_scope.
Open Scope go_scope.

(** ** C11 *)
Theorem C11_bad_size (K : Num) (s : state K) m size : size <= 0 ->
  SparseToOneHot m size s = (Fail (EMsg "nn.SparseToOneHot: Invalid size attribute."), s).
Proof. exact (@C11_bad_size_proof _ _ _ _). Qed.
Print Assumptions C11_bad_size.
(** [lab i] is the i-th label int(X[i][0]); X and everything else is unchanged. *)
Theorem C11_one_hot (K : Num) (s : state K) m rs r c A (size : nat) (lab : nat -> nat) :
  own s m rs r c A -> (1 <= r)%nat -> (1 <= c)%nat -> (1 <= size)%nat ->
  (forall i, (i < r)%nat -> toZ (entry A i 0) = Z.of_nat (lab i) /\ (lab i < size)%nat) ->
  returns (SparseToOneHot m (Z.of_nat size)) s
    (fresh_result s r size (mk r size (fun i j => if (j =? lab i)%nat then f1 else f0))).
Proof. exact (fun H1 H2 H3 H4 H5 => returns_wp _ _ _ (wp_SparseToOneHot s m rs r c A size lab H1 H2 H3 H4 H5)). Qed.
Theorem C11_bad_label_panics (K : Num) (s : state K) m rs r c A size :
  own s m rs r c A -> (1 <= c)%nat -> 0 < size ->
  (exists i, (i < r)%nat /\ ~ 0 <= toZ (entry A i 0) < size) ->
  exists s', SparseToOneHot m size s = (Panic PIndex, s') /\ ext s s'.
Proof. exact (SparseToOneHot_panics s m rs r c A size). Qed.
(** Guarantee "an invalid label is reported as an error": false. *)
Theorem C11_bad_label_error_refuted : exists (s : state QNum) m rs A,
  own s m rs 2 2 A /\ fst (SparseToOneHot m 3 s) = Panic PIndex.
Proof. exact (@C11_bad_label_error_refuted_proof). Qed.
Print Assumptions C11_one_hot.
Print Assumptions C11_bad_label_panics.
Print Assumptions C11_bad_label_error_refuted.
Example C11_ex : own exs mA [1;2]%nat 2 2 pA /\
  (forall i, (i < 2)%nat -> toZ (entry pA i 0) = Z.of_nat (2 * i + 1) /\ (2 * i + 1 < 5)%nat) /\
  (exists s' r1, SparseToOneHot mA 5 exs = (Ret (MkMatrix 2 5 (MkSlice 7 0 2)), s') /\
     row_at s' 12 = Some r1 /\ r1 = [q 0; q 1; q 0; q 0; q 0]).
Proof.
  split; [exact own_mA|]. split.
  - intros i Hi. destruct i as [|[|i]]; [| |lia]; split; try lia; reflexivity.
  - eexists _, _. repeat split; reflexivity.
Qed.

(** ** C12 *)
(** [P] singles out the comparable numbers (everything in R, all but NaN in binary64). *)


Theorem C12_row_max (K : Num) (P : K -> Prop) (s : state K) m rs r c A :
  weak_order P -> P f0 -> (forall i j, (i < r)%nat -> (j < c)%nat -> P (entry A i j)) ->
  own s m rs r c A -> (1 <= r)%nat -> (1 <= c)%nat ->
  exists idx, first_argmax_or_zero r c A idx /\
  returns (RowMax m) s (fresh_result s r 1 (mk r 1 (fun i _ => ofZ (Z.of_nat (idx i))))).
Proof.
  exact (fun HW H0 HP HO Hr Hc => ex_intro _ (fun i => fst (scan_max c (entry A i)))
    (conj (row_max_argmax K P r c A HW H0 HP Hc) (returns_wp _ _ _ (wp_RowMax s m rs r c A HO Hr)))).
Qed.
Theorem C12_row_max_real (s : state RNum) m rs r c A :
  own s m rs r c A -> (1 <= r)%nat -> (1 <= c)%nat ->
  exists idx, first_argmax_or_zero r c A idx /\
  returns (RowMax m) s (fresh_result s r 1 (mk r 1 (fun i _ => IZR (Z.of_nat (idx i))))).
Proof. exact (C12_row_max RNum (fun _ => True) s m rs r c A RNum_weak_order I (fun _ _ _ _ => I)). Qed.
Theorem C12_row_max_binary64 (L : libm) (s : state (B64 L)) m rs r c (A : pm (B64 L)) :
  (forall i j, (i < r)%nat -> (j < c)%nat -> b64_nan (entry A i j) = false) ->
  own s m rs r c A -> (1 <= r)%nat -> (1 <= c)%nat ->
  exists idx, first_argmax_or_zero r c A idx /\
  returns (RowMax m) s (fresh_result s r 1 (mk r 1 (fun i _ => ofZ (Z.of_nat (idx i))))).
Proof. exact (C12_row_max (B64 L) _ s m rs r c A (B64_weak_order L) eq_refl). Qed.
(** Guarantee "the index of the largest entry": false for a row [-2,-1]. *)
Theorem C12_argmax_refuted : exists (s : state QNum) m rs A s' m',
  own s m rs 1 2 A /\ flt (entry A 0 0) (entry A 0 1) = true /\
  RowMax m s = (Ret m', s') /\ fst (Get m' 0 0 s') = Ret (q 0).
Proof. exact (@C12_argmax_refuted_proof). Qed.
Print Assumptions C12_row_max.
Print Assumptions C12_row_max_real.
Print Assumptions C12_row_max_binary64.
Print Assumptions C12_argmax_refuted.
Example C12_ex : exists s' m', RowMax mX exs = (Ret m', s') /\ fst (Get m' 0 0 s') = Ret (q 1) /\ fst (Get m' 1 0 s') = Ret (q 0).
Proof. eexists _, _. repeat split; reflexivity. Qed.

(** ** C13 *)
Theorem C13_threshold (K : Num) (s : state K) m rs r c A : own s m rs r c A -> NoDup rs ->
  returns (OutputBinaryValues m) s
    (inplace_result s m rs r c (mk r c (fun i j => if flt (entry A i j) lit_half then f0 else f1))).
Proof. exact (fun H1 H2 => returns_wp _ _ _ (wp_OutputBinaryValues s m rs r c A H1 H2)). Qed.

(** Thresholding twice = thresholding once. *)
Theorem C13_idempotent_real (s : state RNum) m rs r c A : own s m rs r c A -> NoDup rs ->
  returns (m' <- OutputBinaryValues m ;; OutputBinaryValues m') s
    (inplace_result s m rs r c (mk r c (fun i j => if flt (entry A i j) lit_half then f0 else f1))).
Proof. exact (fun H1 H2 => returns_wp _ _ _ (binary_twice RNum s m rs r c A (proj1 RNum_half) (proj2 RNum_half) H1 H2)). Qed.
Theorem C13_idempotent_binary64 (L : libm) (s : state (B64 L)) m rs r c A : own s m rs r c A -> NoDup rs ->
  returns (m' <- OutputBinaryValues m ;; OutputBinaryValues m') s
    (inplace_result s m rs r c (mk r c (fun i j => if flt (entry A i j) lit_half then f0 else f1))).
Proof. exact (fun H1 H2 => returns_wp _ _ _ (binary_twice (B64 L) s m rs r c A (proj1 (B64_half L)) (proj2 (B64_half L)) H1 H2)). Qed.
(** NaN is not below 0.5, so it becomes 1. *)
Theorem C13_nan_becomes_one (L : libm) (s : state (B64 L)) m rs r c (A : pm (B64 L)) i j :
  own s m rs r c A -> NoDup rs -> (i < r)%nat -> (j < c)%nat -> b64_nan (entry A i j) = true ->
  returns (OutputBinaryValues m) s (fun m' s' => m' = m /\ exists B, own s' m rs r c B /\ entry B i j = f1).
Proof. exact (@C13_nan_becomes_one_proof _ _ _ _ _ _ _ _ _). Qed.
Print Assumptions C13_threshold.
Print Assumptions C13_idempotent_real.
Print Assumptions C13_idempotent_binary64.
Print Assumptions C13_nan_becomes_one.
Example C13_ex : own exs mX [10;11]%nat 2 2 pX /\ NoDup [10;11]%nat /\
  exists s', OutputBinaryValues mX exs = (Ret mX, s') /\ row_at s' 10 = Some [q 0; q 1] /\ row_at s' 11 = Some [q 1; q 0].
Proof. split; [exact own_mX|]. split; [nodup_tac|]. eexists. repeat split; reflexivity. Qed.

(** ** C14 *)
(** One permutation [p] of the row positions is applied to the row slices (and so to the
    contents) of both matrices; the float arrays themselves, and every other array of rows,
    are unchanged ([outs_frame]). *)
Theorem C14_shuffle_pairs (K : Num) (s : state K) X Y rsx rsy r c d A B :
  own s X rsx r c A -> own s Y rsy r d B -> sl_loc (mdata X) <> sl_loc (mdata Y) ->
  returns (ShuffleDataset X Y) s (fun XY s' =>
    XY = (X, Y) /\ outs_frame (sl_loc (mdata X)) (sl_loc (mdata Y)) s s' /\
    exists p, Permutation (seq 0 r) p /\
      own s' X (map (fun k => nth k rsx O) p) r c (map (fun k => nth k A []) p) /\
      own s' Y (map (fun k => nth k rsy O) p) r d (map (fun k => nth k B []) p)).
Proof. exact (fun H1 H2 H3 => returns_wp _ _ _ (wp_ShuffleDataset s X Y rsx rsy r c d A B H1 H2 H3)). Qed.
Print Assumptions C14_shuffle_pairs.
(** The first integer drawn is 0, so the two rows are swapped. *)
Example C14_ex : own exs mX [10;11]%nat 2 2 pX /\ own exs mY [8;9]%nat 2 2 pY /\ sl_loc (mdata mX) <> sl_loc (mdata mY) /\
  exists s', ShuffleDataset mX mY exs = (Ret (mX, mY), s') /\ fst (Get mX 0 0 s') = Ret (q 4) /\ fst (Get mY 0 0 s') = Ret (q 0).
Proof. split; [exact own_mX|]. split; [exact own_mY|]. split; [simpl; lia|]. eexists. repeat split; reflexivity. Qed.

(** ** C15 *)
Theorem C15_regression (K : Num) (s : state K) yhat y rs1 rs2 r c P Y prec :
  own s yhat rs1 r c P -> own s y rs2 r c Y ->
  RegressionAccuracy yhat y prec s =
    (Ret (fdiv (ofZ (Z.of_nat (count_cells r c (fun i j => flt (fabs (fsub (entry P i j) (entry Y i j))) prec))))
               (ofZ (Z.of_nat (r * c)))), s).
Proof. exact (RegressionAccuracy_run s yhat y rs1 rs2 r c P Y prec). Qed.
(** Row i counts as correct if the label at the position of the (first, positive) row maximum
    of the prediction is 1. *)
Theorem C15_categorical (K : Num) (Q : K -> Prop) (s : state K) yhat y rs1 rs2 r c P Y :
  weak_order Q -> Q f0 -> (forall i j, (i < r)%nat -> (j < c)%nat -> Q (entry P i j)) ->
  int_faithful K -> Z.of_nat c <= 2 ^ 53 ->
  own s yhat rs1 r c P -> own s y rs2 r c Y -> (1 <= r)%nat -> (1 <= c)%nat ->
  exists idx, first_argmax_or_zero r c P idx /\
  returns (CategoricalAccuracy yhat y) s (fun a s' =>
    a = fdiv (ofZ (Z.of_nat (count_rows r (fun i => feq (entry Y i (idx i)) f1)))) (ofZ (Z.of_nat r)) /\ ext s s').
Proof.
  exact (fun HW H0 HP HI HC HO HY Hr Hc => ex_intro _ (fun i => fst (scan_max c (entry P i)))
    (conj (row_max_argmax K Q r c P HW H0 HP Hc)
      (returns_wp _ _ _ (wp_CategoricalAccuracy s yhat y rs1 rs2 r c P Y HI HC HO HY Hr Hc)))).
Qed.
Theorem C15_binary (K : Num) (s : state K) yhat y rs1 rs2 r c P Y :
  own s yhat rs1 r c P -> NoDup rs1 -> own s y rs2 r c Y -> disjoint rs2 rs1 ->
  returns (BinaryCategoricalAccuracy yhat y) s (fun a s' =>
    a = fdiv (ofZ (Z.of_nat (count_cells r c (fun i j =>
                feq (if flt (entry P i j) lit_half then f0 else f1) (entry Y i j)))))
             (ofZ (Z.of_nat (r * c))) /\
    own s' yhat rs1 r c (mk r c (fun i j => if flt (entry P i j) lit_half then f0 else f1)) /\
    frame (among rs1) s s' /\ rest s s').
Proof. exact (fun H1 H2 H3 H4 => returns_wp _ _ _ (wp_BinaryCategoricalAccuracy s yhat y rs1 rs2 r c P Y H1 H2 H3 H4)). Qed.
(** "count / total" is between 0 and 1, in R and in binary64, whatever is counted. *)
Theorem C15_unit_interval_real r c p : (1 <= r)%nat -> (1 <= c)%nat ->
  (0 <= fdiv (n := RNum) (ofZ (Z.of_nat (count_cells r c p))) (ofZ (Z.of_nat (r * c))) <= 1)%R.
Proof. exact (@C15_unit_interval_real_proof _ _ _). Qed.
Theorem C15_unit_interval_rows_real r p : (1 <= r)%nat ->
  (0 <= fdiv (n := RNum) (ofZ (Z.of_nat (count_rows r p))) (ofZ (Z.of_nat r)) <= 1)%R.
Proof. exact (@C15_unit_interval_rows_real_proof _ _). Qed.
Theorem C15_unit_interval_binary64 (L : libm) r c p : (1 <= r)%nat -> (1 <= c)%nat -> Z.of_nat (r * c) < 2 ^ 63 ->
  let a := fdiv (n := B64 L) (ofZ (Z.of_nat (count_cells r c p))) (ofZ (Z.of_nat (r * c))) in
  fle f0 a = true /\ fle a f1 = true.
Proof. exact (@C15_unit_interval_binary64_proof _ _ _ _). Qed.
Theorem C15_unit_interval_rows_binary64 (L : libm) r p : (1 <= r)%nat -> Z.of_nat r < 2 ^ 63 ->
  let a := fdiv (n := B64 L) (ofZ (Z.of_nat (count_rows r p))) (ofZ (Z.of_nat r)) in
  fle f0 a = true /\ fle a f1 = true.
Proof. exact (@C15_unit_interval_rows_binary64_proof _ _ _). Qed.
(** Predicting the one-hot labels themselves gives accuracy 1 (binary64 and R). *)
Theorem C15_perfect_binary64 (L : libm) (s : state (B64 L)) yhat y rs1 rs2 r c (lab : nat -> nat) :
  (1 <= r)%nat -> (1 <= c)%nat -> Z.of_nat c <= 2 ^ 53 -> Z.of_nat (r * c) < 2 ^ 63 ->
  (forall i, (i < r)%nat -> (lab i < c)%nat) ->
  own s yhat rs1 r c (onehot r c lab) -> own s y rs2 r c (onehot r c lab) -> NoDup rs1 -> disjoint rs2 rs1 ->
  returns (CategoricalAccuracy yhat y) s (fun a _ => feq a f1 = true) /\
  returns (BinaryCategoricalAccuracy yhat y) s (fun a _ => feq a f1 = true).
Proof. exact (@C15_perfect_binary64_proof _ _ _ _ _ _ _ _ _). Qed.
Theorem C15_perfect_real (s : state RNum) yhat y rs1 rs2 r c (lab : nat -> nat) :
  (1 <= r)%nat -> (1 <= c)%nat -> Z.of_nat c <= 2 ^ 53 ->
  (forall i, (i < r)%nat -> (lab i < c)%nat) ->
  own s yhat rs1 r c (onehot r c lab) -> own s y rs2 r c (onehot r c lab) -> NoDup rs1 -> disjoint rs2 rs1 ->
  returns (CategoricalAccuracy yhat y) s (fun a _ => a = 1%R) /\
  returns (BinaryCategoricalAccuracy yhat y) s (fun a _ => a = 1%R).
Proof. exact (@C15_perfect_real_proof _ _ _ _ _ _ _ _). Qed.
Print Assumptions C15_regression.
Print Assumptions C15_categorical.
Print Assumptions C15_binary.
Print Assumptions C15_unit_interval_real.
Print Assumptions C15_unit_interval_rows_real.
Print Assumptions C15_unit_interval_binary64.
Print Assumptions C15_unit_interval_rows_binary64.
Print Assumptions C15_perfect_binary64.
Print Assumptions C15_perfect_real.
Example C15_ex : own exs mY [8;9]%nat 2 2 pY /\ own exs mX [10;11]%nat 2 2 pX /\ disjoint [8;9]%nat [10;11]%nat /\
  fst (RegressionAccuracy mX mY (q 3) exs) = Ret (1 # 4)%Q /\
  fst (CategoricalAccuracy mX mY exs) = Ret (q 0) /\
  fst (BinaryCategoricalAccuracy mX mY exs) = Ret (q 0) /\
  fst (CategoricalAccuracy mY mY exs) = Ret (q 1).
Proof. split; [exact own_mY|]. split; [exact own_mX|]. split; [disj_tac|]. repeat split; reflexivity. Qed.
