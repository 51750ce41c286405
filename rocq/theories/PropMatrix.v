(** * Properties C01-C10: matrices.

    [returns m s Q]: the call returns normally with [Q result newstate].
    A result [(Fail e, s)] is a returned error with the state unchanged. *)
From Coq Require Import String ZArith List Bool Arith Lia Reals QArith.
From Verif Require Import Num NumR NumB64 NumQ Heap Spec PureSpec Repr Matrix Activation Misc
  HeapLemmas LoopLemmas MatrixProofs ActivationProofs LayerProofs MiscProofs MatrixFacts RSum Ex MatrixGlue.
Import ListNotations.
Open Scope Z_scope.
Open Scope go_scope.

(** ** C01 *)
Theorem C01_NewMatrix_error (K : Num) (s : state K) rows cols :
  rows < 1 \/ cols < 1 -> NewMatrix rows cols s = (Fail (EMatDims rows cols), s).
Proof. exact (NewMatrix_err s rows cols). Qed.
Print Assumptions C01_NewMatrix_error.
Theorem C01_NewMatrix_fresh_zero (K : Num) (s : state K) (r c : nat) :
  (1 <= r)%nat -> (1 <= c)%nat ->
  returns (NewMatrix (Z.of_nat r) (Z.of_nat c)) s (fresh_result s r c (mk r c (fun _ _ => f0))).
Proof. exact (@C01_NewMatrix_fresh_zero_proof _ _ _ _). Qed.
Print Assumptions C01_NewMatrix_fresh_zero.
Example C01_ex : fst (NewMatrix 2 3 exs) = Ret (MkMatrix 2 3 (MkSlice 7 0 2)).
Proof. reflexivity. Qed.

(** ** C02 *)
Theorem C02_from_slice (K : Num) (s : state K) sl rs rows :
  slice_view s sl rs rows ->
  NewMatrixFromSlice sl s =
    (match rows with
     | [] => Fail (EMatDims 0 0)
     | row0 :: _ =>
        if (length row0 <? 1)%nat then Fail (EMatDims (Z.of_nat (length rows)) (Z.of_nat (length row0)))
        else Ret (MkMatrix (Z.of_nat (length rows)) (Z.of_nat (length row0)) sl)
     end, s).
Proof. exact (@C02_from_slice_proof _ _ _ _ _). Qed.
Print Assumptions C02_from_slice.
(** On a rectangular slice the matrix is well formed on the caller's own rows [rs]; a cell
    written through the matrix is seen through the slice, and conversely. *)
Theorem C02_shares_storage (K : Num) (s : state K) sl rs rows r c i j v :
  slice_view s sl rs rows -> shape r c rows -> NoDup rs -> (i < r)%nat -> (j < c)%nat ->
  let m := MkMatrix (Z.of_nat r) (Z.of_nat c) sl in
  let rows' := mk r c (fun a b => if ((a =? i) && (b =? j))%nat then v else entry rows a b) in
  NewMatrixFromSlice sl s = (Ret m, s) /\ own s m rs r c rows /\
  (exists s', Set_ m (Z.of_nat i) (Z.of_nat j) v s = (Ret tt, s') /\ slice_view s' sl rs rows') /\
  (exists s', set_row (nth i rs O) (Z.of_nat j) v s = (Ret tt, s') /\ own s' m rs r c rows').
Proof. exact (@C02_shares_storage_proof _ _ _ _ _ _ _ _ _ _). Qed.
Print Assumptions C02_shares_storage.
Example C02_ex : slice_view exs (MkSlice 1 0 2) [1;2]%nat pA /\ shape 2 2 pA.
Proof. split; [exact (own_slice_view _ _ _ _ _ _ own_mA)|exact (own_shape _ _ _ _ _ _ own_mA)]. Qed.
(** Guarantee "a nil error means rectangular": false. *)
Theorem C02_rectangular_refuted :
  exists (s : state QNum) sl m, NewMatrixFromSlice sl s = (Ret m, s) /\
    0 <= 1 < mrows m /\ 0 <= 1 < mcols m /\ Get m 1 1 s = (Panic PIndex, s).
Proof. exact (@C02_rectangular_refuted_proof). Qed.
Print Assumptions C02_rectangular_refuted.

(** ** C03 *)
Theorem C03_set_then_get (K : Num) (s : state K) m rs r c A i j v :
  own s m rs r c A -> NoDup rs -> (i < r)%nat -> (j < c)%nat ->
  exists s', Set_ m (Z.of_nat i) (Z.of_nat j) v s = (Ret tt, s') /\
    own s' m rs r c (mk r c (fun a b => if ((a =? i) && (b =? j))%nat then v else entry A a b)) /\
    frame (fun x => x = nth i rs O) s s' /\ rest s s' /\
    Get m (Z.of_nat i) (Z.of_nat j) s' = (Ret v, s').
Proof. exact (Set_spec s m rs r c A i j v). Qed.
Theorem C03_get_reads (K : Num) (s : state K) m rs r c A i j :
  own s m rs r c A -> (i < r)%nat -> (j < c)%nat -> Get m (Z.of_nat i) (Z.of_nat j) s = (Ret (entry A i j), s).
Proof. exact (Get_run s m rs r c A i j). Qed.
Print Assumptions C03_get_reads.
Theorem C03_out_of_bounds (K : Num) (s : state K) m row col v :
  row >= mrows m \/ col >= mcols m ->
  Get m row col s = (Fail (EMatIndex row col), s) /\ Set_ m row col v s = (Fail (EMatIndex row col), s).
Proof. exact (fun H => conj (Get_err s m row col H) (Set_err s m row col v H)). Qed.
Theorem C03_negative_index_panics (K : Num) (s : state K) m rs r c A row col v :
  own s m rs r c A -> row < Z.of_nat r -> col < Z.of_nat c -> row < 0 \/ col < 0 ->
  Get m row col s = (Panic PIndex, s) /\ Set_ m row col v s = (Panic PIndex, s).
Proof. exact (fun H1 H2 H3 H4 => conj (Get_negative s m rs r c A row col H1 H2 H3 H4) (Set_negative s m rs r c A row col v H1 H2 H3 H4)). Qed.
(** Guarantee "a bad index is an error": false for every negative index below the bounds. *)
Theorem C03_bad_index_error_refuted : exists (s : state QNum) m rs A,
  own s m rs 2 2 A /\ Get m (-1) 0 s = (Panic PIndex, s) /\ Set_ m 0 (-1) (q 7) s = (Panic PIndex, s).
Proof. exact (@C03_bad_index_error_refuted_proof). Qed.
Print Assumptions C03_set_then_get.
Print Assumptions C03_out_of_bounds.
Print Assumptions C03_negative_index_panics.
Print Assumptions C03_bad_index_error_refuted.
Example C03_ex : own exs mA [1;2]%nat 2 2 pA /\ NoDup [1;2]%nat /\ fst (Get mA 1 0 exs) = Ret (q 3) /\
  fst (Get mA (-1) 0 exs) = Panic PIndex.
Proof. split; [exact own_mA|]. split; [nodup_tac|]. split; reflexivity. Qed.

(** ** C04 *)
(** GetRow hands out the live row: a write through it is a write to the matrix. *)
Theorem C04_GetRow_alias (K : Num) (s : state K) m rs r c A i j v :
  own s m rs r c A -> NoDup rs -> (i < r)%nat -> (j < c)%nat ->
  GetRow m (Z.of_nat i) s = (Ret (nth i rs O), s) /\ row_at s (nth i rs O) = Some (nth i A []) /\
  exists s', set_row (nth i rs O) (Z.of_nat j) v s = (Ret tt, s') /\
    own s' m rs r c (mk r c (fun a b => if ((a =? i) && (b =? j))%nat then v else entry A a b)).
Proof. exact (@C04_GetRow_alias_proof _ _ _ _ _ _ _ _ _ _). Qed.
Theorem C04_GetColumn_copy (K : Num) (s : state K) m rs r c A j : own s m rs r c A -> (j < c)%nat ->
  exists x s', GetColumn m (Z.of_nat j) s = (Ret x, s') /\ (nrows s < x)%nat /\
    row_at s' x = Some (map (fun i => entry A i j) (seq 0 r)) /\ ext s s'.
Proof. exact (GetColumn_run s m rs r c A j). Qed.
(** SetRow installs the caller's slice [values] itself as row i. *)
Theorem C04_SetRow_alias (K : Num) (s : state K) m rs r c A i values row :
  own s m rs r c A -> (i < r)%nat -> row_at s values = Some row -> length row = c ->
  exists s', SetRow m (Z.of_nat i) values s = (Ret tt, s') /\
    own s' m (upd i values rs) r c (upd i row A) /\ h_rows s' = h_rows s /\ rest s s' /\
    (forall o arr, o <> sl_loc (mdata m) -> out_at s o = Some arr -> out_at s' o = Some arr).
Proof. exact (SetRow_run s m rs r c A i values row). Qed.
Theorem C04_SetColumn_copy (K : Num) (s : state K) m rs r c A j values col :
  own s m rs r c A -> NoDup rs -> (j < c)%nat -> row_at s values = Some col -> length col = r -> ~ In values rs ->
  exists s', SetColumn m (Z.of_nat j) values s = (Ret tt, s') /\
    own s' m rs r c (mk r c (fun a b => if (b =? j)%nat then nth a col f0 else entry A a b)) /\
    frame (among rs) s s' /\ rest s s'.
Proof. exact (SetColumn_run s m rs r c A j values col). Qed.
Theorem C04_errors (K : Num) (s : state K) m k values l :
  (k >= mrows m -> GetRow m k s = (Fail (EMatIndex k (-1)), s) /\ SetRow m k values s = (Fail (EMatIndex k (-1)), s)) /\
  (k >= mcols m -> GetColumn m k s = (Fail (EMatIndex (-1) k), s) /\ SetColumn m k values s = (Fail (EMatIndex (-1) k), s)) /\
  (row_at s values = Some l -> k < mrows m -> Z.of_nat (length l) <> mcols m ->
     SetRow m k values s = (Fail (ESliceDims (Z.of_nat (length l))), s)) /\
  (row_at s values = Some l -> k < mcols m -> Z.of_nat (length l) <> mrows m ->
     SetColumn m k values s = (Fail (ESliceDims (Z.of_nat (length l))), s)).
Proof.
  exact (conj (fun H => conj (GetRow_err s m k H) (SetRow_err_index s m k values H))
        (conj (fun H => conj (GetColumn_err s m k H) (SetColumn_err_index s m k values H))
        (conj (fun H1 H2 H3 => SetRow_err_len s m k values l H2 H1 H3)
              (fun H1 H2 H3 => SetColumn_err_len s m k values l H2 H1 H3)))).
Qed.
Print Assumptions C04_GetRow_alias.
Print Assumptions C04_GetColumn_copy.
Print Assumptions C04_SetRow_alias.
Print Assumptions C04_SetColumn_copy.
Print Assumptions C04_errors.
Example C04_ex : own exs mA [1;2]%nat 2 2 pA /\ row_at exs 3 = Some [q 5; q 6] /\ ~ In 3%nat [1;2]%nat /\
  fst (Get mA 0 1 (snd (SetRow mA 0 3%nat exs))) = Ret (q 6) /\
  fst (Get mA 1 0 (snd (SetColumn mA 0 3%nat exs))) = Ret (q 6).
Proof. split; [exact own_mA|]. repeat split; simpl; lia. Qed.

(** ** C05 *)
Theorem C05_Add (K : Num) (s : state K) m b rs rs2 r c A B :
  own s m rs r c A -> own s b rs2 r c B -> (1 <= r)%nat -> (1 <= c)%nat ->
  returns (Add m b) s (fresh_result s r c (mk r c (fun i j => fadd (entry A i j) (entry B i j)))).
Proof. exact (fun H1 H2 H3 H4 => returns_wp _ _ _ (wp_Add s m b rs rs2 r c A B H1 H2 H3 H4)). Qed.
Theorem C05_Sub (K : Num) (s : state K) m b rs rs2 r c A B :
  own s m rs r c A -> own s b rs2 r c B -> (1 <= r)%nat -> (1 <= c)%nat ->
  returns (Sub m b) s (fresh_result s r c (mk r c (fun i j => fsub (entry A i j) (entry B i j)))).
Proof. exact (fun H1 H2 H3 H4 => returns_wp _ _ _ (wp_Sub s m b rs rs2 r c A B H1 H2 H3 H4)). Qed.
Theorem C05_Neg_Scalar (K : Num) (s : state K) m rs r c A a :
  own s m rs r c A -> (1 <= r)%nat -> (1 <= c)%nat ->
  returns (Neg m) s (fresh_result s r c (mk r c (fun i j => fneg (entry A i j)))) /\
  returns (AddScalar m a) s (fresh_result s r c (mk r c (fun i j => fadd (entry A i j) a))) /\
  returns (MulScalar m a) s (fresh_result s r c (mk r c (fun i j => fmul (entry A i j) a))) /\
  returns (PowScalar m a) s (fresh_result s r c (mk r c (fun i j => fpow (entry A i j) a))).
Proof.
  exact (fun H1 H2 H3 => conj (returns_wp _ _ _ (wp_Neg s m rs r c A H1 H2 H3))
    (conj (returns_wp _ _ _ (wp_AddScalar s m rs r c A a H1 H2 H3))
    (conj (returns_wp _ _ _ (wp_MulScalar s m rs r c A a H1 H2 H3)) (returns_wp _ _ _ (wp_PowScalar s m rs r c A a H1 H2 H3))))).
Qed.
Theorem C05_shape_error (K : Num) (s : state K) m b :
  mrows m <> mrows b \/ mcols m <> mcols b ->
  Add m b s = (Fail (EMatDims (mrows b) (mcols b)), s) /\ Sub m b s = (Fail (EMatDims (mrows b) (mcols b)), s).
Proof. exact (fun H => conj (Add_err s m b H) (Sub_err s m b H)). Qed.
Print Assumptions C05_Add. Print Assumptions C05_Sub. Print Assumptions C05_Neg_Scalar. Print Assumptions C05_shape_error.
Example C05_ex : own exs mA [1;2]%nat 2 2 pA /\ own exs mB [3;4]%nat 2 2 pB /\
  fst (bind (Add mA mB) (fun m => Get m 1 0) exs) = Ret (q 10) /\ mrows mA <> mrows mBias.
Proof. split; [exact own_mA|]. split; [exact own_mB|]. split; [reflexivity|discriminate]. Qed.

(** ** C06 *)
Theorem C06_Dot (K : Num) (s : state K) m b rs rs2 r k c A B :
  own s m rs r k A -> own s b rs2 k c B -> (1 <= r)%nat -> (1 <= c)%nat ->
  returns (Dot m b) s (fresh_result s r c (mk r c (fun i j => fsum k (fun n => fmul (entry A i n) (entry B n j))))).
Proof. exact (fun H1 H2 H3 H4 => returns_wp _ _ _ (wp_Dot s m b rs rs2 r k c A B H1 H2 H3 H4)). Qed.
Theorem C06_Dot_error (K : Num) (s : state K) m b : mcols m <> mrows b ->
  Dot m b s = (Fail (EMatDims (mrows b) (mcols b)), s).
Proof. exact (Dot_err s m b). Qed.
(** Exact arithmetic: associativity and distributivity, as programs. *)
Theorem C06_Dot_assoc (s : state RNum) a b d rs1 rs2 rs3 n k l c A B D :
  own s a rs1 n k A -> own s b rs2 k l B -> own s d rs3 l c D ->
  (1 <= n)%nat -> (1 <= k)%nat -> (1 <= l)%nat -> (1 <= c)%nat ->
  exists R, returns (ab <- Dot a b ;; Dot ab d) s (fun m s' => exists rs, own s' m rs n c R) /\
            returns (bd <- Dot b d ;; Dot a bd) s (fun m s' => exists rs, own s' m rs n c R).
Proof. exact (@C06_Dot_assoc_proof _ _ _ _ _ _ _ _ _ _ _ _ _ _). Qed.
Theorem C06_Dot_distributes (s : state RNum) a b d rs1 rs2 rs3 n k c A B D :
  own s a rs1 n k A -> own s b rs2 n k B -> own s d rs3 k c D ->
  (1 <= n)%nat -> (1 <= k)%nat -> (1 <= c)%nat ->
  exists R, returns (ab <- Add a b ;; Dot ab d) s (fun m s' => exists rs, own s' m rs n c R) /\
            returns (ad <- Dot a d ;; bd <- Dot b d ;; Add ad bd) s (fun m s' => exists rs, own s' m rs n c R).
Proof. exact (@C06_Dot_distributes_proof _ _ _ _ _ _ _ _ _ _ _ _ _). Qed.
Print Assumptions C06_Dot. Print Assumptions C06_Dot_error. Print Assumptions C06_Dot_assoc. Print Assumptions C06_Dot_distributes.
Example C06_ex : own exs mA [1;2]%nat 2 2 pA /\ own exs mB [3;4]%nat 2 2 pB /\
  fst (bind (Dot mA mB) (fun m => Get m 1 0) exs) = Ret (q 43) /\ mcols mA <> mrows mBias.
Proof. split; [exact own_mA|]. split; [exact own_mB|]. split; [reflexivity|discriminate]. Qed.

(** ** C07 *)
Theorem C07_T (K : Num) (s : state K) m rs r c A : own s m rs r c A -> (1 <= r)%nat -> (1 <= c)%nat ->
  returns (T m) s (fresh_result s c r (mk c r (fun i j => entry A j i))).
Proof. exact (fun H1 H2 H3 => returns_wp _ _ _ (wp_T s m rs r c A H1 H2 H3)). Qed.
Theorem C07_T_T (K : Num) (s : state K) m rs r c A : own s m rs r c A -> (1 <= r)%nat -> (1 <= c)%nat ->
  returns (t <- T m ;; T t) s (fun m' s' => exists rs', own s' m' rs' r c A).
Proof. exact (@C07_T_T_proof _ _ _ _ _ _ _). Qed.
Theorem C07_T_Dot (K : Num) (s : state K) a b rs1 rs2 r k c A B :
  (forall x y : K, fmul x y = fmul y x) ->
  own s a rs1 r k A -> own s b rs2 k c B -> (1 <= r)%nat -> (1 <= k)%nat -> (1 <= c)%nat ->
  exists R, returns (ab <- Dot a b ;; T ab) s (fun m s' => exists rs, own s' m rs c r R) /\
            returns (bt <- T b ;; at_ <- T a ;; Dot bt at_) s (fun m s' => exists rs, own s' m rs c r R).
Proof. exact (@C07_T_Dot_proof _ _ _ _ _ _ _ _ _ _ _). Qed.
Print Assumptions C07_T. Print Assumptions C07_T_T. Print Assumptions C07_T_Dot.
Example C07_ex : own exs mA [1;2]%nat 2 2 pA /\ (forall x y : RNum, fmul x y = fmul y x) /\
  fst (bind (T mA) (fun m => Get m 1 0) exs) = Ret (q 2).
Proof. split; [exact own_mA|]. split; [exact Rmult_comm|reflexivity]. Qed.

(** ** C08 *)
Theorem C08_Sum (K : Num) (s : state K) m rs r c A : own s m rs r c A -> (1 <= r)%nat -> (1 <= c)%nat ->
  returns (Sum m 0) s (fresh_result s 1 c (mk 1 c (fun _ j => fsum r (fun i => entry A i j)))) /\
  returns (Sum m 1) s (fresh_result s 1 r (mk 1 r (fun _ i => fsum c (fun j => entry A i j)))) /\
  (forall axis, axis <> 0 -> axis <> 1 -> Sum m axis s = (Panic (PUser "nn.Matrix: Invalid for sum axis"%string), s)).
Proof.
  exact (fun H1 H2 H3 => conj (returns_wp _ _ _ (wp_Sum0 s m rs r c A H1 H3))
    (conj (returns_wp _ _ _ (wp_Sum1 s m rs r c A H1 H2)) (Sum_panics s m))).
Qed.
Print Assumptions C08_Sum.
Example C08_ex : own exs mA [1;2]%nat 2 2 pA /\ fst (bind (Sum mA 0) (fun m => Get m 0 1) exs) = Ret (q 6) /\
  fst (bind (Sum mA 1) (fun m => Get m 0 1) exs) = Ret (q 7).
Proof. split; [exact own_mA|]. split; reflexivity. Qed.

(** ** C09 *)
Theorem C09_Equals (K : Num) (s : state K) m b rs rs2 r c r2 c2 A B :
  own s m rs r c A -> own s b rs2 r2 c2 B ->
  exists ok, Equals m b s = (Ret ok, s) /\
    (ok = true <-> r = r2 /\ c = c2 /\ forall i j, (i < r)%nat -> (j < c)%nat -> feq (entry A i j) (entry B i j) = true).
Proof. exact (@C09_Equals_proof _ _ _ _ _ _ _ _ _ _ _ _). Qed.
Theorem C09_Equals_symmetric (L : libm) (s : state (B64 L)) m b rs rs2 r c r2 c2 A B :
  own s m rs r c A -> own s b rs2 r2 c2 B -> Equals m b s = Equals b m s.
Proof. exact (Equals_sym s m b rs rs2 r c r2 c2 A B b64_eq_sym). Qed.
Theorem C09_Equals_reflexive (L : libm) (s : state (B64 L)) m rs r c A :
  own s m rs r c A ->
  exists ok, Equals m m s = (Ret ok, s) /\
   (ok = true <-> forall i j, (i < r)%nat -> (j < c)%nat -> b64_nan (entry A i j) = false).
Proof. exact (@C09_Equals_reflexive_proof _ _ _ _ _ _ _). Qed.
Print Assumptions C09_Equals. Print Assumptions C09_Equals_symmetric. Print Assumptions C09_Equals_reflexive.
(** A NaN entry makes a matrix different from itself. *)
Theorem C09_reflexive_refuted (L : libm) : exists (s : state (B64 L)) m rs A,
  own s m rs 1 1 A /\ Equals m m s = (Ret false, s).
Proof. exact (@C09_reflexive_refuted_proof _). Qed.
Print Assumptions C09_reflexive_refuted.
Example C09_ex : own exs mA [1;2]%nat 2 2 pA /\ fst (Equals mA mA exs) = Ret true /\ fst (Equals mA mB exs) = Ret false /\
  fst (Equals mA mBias exs) = Ret false.
Proof. split; [exact own_mA|]. repeat split; reflexivity. Qed.

(** ** C10: in-place functions return their argument and change only its rows. *)
Theorem C10_in_place (K : Num) (s : state K) m rs r c A slope : own s m rs r c A -> NoDup rs ->
  returns (Clip m) s (inplace_result s m rs r c (pmap r c clip1 A)) /\
  returns (RELU m) s (inplace_result s m rs r c (pmap r c relu1 A)) /\
  returns (Sigmoid m) s (inplace_result s m rs r c (pmap r c sigmoid1 A)) /\
  returns (LeakyRELU m slope) s (inplace_result s m rs r c (pmap r c (leaky1 slope) A)) /\
  returns (Softmax m) s (inplace_result s m rs r c (psoftmax r c A)) /\
  returns (OutputBinaryValues m) s (inplace_result s m rs r c (pmap r c binary1 A)).
Proof.
  exact (fun H N => conj (returns_wp _ _ _ (wp_Clip s m rs r c A H N)) (conj (returns_wp _ _ _ (wp_RELU s m rs r c A H N))
    (conj (returns_wp _ _ _ (wp_Sigmoid s m rs r c A H N)) (conj (returns_wp _ _ _ (wp_LeakyRELU s m rs r c A slope H N))
    (conj (returns_wp _ _ _ (wp_Softmax s m rs r c A H N)) (returns_wp _ _ _ (wp_OutputBinaryValues s m rs r c A H N))))))).
Qed.
Theorem C10_in_place_derivatives (K : Num) (s : state K) m rs x rsx r c A X slope :
  own s m rs r c A -> own s x rsx r c X -> NoDup rs -> disjoint rsx rs ->
  returns (RELUPrime m x) s (inplace_result s m rs r c (pmap2 r c relu_prime1 A X)) /\
  returns (LeakyRELUPrime m x slope) s (inplace_result s m rs r c (pmap2 r c (leaky_prime1 slope) A X)) /\
  returns (SigmoidPrime m x) s (inplace_result s m rs r c (pmap2 r c sigmoid_prime1 A X)).
Proof.
  exact (fun H1 H2 H3 H4 => conj (returns_wp _ _ _ (wp_RELUPrime s m rs x rsx r c A X H1 H2 H3 H4))
   (conj (returns_wp _ _ _ (wp_LeakyRELUPrime s m rs x rsx r c A X slope H1 H2 H3 H4))
         (returns_wp _ _ _ (wp_SigmoidPrime s m rs x rsx r c A X H1 H2 H3 H4)))).
Qed.
Print Assumptions C10_in_place. Print Assumptions C10_in_place_derivatives.
Example C10_ex : own exs mX [10;11]%nat 2 2 pX /\ NoDup [10;11]%nat /\ own exs mA [1;2]%nat 2 2 pA /\ disjoint [1;2]%nat [10;11]%nat /\
  fst (bind (RELU mX) (fun _ => Get mX 0 0) exs) = Ret (q 0).
Proof. split; [exact own_mX|]. split; [nodup_tac|]. split; [exact own_mA|]. split; [disj_tac|reflexivity]. Qed.
