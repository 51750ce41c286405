(** * PropTests: the project's own tests (C94) and their hand-written training loop (C95). *)
From Coq Require Import String ZArith List Bool Arith Permutation Reals.
From Flocq Require Import IEEE754.Bits IEEE754.BinarySingleNaN.
From Verif Require Import Num NumR NumB64 LayerData Heap Spec Matrix Misc Accuracy Network Loss Optimizers ModelGo ModelData PureSpec OptSpec Repr ModelSpec CodecSpec Session
  Tests TestProofs TestModels TestRuns SoftFloat HandFit HandEx.
Import ListNotations.
Open Scope Z_scope.
Open Scope go_scope.

(** C94: [passes] says that the test returns [true], whatever the random streams and the logger are. *)
Theorem C94_matrix (L : libm) : passes L (TestMatrix L) /\ passes L (TestMatrixFromSlice L) /\ passes L (TestMatrixRowsCols L) /\ passes L (TestMatrixOperations L) /\
  passes L (TestMatrixDotProduct L) /\ passes L (TestMatrixTranspose L) /\ passes L (TestMatrixSum L).
Proof. exact (matrix_tests L). Qed.
Print Assumptions C94_matrix.
Theorem C94_matrix_scalar (L : libm) : l_pow L (b64_ofZ 0) (b64_ofZ 2) = b64_ofZ 0 -> l_pow L (b64_ofZ 3) (b64_ofZ 2) = b64_ofZ 9 -> passes L (TestMatrixScalarOperations L).
Proof. exact (scalar_test L). Qed.
Print Assumptions C94_matrix_scalar.
Theorem C94_misc (L : libm) : passes L (TestSparseToOneHot L) /\ passes L (TestRowMax L) /\ passes L (TestOutputBinaryValues L) /\ passes L (TestShuffleDataset L).
Proof. exact (misc_tests L). Qed.
Print Assumptions C94_misc.
Theorem C94_accuracy (L : libm) : passes L (TestRegressionAccuracy L) /\ passes L (TestCategoricalAccuracy L) /\ passes L (TestBinaryCategoricalAccuracy L).
Proof. exact (accuracy_tests L). Qed.
Print Assumptions C94_accuracy.
Theorem C94_loss (L : libm) : passes L (TestMSELoss L) /\ passes L (TestAbsLoss L) /\ passes L (TestCrossEntropyLoss L) /\ passes L (TestBinaryCrossEntropyLoss L).
Proof. exact (loss_tests L). Qed.
Print Assumptions C94_loss.
Theorem C94_network (L : libm) : passes L (TestHiddenLayer L) /\ passes L (TestLinearLayer L) /\ passes L (TestSigmoidLayer L) /\ passes L (TestLeakyLayer L) /\
  passes L (TestSoftmaxLayer L) /\ passes L (TestDropoutLayer L) /\ passes L (TestSoftmaxCrossEntropyLayer L).
Proof. exact (layer_tests L). Qed.
Print Assumptions C94_network.
Theorem C94_model (L : libm) : passes L (TestModel L) /\ passes L (TestTrainModel L).
Proof. exact (model_tests L). Qed.
Print Assumptions C94_model.
(** The saved model takes 638 bytes; [ord] is the order in which Go walks through the optimizer's map. *)
Theorem C94_data (L : libm) (B : FBits (B64 L)) ord room f : bits_ok B -> Permutation ord (adam_values L) -> (638 <= room)%nat ->
  passes L (TestLayerData L B) /\ passes L (TestModelData L B ord) /\ passes L (TestModelSaveLoad L B ord room f).
Proof. exact (data_tests_room L B ord room f). Qed.
Print Assumptions C94_data.
Theorem C94_optimizers (L : libm) : passes L (TestSGDOptimizer L) /\ passes L (TestAdamOptimizer L).
Proof. exact (optimizer_tests L). Qed.
Print Assumptions C94_optimizers.
(** Tests can fail: with another expected number TestMatrixTranspose returns [false]. *)
Example C94_ex (L : libm) r b :
  fst ((a <- mat_ [[z L 1; z L 2; z L 3]; [z L 4; z L 5; z L 6]] ;; tr <- T a ;; x <- ignore_err f0 (Get tr 2 1) ;; ret (feq (n := B64 L) x (z L 5))) (start L r b)) = Ret false /\
  bits_ok (B64_bits L) /\ Permutation (rev (adam_values L)) (adam_values L).
Proof. split; [vm_compute; reflexivity|]. split; [exact (B64_bits_ok L)|]. apply Permutation_sym, Permutation_rev. Qed.

(** C95: training the three layers by hand, as optimizers_test.go does, and calling Fit with one batch per epoch end in the same
    parameters, optimizer states and position in the random stream. *)
Theorem C95_any (K : Num) (s : state K) m e1 e2 e3 x1 x2 x3 i o x rsx y rsy n X Y epochs bs xv yv :
  (forall r c (A : pm K), pmap r c clip1 (psoftmax r c A) = psoftmax r c A) ->
  min_faithful K -> bs = 0 \/ bs = Z.of_nat n -> Z.of_nat n + bs <= 2 ^ 52 -> (1 <= n)%nat ->
  trainable s m [e1; e2; e3] [x1; x2; x3] i o CE -> p_kind (e_p e3) = SoftmaxK -> data_ok s [e1; e2; e3] x rsx y rsy n i o X Y ->
  exists s1 s2,
    hand_epochs epochs (e_ref e1) (e_ref e2) (e_ref e3) (x_ref x1) (x_ref x2) (x_ref x3) (MkLoss CE (Z.of_nat o)) x y (Z.of_nat n) s = (Ret true, s1) /\
    Fit m x y (Z.of_nat epochs) bs xv yv 0 s = (Ret tt, s2) /\ same_training s1 s2 m [e1; e2; e3] [x1; x2; x3] i o CE.
Proof. exact (hand_loop_fits s m e1 e2 e3 x1 x2 x3 i o x rsx y rsy n X Y epochs bs xv yv). Qed.
Print Assumptions C95_any.
(** The condition holds over the reals, and over float64 if math.Exp never returns a negative number. *)
Theorem C95_real r c (A : pm RNum) : pmap r c clip1 (psoftmax r c A) = psoftmax r c A.
Proof. exact (R_soft_stable r c A). Qed.
Print Assumptions C95_real.
Theorem C95_float (L : libm) : (forall x, b64_lt (l_exp L x) (b64_ofZ 0) = false) -> forall r c (A : pm (B64 L)), pmap r c clip1 (psoftmax r c A) = psoftmax r c A.
Proof. exact (B64_soft_stable L). Qed.
Print Assumptions C95_float.
(** C95: in float64 every output of softmax is a NaN or a number between 0 and 1. *)
Theorem C95_softmax_float (L : libm) : (forall x, b64_lt (l_exp L x) (b64_ofZ 0) = false) -> forall r c (A : pm (B64 L)) i j, (i < r)%nat -> (j < c)%nat ->
  b64_nan (entry (psoftmax r c A) i j) = true \/
  b64_finite (entry (psoftmax r c A) i j) = true /\ (0 <= b64_R (entry (psoftmax r c A) i j) <= 1)%R.
Proof. exact (fun H r c A i j => softmax_unit L r c A i j H). Qed.
Print Assumptions C95_softmax_float.
Example C95_ex (L : libm) (r : rng (B64 L)) logger : exists (s : state (B64 L)) m e1 e2 e3 x1 x2 x3 x rsx y rsy X Y,
  trainable s m [e1; e2; e3] [x1; x2; x3] 1 2 CE /\ p_kind (e_p e3) = SoftmaxK /\ data_ok s [e1; e2; e3] x rsx y rsy 100 1 2 X Y /\ h_logger s = logger.
Proof. exact (hand_case L r logger). Qed.
Example C95_exp_ex : exists L : libm, forall x, b64_lt (l_exp L x) (b64_ofZ 0) = false.
Proof. exact exp_case. Qed.
