(** * TestRuns: every unit test of the project passes in the model. *)
From Coq Require Import String ZArith List Bool Arith Lia Permutation.
From Flocq Require Import IEEE754.Bits IEEE754.BinarySingleNaN.
From Verif Require Import Num NumB64 LayerData Heap Spec Matrix Activation Misc Accuracy Network Loss Optimizers ModelGo ModelData CodecSpec CodecGlue Session
  PureSpec OptSpec ModelSpec HeapLemmas MatrixFacts LayerGlue Repr SessionProofs Tests TestProofs TestModels TestLoop TestOpt.
Import ListNotations.
Open Scope Z_scope.
Open Scope go_scope.

(** The body of TestMatrixScalarOperations over any number type. *)
Lemma scalar_any (K : Num) (a b c d e : K) r logger :
  fst ((m <- ignore_err matrix0 (NewMatrix 3 3) ;; m <- AddScalar m a ;; m <- MulScalar m b ;; m <- PowScalar m c ;;
        x <- ignore_err f0 (Get m 0 0) ;; ret (negb (flt d (fsub x (fpow e c))))) (MkState [] [] [] [] r logger [])) =
  Ret (negb (flt d (fsub (fpow (fmul (fadd f0 a) b) c) (fpow e c)))).
Proof. vm_compute. reflexivity. Qed.

Section Float.
Context (L : libm).
Notation BN := (B64 L).
(** A test passes if it returns [true] whatever the random streams and the logger are. *)
Definition passes (t : M BN bool) : Prop := forall r logger, fst (t (start L r logger)) = Ret true.

Lemma wp_passes (t : M BN bool) : (forall s, wp t s (fun b _ => b = true)) -> passes t.
Proof. intros H r b. specialize (H (start L r b)). apply wp_ex in H. destruct H as (v & s' & E & ->). now rewrite E. Qed.
Ltac run := intros r b; vm_compute; reflexivity.

Lemma matrix_tests : passes (TestMatrix L) /\ passes (TestMatrixFromSlice L) /\ passes (TestMatrixRowsCols L) /\ passes (TestMatrixOperations L) /\
  passes (TestMatrixDotProduct L) /\ passes (TestMatrixTranspose L) /\ passes (TestMatrixSum L).
Proof. repeat split; run. Qed.
Lemma misc_tests : passes (TestSparseToOneHot L) /\ passes (TestRowMax L) /\ passes (TestOutputBinaryValues L) /\ passes (TestShuffleDataset L).
Proof.
  split; [run|]. split; [run|]. split; [run|]. apply wp_passes. intros s. apply (shuffle_test_passes 4 1 1); try lia; (split; [reflexivity|repeat constructor]).
Qed.
Lemma accuracy_tests : passes (TestRegressionAccuracy L) /\ passes (TestCategoricalAccuracy L) /\ passes (TestBinaryCategoricalAccuracy L).
Proof. repeat split; run. Qed.
Lemma loss_tests : passes (TestMSELoss L) /\ passes (TestAbsLoss L) /\ passes (TestCrossEntropyLoss L) /\ passes (TestBinaryCrossEntropyLoss L).
Proof.
  split; [|split; [|split]]; apply wp_passes; intros s.
  - apply (loss_test_passes MSE 5 1); try lia; (split; [reflexivity|repeat constructor]).
  - apply (loss_test_passes MAE 5 1); try lia; (split; [reflexivity|repeat constructor]).
  - apply (loss_test_passes CE 5 2); try lia; (split; [reflexivity|repeat constructor]).
  - apply (loss_test_passes BCE 2 2); try lia; (split; [reflexivity|repeat constructor]).
Qed.
Lemma layer_tests : passes (TestHiddenLayer L) /\ passes (TestLinearLayer L) /\ passes (TestSigmoidLayer L) /\ passes (TestLeakyLayer L) /\
  passes (TestSoftmaxLayer L) /\ passes (TestDropoutLayer L) /\ passes (TestSoftmaxCrossEntropyLayer L).
Proof.
  assert (H : forall s : state BN, _) by (intros s; exact (C20_new_layer_proof BN s 3 5 ltac:(lia) ltac:(lia))). cbv zeta in H.
  repeat (match goal with |- _ /\ _ => split end); apply wp_passes; intros s; destruct (H s) as (H1 & H2 & H3 & H4 & H5 & H6).
  - eapply (layer_test_passes _ s Hidden 3 5 _ _ 3); try lia; try (split; [reflexivity|repeat constructor]); try discriminate; exact H1.
  - eapply (layer_test_passes _ s Linear 3 5 _ _ 1); try lia; try (split; [reflexivity|repeat constructor]); try discriminate; exact H2.
  - eapply (layer_test_passes _ s SigmoidK 3 5 _ _ 1); try lia; try (split; [reflexivity|repeat constructor]); exact H3.
  - eapply (layer_test_passes _ s Leaky 3 5 _ _ 1); try lia; try (split; [reflexivity|repeat constructor]); try discriminate; apply H4; reflexivity.
  - eapply (layer_test_passes _ s SoftmaxK 3 5 _ _ 1); try lia; try (split; [reflexivity|repeat constructor]); try discriminate; exact H5.
  - eapply (layer_test_passes _ s Dropout 3 5 _ _ 1); try lia; try (split; [reflexivity|repeat constructor]); try discriminate; apply H6; reflexivity.
  - apply (softmax_ce_test_passes s _ _ 1); try lia; (split; [reflexivity|repeat constructor]).
Qed.

(** ** Models *)
Definition adam_opt (lr : BN) : optimizer BN :=
  MkOpt Adam lr (z L 0) f0 (dec L 1 10000000) (dec L 9 10) (dec L 999 1000) lr 0 matrix0 matrix0 matrix0 matrix0 (negb (feq (n := BN) (z L 0) f0)) false.
Lemma adam_made lr s : fle (n := BN) lr f0 = false -> new_adam L lr s = (Ret (adam_opt lr), s).
Proof. intros H. unfold new_adam, NewAdamOptimizer. rewrite H. reflexivity. Qed.
Lemma small_ok : Forall spec_ok (small_layers L) /\ linked (in_of (small_layers L)) (small_layers L).
Proof. split; [repeat constructor; simpl; try lia; discriminate|simpl; auto]. Qed.
Lemma adam_vals : opt_values (adam_opt (dec L 1 100)) = adam_values L. Proof. reflexivity. Qed.
Ltac easy_side := first [assumption|discriminate|lia|reflexivity|(intros t; apply adam_made; reflexivity)|(split; [reflexivity|repeat constructor])|
  (repeat constructor; simpl; try lia; discriminate)|(simpl; auto; lia)].
Lemma model_tests : passes (TestModel L) /\ passes (TestTrainModel L).
Proof.
  destruct (codec_semantics L) as (H1 & H2 & _). split; apply wp_passes; intros s.
  - destruct small_ok as [S1 S2]. apply model_test_passes with (opt := adam_opt (dec L 1 100)) (r := 1%nat); easy_side.
  - apply train_test_passes with (opt := adam_opt (dec L 1 1000)); try easy_side.
    exact (B64_min_faithful L).
Qed.
Lemma data_tests B ord : bits_ok B -> Permutation ord (adam_values L) ->
  passes (TestLayerData L B) /\ passes (TestModelData L B ord) /\ (forall room f, (model_length ord (map blank (small_layers L)) <= room)%nat -> passes (TestModelSaveLoad L B ord room f)).
Proof.
  intros HB HO. destruct (codec_semantics L) as (H1 & H2 & _). destruct small_ok as [S1 S2].
  split; [|split]; [| |intros room f HR]; apply wp_passes; intros s.
  - apply (layer_data_test_passes H1 B HB); [|reflexivity]. inversion S1; assumption.
  - apply model_data_test_passes with (opt := adam_opt (dec L 1 100)) (r := 1%nat); easy_side.
  - apply save_load_test_passes with (opt := adam_opt (dec L 1 100)) (r := 1%nat); easy_side.
Qed.
Definition sgd_opt : optimizer BN := match NewSGDOptimizer (K := BN) (dec L 5 100) (z L 0) (z L 0) (start L (MkRng (fun _ => f0) (fun _ => f0) (fun _ => 0) O O O) false) with (Ret o, _) => o | _ => adam_opt f0 end.
Lemma optimizer_tests : passes (TestSGDOptimizer L) /\ passes (TestAdamOptimizer L).
Proof.
  split; apply wp_passes; intros s.
  - apply (optimizer_test_passes _ sgd_opt); [intros t; reflexivity|reflexivity|lia].
  - apply (optimizer_test_passes _ (adam_opt (dec L 1 1000))); [intros t; apply adam_made; reflexivity|reflexivity|lia].
Qed.
(** The one test that depends on what math.Pow returns. *)
Lemma scalar_test : l_pow L (b64_ofZ 0) (b64_ofZ 2) = b64_ofZ 0 -> l_pow L (b64_ofZ 3) (b64_ofZ 2) = b64_ofZ 9 -> passes (TestMatrixScalarOperations L).
Proof.
  intros H1 H2 r b. etransitivity; [exact (scalar_any BN (z L 10) (z L (1 / 3)) (z L 2) (dec L 1 10) (z L (10 / 3)) r b)|]. change (z L (10 / 3)) with (b64_ofZ 3). change (z L 2) with (b64_ofZ 2).
  cbn [fpow B64]. rewrite H2. replace (fmul (n := BN) (fadd f0 (z L 10)) (z L (1 / 3))) with (b64_ofZ 0) by reflexivity. rewrite H1. reflexivity.
Qed.
(** The number of bytes TestModelSaveLoad writes. *)
Lemma total_perm (l l' : list nat) : Permutation l l' -> list_total l = list_total l'.
Proof. induction 1; unfold list_total in *; cbn [fold_right] in *; lia. Qed.
Lemma save_room (ord : gomap BN) : Permutation ord (adam_values L) -> model_length ord (map blank (small_layers L)) = 638%nat.
Proof.
  intros H. unfold model_length. rewrite (total_perm _ _ (Permutation_map (fun kv => 1 + String.length (fst kv) + 8)%nat H)). vm_compute. reflexivity.
Qed.
Lemma data_tests_room B ord room f : bits_ok B -> Permutation ord (adam_values L) -> (638 <= room)%nat ->
  passes (TestLayerData L B) /\ passes (TestModelData L B ord) /\ passes (TestModelSaveLoad L B ord room f).
Proof.
  intros HB HO HR. destruct (data_tests B ord HB HO) as (H1 & H2 & H3). split; [exact H1|]. split; [exact H2|]. apply H3. rewrite save_room; assumption.
Qed.
End Float.
