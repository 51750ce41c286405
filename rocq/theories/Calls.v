(** * Calls: programs made of calls of the library's exported functions. *)
From Coq Require Import String ZArith List Bool Arith Lia.
From Verif Require Import Num Heap Spec Matrix Activation Misc Accuracy Loss Network Optimizers ModelGo PureSpec Repr OptSpec ModelSpec Built.
Import ListNotations.
Open Scope Z_scope.

Section WithNum.
Context {K : Num}.

(** Client programs: any sequence of calls with any arguments, also continuing after an error,
    where later calls may depend on earlier results. *)
Inductive client : forall {A : Type}, M K A -> Prop :=
| c_ret A (a : A) : client (ret a)
| c_then A B (m : M K A) (f : A -> M K B) : client m -> (forall a, client (f a)) -> client (bind m f)
| c_handle A (m : M K A) : client m -> client (catch m)
| c_NewMatrix r c : client (NewMatrix r c)
| c_FromSlice sl : client (NewMatrixFromSlice sl)
| c_Get m i j : client (Get m i j)
| c_Set m i j v : client (Set_ m i j v)
| c_GetRow m i : client (GetRow m i)
| c_GetColumn m j : client (GetColumn m j)
| c_SetRow m i v : client (SetRow m i v)
| c_SetColumn m j v : client (SetColumn m j v)
| c_Equals m b : client (Equals m b)
| c_Add m b : client (Add m b)
| c_Sub m b : client (Sub m b)
| c_Neg m : client (Neg m)
| c_AddScalar m a : client (AddScalar m a)
| c_MulScalar m a : client (MulScalar m a)
| c_PowScalar m a : client (PowScalar m a)
| c_Dot m b : client (Dot m b)
| c_T m : client (T m)
| c_Sum m a : client (Sum m a)
| c_Clip m : client (Clip m)
| c_RELU m : client (RELU m)
| c_RELUPrime m x : client (RELUPrime m x)
| c_Sigmoid m : client (Sigmoid m)
| c_SigmoidPrime m x : client (SigmoidPrime m x)
| c_LeakyRELU m a : client (LeakyRELU m a)
| c_LeakyRELUPrime m x a : client (LeakyRELUPrime m x a)
| c_Softmax m : client (Softmax m)
| c_SparseToOneHot m n : client (SparseToOneHot m n)
| c_RowMax m : client (RowMax m)
| c_OutputBinaryValues m : client (OutputBinaryValues m)
| c_ShuffleDataset x y : client (ShuffleDataset x y)
| c_RegressionAccuracy a b p : client (RegressionAccuracy a b p)
| c_CategoricalAccuracy a b : client (CategoricalAccuracy a b)
| c_BinaryCategoricalAccuracy a b : client (BinaryCategoricalAccuracy a b)
| c_NewLoss k n : client (NewLoss k n)
| c_Loss_Forward l a b : client (Loss_Forward l a b)
| c_Loss_Backward l a b : client (Loss_Backward l a b)
| c_NewLayer i o : client (l <- NewLayer i o ;; alloc_layer l)%go
| c_NewLinearLayer i o : client (l <- NewLinearLayer i o ;; alloc_layer l)%go
| c_NewSigmoidLayer i o : client (l <- NewSigmoidLayer i o ;; alloc_layer l)%go
| c_NewLeakyLayer i o a : client (l <- NewLeakyLayer i o a ;; alloc_layer l)%go
| c_NewSoftmaxLayer i o : client (l <- NewSoftmaxLayer i o ;; alloc_layer l)%go
| c_NewDropoutLayer i o a : client (l <- NewDropoutLayer i o a ;; alloc_layer l)%go
| c_Init l : client (Init l)
| c_Layer_Forward l x : client (Layer_Forward l x)
| c_ForwardNoDropout l x : client (Dropout_ForwardNoDropout l x)
| c_Layer_Backward l x d : client (Layer_Backward l x d)
| c_BackwardCrossEntropy l x y d : client (BackwardCrossEntropy l x y d)
| c_NewSGDOptimizer a b c : client (o <- NewSGDOptimizer a b c ;; alloc_opt o)%go
| c_NewAdamOptimizer a b c d e : client (o <- NewAdamOptimizer a b c d e ;; alloc_opt o)%go
| c_NewOptimizerFromType t v : client (o <- NewOptimizerFromType t v ;; alloc_opt o)%go
| c_Update o w b dw db : client (Opt_Update o w b dw db)
| c_AddLayer m l : client (AddLayer m l)
| c_Finalize m l o a p : client (Finalize m l o a p)
| c_InitLayers m : client (InitLayers m)
| c_Forward m x t : client (Forward m x t)
| c_Backward m outs y : client (Backward m outs y)
| c_CalculateLoss m x y : client (CalculateLoss m x y)
| c_CalculateAccuracy m x y : client (CalculateAccuracy m x y)
| c_Predict m x : client (Predict m x)
| c_Fit m x y ep bs xv yv every : client (Fit m x y ep bs xv yv every).

Lemma b_NewLoss k n : built (K := K) (NewLoss k n).
Proof. unfold NewLoss. destruct (_ <? _); [apply b_fail; exact I|apply b_ret]. Qed.
Hint Constructors built : built.
Hint Extern 1 (plain_error _) => solve [assumption|simpl; tauto] : built.
Hint Resolve b_NewMatrix b_NewMatrix_ : built.
Lemma b_fresh k i o sl d : built (K := K) (fresh_layer k i o sl d). Proof. built_tac. Qed.
Hint Resolve b_fresh : built.
Lemma b_layer (l : M K (layer K)) : built l -> built (bind l alloc_layer).
Proof. intros H. apply b_bind; [exact H|intros; apply b_alloc_layer]. Qed.
Lemma b_opt (l : M K (optimizer K)) : built l -> built (bind l alloc_opt).
Proof. intros H. apply b_bind; [exact H|intros; apply b_alloc_opt]. Qed.
Lemma b_L1 i o : built (K := K) (NewLayer i o). Proof. built_tac. Qed.
Lemma b_L2 i o : built (K := K) (NewLinearLayer i o). Proof. built_tac. Qed.
Lemma b_L3 i o : built (K := K) (NewSigmoidLayer i o). Proof. built_tac. Qed.
Lemma b_L4 i o a : built (K := K) (NewLeakyLayer i o a). Proof. built_tac. Qed.
Lemma b_L5 i o : built (K := K) (NewSoftmaxLayer i o). Proof. built_tac. Qed.
Lemma b_L6 i o a : built (K := K) (NewDropoutLayer i o a). Proof. built_tac. Qed.
(** The messages of these two contain a number that the model leaves out. *)
Lemma stable_O1 a b c (s : state K) : stable s (snd (bind (NewSGDOptimizer a b c) alloc_opt s)).
Proof.
  unfold NewSGDOptimizer. destruct (fle a f0); [apply stable_refl|]. destruct (flt b f0); [apply stable_refl|]. destruct (flt c f0); [apply stable_refl|].
  apply built_stable, b_opt, b_ret.
Qed.
Lemma stable_O2 a b c d e (s : state K) : stable s (snd (bind (NewAdamOptimizer a b c d e) alloc_opt s)).
Proof. unfold NewAdamOptimizer. destruct (fle a f0); [apply stable_refl|]. destruct (flt b f0); [apply stable_refl|]. apply built_stable, b_opt, b_ret. Qed.
Lemma b_O3 t v : built (K := K) (NewOptimizerFromType t v). Proof. built_tac. Qed.

Lemma client_stable {A} (m : M K A) : client m -> forall s, stable s (snd (m s)).
Proof.
  induction 1; intros s;
    try (apply built_stable;
         first [ simple apply b_NewMatrix | simple apply b_FromSlice | simple apply b_Get | simple apply b_Set | simple apply b_GetRow | simple apply b_GetColumn | simple apply b_SetRow
               | simple apply b_SetColumn | simple apply b_Equals | simple apply b_Add | simple apply b_Sub | simple apply b_Neg | simple apply b_AddScalar | simple apply b_MulScalar
               | simple apply b_PowScalar | simple apply b_Dot | simple apply b_T | simple apply b_Sum | simple apply b_Clip | simple apply b_RELU | simple apply b_RELUPrime | simple apply b_Sigmoid
               | simple apply b_SigmoidPrime | simple apply b_LeakyRELU | simple apply b_LeakyRELUPrime | simple apply b_Softmax | simple apply b_SparseToOneHot | simple apply b_RowMax
               | simple apply b_OutputBinaryValues | simple apply b_ShuffleDataset | simple apply b_RegressionAccuracy | simple apply b_CategoricalAccuracy
               | simple apply b_BinaryCategoricalAccuracy | simple apply b_NewLoss | simple apply b_Loss_Forward | simple apply b_Loss_Backward | simple apply b_Init
               | simple apply b_Layer_Forward | simple apply b_NoDropout | simple apply b_Layer_Backward | simple apply b_BackwardCrossEntropy | simple apply b_Opt_Update
               | simple apply b_AddLayer | simple apply b_Finalize | simple apply b_InitLayers | simple apply b_Forward | simple apply b_Backward | simple apply b_CalculateLoss
               | simple apply b_CalculateAccuracy | simple apply b_Predict
               | simple apply b_layer; simple apply b_L1 | simple apply b_layer; simple apply b_L2 | simple apply b_layer; simple apply b_L3 | simple apply b_layer; simple apply b_L4 | simple apply b_layer; simple apply b_L5 | simple apply b_layer; simple apply b_L6
               | simple apply b_opt; simple apply b_O3 ]; fail).
  - apply stable_refl.
  - unfold bind. specialize (IHclient s). destruct (m s) as [[a|e|p] s1]; simpl in *; auto.
    eapply stable_trans; [exact IHclient|apply H1].
  - unfold catch. specialize (IHclient s). destruct (m s) as [[a|e|p] s1]; simpl in *; auto.
  - apply stable_O1.
  - apply stable_O2.
  - apply logging_stable, l_Fit.
Qed.
End WithNum.
