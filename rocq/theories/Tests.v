(** * Tests: the project's own unit tests (the *_test.go files) as programs of the model.

    A test passes if it runs to its end without calling t.Error or t.Errorf: here, if it returns [true].
    Decimal literals are the correctly rounded quotients of two integers.  What t.Logf prints is left out.
    In matrix_test.go, [err] is assigned several times and only the last value is looked at; earlier
    errors are therefore ignored here as they are there. *)
From Coq Require Import String ZArith List Bool.
From Flocq Require Import IEEE754.Bits IEEE754.BinarySingleNaN.
From Verif Require Import Num NumB64 LayerData Heap Matrix Activation Misc Accuracy Network Loss Optimizers ModelGo ModelData CodecSpec Session.
Import ListNotations.
Open Scope Z_scope.
Open Scope go_scope.

Section AnyNum.
Context {K : Num}.
(** A literal [][]float64{...}. *)
Fixpoint lit_rows (rows : list (list K)) : M K (list nat) :=
  match rows with
  | [] => ret []
  | r :: t => a <- alloc_row r ;; b <- lit_rows t ;; ret (a :: b)
  end.
Definition lit (rows : list (list K)) : M K slice := rs <- lit_rows rows ;; alloc_out rs.
(** x, err := NewMatrixFromSlice([][]float64{...}) where [err] is not looked at. *)
Definition mat_ (rows : list (list K)) : M K matrix := sl <- lit rows ;; ignore_err matrix0 (NewMatrixFromSlice sl).
(** if err != nil { t.Error(err.Error()); return } *)
Definition must {A} (m : M K A) (k : A -> M K bool) : M K bool :=
  r <- catch m ;; match r with inl a => k a | inr _ => ret false end.
(** !reflect.DeepEqual(row, []float64{...}) *)
Definition deep_equal (r : nat) (l : list K) : M K bool :=
  n <- row_len r ;;
  if negb (n =? Z.of_nat (length l)) then ret false
  else for_acc n (fun j ok => v <- idx_row r j ;; ret (ok && feq v (nth (Z.to_nat j) l f0))) true.
(** A new object from a value: l, _ := NewLayer(...); its methods take &l *)
Definition obj (m : M K (layer K)) : M K nat := l <- ignore_err (MkLayer Hidden 0 0 matrix0 matrix0 f0 f0 matrix0 matrix0) m ;; alloc_layer l.

(** network_test.go: TestHiddenLayer (11-40), TestLinearLayer (43-70), TestSigmoidLayer (73-100),
    TestLeakyLayer (103-130), TestSoftmaxLayer (133-160), TestDropoutLayer (212-239): construct, Init,
    Forward, Backward. *)
Definition layer_test (new : M K (layer K)) (x dv : list (list K)) : M K bool :=
  l <- obj new ;;
  Init l ;;
  sx <- lit x ;;
  must (NewMatrixFromSlice sx) (fun x =>
  must (Layer_Forward l x) (fun _ =>
  dValues <- mat_ dv ;;
  must (Layer_Backward l x dValues) (fun _ => ret true))).
(** TestSoftmaxCrossEntropyLayer (163-209) *)
Definition softmax_ce_test (x y : list (list K)) : M K bool :=
  l <- obj (NewSoftmaxLayer 3 5) ;;
  jl <- ignore_err (MkLoss CE 0) (NewLoss CE 5) ;;
  Init l ;;
  sx <- lit x ;;
  must (NewMatrixFromSlice sx) (fun x =>
  sy <- lit y ;;
  must (NewMatrixFromSlice sy) (fun y =>
  must (Layer_Forward l x) (fun out =>
  must (Loss_Forward jl out y) (fun _ =>
  must (BackwardCrossEntropy l x y out) (fun _ => ret true))))).
(** loss_test.go: TestMSELoss (11-35), TestAbsLoss (38-62), TestCrossEntropyLoss (65-87),
    TestBinaryCrossEntropyLoss (90-112) *)
Definition loss_test (k : losskind) (size : Z) (yhat y : list (list K)) : M K bool :=
  loss <- ignore_err (MkLoss k 0) (NewLoss k size) ;;
  yhat <- mat_ yhat ;;
  y <- mat_ y ;;
  must (Loss_Forward loss yhat y) (fun _ =>
  must (Loss_Backward loss yhat y) (fun _ => ret true)).
(** misc_test.go: TestShuffleDataset (64-71) *)
Definition shuffle_test (x y : list (list K)) : M K bool :=
  X <- mat_ x ;;
  Y <- mat_ y ;;
  ShuffleDataset X Y ;;
  ret true.

(** l1, _ := NewXLayer(...); l2, _ := ... *)
Fixpoint create_all (sps : list (lspec K)) : M K (list nat) :=
  match sps with
  | [] => ret []
  | sp :: t => l <- obj (new_of sp) ;; ls <- create_all t ;; ret (l :: ls)
  end.
(** m.AddLayer(&l1); m.AddLayer(&l2); ...: the errors are not looked at. *)
Fixpoint add_refs (m : model K) (refs : list nat) : M K (model K) :=
  match refs with [] => ret m | r :: t => p <- AddLayer m r ;; add_refs (fst p) t end.
(** m.Finalize(...); m.InitLayers(): the error is not looked at. *)
Definition finish (m : model K) (l : loss) (opt : optimizer K) (acctype : Z) (prec : K) : M K (model K) :=
  r <- Finalize m l opt acctype prec ;;
  InitLayers (fst r) ;;
  ret (fst r).
Definition test_model (sps : list (lspec K)) (k : losskind) (new_opt : M K (optimizer K)) (acctype : Z) (prec : K) : M K (model K) :=
  refs <- create_all sps ;;
  m <- add_refs NewModel refs ;;
  l <- ignore_err (MkLoss k 0) (NewLoss k (Z.of_nat (out_of sps))) ;;
  opt <- ignore_err (MkOpt SGD f0 f0 f0 f0 f0 f0 f0 0 matrix0 matrix0 matrix0 matrix0 false false) new_opt ;;
  finish m l opt acctype prec.
(** model_test.go: TestModel (14-53) *)
Definition model_test sps k new_opt acctype prec (x y : list (list K)) : M K bool :=
  m <- test_model sps k new_opt acctype prec ;;
  X <- mat_ x ;;
  Y <- mat_ y ;;
  must (Forward m X false) (fun out =>
  must (Backward m out Y) (fun _ =>
  must (Predict m X) (fun _ => ret true))).
(** [n] samples, labelled by whether they are below [half] (0.5): model_test.go:76-90, optimizers_test.go:29-43.
    Seeding the generator with the time is left out: the random numbers are arbitrary anyway. *)
Definition test_data (half : K) (n : nat) : M K (matrix * matrix) :=
  x <- ignore_err matrix0 (NewMatrix (Z.of_nat n) 1) ;;
  y <- ignore_err matrix0 (NewMatrix (Z.of_nat n) 2) ;;
  for_ (Z.of_nat n) (fun i => v <- draw_uniform ;; setc x i 0 v) ;;
  for_ (Z.of_nat n) (fun i => v <- getc x i 0 ;; if flt v half then setc y i 0 f1 else setc y i 1 f1) ;;
  ret (x, y).
(** model_test.go: TestTrainModel (56-105) with [n] samples. *)
Definition train_test sps k new_opt acctype prec (half : K) (n : nat) (epochs bs every : Z) : M K bool :=
  must (InitLogger true true true) (fun _ =>
  refs <- create_all sps ;;
  l <- ignore_err (MkLoss k 0) (NewLoss k (Z.of_nat (out_of sps))) ;;
  opt <- ignore_err (MkOpt SGD f0 f0 f0 f0 f0 f0 f0 0 matrix0 matrix0 matrix0 matrix0 false false) new_opt ;;
  xy <- test_data half n ;;
  m <- add_refs NewModel refs ;;
  m <- finish m l opt acctype prec ;;
  must (Fit m (fst xy) (snd xy) epochs bs matrix0 matrix0 every) (fun _ => ret true)).
(** layer_data_test.go: TestLayerData (12-29) *)
Definition layer_data_test (B : FBits K) (sp : lspec K) : M K bool :=
  l <- obj (new_of sp) ;;
  Init l ;;
  data <- NewSavedLayerData l ;;
  buf <- ignore_err [] (SerializeLayer B data []) ;;
  must (LoadLayer B buf) (fun r => lay <- get_layer (fst r) ;; match l_kind lay with Hidden => ret true | _ => panic PNil end).
(** model_data_test.go: TestModelData (13-59) *)
Definition model_data_test (B : FBits K) sps k new_opt acctype prec (ord : gomap K) (x y : list (list K)) : M K bool :=
  must (InitLogger true true true) (fun _ =>
  m <- test_model sps k new_opt acctype prec ;;
  data <- NewSavedModelData m ;;
  buf <- ignore_err [] (Serialize B data ord []) ;;
  must (LoadModel B buf) (fun m2 =>
  X <- mat_ x ;;
  Y <- mat_ y ;;
  must (CalculateLoss (fst m2) X Y) (fun _ => ret true))).
(** TestModelSaveLoad (63-114): the file system does as asked and has [room] for that many bytes. *)
Definition save_load_test (B : FBits K) sps k new_opt acctype prec (ord : gomap K) (room : nat) (f : file) (x y : list (list K)) : M K bool :=
  must (InitLogger true true true) (fun _ =>
  m <- test_model sps k new_opt acctype prec ;;
  r <- SaveFile B m ord (MkSaveEnv true room) f ;;
  match r with
  | (Some _, _) => ret false
  | (None, f) =>
      must (LoadFile B f (match f with Some c => length c | None => 0%nat end)) (fun m2 =>
      X <- mat_ x ;;
      Y <- mat_ y ;;
      must (CalculateLoss m2 X Y) (fun _ => ret true))
  end).
(** optimizers_test.go: the training loop of TestSGDOptimizer (46-110) and TestAdamOptimizer (152-219), which
    are the same: three layers trained without a model.  [out3] is clipped in place by loss.Forward before
    BackwardCrossEntropy reads it. *)
Definition hand_slice (m : matrix) (n : Z) : M K matrix := sl <- reslice (mdata m) 0 n ;; ignore_err matrix0 (NewMatrixFromSlice sl).
Fixpoint hand_epochs (epochs : nat) (l1 l2 l3 o1 o2 o3 : nat) (j : loss) (x y : matrix) (n : Z) : M K bool :=
  match epochs with
  | O => ret true
  | S rest =>
      X <- hand_slice x n ;;
      Y <- hand_slice y n ;;
      must (Layer_Forward l1 X) (fun out1 =>
      must (Layer_Forward l2 out1) (fun out2 =>
      must (Layer_Forward l3 out2) (fun out3 =>
      must (Loss_Forward j out3 Y) (fun _ =>
      must (BackwardCrossEntropy l3 out2 Y out3) (fun g3 =>
      must (Layer_Backward l2 out1 (g_x g3)) (fun g2 =>
      must (Layer_Backward l1 X (g_x g2)) (fun g1 =>
      must (l <- get_layer l3 ;; Opt_Update o3 (l_w l) (l_b l) (g_w g3) (g_b g3)) (fun _ =>
      must (l <- get_layer l2 ;; Opt_Update o2 (l_w l) (l_b l) (g_w g2) (g_b g2)) (fun _ =>
      must (l <- get_layer l1 ;; Opt_Update o1 (l_w l) (l_b l) (g_w g1) (g_b g1)) (fun _ =>
      hand_epochs rest l1 l2 l3 o1 o2 o3 j x y n))))))))))
  end.
(** opt1, _ := NewXOptimizer(...) *)
Definition objo (new_opt : M K (optimizer K)) : M K nat :=
  o <- ignore_err (MkOpt SGD f0 f0 f0 f0 f0 f0 f0 0 matrix0 matrix0 matrix0 matrix0 false false) new_opt ;; alloc_opt o.
(** The whole test (12-111, 113-220). *)
Definition optimizer_test (new_opt : M K (optimizer K)) (half : K) (n : nat) (epochs : nat) : M K bool :=
  o1 <- objo new_opt ;;
  o2 <- objo new_opt ;;
  o3 <- objo new_opt ;;
  l1 <- obj (NewLayer 1 8) ;;
  Init l1 ;;
  l2 <- obj (NewLayer 8 8) ;;
  Init l2 ;;
  l3 <- obj (NewSoftmaxLayer 8 2) ;;
  Init l3 ;;
  j <- ignore_err (MkLoss CE 0) (NewLoss CE 2) ;;
  xy <- test_data half n ;;
  hand_epochs epochs l1 l2 l3 o1 o2 o3 j (fst xy) (snd xy) (Z.of_nat n).
End AnyNum.

Section Float.
Context (L : libm).
Notation BN := (B64 L).
Definition dec (a b : Z) : BN := b64_div mode_NE (b64_ofZ a) (b64_ofZ b).
Definition z (a : Z) : BN := b64_ofZ a.

(** ** matrix_test.go *)
(** TestMatrix (13-38) *)
Definition TestMatrix : M BN bool :=
  m <- ignore_err matrix0 (NewMatrix 3 3) ;;
  ignore_err tt (Set_ m 0 0 (dec 314 100)) ;;
  ignore_err tt (Set_ m 1 2 (z 6)) ;;
  ignore_err tt (Set_ m 2 0 (z 623)) ;;
  ignore_err tt (Set_ m 1 1 (z 0)) ;;
  val1 <- ignore_err f0 (Get m 0 0) ;;
  val2 <- ignore_err f0 (Get m 1 2) ;;
  val3 <- ignore_err f0 (Get m 2 0) ;;
  must (Get m 1 1) (fun val4 =>
  ret (negb (negb (feq (n := BN) val1 (dec 314 100)) || negb (feq (n := BN) val2 (z 6)) || negb (feq (n := BN) val3 (z 623)) || negb (feq (n := BN) val4 (z 0))))).
(** TestMatrixFromSlice (41-60) *)
Definition TestMatrixFromSlice : M BN bool :=
  sl <- lit [[z 1; z 2; z 3]; [z 4; z 5; z 6]] ;;
  must (NewMatrixFromSlice sl) (fun m =>
  v <- ignore_err f0 (Get m 0 0) ;;
  if negb (feq (n := BN) v (z 1)) then ret false
  else
    r <- ignore_err O (GetRow m 1) ;;
    deep_equal r [z 4; z 5; z 6]).
(** TestMatrixRowsCols (63-93) *)
Definition TestMatrixRowsCols : M BN bool :=
  m <- ignore_err matrix0 (NewMatrix 3 3) ;;
  r <- alloc_row (K := BN) [z 1; z 2; z 3] ;;
  must (SetRow m 0 r) (fun _ =>
  c <- alloc_row (K := BN) [z 1; z 2; z 3] ;;
  must (SetColumn m 1 c) (fun _ =>
  must (GetRow m 1) (fun row =>
  deep_equal row [z 0; z 2; z 0]))).
(** TestMatrixOperations (96-121) *)
Definition TestMatrixOperations : M BN bool :=
  a <- mat_ [[z 1; z 2; z 3]; [z 4; z 5; z 6]] ;;
  b <- mat_ [[z 2; z 4; z 6]; [z 8; z 10; z 12]] ;;
  c <- mat_ [[z (-1); z (-1); z (-1)]; [z (-1); z (-1); z (-1)]] ;;
  must (Add a b) (fun a =>
  nc <- Neg c ;;
  must (Sub a nc) (fun a =>
  d <- mat_ [[z 2; z 5; z 8]; [z 11; z 14; z 17]] ;;
  Equals a d)).
(** TestMatrixScalarOperations (124-142).  The constants 1/3 and 10/3 are quotients of untyped integer
    constants, that is 0 and 3. *)
Definition TestMatrixScalarOperations : M BN bool :=
  m <- ignore_err matrix0 (NewMatrix 3 3) ;;
  m <- AddScalar m (z 10) ;;
  m <- MulScalar m (z (1 / 3)) ;;
  m <- PowScalar m (z 2) ;;
  x <- ignore_err f0 (Get m 0 0) ;;
  ret (negb (flt (dec 1 10) (fsub (n := BN) x (fpow (z (10 / 3)) (z 2))))).
(** TestMatrixDotProduct (145-161) *)
Definition TestMatrixDotProduct : M BN bool :=
  a <- mat_ [[z 1; z 2; z 3]; [z 4; z 5; z 6]] ;;
  b <- mat_ [[z 1; z 0; z 0]; [z 0; z 1; z 0]; [z 0; z 0; z 1]] ;;
  must (Dot a b) (fun d => Equals d a).
(** TestMatrixTranspose (164-179) *)
Definition TestMatrixTranspose : M BN bool :=
  a <- mat_ [[z 1; z 2; z 3]; [z 4; z 5; z 6]] ;;
  tr <- T a ;;
  if negb (mrows tr =? 3) || negb (mcols tr =? 2) then ret false
  else x <- ignore_err f0 (Get tr 2 1) ;; ret (feq (n := BN) x (z 6)).
(** TestMatrixSum (182-196) *)
Definition TestMatrixSum : M BN bool :=
  a <- mat_ [[z 1; z 2; z 3]; [z 4; z 5; z 6]] ;;
  ax0 <- Sum a 0 ;;
  ax1 <- Sum a 1 ;;
  s0 <- mat_ [[z 5; z 7; z 9]] ;;
  e0 <- Equals ax0 s0 ;;
  s1 <- mat_ [[z 6; z 15]] ;;
  e1 <- Equals ax1 s1 ;;
  ret (e0 && e1).

(** ** misc_test.go *)
(** TestSparseToOneHot (13-29) *)
Definition TestSparseToOneHot : M BN bool :=
  m <- mat_ [[z 1]; [z 3]; [z 0]; [z 2]] ;;
  must (SparseToOneHot m 5) (fun o =>
  v <- getc o 1 3 ;; ret (feq (n := BN) v (z 1))).
(** TestRowMax (33-45) *)
Definition TestRowMax : M BN bool :=
  m <- mat_ [[z 1; z 2; z 3]; [z 3; z (-1); dec 1 2]; [z 2; z 5; z 1]; [dec 1 10; z 6; dec 75 10]] ;;
  o <- RowMax m ;;
  v <- getc o 2 0 ;; ret (feq (n := BN) v (z 1)).
(** TestOutputBinaryValues (49-61) *)
Definition TestOutputBinaryValues : M BN bool :=
  m <- mat_ [[dec 2 10]; [dec 1 10]; [dec 9 10]; [dec 78 100]] ;;
  o <- OutputBinaryValues m ;;
  a <- getc o 2 0 ;;
  b <- getc o 0 0 ;;
  ret (negb (negb (feq (n := BN) a (z 1)) || negb (feq (n := BN) b (z 0)))).
(** TestShuffleDataset (65-72) *)
Definition TestShuffleDataset : M BN bool :=
  shuffle_test [[z 1]; [z 3]; [z 0]; [z 2]] [[z 3]; [z 4]; [z 6]; [z 7]].

(** ** accuracy_test.go *)
(** TestRegressionAccuracy (11-23) *)
Definition TestRegressionAccuracy : M BN bool :=
  yHat <- mat_ [[dec 1 10; dec 2 10]; [dec 2 10; dec 5 10]] ;;
  Y <- mat_ [[dec 105 1000; dec 199 1000]; [dec 3 10; dec 502 1000]] ;;
  acc <- RegressionAccuracy yHat Y (dec 1 100) ;;
  ret (feq (n := BN) acc (dec 75 100)).
(** TestCategoricalAccuracy (26-38) *)
Definition TestCategoricalAccuracy : M BN bool :=
  yHat <- mat_ [[dec 1 10; dec 9 10]; [dec 8 10; dec 2 10]] ;;
  Y <- mat_ [[z 0; z 1]; [z 1; z 0]] ;;
  acc <- CategoricalAccuracy yHat Y ;;
  ret (feq (n := BN) acc (z 1)).
(** TestBinaryCategoricalAccuracy (41-53) *)
Definition TestBinaryCategoricalAccuracy : M BN bool :=
  yHat <- mat_ [[dec 1 10; dec 9 10]; [dec 8 10; dec 2 10]] ;;
  Y <- mat_ [[z 0; z 1]; [z 1; z 0]] ;;
  acc <- BinaryCategoricalAccuracy yHat Y ;;
  ret (feq (n := BN) acc (z 1)).

(** ** loss_test.go *)
Definition TestMSELoss : M BN bool :=
  loss_test MSE 5 [[dec 11 10; dec 19 10; dec 32 10; dec 401 100; dec 497 100]] [[z 1; z 2; z 3; z 4; z 5]].
Definition TestAbsLoss : M BN bool :=
  loss_test MAE 5 [[dec 11 10; dec 19 10; dec 32 10; dec 401 100; dec 497 100]] [[z 1; z 2; z 3; z 4; z 5]].
Definition TestCrossEntropyLoss : M BN bool :=
  loss_test CE 5 [[dec 3 100; dec 3 100; dec 2 100; dec 2 100; dec 9 10]; [dec 2 100; dec 8 10; dec 8 100; dec 5 10; dec 5 10]]
    [[z 0; z 0; z 0; z 0; z 1]; [z 0; z 1; z 0; z 0; z 0]].
Definition TestBinaryCrossEntropyLoss : M BN bool :=
  loss_test BCE 2 [[dec 9 10; dec 12 100]; [dec 3 10; dec 35 100]] [[z 0; z 1]; [z 1; z 1]].

(** ** network_test.go *)
Definition TestHiddenLayer : M BN bool :=
  layer_test (NewLayer 3 5) [[z 1; z 2; z 3]; [z 4; z 5; z 6]; [z 7; z 8; z 9]]
    [[z 1; z 1; z 1; z 1; z 1]; [z 2; z 2; z 2; z 2; z 2]; [z 3; z 3; z 3; z 3; z 3]].
Definition dv5 : list (list BN) := [[dec 3 10; dec 1 10; dec 2 10; dec 2 10; dec 2 10]].
Definition TestLinearLayer : M BN bool := layer_test (NewLinearLayer 3 5) [[z 1; z 2; z 3]] dv5.
Definition TestSigmoidLayer : M BN bool := layer_test (NewSigmoidLayer 3 5) [[z 1; z 2; z 3]] dv5.
Definition TestLeakyLayer : M BN bool := layer_test (NewLeakyLayer 3 5 (dec 1 10)) [[z 1; z (-1); z 2]] dv5.
Definition TestSoftmaxLayer : M BN bool := layer_test (NewSoftmaxLayer 3 5) [[z 1; z (-1); z 2]] dv5.
Definition TestDropoutLayer : M BN bool := layer_test (NewDropoutLayer 3 5 (dec 1 10)) [[z 1; z (-1); z 2]] dv5.
Definition TestSoftmaxCrossEntropyLayer : M BN bool := softmax_ce_test (K := BN) [[z 1; z (-1); z 2]] [[z 0; z 0; z 0; z 1; z 0]].
(** ** model_test.go, layer_data_test.go, model_data_test.go, optimizers_test.go *)
Definition small_layers : list (lspec BN) := [LSpec (K := BN) Hidden 3 5 f0; LSpec (K := BN) Hidden 5 5 f0; LSpec (K := BN) Linear 5 1 f0].
Definition new_adam (lr : BN) : M BN (optimizer BN) := NewAdamOptimizer lr (z 0) (dec 1 10000000) (dec 9 10) (dec 999 1000).
Definition one_x : list (list BN) := [[z 1; z 2; z 3]]. Definition one_y : list (list BN) := [[dec 1 2]].
Definition TestModel : M BN bool := model_test small_layers MSE (new_adam (dec 1 100)) 0 (dec 1 100) one_x one_y.
Definition TestTrainModel : M BN bool :=
  train_test [LSpec (K := BN) Hidden 1 8 f0; LSpec (K := BN) Hidden 8 8 f0; LSpec (K := BN) SoftmaxK 8 2 f0] CE (new_adam (dec 1 1000)) 1 (z 0) (dec 1 2) 100 500 100 100.
Definition TestLayerData (B : FBits BN) : M BN bool := layer_data_test B (LSpec (K := BN) Hidden 3 5 f0).
(** [ord] is the order in which Go happens to walk through the map of optimizer values. *)
Definition TestModelData (B : FBits BN) (ord : gomap BN) : M BN bool :=
  model_data_test B small_layers MSE (new_adam (dec 1 100)) 0 (dec 1 100) ord one_x one_y.
Definition TestModelSaveLoad (B : FBits BN) (ord : gomap BN) (room : nat) (f : file) : M BN bool :=
  save_load_test B small_layers MSE (new_adam (dec 1 100)) 0 (dec 1 100) ord room f one_x one_y.
Definition adam_values : gomap BN :=
  [("learningRate", dec 1 100); ("decay", z 0); ("epsilon", dec 1 10000000); ("beta1", dec 9 10); ("beta2", dec 999 1000)]%string.
Definition TestSGDOptimizer : M BN bool := optimizer_test (K := BN) (NewSGDOptimizer (K := BN) (dec 5 100) (z 0) (z 0)) (dec 1 2) 100 500.
Definition TestAdamOptimizer : M BN bool := optimizer_test (K := BN) (new_adam (dec 1 1000)) (dec 1 2) 100 500.
(** The program before the first test. *)
Definition start (r : rng BN) (logger : bool) : state BN := MkState (K := BN) [] [] [] [] r logger [].
End Float.
