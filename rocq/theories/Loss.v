(** * loss.go *)
From Coq Require Import String ZArith List Bool.
From Verif Require Import Num Heap Matrix.
Import ListNotations.
Open Scope Z_scope.
Open Scope go_scope.

(** The four loss structs (loss.go:28,105,192,279): a kind and a Size. *)
Inductive losskind : Type := MSE | MAE | CE | BCE.
Record loss : Type := MkLoss { ls_kind : losskind; ls_size : Z }.

(** LossType codes, model.go:16-21. *)
Definition losskind_code (k : losskind) : Z :=
  match k with MSE => 0 | MAE => 1 | CE => 2 | BCE => 3 end.

Section WithNum.
Context {K : Num}.

(** NewMeanSquaredLoss, NewMeanAbsoluteLoss, NewCrossEntropyLoss,
    NewBinaryCrossEntropyLoss: loss.go:43-51, 120-128, 207-215, 294-302. *)
Definition NewLoss (k : losskind) (size : Z) : M K loss :=
  if size <? 1 then fail (ELossSize size) else ret (MkLoss k size).

(** The dimension check at the start of all eight methods (loss.go:56-63, 83-90, 133-140,
    160-167, 220-227, 256-263, 307-314, 334-341). *)
Definition check_cols (size : Z) (yhat y : matrix) : M K unit :=
  if negb (mcols yhat =? size) || negb (mcols y =? size) then
    if negb (mcols yhat =? size) then fail (EMatDims (mrows yhat) (mcols yhat))
    else if negb (mcols y =? size) then fail (EMatDims (mrows y) (mcols y))
    else ret tt
  else ret tt.

(** loss.go:54-78.  Only row 0 is squared and only row 0's sum is returned. *)
Definition MSE_Forward (size : Z) (yhat y : matrix) : M K K :=
  check_cols size yhat y ;;
  sub <- Sub yhat y ;;
  for_ (mcols sub) (fun i =>
    v <- getc sub 0 i ;;
    setc sub 0 i (fpow v (ofZ 2))) ;;
  sums <- Sum sub 1 ;;
  t <- getc sums 0 0 ;;
  ret (fdiv t (ofZ (mcols sub))).

(** loss.go:81-101. *)
Definition MSE_Backward (size : Z) (yhat y : matrix) : M K matrix :=
  check_cols size yhat y ;;
  dInputs <- Sub yhat y ;;
  MulScalar dInputs (fdiv (ofZ 2) (ofZ size)).

(** loss.go:131-155. *)
Definition MAE_Forward (size : Z) (yhat y : matrix) : M K K :=
  check_cols size yhat y ;;
  sub <- Sub yhat y ;;
  for_ (mcols sub) (fun i =>
    v <- getc sub 0 i ;;
    setc sub 0 i (fabs v)) ;;
  sums <- Sum sub 1 ;;
  t <- getc sums 0 0 ;;
  ret (fdiv t (ofZ (mcols sub))).

(** loss.go:158-188.  [1/dInputs.Cols] and [-1/dInputs.Cols] are integer divisions
    (truncating; [Z.quot]).  Cols cannot be 0 inside the loop. *)
Definition MAE_Backward (size : Z) (yhat y : matrix) : M K matrix :=
  check_cols size yhat y ;;
  dInputs <- Sub yhat y ;;
  each_cell (mrows dInputs) (mcols dInputs) (fun i j =>
    v <- getc dInputs i j ;;
    if flt f0 v then setc dInputs i j (ofZ (Z.quot 1 (mcols dInputs)))
    else if flt v f0 then setc dInputs i j (ofZ (Z.quot (-1) (mcols dInputs)))
    else setc dInputs i j f0) ;;
  ret dInputs.

(** loss.go:218-251. *)
Definition CE_Forward (size : Z) (yhat y : matrix) : M K K :=
  check_cols size yhat y ;;
  clipped <- Clip yhat ;;
  likelihoods <- NewMatrix_ (mrows yhat) 1 ;;
  for_ (mrows yhat) (fun i =>
    sum <- for_acc (mcols yhat) (fun j sum =>
      a <- getc clipped i j ;;
      b <- getc y i j ;;
      ret (fadd sum (fmul a b))) f0 ;;
    setc likelihoods i 0 (fneg (flog sum))) ;;
  for_acc (mrows likelihoods) (fun i sum =>
    v <- getc likelihoods i 0 ;;
    ret (fadd sum (fdiv v (ofZ (mrows likelihoods))))) f0.

(** loss.go:254-275. *)
Definition CE_Backward (size : Z) (yhat y : matrix) : M K matrix :=
  check_cols size yhat y ;;
  dInputs <- NewMatrix_ (mrows yhat) (mcols yhat) ;;
  each_cell (mrows dInputs) (mcols dInputs) (fun i j =>
    b <- getc y i j ;;
    a <- getc yhat i j ;;
    setc dInputs i j (fdiv (fdiv (fneg b) a) (ofZ (mrows yhat)))) ;;
  ret dInputs.

(** loss.go:305-329.  The Go expression is
    (-(y*log(c) + (1-y)*log(1-c)) / rows) / size. *)
Definition BCE_Forward (size : Z) (yhat y : matrix) : M K K :=
  check_cols size yhat y ;;
  clipped <- Clip yhat ;;
  for_acc (mrows yhat) (fun i sum =>
    for_acc (mcols yhat) (fun j sum =>
      b <- getc y i j ;;
      c <- getc clipped i j ;;
      ret (fadd sum
        (fdiv (fdiv (fneg (fadd (fmul b (flog c)) (fmul (fsub f1 b) (flog (fsub f1 c)))))
                    (ofZ (mrows yhat)))
              (ofZ size)))) sum) f0.

(** loss.go:332-356. *)
Definition BCE_Backward (size : Z) (yhat y : matrix) : M K matrix :=
  check_cols size yhat y ;;
  clipped <- Clip yhat ;;
  dInputs <- NewMatrix_ (mrows yhat) (mcols yhat) ;;
  each_cell (mrows dInputs) (mcols dInputs) (fun i j =>
    b <- getc y i j ;;
    c <- getc clipped i j ;;
    setc dInputs i j
      (fdiv (fdiv (fneg (fsub (fdiv b c) (fdiv (fsub f1 b) (fsub f1 c)))) (ofZ size))
            (ofZ (mrows yhat)))) ;;
  ret dInputs.

(** Dynamic dispatch of the Loss interface (loss.go:14-19). *)
Definition Loss_Forward (l : loss) (yhat y : matrix) : M K K :=
  match ls_kind l with
  | MSE => MSE_Forward (ls_size l) yhat y
  | MAE => MAE_Forward (ls_size l) yhat y
  | CE => CE_Forward (ls_size l) yhat y
  | BCE => BCE_Forward (ls_size l) yhat y
  end.
Definition Loss_Backward (l : loss) (yhat y : matrix) : M K matrix :=
  match ls_kind l with
  | MSE => MSE_Backward (ls_size l) yhat y
  | MAE => MAE_Backward (ls_size l) yhat y
  | CE => CE_Backward (ls_size l) yhat y
  | BCE => BCE_Backward (ls_size l) yhat y
  end.

End WithNum.
