(** * ExamplesGo: the programs of the examples directory.

    math.Sin, math.Cos and what strconv.ParseFloat does to anything but plain decimal numbers are
    arbitrary functions.  Seeding the generator, taking the time and what t.Logf prints are left
    out.  A program returns [false] where the test calls t.Errorf. *)
From Coq Require Import String Ascii ZArith List Bool.
From Verif Require Import Num LayerData Heap Matrix Misc Network Loss Optimizers ModelGo ModelData CodecSpec Session Tests.
Import ListNotations.
Open Scope Z_scope.
Open Scope go_scope.

Section AnyNum.
Context {K : Num}.

(** ** examples/spiral_test.go *)
(** 0.2 and 2.5 *)
Definition lit_02 : K := fdiv (ofZ 1) (ofZ 5).
Definition lit_25 : K := fdiv (ofZ 5) (ofZ 2).
(** linspace, 34-41. *)
Definition linspace (start stop : K) (num : Z) : M K nat :=
  if num <? 0 then panic PMake
  else
    result <- alloc_row (repeat f0 (Z.to_nat num)) ;;
    let step := fdiv (fsub stop start) (ofZ (num - 1)) in
    for_ num (fun i => set_row result i (fadd start (fmul (ofZ i) step))) ;;
    ret result.
(** NewSpiralData, 14-32. *)
Definition NewSpiralData (fsin fcos : K -> K) (points classes : Z) : M K (matrix * matrix) :=
  X <- NewMatrix_ (points * classes) 2 ;;
  Y <- NewMatrix_ (points * classes) classes ;;
  for_ classes (fun c =>
    radius <- linspace f0 f1 points ;;
    t <- linspace (ofZ (c * 4)) (ofZ ((c + 1) * 4)) points ;;
    for_ points (fun i =>
      v <- idx_row t i ;;
      z <- draw_normal ;;
      set_row t i (fadd v (fmul lit_02 z))) ;;
    for_ points (fun i =>
      r <- idx_row radius i ;;
      a <- idx_row t i ;;
      setc X (c * points + i) 0 (fmul r (fsin (fmul a lit_25))) ;;
      r <- idx_row radius i ;;
      a <- idx_row t i ;;
      setc X (c * points + i) 1 (fmul r (fcos (fmul a lit_25))) ;;
      setc Y (c * points + i) c f1)) ;;
  ret (X, Y).
(** What TestSpiral and TestIris do with their data: spiral_test.go:57-74, iris_test.go:59-79.  The
    error of Fit is not looked at there; here it is the result. *)
Definition example_fit sps k new_opt acctype prec (x y : matrix) (epochs bs every : Z) : M K (model K * option err) :=
  XY <- ShuffleDataset x y ;;
  refs <- create_all sps ;;
  l <- ignore_err (MkLoss k 0) (NewLoss k (Z.of_nat (out_of sps))) ;;
  opt <- ignore_err (MkOpt SGD f0 f0 f0 f0 f0 f0 f0 0 matrix0 matrix0 matrix0 matrix0 false false) new_opt ;;
  m <- add_refs NewModel refs ;;
  InitLayers m ;;
  r <- Finalize m l opt acctype prec ;;
  e <- catch (Fit (fst r) (fst XY) (snd XY) epochs bs matrix0 matrix0 every) ;;
  ret (fst r, match e with inl _ => None | inr e => Some e end).
(** TestSpiral, 43-75, for any network and any parameters. *)
Definition spiral_example fsin fcos sps k new_opt acctype prec (points classes epochs bs every : Z) : M K (model K * option err) :=
  InitLogger true true true ;;
  XY <- NewSpiralData fsin fcos points classes ;;
  example_fit sps k new_opt acctype prec (fst XY) (snd XY) epochs bs every.

(** ** examples/iris_test.go *)
(** encoding/csv for input without quotes and carriage returns: lines at newlines, empty lines
    skipped, fields at commas; ReadAll returns no records but an error if the lines differ in their
    number of fields. *)
Fixpoint split_at (c : ascii) (s : string) : list string :=
  match s with
  | EmptyString => [EmptyString]
  | String a t =>
      if Ascii.eqb a c then EmptyString :: split_at c t
      else match split_at c t with [] => [String a EmptyString] | w :: ws => String a w :: ws end
  end.
Definition csv_plain (s : string) : Prop :=
  ~ In """"%char (list_ascii_of_string s) /\ ~ In (ascii_of_nat 13) (list_ascii_of_string s).
Definition csv_lines (text : string) : list (list string) :=
  map (split_at ","%char) (filter (fun l => negb (String.eqb l EmptyString)) (split_at (ascii_of_nat 10) text)).
Definition csv_ReadAll (text : string) : list (list string) * bool :=
  let recs := csv_lines text in
  let width := match recs with [] => O | r :: _ => length r end in
  if forallb (fun r => (length r =? width)%nat) recs then (recs, true) else ([], false).
(** strconv.ParseFloat: digits, at most one point; up to 15 digits make an integer below 2^53 that is
    divided by an exact power of ten (atof64exact in strconv/atof.go).  Anything else is [other].  The
    programs pass bitSize 8; only 32 makes a difference there. *)
Fixpoint decimal (s : string) (n : Z) (digits : nat) (frac : option nat) : option (Z * nat * nat) :=
  match s with
  | EmptyString => Some (n, digits, match frac with None => O | Some f => f end)
  | String a t =>
      let d := Z.of_nat (nat_of_ascii a) - 48 in
      if (0 <=? d) && (d <=? 9) then decimal t (n * 10 + d) (S digits) (match frac with None => None | Some f => Some (S f) end)
      else if Ascii.eqb a "."%char then match frac with None => decimal t n digits (Some O) | Some _ => None end
      else None
  end.
Definition ParseFloat (other : string -> K) (s : string) : K :=
  match decimal s 0 0 None with
  | Some (n, digits, frac) =>
      if (1 <=? digits)%nat && (digits <=? 15)%nat then
        match frac with O => ofZ n | _ => fdiv (ofZ n) (ofZ (10 ^ Z.of_nat frac)) end
      else other s
  | None => other s
  end.
(** records[i][j] *)
Definition field (r : list string) (j : nat) : M K string :=
  match nth_error r j with Some s => ret s | None => panic PIndex end.
(** iris_test.go:44-55. *)
Definition iris_record (other : string -> K) (X Y : matrix) (records : list (list string)) (i : Z) : M K unit :=
  match nth_error records (Z.to_nat i) with
  | None => panic PIndex
  | Some r =>
      a <- field r 0 ;; setc X i 0 (ParseFloat other a) ;;
      a <- field r 1 ;; setc X i 1 (ParseFloat other a) ;;
      a <- field r 2 ;; setc X i 2 (ParseFloat other a) ;;
      a <- field r 3 ;; setc X i 3 (ParseFloat other a) ;;
      a <- field r 4 ;;
      if String.eqb a "Iris-setosa" then setc Y i 0 f1
      else
        a <- field r 4 ;;
        if String.eqb a "Iris-versicolor" then setc Y i 1 f1 else setc Y i 2 f1
  end.
(** iris_test.go:39-56. *)
Definition iris_data (other : string -> K) (records : list (list string)) : M K (matrix * matrix) :=
  let n := Z.of_nat (length records) in
  X <- NewMatrix_ n 4 ;;
  Y <- NewMatrix_ n 3 ;;
  for_ n (iris_record other X Y records) ;;
  ret (X, Y).
(** TestIris, 15-80, for any network and any parameters, once iris.data is open.  The error of ReadAll is
    assigned to err2, but err is checked (31-35): it goes unnoticed. *)
Definition iris_example other sps k new_opt acctype prec (text : string) (epochs bs every : Z) : M K (model K * option err) :=
  InitLogger true true true ;;
  XY <- iris_data other (fst (csv_ReadAll text)) ;;
  example_fit sps k new_opt acctype prec (fst XY) (snd XY) epochs bs every.

(** ** examples/sine_test.go *)
(** 38-46. *)
Definition sine_data (fsin : K -> K) (samples : Z) : M K (matrix * matrix) :=
  x <- NewMatrix_ samples 1 ;;
  y <- NewMatrix_ samples 1 ;;
  for_ samples (fun i =>
    ignore_err tt (Set_ x i 0 (fdiv (ofZ i) (ofZ samples))) ;;
    ignore_err tt (Set_ y i 0 (fsin (fdiv (ofZ i) (ofZ samples))))) ;;
  ShuffleDataset x y.
(** One batch, 59-138: [size] rows from [start], of which [checked] are counted for the printed accuracy
    in every hundredth epoch.  The errors of Update are not assigned to err (123-137). *)
Definition sine_batch (l1 l2 l3 o1 o2 o3 : nat) (j : loss) (x y : matrix) (size checked epoch start : Z) : M K bool :=
  sx <- reslice (mdata x) start (start + size) ;;
  X <- ignore_err matrix0 (NewMatrixFromSlice sx) ;;
  sy <- reslice (mdata y) start (start + size) ;;
  Y <- ignore_err matrix0 (NewMatrixFromSlice sy) ;;
  must (Layer_Forward l1 X) (fun out1 =>
  must (Layer_Forward l2 out1) (fun out2 =>
  must (Layer_Forward l3 out2) (fun out3 =>
  must (Loss_Forward j out3 Y) (fun _ =>
  (if Z.rem epoch 100 =? 0 then for_ checked (fun n => getc out3 n 0 ;; getc Y n 0 ;; ret tt) else ret tt) ;;
  must (Loss_Backward j out3 Y) (fun dValues =>
  must (Layer_Backward l3 out2 dValues) (fun g3 =>
  must (Layer_Backward l2 out1 (g_x g3)) (fun g2 =>
  must (Layer_Backward l1 X (g_x g2)) (fun g1 =>
  ignore_err tt (l <- get_layer l3 ;; Opt_Update o3 (l_w l) (l_b l) (g_w g3) (g_b g3)) ;;
  ignore_err tt (l <- get_layer l2 ;; Opt_Update o2 (l_w l) (l_b l) (g_w g2) (g_b g2)) ;;
  ignore_err tt (l <- get_layer l1 ;; Opt_Update o1 (l_w l) (l_b l) (g_w g1) (g_b g1)) ;;
  ret true)))))))).
(** for start := 0; start < samples; start += size: [count] more turns. *)
Fixpoint sine_batches (count : nat) l1 l2 l3 o1 o2 o3 (j : loss) (x y : matrix) (size checked epoch start : Z) : M K bool :=
  match count with
  | O => ret true
  | S c =>
      ok <- sine_batch l1 l2 l3 o1 o2 o3 j x y size checked epoch start ;;
      if ok then sine_batches c l1 l2 l3 o1 o2 o3 j x y size checked epoch (start + size) else ret false
  end.
(** The epoch loop, 57-139: [e] more epochs; an epoch has ceil(samples/size) turns. *)
Fixpoint sine_epochs (e : nat) l1 l2 l3 o1 o2 o3 (j : loss) (x y : matrix) (samples size checked epoch : Z) : M K bool :=
  match e with
  | O => ret true
  | S e' =>
      ok <- sine_batches (Z.to_nat ((samples + size - 1) / size)) l1 l2 l3 o1 o2 o3 j x y size checked epoch 0 ;;
      if ok then sine_epochs e' l1 l2 l3 o1 o2 o3 j x y samples size checked (epoch + 1) else ret false
  end.
(** TestSine, 14-140: three layers of [i1], [i2], [i3] inputs (1, 64, 64 in the code). *)
Definition sine_example (fsin : K -> K) (new_opt : M K (optimizer K)) (h1 h2 : Z) (samples size checked : Z) (epochs : nat) : M K (bool * list nat) :=
  l1 <- obj (NewLayer 1 h1) ;;
  l2 <- obj (NewLayer h1 h2) ;;
  l3 <- obj (NewLinearLayer h2 1) ;;
  j <- ignore_err (MkLoss MSE 0) (NewLoss MSE 1) ;;
  Init l1 ;;
  Init l2 ;;
  Init l3 ;;
  o1 <- objo new_opt ;;
  o2 <- objo new_opt ;;
  o3 <- objo new_opt ;;
  xy <- sine_data fsin samples ;;
  ok <- sine_epochs epochs l1 l2 l3 o1 o2 o3 j (fst xy) (snd xy) samples size checked 0 ;;
  ret (ok, [l1; l2; l3]).
End AnyNum.
