(** * PropExamples: the example programs (C103). *)
From Coq Require Import String ZArith List Bool Arith Lia Permutation Reals.
From Flocq Require Import Core.Core.
From Verif Require Import Num NumR NumB64 B64Facts Heap Spec Matrix Network Loss Optimizers ModelGo LayerData ModelData PureSpec Repr OptSpec ModelSpec CodecSpec Session Tests TestRuns Nan
  NanEx ExamplesGo ExamplesSpec ExamplesProofs ExamplesSine ExamplesFacts IrisData ExamplesRuns TextSpec Csv.
Import ListNotations.
Open Scope Z_scope.
Open Scope go_scope.

(** C103: the spiral program builds, finalizes and trains its model without an error or a panic, whatever the network and the parameters,
    and its network is the one that the training equations yield from the points of the spiral in some order. *)
Theorem C103_spiral (K : Num) fsin fcos sps k new_opt (opt : optimizer K) acctype prec p c epochs bs every s :
  int_faithful K -> min_faithful K -> feq (f0 : K) f0 = true ->
  (forall s, new_opt s = (Ret opt, s)) -> sps <> [] -> Forall spec_ok sps -> linked (in_of sps) sps -> flt prec f0 = false -> 0 <= acctype <= 2 ->
  in_of sps = 2%nat -> out_of sps = c -> (1 <= p)%nat -> (1 <= c)%nat -> 0 <= bs -> Z.of_nat (p * c) + bs <= 2 ^ 52 ->
  returns (spiral_example fsin fcos sps k new_opt acctype prec (Z.of_nat p) (Z.of_nat c) epochs bs every) s (fun r s' =>
    snd r = None /\ exists perm es xs, Permutation (seq 0 (p * c)) perm /\ trainable s' (fst r) es xs 2 c k /\
    net es = final_net sps k opt (fun n => normals s (p * c + n)%nat) (r_uni (h_rng s)) (r_upos (h_rng s))
      (pick [] perm (spiral_X fsin fcos (normals s) p c)) (pick [] perm (spiral_Y p c)) epochs bs).
Proof. exact (spiral_example_run fsin fcos sps k new_opt opt acctype prec p c epochs bs every s). Qed.
(** The iris program does the same with the records of its file, provided there are some and they have five fields or more. *)
Theorem C103_iris (K : Num) other sps k new_opt (opt : optimizer K) acctype prec text epochs bs every s :
  let records := fst (csv_ReadAll text) in
  int_faithful K -> min_faithful K -> feq (f0 : K) f0 = true ->
  (forall s, new_opt s = (Ret opt, s)) -> sps <> [] -> Forall spec_ok sps -> linked (in_of sps) sps -> flt prec f0 = false -> 0 <= acctype <= 2 ->
  in_of sps = 4%nat -> out_of sps = 3%nat -> 0 <= bs -> Z.of_nat (length records) + bs <= 2 ^ 52 ->
  (1 <= length records)%nat -> Forall (fun r => (5 <= length r)%nat) records ->
  returns (iris_example other sps k new_opt acctype prec text epochs bs every) s (fun r s' =>
    snd r = None /\ exists perm es xs, Permutation (seq 0 (length records)) perm /\ trainable s' (fst r) es xs 4 3 k /\
    net es = final_net sps k opt (normals s) (r_uni (h_rng s)) (r_upos (h_rng s))
      (pick [] perm (iris_X other records)) (pick [] perm (iris_Y records)) epochs bs).
Proof. exact (iris_example_run other sps k new_opt opt acctype prec text epochs bs every s). Qed.
(** If the file cannot be read as a table, the program still comes to its end: the network is the initial one, and Fit's complaint is the only trace. *)
Theorem C103_iris_unread (K : Num) other sps k new_opt (opt : optimizer K) acctype prec text epochs every s :
  int_faithful K -> min_faithful K -> feq (f0 : K) f0 = true ->
  (forall s, new_opt s = (Ret opt, s)) -> sps <> [] -> Forall spec_ok sps -> linked (in_of sps) sps -> flt prec f0 = false -> 0 <= acctype <= 2 ->
  1 <= epochs -> snd (csv_ReadAll text) = false ->
  returns (iris_example other sps k new_opt acctype prec text epochs 0 every) s (fun r s' =>
    snd r = Some (EMatDims 0 0) /\ exists es xs, trainable s' (fst r) es xs (in_of sps) (out_of sps) k /\ net es = start_net (normals s) sps).
Proof. exact (iris_example_unread other sps k new_opt opt acctype prec text epochs every s). Qed.
(** The sine program trains its three layers by hand; it reports no error, and its network is the one that Fit's equations yield. *)
Theorem C103_sine (K : Num) fsin new_opt (opt : optimizer K) h1 h2 c b checked epochs s :
  int_faithful K -> (forall s, new_opt s = (Ret opt, s)) -> clone opt = opt ->
  (1 <= h1)%nat -> (1 <= h2)%nat -> Z.of_nat h1 < 2 ^ 31 -> Z.of_nat h2 < 2 ^ 31 -> (1 <= c)%nat -> (1 <= b)%nat -> (checked <= b)%nat ->
  returns (sine_example fsin new_opt (Z.of_nat h1) (Z.of_nat h2) (Z.of_nat (c * b)) (Z.of_nat b) (Z.of_nat checked) epochs) s (fun r s' =>
    fst r = true /\ exists p es, Permutation (seq 0 (c * b)) p /\ snd r = map e_ref es /\ Forall (lok s') es /\
    net es = final_net (sine_specs h1 h2) MSE opt (normals s) (r_uni (h_rng s)) (r_upos (h_rng s))
      (pick [] p (sine_X (c * b))) (pick [] p (sine_Y fsin (c * b))) (Z.of_nat epochs) (Z.of_nat b)).
Proof. exact (sine_example_run fsin new_opt opt h1 h2 c b checked epochs s). Qed.
(** Unlike Fit it cannot cope with a remainder: it panics as soon as it gets there. *)
Theorem C103_sine_remainder (K : Num) fsin new_opt (opt : optimizer K) h1 h2 c b n checked epochs s :
  int_faithful K -> (forall s, new_opt s = (Ret opt, s)) -> clone opt = opt ->
  (1 <= h1)%nat -> (1 <= h2)%nat -> Z.of_nat h1 < 2 ^ 31 -> Z.of_nat h2 < 2 ^ 31 -> (1 <= b)%nat -> (checked <= b)%nat ->
  (c * b < n < (c + 1) * b)%nat ->
  exists s', sine_example fsin new_opt (Z.of_nat h1) (Z.of_nat h2) (Z.of_nat n) (Z.of_nat b) (Z.of_nat checked) (S epochs) s = (Panic PSlice, s').
Proof. exact (sine_remainder_panics fsin new_opt opt h1 h2 c b n checked epochs s). Qed.
Print Assumptions C103_spiral.
Print Assumptions C103_iris.
Print Assumptions C103_iris_unread.
Print Assumptions C103_sine.
Print Assumptions C103_sine_remainder.

(** The programs with their own parameters, in float64, for any library functions: no assumption remains. *)
Theorem C103_TestSpiral (L : libm) fsin fcos s :
  returns (TestSpiral L fsin fcos) s (fun r s' => snd r = None /\ exists perm es xs, Permutation (seq 0 200) perm /\ trainable s' (fst r) es xs 2 2 CE /\
    net es = final_net (spiral_layers L) CE (adam_opt L (dec L 1 100)) (fun n => normals s (200 + n)%nat) (r_uni (h_rng s)) (r_upos (h_rng s))
      (pick [] perm (spiral_X fsin fcos (normals s) 100 2)) (pick [] perm (spiral_Y 100 2)) 10000 0).
Proof. exact (test_spiral L fsin fcos s). Qed.
Theorem C103_TestIris (L : libm) other s :
  returns (TestIris L other iris_text) s (fun r s' => snd r = None /\ exists perm es xs, Permutation (seq 0 150) perm /\ trainable s' (fst r) es xs 4 3 CE /\
    net es = final_net (iris_layers L) CE (adam_opt L (dec L 1 100)) (normals s) (r_uni (h_rng s)) (r_upos (h_rng s))
      (pick [] perm (iris_X other iris_records)) (pick [] perm (iris_Y iris_records)) 500 0).
Proof. exact (test_iris L other s). Qed.
Theorem C103_TestSine (L : libm) fsin s :
  returns (TestSine L fsin) s (fun r s' => fst r = true /\ exists p es, Permutation (seq 0 250) p /\ snd r = map e_ref es /\ Forall (lok s') es /\
    net es = final_net (sine_specs (K := B64 L) 64 64) MSE (adam_opt L (dec L 1 1000)) (normals s) (r_uni (h_rng s)) (r_upos (h_rng s))
      (pick [] p (sine_X 250)) (pick [] p (sine_Y fsin 250)) 1000 25).
Proof. exact (test_sine L fsin s). Qed.
(** "TestIris trains on its file or stops with an error" is false: ReadAll's error is assigned to a variable that is never looked at. *)
Theorem C103_iris_error_refuted (L : libm) other : exists text, snd (csv_ReadAll text) = false /\ forall s,
  returns (TestIris L other text) s (fun r s' => exists es xs, trainable s' (fst r) es xs 4 3 CE /\ net es = start_net (normals s) (iris_layers L)).
Proof. exact (unread_witness L other). Qed.
Print Assumptions C103_TestSpiral.
Print Assumptions C103_TestIris.
Print Assumptions C103_TestSine.
Print Assumptions C103_iris_error_refuted.

(** The file has 150 records of four measurements and a name, fifty of each of the three names. *)
Theorem C103_iris_file : csv_plain iris_text /\ snd (csv_ReadAll iris_text) = true /\ length iris_records = 150%nat /\
  Forall (fun r => length r = 5%nat) iris_records /\
  (forall r j, In r iris_records -> (j < 4)%nat -> exists n, tenths (nth j r EmptyString) n /\ 1 <= n <= 79) /\
  map iris_class iris_records = (repeat 0%nat 50 ++ repeat 1%nat 50 ++ repeat 2%nat 50)%list /\
  Forall (fun r => iris_class r = 2%nat -> nth 4 r EmptyString = "Iris-virginica"%string) iris_records.
Proof. exact iris_file. Qed.
(** The features are the float64 numbers nearest to the decimals in the file. *)
Theorem C103_iris_nearest (L : libm) (other : string -> B64 L) a j : (a < 150)%nat -> (j < 4)%nat -> exists n, 1 <= n <= 79 /\
  tenths (nth j (nth a iris_records []) EmptyString) n /\
  b64_finite (entry (iris_X other iris_records) a j) = true /\ b64_R (entry (iris_X other iris_records) a j) = rnd (IZR n / IZR 10).
Proof. exact (iris_nearest L other a j). Qed.
(** So is whatever ParseFloat makes of a decimal number of up to fifteen digits. *)
Theorem C103_parse (L : libm) (other : string -> B64 L) s n d f : decimal s 0 0 None = Some (n, d, f) -> (1 <= d <= 15)%nat ->
  b64_finite (ParseFloat other s) = true /\ b64_R (ParseFloat other s) = rnd (IZR n / IZR (10 ^ Z.of_nat f)).
Proof. exact (parse_nearest L other s n d f). Qed.
(** The text of a number with a decimal point, as a reader understands it, is parsed to the nearest float64 number. *)
Theorem C103_parse_value (L : libm) (other : string -> B64 L) t v : (String.length t <= 16)%nat -> read_sign t = (false, t) ->
  read_decimal t = Some (Decimal v, EmptyString) -> b64_finite (ParseFloat other t) = true /\ b64_R (ParseFloat other t) = rnd v.
Proof. exact (parse_value L other t v). Qed.
(** A table of plain fields is read back field by field, blank lines apart; *)
Theorem C103_csv records k : is_table records -> (forall r, In r records -> blank r = false -> length r = k) ->
  csv_ReadAll (table_text records) = (filter (fun r => negb (blank r)) records, true).
Proof. exact (csv_reads records k). Qed.
(** one with records of different lengths is not read at all. *)
Theorem C103_csv_ragged records r r' : is_table records -> In r records -> In r' records -> blank r = false -> blank r' = false -> length r <> length r' ->
  csv_ReadAll (table_text records) = ([], false).
Proof. exact (csv_ragged records r r'). Qed.
(** In real arithmetic point number i of an arm of the spiral lies at distance i / (points - 1) from the centre, so all lie in the unit disc. *)
Theorem C103_spiral_distance z p c a : (2 <= p)%nat -> (a < p * c)%nat -> let X := spiral_X (K := RNum) sin cos z p c in
  (entry X a 0 * entry X a 0 + entry X a 1 * entry X a 1 = (INR (a mod p) / INR (p - 1)) * (INR (a mod p) / INR (p - 1)))%R /\
  (INR (a mod p) / INR (p - 1) <= 1)%R.
Proof. exact (spiral_distance z p c a). Qed.
(** With one point per class the program divides by zero: every weight and bias of the trained network is NaN, and no error is reported. *)
Theorem C103_one_point (L : libm) fsin fcos sps k new_opt (opt : optimizer (B64 L)) acctype prec c epochs bs every s : exp_nan L -> k <> MAE -> 1 <= epochs ->
  (forall s, new_opt s = (Ret opt, s)) -> sps <> [] -> Forall spec_ok sps -> linked (in_of sps) sps -> flt prec f0 = false -> 0 <= acctype <= 2 ->
  in_of sps = 2%nat -> out_of sps = c -> (1 <= c)%nat -> 0 <= bs -> Z.of_nat c + bs <= 2 ^ 52 ->
  returns (spiral_example fsin fcos sps k new_opt acctype prec 1 (Z.of_nat c) epochs bs every) s (fun r s' =>
    snd r = None /\ exists es xs, trainable s' (fst r) es xs 2 c k /\ Forall (all_nan L) (net es)).
Proof. exact (one_point_run L fsin fcos sps k new_opt opt acctype prec c epochs bs every s). Qed.
Print Assumptions C103_iris_file.
Print Assumptions C103_iris_nearest.
Print Assumptions C103_parse.
Print Assumptions C103_parse_value.
Print Assumptions C103_csv.
Print Assumptions C103_csv_ragged.
Print Assumptions C103_spiral_distance.
Print Assumptions C103_one_point.

Example C103_ex L : Forall spec_ok (spiral_layers L) /\ linked (in_of (spiral_layers L)) (spiral_layers L) /\ in_of (spiral_layers L) = 2%nat /\ out_of (spiral_layers L) = 2%nat /\
  Forall spec_ok (iris_layers L) /\ linked (in_of (iris_layers L)) (iris_layers L) /\ in_of (iris_layers L) = 4%nat /\ out_of (iris_layers L) = 3%nat /\
  (forall s, new_adam L (dec L 1 100) s = (Ret (adam_opt L (dec L 1 100)), s)) /\ clone (adam_opt L (dec L 1 100)) = adam_opt L (dec L 1 100) /\
  snd (csv_ReadAll short_line) = false /\ exp_nan nx_lib /\ (2 * 25 < 60 < (2 + 1) * 25)%nat.
Proof. exact (examples_ex L). Qed.
Example C103_parse_ex : decimal "12.75" 0 0 None = Some (1275, 4%nat, 2%nat) /\ decimal "7" 0 0 None = Some (7, 1%nat, 0%nat) /\ decimal "1e5" 0 0 None = None.
Proof. exact parse_ex. Qed.
Example C103_csv_ex : is_table [["1.5"; ""]; [""]; ["";"x"]]%string /\ blank ["1.5"; ""]%string = false /\ blank [""]%string = true /\
  csv_ReadAll (table_text [["1.5"; ""]; [""]; ["";"x"]]%string) = ([["1.5"; ""]; ["";"x"]]%string, true) /\
  read_sign "12.75" = (false, "12.75")%string /\ read_decimal "12.75" = Some (Decimal (IZR 1275 / 10 ^ 2), EmptyString).
Proof. exact csv_ex. Qed.
