(** * ExamplesRuns: the example programs with their own parameters, in float64. *)
From Coq Require Import String ZArith List Bool Arith Lia Permutation Reals.
From Flocq Require Import Core.Core.
From Verif Require Import Num NumB64 B64Facts Heap Spec Matrix Network Loss Optimizers ModelGo LayerData ModelData PureSpec Repr OptSpec ModelSpec CodecSpec Session SessionProofs Tests TestRuns Nan NanEx
  ExamplesGo ExamplesSpec ExamplesData ExamplesProofs ExamplesSine ExamplesFacts IrisData.
Import ListNotations.
Open Scope Z_scope.
Open Scope go_scope.

Section Float.
Context (L : libm).
Notation BN := (B64 L).
Definition spiral_layers : list (lspec BN) := [LSpec (K := BN) Hidden 2 64 f0; LSpec (K := BN) SoftmaxK 64 2 f0].
Definition iris_layers : list (lspec BN) := [LSpec (K := BN) Hidden 4 16 f0; LSpec (K := BN) Hidden 16 16 f0; LSpec (K := BN) SoftmaxK 16 3 f0].
Definition TestSpiral (fsin fcos : BN -> BN) : M BN (model BN * option err) :=
  spiral_example fsin fcos spiral_layers CE (new_adam L (dec L 1 100)) 1 f0 100 2 10000 0 100.
Definition TestIris (other : string -> BN) (text : string) : M BN (model BN * option err) :=
  iris_example other iris_layers CE (new_adam L (dec L 1 100)) 1 f0 text 500 0 100.
Definition TestSine (fsin : BN -> BN) : M BN (bool * list nat) :=
  sine_example fsin (new_adam L (dec L 1 1000)) 64 64 250 25 24 1000.

Ltac specs := repeat constructor; cbn; lia.
Lemma spiral_layers_ok : Forall spec_ok spiral_layers /\ linked (in_of spiral_layers) spiral_layers.
Proof. split; [specs|cbn; auto]. Qed.
Lemma iris_layers_ok : Forall spec_ok iris_layers /\ linked (in_of iris_layers) iris_layers.
Proof. split; [specs|cbn; auto]. Qed.
Lemma adam100 s : new_adam L (dec L 1 100) s = (Ret (adam_opt L (dec L 1 100)), s).
Proof. apply adam_made. reflexivity. Qed.
Lemma adam1000 s : new_adam L (dec L 1 1000) s = (Ret (adam_opt L (dec L 1 1000)), s).
Proof. apply adam_made. reflexivity. Qed.

Lemma test_spiral fsin fcos s :
  returns (TestSpiral fsin fcos) s (fun r s' => snd r = None /\ exists perm es xs, Permutation (seq 0 200) perm /\ trainable s' (fst r) es xs 2 2 CE /\
    net es = final_net spiral_layers CE (adam_opt L (dec L 1 100)) (fun n => normals s (200 + n)%nat) (r_uni (h_rng s)) (r_upos (h_rng s))
      (pick [] perm (spiral_X fsin fcos (normals s) 100 2)) (pick [] perm (spiral_Y 100 2)) 10000 0).
Proof.
  destruct spiral_layers_ok as [S1 S2].
  exact (spiral_example_run fsin fcos spiral_layers CE (new_adam L (dec L 1 100)) (adam_opt L (dec L 1 100)) 1 f0 100 2 10000 0 100 s
    (B64_int_faithful L) (B64_min_faithful L) eq_refl adam100 ltac:(discriminate) S1 S2 eq_refl ltac:(lia) eq_refl eq_refl ltac:(lia) ltac:(lia) ltac:(lia) ltac:(lia)).
Qed.
Lemma five_fields (l : list (list string)) : Forall (fun r => length r = 5%nat) l -> Forall (fun r => (5 <= length r)%nat) l.
Proof. apply Forall_impl. intros; lia. Qed.
Lemma test_iris other s :
  returns (TestIris other iris_text) s (fun r s' => snd r = None /\ exists perm es xs, Permutation (seq 0 150) perm /\ trainable s' (fst r) es xs 4 3 CE /\
    net es = final_net iris_layers CE (adam_opt L (dec L 1 100)) (normals s) (r_uni (h_rng s)) (r_upos (h_rng s))
      (pick [] perm (iris_X other iris_records)) (pick [] perm (iris_Y iris_records)) 500 0).
Proof.
  destruct iris_layers_ok as [S1 S2]. destruct iris_read as (_ & LR & W). apply five_fields in W. unfold iris_records in *. revert LR W. unfold TestIris. generalize iris_text. intros text LR W.
  pose proof (iris_example_run other iris_layers CE (new_adam L (dec L 1 100)) (adam_opt L (dec L 1 100)) 1 f0 text 500 0 100 s
    (B64_int_faithful L) (B64_min_faithful L) eq_refl adam100 ltac:(discriminate) S1 S2 eq_refl ltac:(lia) eq_refl eq_refl ltac:(lia)) as H. cbv zeta in H.
  rewrite LR in H. exact (H ltac:(lia) ltac:(lia) W).
Qed.
Lemma test_sine fsin s :
  returns (TestSine fsin) s (fun r s' => fst r = true /\ exists p es, Permutation (seq 0 250) p /\ snd r = map e_ref es /\ Forall (lok s') es /\
    net es = final_net (sine_specs (K := BN) 64 64) MSE (adam_opt L (dec L 1 1000)) (normals s) (r_uni (h_rng s)) (r_upos (h_rng s))
      (pick [] p (sine_X 250)) (pick [] p (sine_Y fsin 250)) 1000 25).
Proof.
  pose proof (sine_example_run fsin (new_adam L (dec L 1 1000)) (adam_opt L (dec L 1 1000)) 64 64 10 25 24 1000 s
    (B64_int_faithful L) adam1000 eq_refl ltac:(lia) ltac:(lia) ltac:(lia) ltac:(lia) ltac:(lia) ltac:(lia) ltac:(lia)) as H.
  replace (10 * 25)%nat with 250%nat in H by reflexivity. replace (Z.of_nat 1000) with 1000 in H by reflexivity. exact H.
Qed.
(** A file with a line too short: nothing is learnt. *)
Definition short_line : string := String.append "5.1,3.5,1.4,0.2,Iris-setosa" (String (Ascii.ascii_of_nat 10) "4.9,3.0,1.4").
Lemma test_iris_short other s :
  returns (TestIris other short_line) s (fun r s' => snd r = Some (EMatDims 0 0) /\ exists es xs, trainable s' (fst r) es xs 4 3 CE /\ net es = start_net (normals s) iris_layers).
Proof.
  destruct iris_layers_ok as [S1 S2].
  exact (iris_example_unread other iris_layers CE (new_adam L (dec L 1 100)) (adam_opt L (dec L 1 100)) 1 f0 short_line 500 100 s
    (B64_int_faithful L) (B64_min_faithful L) eq_refl adam100 ltac:(discriminate) S1 S2 eq_refl ltac:(lia) ltac:(lia) eq_refl).
Qed.
(** The features of the iris program are the nearest float64 numbers to the decimals in the file. *)
Lemma iris_nearest (other : string -> BN) a j : (a < 150)%nat -> (j < 4)%nat -> exists n, 1 <= n <= 79 /\
  tenths (nth j (nth a iris_records []) EmptyString) n /\
  b64_finite (entry (iris_X other iris_records) a j) = true /\
  b64_R (entry (iris_X other iris_records) a j) = rnd (IZR n / IZR 10).
Proof.
  destruct iris_read as (_ & LR & _). pose proof iris_measured as M. revert LR M. generalize iris_records. intros l LR M Ha Hj.
  destruct (M (nth a l []) j) as (n & T & B); [apply nth_In; lia|exact Hj|]. exists n. split; [exact B|]. split; [exact T|].
  unfold entry, iris_X. rewrite (nth_indep _ [] ((fun r => map (fun j => ParseFloat other (nth j r EmptyString)) (seq 0 4)) [])) by (rewrite map_length; lia).
  rewrite (map_nth (fun r => map (fun j => ParseFloat other (nth j r EmptyString)) (seq 0 4))).
  rewrite (nth_indep _ _ ((fun j => ParseFloat other (nth j (nth a l []) EmptyString)) 0%nat)) by (rewrite map_length, seq_length; lia).
  rewrite (map_nth (fun j => ParseFloat other (nth j (nth a l []) EmptyString))), seq_nth by lia.
  apply (parse_nearest L other _ n 2 1 T). lia.
Qed.
Lemma unread_witness other : exists text, snd (csv_ReadAll text) = false /\ forall s,
  returns (TestIris other text) s (fun r s' => exists es xs, trainable s' (fst r) es xs 4 3 CE /\ net es = start_net (normals s) iris_layers).
Proof.
  exists short_line. split; [reflexivity|]. intros s. destruct (test_iris_short other s) as (r & s' & E & _ & H). exists r, s'. split; [exact E|exact H].
Qed.
Lemma examples_ex : Forall spec_ok spiral_layers /\ linked (in_of spiral_layers) spiral_layers /\ in_of spiral_layers = 2%nat /\ out_of spiral_layers = 2%nat /\
  Forall spec_ok iris_layers /\ linked (in_of iris_layers) iris_layers /\ in_of iris_layers = 4%nat /\ out_of iris_layers = 3%nat /\
  (forall s, new_adam L (dec L 1 100) s = (Ret (adam_opt L (dec L 1 100)), s)) /\ clone (adam_opt L (dec L 1 100)) = adam_opt L (dec L 1 100) /\
  snd (csv_ReadAll short_line) = false /\ exp_nan nx_lib /\ (2 * 25 < 60 < (2 + 1) * 25)%nat.
Proof.
  destruct spiral_layers_ok as [A1 A2]. destruct iris_layers_ok as [B1 B2]. repeat (split; [assumption||reflexivity||exact adam100|]). split; [exact nx_exp|lia].
Qed.
End Float.
Lemma iris_file : csv_plain iris_text /\ snd (csv_ReadAll iris_text) = true /\ length iris_records = 150%nat /\
  Forall (fun r => length r = 5%nat) iris_records /\
  (forall r j, In r iris_records -> (j < 4)%nat -> exists n, tenths (nth j r EmptyString) n /\ 1 <= n <= 79) /\
  map iris_class iris_records = repeat 0%nat 50 ++ repeat 1%nat 50 ++ repeat 2%nat 50 /\
  Forall (fun r => iris_class r = 2%nat -> nth 4 r EmptyString = "Iris-virginica"%string) iris_records.
Proof. exact (conj iris_plain (conj (proj1 iris_read) (conj (proj1 (proj2 iris_read)) (conj (proj2 (proj2 iris_read)) (conj iris_measured iris_classes))))). Qed.
Lemma parse_ex : decimal "12.75" 0 0 None = Some (1275, 4%nat, 2%nat) /\ decimal "7" 0 0 None = Some (7, 1%nat, 0%nat) /\ decimal "1e5" 0 0 None = None.
Proof. repeat split. Qed.
