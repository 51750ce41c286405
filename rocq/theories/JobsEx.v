(** * JobsEx: concrete cases and counterexamples for C81. *)
From Coq Require Import String ZArith List Bool Arith Lia QArith.
From Verif Require Import Num NumQ Heap Spec Matrix Loss Network Optimizers ModelGo PureSpec Repr HeapLemmas OptSpec OptFacts ModelSpec Ex ModelEx MisuseEx Jobs JobsProofs.
Import ListNotations.
Open Scope Z_scope.
Open Scope go_scope.

(** The hidden layer of the example and its linear layer, as two models trained on the same samples. *)
Definition one_layer (l o : nat) (out : Z) : model QNum :=
  MkModel 1 2 out 0 (Some (MkLoss MSE out)) 0 (1#10)%Q 0
    [("learningRate", (1#10)%Q); ("decay", 0%Q); ("momentum", (1#2)%Q)]%string [l] [o].
Definition jA : job QNum := Job (one_layer 0 0 2) [eE0] [OE 0 [] (ePO 2)] 2 2 MSE eX [10;11;12]%nat eX [10;11;12]%nat 3 pXd pXd 2.
Definition jB : job QNum := Job (one_layer 2 2 1) [eE2] [OE 2 [] (ePO 1)] 2 1 MSE eX [10;11;12]%nat eY [13;14;15]%nat 3 pXd pYd 2.
(** The hidden layer again, with another optimizer. *)
Definition jC : job QNum := Job (one_layer 0 1 2) [eE0] [OE 1 [] (ePO 2)] 2 2 MSE eX [10;11;12]%nat eX [10;11;12]%nat 3 pXd pXd 0.
Ltac job_tac :=
  split; [|repeat constructor; discriminate];
  split; [split; [repeat (split; [reflexivity|]); split; [simpl; auto|constructor; [eexists; split; [reflexivity|lown_tac]|constructor]]|];
    split; [split; nodup_tac|]; split; [simpl; lia|]; split; [reflexivity|];
    split; [nodup_tac|]; split;
      [repeat (constructor; [eexists; split; [reflexivity|]; split; [repeat split|]; simpl; left; repeat split|]); constructor
      |split; [intros z _ []|]; split; [reflexivity|]; split; [reflexivity|]; repeat constructor; discriminate]|];
  split; [split; [own_tac|split; [own_tac|split; disj_tac]]|]; simpl; repeat split; lia.
Lemma job_A : job_ok mes jA. Proof. job_tac. Qed.
Lemma job_B : job_ok mes jB. Proof. job_tac. Qed.
Lemma job_C : job_ok mes jC. Proof. job_tac. Qed.
Lemma apart_AB : all_apart [jA; jB].
Proof.
  intros [|[|a]] [|[|b]] j j' Ha Hb Hab; try (destruct a; discriminate); try (destruct b; discriminate); try congruence;
    simpl in *; injection Ha as <-; injection Hb as <-; split; disj_tac.
Qed.
Definition prog1 : list act := [Train 0 2; Ask 1; Train 1 1; Ask 0; Train 0 1; Ask 1; Ask 0].
Definition cells (js : list (job QNum)) (prog : list act) (a : nat) : outcome (list Q) :=
  fst ((outs <- run js prog ;; (fix go l := match l with [] => ret [] | P :: t => v <- getc P 0 0 ;; vs <- go t ;; ret (Qred v :: vs) end) (said a outs)) mes).

(** The first two layers of the example with dropout, and random numbers that drop different units in the first pass. *)
Definition jd_rng : rng QNum := MkRng (fun n => if (n <? 6)%nat then (9#10)%Q else (1#10)%Q) (r_nrm ex_rng) (r_int ex_rng) 0 0 0.
Definition jds : state QNum :=
  MkState me_rows me_outs [MkLayer Dropout 2 2 eW0 eB0 0%Q (1#4)%Q matrix0 matrix0; eL1; eL2] [eO; eO; eO] jd_rng true [].
Definition jD : job QNum := Job (one_layer 0 0 2) [LE 0 [1;2]%nat [3]%nat (PL Dropout 2 2 (p_w eP0) (p_b eP0) 0%Q (1#4)%Q)] [OE 0 [] (ePO 2)]
  2 2 MSE eX [10;11;12]%nat eX [10;11;12]%nat 3 pXd pXd 0.
Definition jE : job QNum := Job (one_layer 1 1 2) [eE1] [OE 1 [] (ePO 2)] 2 2 MSE eX [10;11;12]%nat eX [10;11;12]%nat 3 pXd pXd 0.
Ltac fine_tac :=
  split; [split; [repeat (split; [reflexivity|]); split; [simpl; auto|constructor; [eexists; split; [reflexivity|lown_tac]|constructor]]|];
    split; [split; nodup_tac|]; split; [simpl; lia|]; split; [reflexivity|];
    split; [nodup_tac|]; split;
      [repeat (constructor; [eexists; split; [reflexivity|]; split; [repeat split|]; simpl; left; repeat split|]); constructor
      |split; [intros z _ []|]; split; [reflexivity|]; split; [reflexivity|]; repeat constructor; discriminate]|];
  split; [split; [own_tac|split; [own_tac|split; disj_tac]]|]; simpl; repeat split; lia.
Lemma fine_D : job_fine jds jD. Proof. fine_tac. Qed.
Lemma fine_E : job_fine jds jE. Proof. fine_tac. Qed.
Lemma apart_DE : all_apart [jD; jE].
Proof.
  intros [|[|a]] [|[|b]] j j' Ha Hb Hab; try (destruct a; discriminate); try (destruct b; discriminate); try congruence;
    simpl in *; injection Ha as <-; injection Hb as <-; split; disj_tac.
Qed.
(** The first cell of the only prediction, made by model 0. *)
Definition cell00 (r : outcome (list (nat * matrix)) * state QNum) : outcome Q :=
  match r with (Ret [(O, P)], s) => match fst (getc P 0 0 s) with Ret v => Ret (Qred v) | Fail e => Fail e | Panic p => Panic p end
             | (Ret _, _) => Fail (EMsg "") | (Fail e, _) => Fail e | (Panic p, _) => Panic p end.
Lemma cell00_spec r v : cell00 r = Ret v -> exists P s w, r = (Ret [(0%nat, P)], s) /\ fst (getc P 0 0 s) = Ret w /\ v = Qred w.
Proof.
  destruct r as [[[|[[|n] P] [|x l]]|e|p] s]; unfold cell00; try discriminate. destruct (fst (getc P 0 0 s)) as [w|e|p] eqn:E; try discriminate.
  intros H. exists P, s, w. split; [reflexivity|]. split; [exact E|]. congruence.
Qed.
Lemma two_cells s js prog v v' : cell00 (run js prog s) = Ret v -> cell00 (run js (only 0 prog) s) = Ret v' -> v <> v' ->
  exists P P' s1 s2 w w', run js prog s = (Ret [(0%nat, P)], s1) /\ run js (only 0 prog) s = (Ret [(0%nat, P')], s2) /\
    fst (getc P 0 0 s1) = Ret w /\ fst (getc P' 0 0 s2) = Ret w' /\ ~ (w == w')%Q.
Proof.
  intros H1 H2 N. apply cell00_spec in H1 as (P & s1 & w & E1 & G1 & ->). apply cell00_spec in H2 as (P' & s2 & w' & E2 & G2 & ->).
  exists P, P', s1, s2, w, w'. repeat (split; [assumption|]). intros E. apply N. apply Qred_complete. exact E.
Qed.
Lemma dropout_interferes : exists (s : state QNum) js prog P P' s1 s2 w w',
  Forall (job_fine s) js /\ all_apart js /\
  run js prog s = (Ret [(0%nat, P)], s1) /\ run js (only 0 prog) s = (Ret [(0%nat, P')], s2) /\
  fst (getc P 0 0 s1) = Ret w /\ fst (getc P' 0 0 s2) = Ret w' /\ ~ (w == w')%Q.
Proof.
  destruct (two_cells jds [jD; jE] [Train 1 1; Train 0 1; Ask 0] 5%Q (4#5)%Q) as (P & P' & s1 & s2 & w & w' & H);
    [vm_compute; reflexivity|vm_compute; reflexivity|discriminate|].
  exists jds, [jD; jE], [Train 1 1; Train 0 1; Ask 0], P, P', s1, s2, w, w'.
  split; [apply Forall_cons; [exact fine_D|apply Forall_cons; [exact fine_E|apply Forall_nil]]|]. split; [exact apart_DE|exact H].
Qed.
Lemma sharing_interferes : exists (s : state QNum) js prog P P' s1 s2 w w',
  Forall (job_ok s) js /\ (forall a b j j', nth_error js a = Some j -> nth_error js b = Some j' -> a <> b -> disjoint (map x_ref (j_xs j)) (map x_ref (j_xs j'))) /\
  run js prog s = (Ret [(0%nat, P)], s1) /\ run js (only 0 prog) s = (Ret [(0%nat, P')], s2) /\
  fst (getc P 0 0 s1) = Ret w /\ fst (getc P' 0 0 s2) = Ret w' /\ ~ (w == w')%Q.
Proof.
  destruct (two_cells mes [jA; jC] [Train 1 1; Ask 0] 2%Q 5%Q) as (P & P' & s1 & s2 & w & w' & H);
    [vm_compute; reflexivity|vm_compute; reflexivity|discriminate|].
  exists mes, [jA; jC], [Train 1 1; Ask 0], P, P', s1, s2, w, w'.
  split; [apply Forall_cons; [exact job_A|apply Forall_cons; [exact job_C|apply Forall_nil]]|]. split; [|exact H].
  intros [|[|a]] [|[|b]] j j' Ha Hb Hab; try (destruct a; discriminate); try (destruct b; discriminate); try congruence;
    simpl in *; injection Ha as <-; injection Hb as <-; disj_tac.
Qed.
