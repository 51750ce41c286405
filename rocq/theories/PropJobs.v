(** * PropJobs: several models used side by side (C81). *)
From Coq Require Import String ZArith List Bool Arith Lia QArith.
From Verif Require Import Num NumQ Heap Spec Matrix Loss Network Optimizers ModelGo PureSpec Repr OptSpec ModelSpec Ex ModelEx MisuseEx Jobs JobsProofs JobsEx.
Import ListNotations.
Open Scope Z_scope.
Open Scope go_scope.

(** C81: whatever program trains and queries several models that share no parameter and no optimizer and have no
    dropout, each of them ends up with the parameters and optimizer contents, and makes the predictions, that it
    would have had if the program had used no other model. *)
Theorem C81_independent (K : Num) (js : list (job K)) prog s : min_faithful K -> Forall (job_ok s) js -> all_apart js ->
  exists outs s', run js prog s = (Ret outs, s') /\
    forall a j, nth_error js a = Some j -> exists outs_a s_a, run js (only a prog) s = (Ret outs_a, s_a) /\
      same_training s' s_a (j_m j) (j_es j) (j_xs j) (j_i j) (j_o j) (j_k j) /\
      Forall2 (same_contents s' s_a) (said a outs) (said a outs_a).
Proof. exact (jobs_independent js prog s). Qed.
(** With dropout, models that share nothing interfere through the random numbers. *)
Theorem C81_dropout_refuted : exists (s : state QNum) js prog P P' s1 s2 w w',
  Forall (job_fine s) js /\ all_apart js /\
  run js prog s = (Ret [(0%nat, P)], s1) /\ run js (only 0 prog) s = (Ret [(0%nat, P')], s2) /\
  fst (getc P 0 0 s1) = Ret w /\ fst (getc P' 0 0 s2) = Ret w' /\ ~ (w == w')%Q.
Proof. exact dropout_interferes. Qed.
(** Models with their own optimizers that have a layer in common do interfere. *)
Theorem C81_sharing_refuted : exists (s : state QNum) js prog P P' s1 s2 w w',
  Forall (job_ok s) js /\ (forall a b j j', nth_error js a = Some j -> nth_error js b = Some j' -> a <> b -> disjoint (map x_ref (j_xs j)) (map x_ref (j_xs j'))) /\
  run js prog s = (Ret [(0%nat, P)], s1) /\ run js (only 0 prog) s = (Ret [(0%nat, P')], s2) /\
  fst (getc P 0 0 s1) = Ret w /\ fst (getc P' 0 0 s2) = Ret w' /\ ~ (w == w')%Q.
Proof. exact sharing_interferes. Qed.
Print Assumptions C81_independent.
Print Assumptions C81_dropout_refuted.
Print Assumptions C81_sharing_refuted.
Example C81_ex : Forall (job_ok mes) [jA; jB] /\ all_apart [jA; jB] /\ only 0 prog1 = [Train 0 2; Ask 0; Train 0 1; Ask 0] /\
  cells [jA; jB] prog1 1 = Ret [0%Q; (-3#50)%Q] /\ cells [jA; jB] (only 1 prog1) 1 = Ret [0%Q; (-3#50)%Q].
Proof.
  split; [apply Forall_cons; [exact job_A|apply Forall_cons; [exact job_B|apply Forall_nil]]|]. split; [exact apart_AB|]. split; [reflexivity|]. split; vm_compute; reflexivity.
Qed.
