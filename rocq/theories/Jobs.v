(** * Jobs: several models used side by side. *)
From Coq Require Import String ZArith List Bool Arith Lia.
From Verif Require Import Num Heap Spec Matrix Activation Misc Accuracy Loss Network Optimizers ModelGo PureSpec Repr OptSpec ModelSpec.
Import ListNotations.
Open Scope Z_scope.
Open Scope go_scope.

Section WithNum.
Context {K : Num}.
Implicit Types (s : state K).

(** A model together with its training data: layers [j_es], optimizers [j_xs], [j_i] inputs,
    [j_o] outputs, loss [j_k]; [j_n] samples [j_X] with labels [j_Y] in the matrices [j_x] and
    [j_y] (rows [j_rx], [j_ry]); batch size [j_bs]. *)
Record job : Type := Job {
  j_m : model K; j_es : list (lent K); j_xs : list (oent K); j_i : nat; j_o : nat; j_k : losskind;
  j_x : matrix; j_rx : list nat; j_y : matrix; j_ry : list nat; j_n : nat; j_X : pm K; j_Y : pm K; j_bs : Z }.
(** It can be trained and evaluated. *)
Definition job_fine s (j : job) : Prop :=
  trainable s (j_m j) (j_es j) (j_xs j) (j_i j) (j_o j) (j_k j) /\
  data_ok s (j_es j) (j_x j) (j_rx j) (j_y j) (j_ry j) (j_n j) (j_i j) (j_o j) (j_X j) (j_Y j) /\
  (1 <= j_n j)%nat /\ 0 <= j_bs j /\ Z.of_nat (j_n j) + j_bs j <= 2 ^ 52 /\ 0 <= m_acctype (j_m j) <= 2.
(** Moreover it has no dropout layer. *)
Definition job_ok s (j : job) : Prop := job_fine s j /\ Forall (fun e => p_kind (e_p e) <> Dropout) (j_es j).
(** The parameters of the first are used nowhere in the second, and no optimizer in both.  (They
    may be trained on the same data.) *)
Definition apart (j j' : job) : Prop :=
  disjoint (prows (j_es j)) (prows (j_es j') ++ orows (j_xs j') ++ j_rx j' ++ j_ry j') /\
  disjoint (map x_ref (j_xs j)) (map x_ref (j_xs j')).
Definition all_apart (js : list job) : Prop :=
  forall a b j j', nth_error js a = Some j -> nth_error js b = Some j' -> a <> b -> apart j j'.

(** A program that trains the models for some epochs and asks for their predictions, in any
    order; it returns the predictions, each with the number of the model that made it. *)
Inductive act : Type := Train (a : nat) (epochs : Z) | Ask (a : nat).
Definition actor (c : act) : nat := match c with Train a _ => a | Ask a => a end.
Fixpoint run (js : list job) (prog : list act) : M K (list (nat * matrix)) :=
  match prog with
  | [] => ret []
  | c :: rest =>
      match nth_error js (actor c) with
      | None => run js rest
      | Some j =>
          match c with
          | Train _ e => Fit (j_m j) (j_x j) (j_y j) e (j_bs j) matrix0 matrix0 0 ;; run js rest
          | Ask a => P <- Predict (j_m j) (j_x j) ;; outs <- run js rest ;; ret ((a, P) :: outs)
          end
      end
  end.
(** What concerns model [a] only. *)
Definition only (a : nat) (prog : list act) : list act := filter (fun c => (actor c =? a)%nat) prog.
Definition said (a : nat) (outs : list (nat * matrix)) : list matrix := map snd (filter (fun p => (fst p =? a)%nat) outs).
(** Two matrices with the same contents. *)
Definition same_contents s s' (P P' : matrix) : Prop :=
  exists rs rs' r c A, own s P rs r c A /\ own s' P' rs' r c A.
End WithNum.
Arguments job : clear implicits.
