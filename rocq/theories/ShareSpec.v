(** * ShareSpec: several goroutines evaluating models on one heap.

    A goroutine inside Model.Forward (model.go:143-169, not training) is the list of layers it has still to
    apply and its current matrix.  One step applies one layer; a schedule says whose turn it is.  Switching
    between goroutines inside the Forward method of a layer is not modelled. *)
From Coq Require Import String ZArith List Bool Arith.
From Verif Require Import Num Heap Spec Matrix Network Optimizers ModelGo PureSpec Repr OptSpec ModelSpec.
Import ListNotations.
Open Scope go_scope.

Section WithNum.
Context {K : Num}.
Implicit Types s : state K.
Record thread : Type := Th { th_todo : list nat; th_cur : matrix }.
Definition start (m : model K) (x : matrix) : thread := Th (m_layers m) x.
Definition advance (t : thread) : M K thread :=
  match th_todo t with
  | [] => ret t
  | l :: rest => out <- forward_layer false l (th_cur t) ;; ret (Th rest out)
  end.
Fixpoint turns (sch : list nat) (ts : list thread) : M K (list thread) :=
  match sch with
  | [] => ret ts
  | a :: sch' => match nth_error ts a with
      | None => turns sch' ts
      | Some t => t' <- advance t ;; turns sch' (upd a t' ts)
      end
  end.
(** What a goroutine evaluates: a model with layers [j_es], [j_i] inputs and [j_o] outputs, on the matrix [j_x]
    with the [j_r] rows [j_X]. *)
Record job : Type := Job { j_m : model K; j_es : list (lent K); j_i : nat; j_o : nat; j_x : matrix; j_rs : list nat; j_r : nat; j_X : pm K }.
Definition job_ok s (j : job) : Prop :=
  consistent s (j_m j) (j_es j) (j_i j) (j_o j) /\ (1 <= j_r j)%nat /\ own s (j_x j) (j_rs j) (j_r j) (j_i j) (j_X j).
End WithNum.
Arguments job K : clear implicits.

(** How many turns goroutine number [a] gets in a schedule. *)
Definition turns_of (a : nat) (sch : list nat) : nat := count_occ Nat.eq_dec sch a.
