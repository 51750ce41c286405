(** * Proofs and definitions used by PropFit.v *)
From Coq Require Import String ZArith List Bool Arith Lia QArith.
From Verif Require Import Num Heap Spec Matrix Misc Accuracy Loss Network Optimizers ModelGo PureSpec Repr NumQ OptSpec ModelSpec FitFacts EvalFrame FitRefute Calls Ex ModelEx.
Import ListNotations.
Open Scope Z_scope.
Open Scope go_scope.

Definition first_weight (p : M QNum unit) : outcome Q := fst ((p ;; getc eB2 0 0) mes).
