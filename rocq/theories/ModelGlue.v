(** * Proofs and definitions used by PropModel.v *)
From Coq Require Import String ZArith List Bool Arith Lia QArith.
From Verif Require Import Num Heap Spec Matrix Misc Accuracy Loss Network Optimizers ModelGo PureSpec Repr NumQ NumR NumB64 OptSpec ModelSpec EvalProofs ModelFacts EvalFrame ModelRefute Ex ModelEx.
Import ListNotations.
Open Scope Z_scope.
Open Scope go_scope.

Definition with_type (t : Z) : model QNum := MkModel 1 2 2 0 (Some (MkLoss MSE 2)) t (1#10)%Q 0 [] [0]%nat [0]%nat.
