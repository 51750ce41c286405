(** * Ex: a concrete state over the rationals, used by the examples beside the theorems. *)
From Coq Require Import String ZArith List Bool Arith Lia QArith.
From Verif Require Import Num NumQ Heap Matrix Network Spec PureSpec Repr.
Import ListNotations.
Open Scope Z_scope.

Definition q (z : Z) : Q := inject_Z z.

(** Six 2x2 / 2x1 / 1x2 matrices: a = [[1,2],[3,4]], b = [[5,6],[7,8]], w = [[1,-1],[2,0]],
    bias = [[1,-2]], y = [[1,0],[0,1]] and x = [[-3,2],[4,-5]]. *)
Definition ex_rows : list (list Q) :=
  [ [q 1; q 2]; [q 3; q 4]; [q 5; q 6]; [q 7; q 8]; [q 1; q (-1)]; [q 2; q 0]; [q 1; q (-2)];
    [q 1; q 0]; [q 0; q 1]; [q (-3); q 2]; [q 4; q (-5)] ].
Definition ex_outs : list (list nat) := [ [1; 2]; [3; 4]; [5; 6]; [7]; [8; 9]; [10; 11] ]%nat.
Definition ex_rng : rng QNum := MkRng (fun n => if Nat.even n then (1#10)%Q else (9#10)%Q) (fun n => q (Z.of_nat n)) (fun n => Z.of_nat n) 0 0 0.

Definition mA : matrix := MkMatrix 2 2 (MkSlice 1 0 2).
Definition mB : matrix := MkMatrix 2 2 (MkSlice 2 0 2).
Definition mW : matrix := MkMatrix 2 2 (MkSlice 3 0 2).
Definition mBias : matrix := MkMatrix 1 2 (MkSlice 4 0 1).
Definition mY : matrix := MkMatrix 2 2 (MkSlice 5 0 2).
Definition mX : matrix := MkMatrix 2 2 (MkSlice 6 0 2).

Definition ex_layer (k : lkind) : layer QNum :=
  MkLayer k 2 2 mW mBias (1#10)%Q (1#4)%Q matrix0 matrix0.
Definition ex_layers : list (layer QNum) := map ex_layer [Hidden; Linear; SigmoidK; Leaky; SoftmaxK; Dropout].
Definition exs : state QNum := MkState ex_rows ex_outs ex_layers [] ex_rng true [].

Definition pA : pm QNum := [[q 1; q 2]; [q 3; q 4]].
Definition pB : pm QNum := [[q 5; q 6]; [q 7; q 8]].
Definition pW : pm QNum := [[q 1; q (-1)]; [q 2; q 0]].
Definition pBias : pm QNum := [[q 1; q (-2)]].
Definition pY : pm QNum := [[q 1; q 0]; [q 0; q 1]].
Definition pX : pm QNum := [[q (-3); q 2]; [q 4; q (-5)]].

Ltac own_tac :=
  unfold own; simpl; repeat (split; [reflexivity|]);
  split; [split; [reflexivity|repeat constructor]|];
  split; [eexists; split; [reflexivity|]; split; [simpl; lia|reflexivity]|repeat constructor].

Lemma own_mA : own exs mA [1;2]%nat 2 2 pA. Proof. own_tac. Qed.
Lemma own_mB : own exs mB [3;4]%nat 2 2 pB. Proof. own_tac. Qed.
Lemma own_mW : own exs mW [5;6]%nat 2 2 pW. Proof. own_tac. Qed.
Lemma own_mBias : own exs mBias [7]%nat 1 2 pBias. Proof. own_tac. Qed.
Lemma own_mY : own exs mY [8;9]%nat 2 2 pY. Proof. own_tac. Qed.
Lemma own_mX : own exs mX [10;11]%nat 2 2 pX. Proof. own_tac. Qed.

Definition ex_player (k : lkind) : player QNum := PL k 2 2 pW pBias (1#10)%Q (1#4)%Q.
Lemma lown_ex k : lown exs (ex_layer k) [5;6]%nat [7]%nat (ex_player k).
Proof. unfold lown. simpl. repeat (split; [first [reflexivity|lia]|]). split; [apply own_mW|apply own_mBias]. Qed.

Ltac nodup_tac := repeat (constructor; [simpl; lia|]); constructor.
Ltac disj_tac := unfold disjoint; simpl; lia.
