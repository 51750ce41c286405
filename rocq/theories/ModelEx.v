(** * ModelEx: a concrete three-layer model over the rationals, used by the examples beside the
    theorems about models. *)
From Coq Require Import String ZArith List Bool Arith Lia QArith.
From Verif Require Import Num NumQ Heap Matrix Network Loss Optimizers ModelGo Spec PureSpec Repr LossProofs OptSpec ModelSpec Ex.
Import ListNotations.
Open Scope Z_scope.

(** Hidden 2->2, dropout 2->2 (rate 1/4), linear 2->1; three samples; a validation set of two
    samples; and the second sample alone. *)
Definition me_rows : list (list Q) :=
  [ [q 1; q (-1)]; [q 2; q 1]; [q 0; q 1];
    [q 1; q 0]; [q 1; q 2]; [q 1; q (-1)];
    [q 1]; [q (-2)]; [q 3];
    [q 1; q 2]; [q 2; q (-1)]; [q 0; q 1];
    [q 1]; [q 0]; [q 2];
    [q 2; q (-1)];
    [q 1; q 1]; [q 2; q 0]; [q 3]; [q 4] ].
Definition me_outs : list (list nat) :=
  [ [1; 2]; [3]; [4; 5]; [6]; [7; 8]; [9]; [10; 11; 12]; [13; 14; 15]; [16]; [17; 18]; [19; 20] ]%nat.
Definition eW0 := MkMatrix 2 2 (MkSlice 1 0 2). Definition eB0 := MkMatrix 1 2 (MkSlice 2 0 1).
Definition eW1 := MkMatrix 2 2 (MkSlice 3 0 2). Definition eB1 := MkMatrix 1 2 (MkSlice 4 0 1).
Definition eW2 := MkMatrix 2 1 (MkSlice 5 0 2). Definition eB2 := MkMatrix 1 1 (MkSlice 6 0 1).
Definition eX := MkMatrix 3 2 (MkSlice 7 0 3). Definition eY := MkMatrix 3 1 (MkSlice 8 0 3).
Definition eX1 := MkMatrix 1 2 (MkSlice 9 0 1).
Definition eXv := MkMatrix 2 2 (MkSlice 10 0 2). Definition eYv := MkMatrix 2 1 (MkSlice 11 0 2).
Definition eL0 : layer QNum := MkLayer Hidden 2 2 eW0 eB0 0%Q 0%Q matrix0 matrix0.
Definition eL1 : layer QNum := MkLayer Dropout 2 2 eW1 eB1 0%Q (1#4)%Q matrix0 matrix0.
Definition eL2 : layer QNum := MkLayer Linear 2 1 eW2 eB2 0%Q 0%Q matrix0 matrix0.
Definition eO : optimizer QNum :=
  MkOpt SGD (1#10)%Q 0%Q (1#2)%Q 0%Q 0%Q 0%Q (1#10)%Q 0 matrix0 matrix0 matrix0 matrix0 false true.
Definition mes : state QNum :=
  MkState me_rows me_outs [eL0; eL1; eL2] [eO; eO; eO] ex_rng true [].
Definition eM : model QNum :=
  MkModel 3 2 1 0 (Some (MkLoss MSE 1)) 0 (1#10)%Q 0
    [("learningRate", (1#10)%Q); ("decay", 0%Q); ("momentum", (1#2)%Q)]%string [0; 1; 2]%nat [0; 1; 2]%nat.
(** The same model before Finalize. *)
Definition eM0 : model QNum := MkModel 3 2 1 0 None 0 0%Q 0 [] [0; 1; 2]%nat [].

Definition eP0 : player QNum := PL Hidden 2 2 [[q 1; q (-1)]; [q 2; q 1]] [[q 0; q 1]] 0%Q 0%Q.
Definition eP1 : player QNum := PL Dropout 2 2 [[q 1; q 0]; [q 1; q 2]] [[q 1; q (-1)]] 0%Q (1#4)%Q.
Definition eP2 : player QNum := PL Linear 2 1 [[q 1]; [q (-2)]] [[q 3]] 0%Q 0%Q.
Definition eE0 : lent QNum := LE 0 [1; 2]%nat [3]%nat eP0.
Definition eE1 : lent QNum := LE 1 [4; 5]%nat [6]%nat eP1.
Definition eE2 : lent QNum := LE 2 [7; 8]%nat [9]%nat eP2.
Definition eEs : list (lent QNum) := [eE0; eE1; eE2].
Definition ePO (r : nat) : popt QNum :=
  PO SGD (1#10)%Q 0%Q (1#2)%Q 0%Q 0%Q 0%Q (1#10)%Q 0 false true (zmat 2 r) (zmat 1 r) (zmat 2 r) (zmat 1 r).
Definition eXs : list (oent QNum) := [OE 0 [] (ePO 2); OE 1 [] (ePO 2); OE 2 [] (ePO 1)].
Definition pXd : pm QNum := [[q 1; q 2]; [q 2; q (-1)]; [q 0; q 1]].
Definition pYd : pm QNum := [[q 1]; [q 0]; [q 2]].
Definition pXv : pm QNum := [[q 1; q 1]; [q 2; q 0]].
Definition pYv : pm QNum := [[q 3]; [q 4]].

Lemma own_eX : own mes eX [10; 11; 12]%nat 3 2 pXd. Proof. own_tac. Qed.
Lemma own_eY : own mes eY [13; 14; 15]%nat 3 1 pYd. Proof. own_tac. Qed.
Lemma own_eX1 : own mes eX1 [16]%nat 1 2 [nth 1 pXd []]. Proof. own_tac. Qed.
Lemma own_eXv : own mes eXv [17; 18]%nat 2 2 pXv. Proof. own_tac. Qed.
Lemma own_eYv : own mes eYv [19; 20]%nat 2 1 pYv. Proof. own_tac. Qed.
Ltac lown_tac := unfold lown; simpl; repeat (split; [first [reflexivity|lia]|]); split; own_tac.
Lemma entries_e : Forall2 (entry_of mes) eEs [eL0; eL1; eL2].
Proof. repeat (constructor; [split; [reflexivity|lown_tac]|]). constructor. Qed.
Lemma small_e : Forall small_layer [eL0; eL1; eL2].
Proof. repeat constructor; simpl; unfold small_int; lia. Qed.
Lemma loks_e : Forall (lok mes) eEs.
Proof. repeat (constructor; [eexists; split; [reflexivity|lown_tac]|]). constructor. Qed.
Lemma consistent_e : consistent mes eM eEs 2 1.
Proof. repeat (split; [reflexivity|]). split; [simpl; auto|exact loks_e]. Qed.
Lemma consistent_e0 : consistent mes eM0 eEs 2 1.
Proof. repeat (split; [reflexivity|]). split; [simpl; auto|exact loks_e]. Qed.
Lemma unshared_e : unshared eEs.
Proof. split; nodup_tac. Qed.
Lemma trainable_e : trainable mes eM eEs eXs 2 1 MSE.
Proof.
  split; [exact consistent_e|]. split; [exact unshared_e|]. split; [simpl; lia|]. split; [reflexivity|].
  split; [nodup_tac|]. split.
  - repeat (constructor; [eexists; split; [reflexivity|]; split; [repeat split|]; simpl; left; repeat split|]). constructor.
  - split; [intros z _ []|]. split; [reflexivity|]. split; [reflexivity|]. repeat constructor; discriminate.
Qed.
Lemma data_e : data_ok mes eEs eX [10; 11; 12]%nat eY [13; 14; 15]%nat 3 2 1 pXd pYd.
Proof. split; [exact own_eX|]. split; [exact own_eY|]. split; disj_tac. Qed.
Lemma val_e : val_ok mes eEs eXv eYv 2 1 (Some (pXv, pYv)).
Proof. exists [17; 18]%nat, [19; 20]%nat, 2%nat. split; [lia|]. split; [exact own_eXv|]. split; [exact own_eYv|]. split; disj_tac. Qed.
