(** * ZeroGradEx: concrete models for ZeroGrad. *)
From Coq Require Import String ZArith List Bool Arith Lia Reals Lra.
From Verif Require Import Num NumR Heap Spec Matrix Loss Network Optimizers ModelGo PureSpec Repr HeapLemmas LoopLemmas MatrixFacts MiscFacts RSum LayerFacts LayerReal GradSpec Grad LossProofs LossReal LossCode OptSpec ModelSpec ModelProofs FitProofs FitFacts NetGradSpec NetGrad NetGradCode LossRefute Converge ConvergeFit ConvergeEx ZeroGrad.
Import ListNotations.
Open Scope R_scope.

(** The optimizers Finalize installs have no history. *)
Lemma new_opts_quiet n (o : optimizer RNum) es : List.Forall (fun t => quiet_w t /\ quiet_b t) (trainer es (new_opts n o es)).
Proof.
  unfold trainer, new_opts. revert n. induction es as [|e es IH]; intros n; [constructor|]. cbn [length seq combine map net].
  constructor; [|apply IH]. unfold quiet_w, quiet_b, quiet. cbn [fst snd x_po po_kind po_usemom po_wm po_bm po_wc po_bc].
  split; destruct (o_kind o); intros; repeat split; intros i j Hi Hj; unfold zmat; now rewrite entry_mk.
Qed.
(** Hidden 2 -> 2, Linear 2 -> 1, all zero, with Adam. *)
Definition zg_adam : optimizer RNum := MkOpt (K := RNum) Adam (1/10) 0 0 (1/100) (9/10) (99/100) (1/10) 0 matrix0 matrix0 matrix0 matrix0 false false.
Definition zg_state : state RNum :=
  MkState (K := RNum) [[0;0]; [0;0]; [0;0]; [0]; [0]; [0]; [1;0]; [0;2]; [1]; [5]]
    [[1;2]; [3]; [4;5]; [6]; [7;8]; [9;10]]%nat
    [MkLayer (K := RNum) Hidden 2 2 (MkMatrix 2 2 (MkSlice 1 0 2)) (MkMatrix 1 2 (MkSlice 2 0 1)) 0 0 matrix0 matrix0;
     MkLayer (K := RNum) Linear 2 1 (MkMatrix 2 1 (MkSlice 3 0 2)) (MkMatrix 1 1 (MkSlice 4 0 1)) 0 0 matrix0 matrix0]
    [zg_adam; zg_adam] nr_rng true [].
Definition zg_m : model RNum := MkModel (K := RNum) 2 2 1 0 (Some (MkLoss MSE 1)) 0 0 1 [] [0;1]%nat [0;1]%nat.
Definition zg_e1 : lent RNum := LE (K := RNum) 0 [1;2]%nat [3]%nat (PL (K := RNum) Hidden 2 2 [[0;0];[0;0]] [[0;0]] 0 0).
Definition zg_e2 : lent RNum := LE (K := RNum) 1 [4;5]%nat [6]%nat (PL (K := RNum) Linear 2 1 [[0];[0]] [[0]] 0 0).
Definition zg_po (k c : nat) : popt RNum := PO (K := RNum) Adam (1/10) 0 0 (1/100) (9/10) (99/100) (1/10) 0 false false (zmat k c) (zmat 1 c) (zmat k c) (zmat 1 c).
Definition zg_xs : list (oent RNum) := [OE (K := RNum) 0 [] (zg_po 2 2); OE (K := RNum) 1 [] (zg_po 2 1)].
Definition zg_x : matrix := MkMatrix 2 2 (MkSlice 5 0 2).
Definition zg_y : matrix := MkMatrix 2 1 (MkSlice 6 0 2).
Definition zgY : rpm := [[1];[5]].
Lemma zg_trainable : trainable zg_state zg_m ([zg_e1] ++ [zg_e2]) zg_xs 2 1 MSE.
Proof.
  unfold trainable. split; [|split; [|split; [|split; [|split; [|split; [|split; [|split; [|split]]]]]]]].
  - unfold consistent. do 4 (split; [reflexivity|]). split; [simpl; auto|].
    repeat constructor; eexists; (split; [reflexivity|]); unfold lown; simpl; repeat (split; [first [reflexivity|lia]|]); split; own_tac'.
  - split; nd.
  - simpl; lia.
  - reflexivity.
  - nd.
  - repeat constructor; eexists; (split; [reflexivity|]); unfold oown, oscal; simpl; auto 20.
  - dj.
  - reflexivity.
  - reflexivity.
  - repeat constructor; discriminate.
Qed.
Lemma zg_data : data_ok zg_state ([zg_e1] ++ [zg_e2]) zg_x [7;8]%nat zg_y [9;10]%nat 2 2 1 cvX zgY.
Proof. split; [own_tac'|]. split; [own_tac'|]. split; dj. Qed.
Ltac zeros := intros [|[|[]]] [|[|[]]] ? ?; simpl in *; try reflexivity; exfalso; lia.
Lemma zg_blank : List.Forall blank (net [zg_e1]) /\ zero_on 2 1 (p_w (e_p zg_e2)).
Proof. split; [|zeros]. constructor; [|constructor]. split; [zeros|]. split; [zeros|]. split; discriminate. Qed.
Lemma zg_quiet : List.Forall (fun t => quiet_w t /\ quiet_b t) (trainer ([zg_e1] ++ [zg_e2]) zg_xs).
Proof.
  apply List.Forall_cons; [|apply List.Forall_cons; [|apply List.Forall_nil]]; (split; split; (intros i j Hi Hj; exact (entry_mk (K := RNum) _ _ (fun _ _ => 0) i j Hi Hj))).
Qed.
(** Softmax 2 -> 2 with mean absolute error. *)
Definition zg_m2 : model RNum := MkModel (K := RNum) 1 2 2 1 (Some (MkLoss MAE 2)) 0 0 0 [] [1]%nat [0]%nat.
Lemma zg_trainable2 lr : trainable (cv_state lr) zg_m2 [cv_e2] [cv_xo lr 2] 2 2 MAE.
Proof.
  pose proof (cv_trainable2 lr) as ((_ & _ & _ & _ & H1 & H2) & H3 & H4 & H5 & H6 & H7 & H8 & _ & _ & H11).
  unfold trainable. split; [|repeat (split; [first [assumption|reflexivity]|]); assumption].
  split; [reflexivity|]. split; [reflexivity|]. split; [reflexivity|]. split; [reflexivity|]. split; assumption.
Qed.
Lemma zg_quiet2 lr : List.Forall (fun t => quiet_w t /\ quiet_b t) (trainer [cv_e2] [cv_xo lr 2]).
Proof. apply List.Forall_cons; [|apply List.Forall_nil]. split; unfold quiet_w, quiet_b, quiet; cbn; discriminate. Qed.
