(** * DeadEx: concrete networks with dead units. *)
From Coq Require Import String ZArith List Bool Arith Lia Reals Lra.
From Flocq Require Import IEEE754.BinarySingleNaN IEEE754.Binary IEEE754.Bits.
From Verif Require Import Num NumR NumB64 Heap Spec Matrix Loss Network Optimizers ModelGo LayerData PureSpec Repr HeapLemmas OptSpec OptFacts ModelSpec LossRefute Converge ConvergeFit ConvergeEx LayerReal NetGradCode ZeroGradEx CodecSpec CodecEx Ex ModelEx Dead DeadProofs.
Import ListNotations.

(** ** Exact: ReLU 2 -> 2, ReLU 2 -> 2, linear 2 -> 1 with Adam.  Unit 1 of the first layer is negative on both samples, unit 1 of the second has
    weights and bias at most zero. *)
Section Real.
Open Scope R_scope.
Definition de_state : state RNum :=
  MkState (K := RNum) [[1;-1]; [1;-2]; [0;-1]; [1;-1]; [2;0]; [1;-3]; [1]; [3]; [0]; [1;0]; [0;2]; [1]; [5]]
    [[1;2]; [3]; [4;5]; [6]; [7;8]; [9]; [10;11]; [12;13]]%nat
    [MkLayer (K := RNum) Hidden 2 2 (MkMatrix 2 2 (MkSlice 1 0 2)) (MkMatrix 1 2 (MkSlice 2 0 1)) 0 0 matrix0 matrix0;
     MkLayer (K := RNum) Hidden 2 2 (MkMatrix 2 2 (MkSlice 3 0 2)) (MkMatrix 1 2 (MkSlice 4 0 1)) 0 0 matrix0 matrix0;
     MkLayer (K := RNum) Linear 2 1 (MkMatrix 2 1 (MkSlice 5 0 2)) (MkMatrix 1 1 (MkSlice 6 0 1)) 0 0 matrix0 matrix0]
    [zg_adam; zg_adam; zg_adam] nr_rng true [].
Definition de_m : model RNum := MkModel (K := RNum) 3 2 1 0 (Some (MkLoss MSE 1)) 0 0 1 [] [0;1;2]%nat [0;1;2]%nat.
Definition de_es : list (lent RNum) :=
  [LE (K := RNum) 0 [1;2]%nat [3]%nat (PL (K := RNum) Hidden 2 2 [[1;-1];[1;-2]] [[0;-1]] 0 0);
   LE (K := RNum) 1 [4;5]%nat [6]%nat (PL (K := RNum) Hidden 2 2 [[1;-1];[2;0]] [[1;-3]] 0 0);
   LE (K := RNum) 2 [7;8]%nat [9]%nat (PL (K := RNum) Linear 2 1 [[1];[3]] [[0]] 0 0)].
Definition de_xs : list (oent RNum) := [OE (K := RNum) 0 [] (zg_po 2 2); OE (K := RNum) 1 [] (zg_po 2 2); OE (K := RNum) 2 [] (zg_po 2 1)].
Definition de_x : matrix := MkMatrix 2 2 (MkSlice 7 0 2).
Definition de_y : matrix := MkMatrix 2 1 (MkSlice 8 0 2).
Lemma de_trainable : trainable de_state de_m de_es de_xs 2 1 MSE.
Proof.
  unfold trainable. split; [|split; [|split; [|split; [|split; [|split; [|split; [|split; [|split]]]]]]]].
  - unfold consistent. do 4 (split; [reflexivity|]). split; [simpl; auto|].
    repeat constructor; eexists; (split; [reflexivity|]); unfold lown; simpl; repeat (split; [first [reflexivity|lia]|]); split; own_tac'.
  - split; nd.
  - simpl; lia.
  - reflexivity.
  - nd.
  - repeat constructor; eexists; (split; [reflexivity|]); unfold oown, oscal; simpl; auto 20.
  - dj.
  - reflexivity.
  - reflexivity.
  - repeat constructor; discriminate.
Qed.
Lemma de_data : data_ok de_state de_es de_x [10;11]%nat de_y [12;13]%nat 2 2 1 [[1;0];[0;2]] [[1];[5]].
Proof. split; [own_tac'|]. split; [own_tac'|]. split; dj. Qed.
Definition de_t (i : nat) := nth i (trainer de_es de_xs) (PL (K := RNum) Hidden 0 0 [] [] 0 0, zg_po 0 0).
Lemma still_zero k c i j : (i < k)%nat -> (j < c)%nat -> still (zg_po k c) (zmat k c) i j.
Proof. intros Hi Hj. exact (entry_mk (K := RNum) k c (fun _ _ => 0) i j Hi Hj). Qed.
Lemma still_zero_b k c j : (j < c)%nat -> still (zg_po k c) (zmat 1 c) 0 j.
Proof. intros Hj. exact (entry_mk (K := RNum) 1 c (fun _ _ => 0) 0 j Nat.lt_0_1 Hj). Qed.
Lemma de_spot l : (l = 0%nat \/ l = 1%nat) -> spot (trainer de_es de_xs) l 1 (de_t l) (de_t (S l)).
Proof.
  intros [-> | ->]; (split; [reflexivity|]; split; [reflexivity|]; split; [reflexivity|]; split; [reflexivity|]; split; [simpl; lia|]).
  - split; [split; [intros i Hi; apply (still_zero 2 2); [exact Hi|lia]|apply (still_zero_b 2 2); lia]|intros j Hj; apply (still_zero 2 2); [lia|exact Hj]].
  - split; [split; [intros i Hi; apply (still_zero 2 2); [exact Hi|lia]|apply (still_zero_b 2 2); lia]|intros j Hj; apply (still_zero 2 1); [lia|exact Hj]].
Qed.
Lemma de_dead : List.Forall (fun row => pre_activation (fst (de_t 0)) 1 row <= 0) ([[1;0];[0;2]] : list (list R)).
Proof. apply List.Forall_cons; [|apply List.Forall_cons; [|apply List.Forall_nil]]; unfold pre_activation, fsum; simpl; unfold entry; simpl; lra. Qed.
Lemma de_negative : after_relu (trainer de_es de_xs) 0 (de_t 1) /\ negative_unit (fst (de_t 1)) 1.
Proof.
  split; [exists (de_t 0); repeat split|]. split; [|unfold entry; simpl; lra]. intros [|[|i]] Hi; simpl in *; try lia; unfold entry; simpl; lra.
Qed.
End Real.

(** ** float64: ReLU 2 -> 2, linear 2 -> 1 with plain SGD at rate 1/2; unit 1 is negative on both samples. *)
Section Float.
Context (L : libm).
Notation BN := (B64 L).
Open Scope Z_scope.
Open Scope go_scope.
Definition df_rows : list (list BN) := [[bz 1; bz (-1)]; [bz 1; bz (-2)]; [bz 0; bz (-1)]; [bz 1]; [bz 3]; [bz 0]; [bz 1; bz 0]; [bz 0; bz 2]; [bz 1]; [bz 5]].
Definition df_outs : list (list nat) := [[1;2]; [3]; [4;5]; [6]; [7;8]; [9;10]]%nat.
Definition df_state : state BN := MkState df_rows df_outs
  [MkLayer (K := BN) Hidden 2 2 (MkMatrix 2 2 (MkSlice 1 0 2)) (MkMatrix 1 2 (MkSlice 2 0 1)) f0 f0 matrix0 matrix0;
   MkLayer (K := BN) Linear 2 1 (MkMatrix 2 1 (MkSlice 3 0 2)) (MkMatrix 1 1 (MkSlice 4 0 1)) f0 f0 matrix0 matrix0]
  [cO L f0; cO L f0] (c_rng L) true [].
Definition df_m : model BN := MkModel (K := BN) 2 2 1 0 (Some (MkLoss MSE 1)) 0 (bhalf : BN) 0 [("learningRate", (bhalf : BN)); ("decay", f0); ("momentum", f0)]%string [0;1]%nat [0;1]%nat.
Definition df_es : list (lent BN) :=
  [LE (K := BN) 0 [1;2]%nat [3]%nat (PL (K := BN) Hidden 2 2 [[bz 1; bz (-1)];[bz 1; bz (-2)]] [[bz 0; bz (-1)]] f0 f0);
   LE (K := BN) 1 [4;5]%nat [6]%nat (PL (K := BN) Linear 2 1 [[bz 1];[bz 3]] [[bz 0]] f0 f0)].
Definition df_po (r c : nat) : popt BN := PO SGD (bhalf : BN) f0 f0 f0 f0 f0 (bhalf : BN) 0 false false (zmat r c) (zmat 1 c) (zmat r c) (zmat 1 c).
Definition df_xs : list (oent BN) := [OE 0 [] (df_po 2 2); OE 1 [] (df_po 2 1)].
Definition df_x := MkMatrix 2 2 (MkSlice 5 0 2). Definition df_y := MkMatrix 2 1 (MkSlice 6 0 2).
Definition dfX : pm BN := [[bz 1; bz 0];[bz 0; bz 2]].
Lemma df_trainable : trainable df_state df_m df_es df_xs 2 1 MSE.
Proof.
  split; [|split; [|split; [|split; [|split; [|split; [|split; [|split; [|split]]]]]]]].
  - repeat (split; [reflexivity|]). split; [simpl; auto|]. repeat (constructor; [eexists; split; [reflexivity|lown_tac]|]). constructor.
  - split; nodup_tac.
  - simpl; lia.
  - reflexivity.
  - nodup_tac.
  - repeat (constructor; [eexists; split; [reflexivity|]; split; [repeat split|]; simpl; reflexivity|]). constructor.
  - intros z _ [].
  - reflexivity.
  - reflexivity.
  - repeat constructor; discriminate.
Qed.
Lemma df_data : data_ok df_state df_es df_x [7;8]%nat df_y [9;10]%nat 2 2 1 dfX ([[bz 1];[bz 5]] : pm BN).
Proof. split; [own_tac|]. split; [own_tac|]. split; disj_tac. Qed.
Definition df_t : player BN * popt BN := (e_p (hd (LE (K := BN) 0 [] [] (PL (K := BN) Hidden 0 0 [] [] f0 f0)) df_es), df_po 2 2).
Lemma df_dead : dead_first L (trainer df_es df_xs) (bhalf : BN) 1 df_t /\ List.Forall (dead_row L (fst df_t) 1) dfX.
Proof.
  split.
  - do 2 eexists. split; [reflexivity|]. split; [reflexivity|]. split; [reflexivity|]. split; [simpl; lia|]. split; [repeat split|].
    split; [|vm_compute; reflexivity]. intros [|[|i]] Hi; simpl in Hi; try lia; vm_compute; reflexivity.
  - repeat (apply List.Forall_cons; [split; [vm_compute; reflexivity|repeat constructor; vm_compute; reflexivity]|]). apply List.Forall_nil.
Qed.
Definition df_bits (i j : Z) : M BN Z := l <- get_layer 0 ;; v <- getc (l_w l) i j ;; ret (to_bits (B64_bits L) v).
Lemma df_run : match (a <- df_bits 0 1 ;; b <- df_bits 0 0 ;; Fit df_m df_x df_y 2 1 matrix0 matrix0 0 ;; a' <- df_bits 0 1 ;; b' <- df_bits 0 0 ;; ret (a, a', b, b')) df_state with
  | (Ret (a, a', b, b'), _) => a = a' /\ b <> b' | _ => False end.
Proof. vm_compute. split; [reflexivity|discriminate]. Qed.
Lemma df_rate : b64_finite bhalf = true /\ Bsign 53 1024 bhalf = false.
Proof. split; vm_compute; reflexivity. Qed.
End Float.
