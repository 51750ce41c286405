(** * MirrorScale: rescaling or shifting a feature is not like turning its sign. *)
From Coq Require Import String ZArith List Bool Arith Lia.
From Flocq Require Import IEEE754.BinarySingleNaN IEEE754.Binary IEEE754.Bits.
From Verif Require Import Num NumB64 Heap Spec Matrix Loss Network Optimizers ModelGo LayerData PureSpec Repr HeapLemmas OptSpec ModelSpec ModelFacts FitLoop FitFacts CodecSpec CodecEx Ex ModelEx DeadEx NanEx FlipSpec FlipEx MirrorSpec.
Import ListNotations.
Open Scope Z_scope.
Open Scope go_scope.

Section MirrorScale.
Notation BN := (B64 nx_lib).
(** Linear 1 -> 1 with weight [w] and bias [b]; one sample [x] with target 3; learning rate 1/2. *)
Definition sc_state (w b x : Z) : state BN :=
  MkState (K := BN) [[bz w]; [bz b]; [bz x]; [bz 3]] [[1]; [2]; [3]; [4]]%nat
    [MkLayer (K := BN) Linear 1 1 (MkMatrix 1 1 (MkSlice 1 0 1)) (MkMatrix 1 1 (MkSlice 2 0 1)) f0 f0 matrix0 matrix0] [cO nx_lib f0] (c_rng nx_lib) true [].
Definition sc_m : model BN := MkModel (K := BN) 1 1 1 0 (Some (MkLoss MSE 1)) 0 (bhalf : BN) 0 [("learningRate", (bhalf : BN)); ("decay", f0); ("momentum", f0)]%string [0]%nat [0]%nat.
Definition sc_es (w b : Z) : list (lent BN) := [LE (K := BN) 0 [1]%nat [2]%nat (PL (K := BN) Linear 1 1 [[bz w]] [[bz b]] f0 f0)].
Definition sc_xs : list (oent BN) := [OE 0 [] (df_po nx_lib 1 1)].
Definition sc_x := MkMatrix 1 1 (MkSlice 3 0 1). Definition sc_y := MkMatrix 1 1 (MkSlice 4 0 1).
Lemma sc_trainable w b x : trainable (sc_state w b x) sc_m (sc_es w b) sc_xs 1 1 MSE.
Proof.
  split; [|split; [|split; [|split; [|split; [|split; [|split; [|split; [|split]]]]]]]].
  - repeat (split; [reflexivity|]). split; [simpl; auto|]. repeat (constructor; [eexists; split; [reflexivity|lown_tac]|]). constructor.
  - split; nodup_tac.
  - simpl; lia.
  - reflexivity.
  - nodup_tac.
  - repeat (constructor; [eexists; split; [reflexivity|]; split; [repeat split|]; simpl; reflexivity|]). constructor.
  - intros v _ [].
  - reflexivity.
  - reflexivity.
  - repeat constructor; discriminate.
Qed.
Lemma sc_data w b x : data_ok (sc_state w b x) (sc_es w b) sc_x [3]%nat sc_y [4]%nat 1 1 1 [[bz x]] [[bz 3]].
Proof. split; [own_tac|]. split; [own_tac|]. split; disj_tac. Qed.
(** The action returns a number equal to [z]. *)
Definition gives (a : M BN BN) (s : state BN) (z : Z) : Prop := match fst (a s) with Ret v => b64_eq v (bz z) = true | _ => False end.
Lemma scale_differs : exists (s1 s2 : state BN) m es1 es2 xs x y p q, trainable s1 m es1 xs 1 1 MSE /\ trainable s2 m es2 xs 1 1 MSE /\
  data_ok s1 es1 x [3]%nat y [4]%nat 1 1 1 [[bz 1]] [[bz 3]] /\ data_ok s2 es2 x [3]%nat y [4]%nat 1 1 1 [[bz 2]] [[bz 3]] /\
  net es1 = [p] /\ net es2 = [q] /\ p_kind p = Linear /\ p_kind q = Linear /\ p_w p = [[bz 2]] /\ p_w q = [[bz 1]] /\ p_b p = p_b q /\
  gives (P <- Predict m x ;; getc P 0 0) s1 2 /\ gives (P <- Predict m x ;; getc P 0 0) s2 2 /\
  gives (Fit m x y 1 1 matrix0 matrix0 0 ;; P <- Predict m x ;; getc P 0 0) s1 4 /\ gives (Fit m x y 1 1 matrix0 matrix0 0 ;; P <- Predict m x ;; getc P 0 0) s2 7.
Proof.
  exists (sc_state 2 0 1), (sc_state 1 0 2), sc_m, (sc_es 2 0), (sc_es 1 0), sc_xs, sc_x, sc_y, (PL (K := BN) Linear 1 1 [[bz 2]] [[bz 0]] f0 f0), (PL (K := BN) Linear 1 1 [[bz 1]] [[bz 0]] f0 f0).
  split; [apply sc_trainable|]. split; [apply sc_trainable|]. split; [apply sc_data|]. split; [apply sc_data|].
  do 7 (split; [reflexivity|]). split; [vm_compute; reflexivity|]. split; [vm_compute; reflexivity|]. split; vm_compute; reflexivity.
Qed.
Lemma shift_differs : exists (s1 s2 : state BN) m es1 es2 xs x y p q, trainable s1 m es1 xs 1 1 MSE /\ trainable s2 m es2 xs 1 1 MSE /\
  data_ok s1 es1 x [3]%nat y [4]%nat 1 1 1 [[bz 1]] [[bz 3]] /\ data_ok s2 es2 x [3]%nat y [4]%nat 1 1 1 [[bz 2]] [[bz 3]] /\
  net es1 = [p] /\ net es2 = [q] /\ p_kind p = Linear /\ p_kind q = Linear /\ p_w p = [[bz 2]] /\ p_w q = [[bz 2]] /\ p_b p = [[bz 0]] /\ p_b q = [[bz (-2)]] /\
  gives (P <- Predict m x ;; getc P 0 0) s1 2 /\ gives (P <- Predict m x ;; getc P 0 0) s2 2 /\
  gives (Fit m x y 1 1 matrix0 matrix0 0 ;; P <- Predict m x ;; getc P 0 0) s1 4 /\ gives (Fit m x y 1 1 matrix0 matrix0 0 ;; P <- Predict m x ;; getc P 0 0) s2 7.
Proof.
  exists (sc_state 2 0 1), (sc_state 2 (-2) 2), sc_m, (sc_es 2 0), (sc_es 2 (-2)), sc_xs, sc_x, sc_y, (PL (K := BN) Linear 1 1 [[bz 2]] [[bz 0]] f0 f0), (PL (K := BN) Linear 1 1 [[bz 2]] [[bz (-2)]] f0 f0).
  split; [apply sc_trainable|]. split; [apply sc_trainable|]. split; [apply sc_data|]. split; [apply sc_data|].
  do 8 (split; [reflexivity|]). split; [vm_compute; reflexivity|]. split; [vm_compute; reflexivity|]. split; vm_compute; reflexivity.
Qed.
End MirrorScale.
