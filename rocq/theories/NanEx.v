(** * NanEx: a ReLU network trained on data with one NaN. *)
From Coq Require Import String ZArith List Bool Arith Lia.
From Flocq Require Import IEEE754.BinarySingleNaN IEEE754.Binary IEEE754.Bits.
From Verif Require Import Num NumB64 Heap Spec Matrix Loss Network Optimizers ModelGo LayerData PureSpec Repr HeapLemmas OptSpec ModelSpec CodecSpec CodecEx Ex ModelEx DeadEx BinomialProofs Nan.
Import ListNotations.
Open Scope Z_scope.
Open Scope go_scope.

(** A library whose functions keep NaNs. *)
Definition nx_lib : libm := MkLibm (fun x => x) (fun x => x) (fun x _ => x).
Lemma nx_exp : exp_nan nx_lib.
Proof. intros x H. exact H. Qed.

Section Ex.
Context (L : libm).
Notation BN := (B64 L).
(** The second feature of the first sample is NaN. *)
Definition nx_rows : list (list BN) := [[bz 1; bz (-1)]; [bz 1; bz (-2)]; [bz 0; bz (-1)]; [bz 1]; [bz 3]; [bz 0]; [bz 1; bnanp]; [bz 0; bz 2]; [bz 1]; [bz 5]].
Definition nx_state : state BN := MkState nx_rows (df_outs) (h_layers (df_state L)) (h_opts (df_state L)) (c_rng L) true [].
Definition nxX : pm BN := [[bz 1; bnanp];[bz 0; bz 2]].
Lemma nx_trainable : trainable nx_state (df_m L) (df_es L) (df_xs L) 2 1 MSE.
Proof.
  split; [|split; [|split; [|split; [|split; [|split; [|split; [|split; [|split]]]]]]]].
  - repeat (split; [reflexivity|]). split; [simpl; auto|]. repeat (constructor; [eexists; split; [reflexivity|lown_tac]|]). constructor.
  - split; nodup_tac.
  - simpl; lia.
  - reflexivity.
  - nodup_tac.
  - repeat (constructor; [eexists; split; [reflexivity|]; split; [repeat split|]; simpl; reflexivity|]). constructor.
  - intros z _ [].
  - reflexivity.
  - reflexivity.
  - repeat constructor; discriminate.
Qed.
Lemma nx_data : data_ok nx_state (df_es L) df_x [7;8]%nat df_y [9;10]%nat 2 2 1 nxX ([[bz 1];[bz 5]] : pm BN).
Proof. split; [own_tac|]. split; [own_tac|]. split; disj_tac. Qed.
Lemma nx_some : some_nan L 2 2 nxX.
Proof. exists 0%nat, 1%nat. repeat split; auto. Qed.
(** With mini-batches of one sample the clean sample is trained on last, and still every parameter is NaN. *)
Definition nx_nan (lref : nat) (i j : Z) : M BN bool := l <- get_layer lref ;; v <- getc (K := BN) (l_w l) i j ;; ret (b64_nan (v : BN)).
Lemma nx_run : match (Fit (df_m L) df_x df_y 1 1 matrix0 matrix0 0 ;; a <- nx_nan 0 0 0 ;; b <- nx_nan 0 1 1 ;; c <- nx_nan 1 0 0 ;; ret [a; b; c]) nx_state with
  | (Ret l, _) => l = [true; true; true] | _ => False end.
Proof. vm_compute. reflexivity. Qed.
End Ex.
