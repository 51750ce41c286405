(** * FmaEx: without fusing, the fused model is the model; with it, another class. *)
From Coq Require Import String ZArith List Bool Arith Lia Reals Lra.
From Flocq Require Import IEEE754.BinarySingleNaN IEEE754.Binary IEEE754.Bits.
From Verif Require Import Num NumR NumB64 Heap Spec Matrix Network Activation Misc ModelGo PureSpec Repr HeapLemmas OptSpec ModelSpec RSum CodecEx Ex ModelEx LateLayer RoundSpec Rounding RoundProofs RoundEx FmaGo Fma.
Import ListNotations.
Open Scope go_scope.

Section Ex.
Context (L : libm).
Notation BN := (B64 L).
Lemma layer_unfused lref x (s : state BN) : forward_layer false lref x s = layer_fused L (fun _ _ _ => false) lref x s.
Proof.
  unfold forward_layer, layer_fused, bind at 1 2. unfold get_layer at 1 2. destruct (nth_error (h_layers s) lref) as [l|] eqn:El; [|reflexivity].
  assert (G : get_layer lref s = (Ret l, s)) by (unfold get_layer; rewrite El; reflexivity).
  destruct (l_kind l) eqn:Ek; unfold Layer_Forward, Hidden_Forward, Linear_Forward, Sigmoid_Forward, Leaky_Forward, Softmax_Forward, Dropout_ForwardNoDropout.
  all: repeat (rewrite (bind_eq _ _ _ _ _ G); try rewrite Ek); try reflexivity.
  change (affine_fused L (fun _ _ _ => false) l x) with (affine l x). unfold bind. destruct (affine l x s) as [[out|e|e] s1]; reflexivity.
Qed.
Lemma unfused m x (s : state BN) : Predict_fused L (fun _ _ _ _ => false) m x s = Predict m x s.
Proof.
  unfold Predict_fused, Predict.
  assert (E : Forward_fused L (fun _ _ _ _ => false) m x s = Forward m x false s).
  { unfold Forward_fused, Forward, for_acc. unfold bind at 1 3. rewrite (loop_ext _ (fun i (acc : list matrix * matrix) => lref <- go_nth (m_layers m) i ;; out <- forward_layer false lref (snd acc) ;; ret (fst acc ++ [out], out))); [reflexivity|].
    intros j a s1 _. unfold bind. destruct (go_nth (m_layers m) j s1) as [[lref|e|e] s2]; try reflexivity. rewrite layer_unfused. reflexivity. }
  unfold bind. rewrite E. destruct (Forward m x false s) as [[v|e|e] s1]; reflexivity.
Qed.

(** A linear layer with weights -(2^27 + 2), 2^27 + 1 for the first class and bias 1/2 for the second, applied to (2^27, 2^27 + 1): the first score is 1 in exact
    arithmetic and with fusing, and 0 without. *)
Definition fm_rows : list (list BN) := [[bz (- (2 ^ 27 + 2)); bz 0]; [bz (2 ^ 27 + 1); bz 0]; [bz 0; (lit_half : BN)]; [bz (2 ^ 27); bz (2 ^ 27 + 1)]].
Definition fm_p : player BN := PL (K := BN) Linear 2 2 [[bz (- (2 ^ 27 + 2)); bz 0]; [bz (2 ^ 27 + 1); bz 0]] [[bz 0; (lit_half : BN)]] f0 f0.
Definition fm_state : state BN :=
  MkState fm_rows [[1;2]; [3]; [4]]%nat [MkLayer Linear 2 2 (MkMatrix 2 2 (MkSlice 1 0 2)) (MkMatrix 1 2 (MkSlice 2 0 1)) f0 f0 matrix0 matrix0] [] (c_rng L) true [].
Definition fm_m : model BN := MkModel 1 2 2 0 None 1 (f0 : BN) 0 [] [0]%nat [].
Definition fm_es : list (lent BN) := [LE 0 [1;2]%nat [3]%nat fm_p].
Definition fm_x : matrix := MkMatrix 1 2 (MkSlice 3 0 1).
Definition fm_X : pm BN := [[bz (2 ^ 27); bz (2 ^ 27 + 1)]].
Lemma fused_class : exists (s : state BN) m es i o x rsx (X : pm BN) fuse, consistent s m es i o /\ m_acctype m = 1%Z /\ own s x rsx 1 i X /\
  List.Forall (finite_layer L) (net es) /\ (forall j, (j < i)%nat -> b64_finite (entry X 0 j) = true) /\
  match (P <- Predict m x ;; getc P 0 0) s, (P <- Predict_fused L fuse m x ;; getc P 0 0) s with (Ret v, _), (Ret v', _) => b64_toZ v = 1%Z /\ b64_toZ v' = 0%Z | _, _ => False end.
Proof.
  exists fm_state, fm_m, fm_es, 2%nat, 2%nat, fm_x, [4]%nat, fm_X, (fun _ _ _ _ => true). split; [|split; [reflexivity|split; [own_tac|split; [|split]]]].
  - repeat (split; [reflexivity|]). split; [simpl; auto|]. repeat (constructor; [eexists; split; [reflexivity|lown_tac]|]). constructor.
  - apply List.Forall_cons; [|apply List.Forall_nil]. split; [simpl; auto|]. split; [reflexivity|]. split.
    + intros [|[|i]] [|[|j]] Hi Hj; simpl in Hi, Hj; try lia; reflexivity.
    + intros [|[|j]] Hj; simpl in Hj; try lia; reflexivity.
  - intros [|[|j]] Hj; try lia; reflexivity.
  - vm_compute. split; reflexivity.
Qed.
End Ex.
