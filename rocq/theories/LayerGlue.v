(** * Proofs and definitions used by PropLayers.v *)
From Coq Require Import String ZArith List Bool Arith Lia Reals Lra QArith.
From Coquelicot Require Import Coquelicot.
From Verif Require Import Num NumR NumB64 NumQ Heap Spec PureSpec Repr Matrix Activation Network
  HeapLemmas LoopLemmas LayerProofs MatrixFacts RSum LayerFacts LayerReal Ex.
Import ListNotations.
Open Scope Z_scope.
Open Scope go_scope.

Lemma C20_bad_size_proof (K : Num) (s : state K) inp out (t : K) : inp < 1 \/ out < 1 ->
  NewLayer inp out s = (Fail (ELayerDims inp out), s) /\ NewLinearLayer inp out s = (Fail (ELayerDims inp out), s) /\
  NewSigmoidLayer inp out s = (Fail (ELayerDims inp out), s) /\ NewLeakyLayer inp out t s = (Fail (ELayerDims inp out), s) /\
  NewSoftmaxLayer inp out s = (Fail (ELayerDims inp out), s) /\ NewDropoutLayer inp out t s = (Fail (ELayerDims inp out), s).
Proof.
  intros H. unfold NewLayer, NewLinearLayer, NewSigmoidLayer, NewLeakyLayer, NewSoftmaxLayer, NewDropoutLayer.
  rewrite (size_bad _ _ H). repeat split.
Qed.

Lemma C20_bad_slope_proof (K : Num) (s : state K) inp out (slope : K) : 1 <= inp -> 1 <= out -> flt slope f0 = true ->
  NewLeakyLayer inp out slope s = (Fail (EMsg "nn.LeakyLayer: Invalid LeakyRELU slope."), s).
Proof.
  intros H1 H2 H. unfold NewLeakyLayer. replace ((inp <? 1) || (out <? 1)) with false by lia. rewrite H. reflexivity.
Qed.

Lemma C20_bad_dropout_proof (K : Num) (s : state K) inp out (d : K) : 1 <= inp -> 1 <= out ->
  flt f1 d = true \/ flt d f0 = true -> NewDropoutLayer inp out d s = (Fail (EMsg "Invalid dropout value."), s).
Proof.
  intros H1 H2 H. unfold NewDropoutLayer. replace ((inp <? 1) || (out <? 1)) with false by lia.
  destruct (flt f1 d), (flt d f0); try reflexivity. destruct H; discriminate.
Qed.

Lemma C20_new_layer_proof (K : Num) (s : state K) (i o : nat) : (1 <= i)%nat -> (1 <= o)%nat ->
  let inp := Z.of_nat i in let out := Z.of_nat o in
  returns (NewLayer inp out) s (new_layer s Hidden i o f0 f0) /\
  returns (NewLinearLayer inp out) s (new_layer s Linear i o f0 f0) /\
  returns (NewSigmoidLayer inp out) s (new_layer s SigmoidK i o f0 f0) /\
  (forall slope, flt slope f0 = false -> returns (NewLeakyLayer inp out slope) s (new_layer s Leaky i o slope f0)) /\
  returns (NewSoftmaxLayer inp out) s (new_layer s SoftmaxK i o f0 f0) /\
  (forall d, flt f1 d = false -> flt d f0 = false -> returns (NewDropoutLayer inp out d) s (new_layer s Dropout i o f0 d)).
Proof.
  intros H1 H2 inp out. unfold NewLayer, NewLinearLayer, NewSigmoidLayer, NewLeakyLayer, NewSoftmaxLayer, NewDropoutLayer.
  unfold inp, out. rewrite (size_check i o H1 H2).
  split; [|split; [|split; [|split; [|split]]]]; try (now apply fresh_layer_ok).
  - intros slope H. rewrite H. now apply fresh_layer_ok.
  - intros d Ha Hb. rewrite Ha, Hb. now apply fresh_layer_ok.
Qed.
