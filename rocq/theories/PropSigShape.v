(** * PropSigShape: property C129. *)
From Coq Require Import ZArith List Bool Arith Reals Lia.
From Verif Require Import Num NumR Heap Spec Matrix Loss Network Optimizers ModelGo PureSpec Repr RSum OptSpec ModelSpec SigSpec SigShapeFit SigShapeEx.
Import ListNotations.

(** C129: C128 assumes that every sigmoid layer has as many outputs as inputs.  That is needed.
    Let [e] be the last sigmoid layer for which the two differ, at any place in the model.
    With fewer outputs than inputs, the first call of Fit panics, whatever the data, the
    loss, the optimizers, the batch size and the number of epochs. *)
Theorem C129_narrow {K : Num} (s : state K) m es1 e es2 i o k x rsx y rsy n X Y epochs bs xv yv every :
  min_faithful K -> (0 <= bs)%Z -> (Z.of_nat n + bs <= 2 ^ 52)%Z -> (1 <= n)%nat -> (1 <= epochs)%Z ->
  lopsided s m es1 e es2 i o k -> samples s (es1 ++ e :: es2) x rsx y rsy n i o X Y ->
  (p_out (e_p e) < p_in (e_p e))%nat ->
  exists s', Fit m x y epochs bs xv yv every s = (Panic PIndex, s').
Proof. exact (Fit_narrow s m es1 e es2 i o k x rsx y rsy n X Y epochs bs xv yv every). Qed.
(** With more outputs than inputs, the layer before is handed a matrix with no rows and no
    columns, and Fit returns that layer's error. *)
Theorem C129_wide {K : Num} (s : state K) m es0 e0 e es2 i o k x rsx y rsy n X Y epochs bs xv yv every :
  min_faithful K -> (0 <= bs)%Z -> (Z.of_nat n + bs <= 2 ^ 52)%Z -> (1 <= n)%nat -> (1 <= epochs)%Z ->
  lopsided s m (es0 ++ [e0]) e es2 i o k -> samples s ((es0 ++ [e0]) ++ e :: es2) x rsx y rsy n i o X Y ->
  (p_in (e_p e) < p_out (e_p e))%nat -> p_kind (e_p e0) <> SoftmaxK -> h_logger s = true ->
  exists s', Fit m x y epochs bs xv yv every s = (Fail (EMatDims 0 0), s').
Proof. exact (Fit_wide s m es0 e0 e es2 i o k x rsx y rsy n X Y epochs bs xv yv every). Qed.
(** If [e] is the first layer there is none before it.  Then plain gradient descent runs off
    the gradients, which have the shape of inputs by inputs, and panics. *)
Theorem C129_wide_first {K : Num} (s : state K) m e es2 i o k x rsx y rsy n X Y epochs bs xv yv every oref orefs op :
  min_faithful K -> (0 <= bs)%Z -> (Z.of_nat n + bs <= 2 ^ 52)%Z -> (1 <= n)%nat -> (1 <= epochs)%Z ->
  lopsided s m [] e es2 i o k -> samples s (e :: es2) x rsx y rsy n i o X Y ->
  (p_in (e_p e) < p_out (e_p e))%nat ->
  m_opts m = oref :: orefs -> nth_error (h_opts s) oref = Some op -> o_kind op = SGD -> o_usemom op = false ->
  exists s', Fit m x y epochs bs xv yv every s = (Panic PIndex, s').
Proof. exact (Fit_wide_first s m e es2 i o k x rsx y rsy n X Y epochs bs xv yv every oref orefs op). Qed.
Print Assumptions C129_narrow.
Print Assumptions C129_wide.
Print Assumptions C129_wide_first.

(** A sigmoid layer 2 -> 1; a linear layer 2 -> 1 and a sigmoid layer 1 -> 2; a sigmoid layer
    1 -> 2 alone, with plain gradient descent. *)
Example C129_ex :
  (lopsided sp_state sp_mn [] sp_2 [] 2 1 MSE /\ samples sp_state ([] ++ [sp_2]) sp_x [9;10]%nat sp_u [11;12]%nat 2 2 1 [[-3;2];[4;-5]]%R [[1];[0]]%R /\
   (p_out (e_p sp_2) < p_in (e_p sp_2))%nat) /\
  (lopsided sp_state sp_mw ([] ++ [sp_0]) sp_1 [] 2 2 MSE /\
   samples sp_state (([] ++ [sp_0]) ++ [sp_1]) sp_x [9;10]%nat sp_y [13;14]%nat 2 2 2 [[-3;2];[4;-5]]%R [[0;1];[1;0]]%R /\
   (p_in (e_p sp_1) < p_out (e_p sp_1))%nat /\ p_kind (e_p sp_0) <> SoftmaxK /\ h_logger sp_state = true) /\
  (lopsided sp_state sp_mf [] sp_1 [] 1 2 MSE /\ samples sp_state [sp_1] sp_u [11;12]%nat sp_y [13;14]%nat 2 1 2 [[1];[0]]%R [[0;1];[1;0]]%R /\
   m_opts sp_mf = [1%nat] /\ exists op, nth_error (h_opts sp_state) 1 = Some op /\ o_kind op = SGD /\ o_usemom op = false).
Proof.
  destruct sp_narrow as [A1 A2], sp_wide as [B1 B2], sp_first as [C1 C2].
  split; [split; [exact A1|]; split; [exact A2|]; simpl; lia|].
  split; [split; [exact B1|]; split; [exact B2|]; split; [simpl; lia|]; split; [discriminate|reflexivity]|].
  split; [exact C1|]. split; [exact C2|]. split; [reflexivity|]. eexists. split; [reflexivity|]. split; reflexivity.
Qed.
