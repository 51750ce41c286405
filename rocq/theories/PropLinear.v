(** Linear layers and the exclusive-or problem. *)
From Coq Require Import String ZArith List Bool Arith Lia Reals.
From Verif Require Import Num NumR Heap Spec Matrix Loss Network Optimizers ModelGo PureSpec Repr RSum LayerReal OptSpec ModelSpec NetGradCode LinearSpec LinearProofs LinearEx.
Import ListNotations.
Open Scope R_scope.

(** C102: in exact arithmetic, linear layers before the last layer add nothing: there is one layer of the last layer's kind
    and slope that predicts the same for every input. *)
Theorem C102_collapse (s : state RNum) m es i o : consistent s m es i o -> linear_before (net es) ->
  exists p, p_in p = i /\ p_out p = o /\ p_kind p = p_kind (last (net es) p) /\ p_slope p = p_slope (last (net es) p) /\
    forall x rsx r X c P, own s x rsx r i X -> (1 <= r)%nat -> ppredict (m_acctype m) r o (pforward p r X) = Some (c, P) ->
      returns (Predict m x) s (fun out s' => exists rs, own s' out rs r c P).
Proof. exact (predict_collapse s m es i o). Qed.
Print Assumptions C102_collapse.

(** C102: so no such model with one output gets more than three of the four exclusive-or samples right, whatever its parameters ... *)
Theorem C102_xor (s : state RNum) m es x rsx y rsy : consistent s m es 2 1 -> linear_before (net es) -> List.Forall slope_ok (net es) -> m_acctype m = 2%Z ->
  own s x rsx 4 2 xorX -> own s y rsy 4 1 xorY ->
  returns (CalculateAccuracy m x y) s (fun v _ => v <= 3 / 4).
Proof. exact (xor_accuracy s m es x rsx y rsy). Qed.
Print Assumptions C102_xor.

(** C102: ... nor one with a softmax layer and two classes ... *)
Theorem C102_xor_classes (s : state RNum) m es x rsx y rsy : consistent s m es 2 2 -> linear_before (net es) ->
  (exists ps q, net es = ps ++ [q] /\ p_kind q = SoftmaxK) -> m_acctype m = 1%Z -> own s x rsx 4 2 xorX -> own s y rsy 4 2 xorY2 ->
  returns (CalculateAccuracy m x y) s (fun v _ => v <= 3 / 4).
Proof. exact (xor_categorical s m es x rsx y rsy). Qed.
Print Assumptions C102_xor_classes.

(** C102: ... however long it is trained on them, with any loss, optimizers and batch size. *)
Theorem C102_trained s m es xs k x rsx y rsy epochs bs xv yv : (0 <= bs)%Z -> (4 + bs <= 2 ^ 52)%Z ->
  trainable s m es xs 2 1 k -> data_ok s es x rsx y rsy 4 2 1 xorX xorY -> linear_before (net es) -> List.Forall slope_ok (net es) -> m_acctype m = 2%Z ->
  exists s' v s'', Fit m x y epochs bs xv yv 0 s = (Ret tt, s') /\ CalculateAccuracy m x y s' = (Ret v, s'') /\ v <= 3 / 4.
Proof. exact (xor_trained s m es xs k x rsx y rsy epochs bs xv yv). Qed.
Print Assumptions C102_trained.

(** C102: with a ReLU layer before a linear one all four can be right. *)
Theorem C102_hidden_refuted : exists s m es x rsx y rsy v s', consistent s m es 2 1 /\ m_acctype m = 2%Z /\ map (@p_kind RNum) (net es) = [Hidden; Linear] /\
  own s x rsx 4 2 xorX /\ own s y rsy 4 1 xorY /\ CalculateAccuracy m x y s = (Ret v, s') /\ v = 1.
Proof. exact xor_solved. Qed.
Print Assumptions C102_hidden_refuted.

(** Two linear layers on the exclusive-or data. *)
Example C102_ex : trainable (xr_state Linear) xr_m (xr_es Linear) (nr_xs 1) 2 1 MSE /\
  data_ok (xr_state Linear) (xr_es Linear) xr_x [7;8;9;10]%nat xr_y [11;12;13;14]%nat 4 2 1 xorX xorY /\ m_acctype xr_m = 2%Z /\
  linear_before (net (xr_es Linear)) /\ List.Forall slope_ok (net (xr_es Linear)).
Proof. split; [apply xr_trainable; discriminate|]. split; [apply xr_data|]. split; [reflexivity|exact xr_linear]. Qed.
Example C102_ex_classes : m_acctype xs_m = 1%Z /\ consistent xs_state xs_m xs_es 2 2 /\ linear_before (net xs_es) /\ (exists ps q, net xs_es = ps ++ [q] /\ p_kind q = SoftmaxK) /\
  own xs_state (MkMatrix 4 2 (MkSlice 3 0 4)) [4;5;6;7]%nat 4 2 xorX /\ own xs_state (MkMatrix 4 2 (MkSlice 4 0 4)) [8;9;10;11]%nat 4 2 xorY2.
Proof. exact (conj eq_refl xs_ok). Qed.
