(** Training moves the first layer only within the span of the inputs. *)
From Coq Require Import String ZArith List Bool Arith Lia Reals.
From Verif Require Import Num NumR Heap Spec Matrix Loss Network Optimizers ModelGo PureSpec Repr RSum OptSpec ModelSpec SpanSpec Span SpanEx.
Import ListNotations.
Open Scope R_scope.

(** C114: training by SGD, with or without momentum and decay, never changes how the units of the first layer respond to a direction
    that is orthogonal to all training inputs.  [steady]: SGD, with no velocity along that direction. *)
Theorem C114_span s (m : model RNum) es xs i o k x rsx y rsy n X Y epochs bs xv yv t v :
  (0 <= bs)%Z -> (Z.of_nat n + bs <= 2 ^ 52)%Z -> (1 <= n)%nat ->
  trainable s m es xs i o k -> data_ok s es x rsx y rsy n i o X Y -> nth_error (trainer es xs) 0 = Some t -> steady v t -> unseen i v X ->
  returns (Fit m x y epochs bs xv yv 0) s (fun _ s' => exists es' xs' t', trainable s' m es' xs' i o k /\ Forall2 same_place es es' /\ nth_error (trainer es' xs') 0 = Some t' /\ steady v t' /\
    forall c, (c < p_out (fst t))%nat -> along i v (p_w (fst t')) c = along i v (p_w (fst t)) c).
Proof. exact (fit_span s m es xs i o k x rsx y rsy n X Y epochs bs xv yv t v). Qed.
Print Assumptions C114_span.

(** C114: a feature that is zero in every training input keeps its weights under both optimizers, so that its initial random weights
    decide what the model makes of it later. *)
Theorem C114_feature s (m : model RNum) es xs i o k x rsx y rsy n X Y epochs bs xv yv t j :
  (0 <= bs)%Z -> (Z.of_nat n + bs <= 2 ^ 52)%Z -> (1 <= n)%nat ->
  trainable s m es xs i o k -> data_ok s es x rsx y rsy n i o X Y -> nth_error (trainer es xs) 0 = Some t -> (j < i)%nat -> row_rest j t -> blank j X ->
  returns (Fit m x y epochs bs xv yv 0) s (fun _ s' => exists es' xs' t', trainable s' m es' xs' i o k /\ Forall2 same_place es es' /\ nth_error (trainer es' xs') 0 = Some t' /\ row_rest j t' /\
    forall c, (c < p_out (fst t))%nat -> entry (p_w (fst t')) j c = entry (p_w (fst t)) j c).
Proof. exact (fit_blank s m es xs i o k x rsx y rsy n X Y epochs bs xv yv t j). Qed.
Print Assumptions C114_feature.

Example C114_ex : (trainable (sp_state 3 sp_sgd) sp_m (sp_es 3) (sp_xs sp_spo) 2 1 MSE /\ trainable (sp_state 3 sp_adam) sp_m (sp_es 3) (sp_xs sp_apo) 2 1 MSE) /\
  data_ok (sp_state 3 sp_sgd) (sp_es 3) sp_x [5]%nat sp_y [6]%nat 1 2 1 [[1;2]] [[-1]] /\ data_ok (sp_state 3 sp_adam) (sp_es 3) sp_x0 [4]%nat sp_y [6]%nat 1 2 1 [[1;0]] [[-1]] /\
  unseen 2 sp_v [[1;2]] /\ blank 1 [[1;0]] /\ (steady sp_v (sp_p 3, sp_spo) /\ row_rest 1 (sp_p 3, sp_spo) /\ row_rest 1 (sp_p 3, sp_apo)).
Proof. exact (conj (conj (sp_trainable _ _ _ (sp_sgd_ok 3)) (sp_trainable _ _ _ (sp_adam_ok 3))) (conj (sp_data _ _) (conj (sp_data0 _ _) (conj sp_unseen (conj sp_blank (sp_steady 3)))))). Qed.

(** C114: Adam does change the response to directions that the inputs do not have. *)
Theorem C114_adam_refuted : exists (s : state RNum) m es xs x rsx y rsy X Y t v, trainable s m es xs 2 1 MSE /\ data_ok s es x rsx y rsy 1 2 1 X Y /\ nth_error (trainer es xs) 0 = Some t /\
  po_kind (snd t) = Adam /\ row_rest 0 t /\ row_rest 1 t /\ unseen 2 v X /\
  returns (Fit m x y 1 0 matrix0 matrix0 0) s (fun _ s' => exists es' xs' t', trainable s' m es' xs' 2 1 MSE /\ Forall2 same_place es es' /\ nth_error (trainer es' xs') 0 = Some t' /\
    along 2 v (p_w (fst t')) 0 <> along 2 v (p_w (fst t)) 0).
Proof. exact adam_span. Qed.
Print Assumptions C114_adam_refuted.
