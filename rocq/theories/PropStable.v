(** * PropStable: training a single layer does not amplify differences (C121). *)
From Coq Require Import ZArith List Bool Arith Lia Reals Lra.
From Verif Require Import Num NumR Heap Spec Matrix Loss Network Optimizers ModelGo PureSpec Repr RSum OptSpec ModelSpec FitFacts NetGradSpec Converge ConvergeEx RateSpec LossAccSpec SepEx StableSpec Stable StableEx.
Import ListNotations.
Open Scope R_scope.

(** C121: in exact arithmetic, two models of one linear layer (squared errors) or one softmax layer (cross entropy) that are trained on the same
    data with full batches and the same small enough rate end up no further apart than they started. *)
Theorem C121_no_further s m e x mx rsx y rsy s2 m2 e2 x2 mx2 rsx2 y2 rsy2 i o k n (X Y : rpm) epochs bs xv yv bs2 xv2 yv2 lr L :
  (bs = 0 \/ Z.of_nat n <= bs)%Z -> (Z.of_nat n + bs <= 2 ^ 52)%Z -> (bs2 = 0 \/ Z.of_nat n <= bs2)%Z -> (Z.of_nat n + bs2 <= 2 ^ 52)%Z -> (1 <= n)%nat ->
  trainable s m [e] [x] i o k -> data_ok s [e] mx rsx y rsy n i o X Y -> plain_sgd lr (x_po x) ->
  trainable s2 m2 [e2] [x2] i o k -> data_ok s2 [e2] mx2 rsx2 y2 rsy2 n i o X Y -> plain_sgd lr (x_po x2) ->
  convex_problem k (p_kind (e_p e)) n o Y L -> p_kind (e_p e2) = p_kind (e_p e) -> 0 < lr -> lr * L * (sqnorm n i X + INR n) <= 1 ->
  exists s' e' x' s2' e2' x2', Fit m mx y epochs bs xv yv 0 s = (Ret tt, s') /\ trainable s' m [e'] [x'] i o k /\ same_place e e' /\
    Fit m2 mx2 y2 epochs bs2 xv2 yv2 0 s2 = (Ret tt, s2') /\ trainable s2' m2 [e2'] [x2'] i o k /\ same_place e2 e2' /\
    apart i o (e_p e') (e_p e2') <= apart i o (e_p e) (e_p e2).
Proof. exact (no_further s m e x mx rsx y rsy s2 m2 e2 x2 mx2 rsx2 y2 rsy2 i o k n X Y epochs bs xv yv bs2 xv2 yv2 lr L). Qed.
Print Assumptions C121_no_further.

(** C121: replacing one of the n training samples of a softmax layer changes its loss on any samples by at most
    4 (R^2 + 1) rate epochs / n, where R bounds the length of all samples. *)
Theorem C121_stable s m e x i o mx rsx y rsy mx' rsx' y' rsy' n b (X Y X' Y' : rpm) R2 epochs bs xv yv lr :
  (bs = 0 \/ Z.of_nat n <= bs)%Z -> (Z.of_nat n + bs <= 2 ^ 52)%Z -> (b < n)%nat ->
  trainable s m [e] [x] i o CE -> p_kind (e_p e) = SoftmaxK -> plain_sgd lr (x_po x) -> 0 < lr ->
  data_ok s [e] mx rsx y rsy n i o X Y -> data_ok s [e] mx' rsx' y' rsy' n i o X' Y' -> classes n o Y -> classes n o Y' -> neighbours n i o b X Y X' Y' ->
  within n i X R2 -> within n i X' R2 -> lr * (R2 + 1) <= 1 ->
  exists s1 s2, Fit m mx y epochs bs xv yv 0 s = (Ret tt, s1) /\ Fit m mx' y' epochs bs xv yv 0 s = (Ret tt, s2) /\
    forall N zx rz zy rv Z V, (1 <= N)%nat -> data_ok s [e] zx rz zy rv N i o Z V -> classes N o V -> within N i Z R2 ->
    exists l1 l2 t1 t2, CalculateLoss m zx zy s1 = (Ret l1, t1) /\ CalculateLoss m zx zy s2 = (Ret l2, t2) /\
      Rabs (l1 - l2) <= 4 * (R2 + 1) * lr * INR (Z.to_nat epochs) / INR n.
Proof. exact (stable_run s m e x i o mx rsx y rsy mx' rsx' y' rsy' n b X Y X' Y' R2 epochs bs xv yv lr). Qed.
Print Assumptions C121_stable.

(** Two softmax layers that start six apart. *)
Example C121_ex : trainable (cv_state (2/7)) cv_m2 [cv_e2] [cv_xo (2/7) 2] 2 2 CE /\ data_ok (cv_state (2/7)) [cv_e2] cv_x [4;5]%nat cv_y2 [11;12]%nat 2 2 2 cvX cvY2 /\
  trainable (st_state (2/7)) cv_m2 [st_e] [cv_xo (2/7) 2] 2 2 CE /\ data_ok (st_state (2/7)) [st_e] cv_x [4;5]%nat cv_y2 [11;12]%nat 2 2 2 cvX cvY2 /\ plain_sgd (2/7) (x_po (cv_xo (2/7) 2)) /\
  convex_problem CE (p_kind (e_p cv_e2)) 2 2 cvY2 (1 / INR 2) /\ 2 / 7 * (1 / INR 2) * (sqnorm 2 2 cvX + INR 2) <= 1 /\ apart 2 2 (e_p cv_e2) (e_p st_e) = 36.
Proof. exact (conj (cv_trainable2 _) (conj (cv_data2 _) (conj (st_trainable _) (conj (st_data _) (conj (conj eq_refl (conj eq_refl (conj eq_refl eq_refl))) (conj st_problem (conj cv_rate2 st_apart))))))). Qed.
(** One of two samples replaced. *)
Example C121_ex_stable : trainable (cv_state (1/5)) cv_m2 [cv_e2] [cv_xo (1/5) 2] 2 2 CE /\ plain_sgd (1/5) (x_po (cv_xo (1/5) 2)) /\
  data_ok (cv_state (1/5)) [cv_e2] cv_x [4;5]%nat cv_y2 [11;12]%nat 2 2 2 cvX cvY2 /\ data_ok (cv_state (1/5)) [cv_e2] cv_y2 [11;12]%nat cv_y2 [11;12]%nat 2 2 2 cvY2 cvY2 /\
  classes 2 2 cvY2 /\ neighbours 2 2 2 1 cvX cvY2 cvY2 cvY2 /\ within 2 2 cvX 4 /\ within 2 2 cvY2 4 /\ 1 / 5 * (4 + 1) <= 1.
Proof. exact (conj (cv_trainable2 _) (conj (conj eq_refl (conj eq_refl (conj eq_refl eq_refl))) (conj (cv_data2 _) (conj (st_other _) (conj sep_classes (conj st_neighbours (conj (proj1 st_within) (conj (proj2 st_within) st_rate)))))))). Qed.
