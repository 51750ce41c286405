(** * PropHeavy: momentum (C122). *)
From Coq Require Import ZArith List Bool Arith Lia Reals.
From Verif Require Import Num NumR Heap Spec Matrix Loss Network Optimizers ModelGo PureSpec Repr RSum OptSpec ModelSpec FitFacts NetGradSpec RateSpec ConvergeEx MomentumEx ModesSpec ModesEx HeavyRec Heavy HeavyEx.
Import ListNotations.
Open Scope R_scope.

(** C122: with momentum, the residuals of a linear layer along every eigenvector of the Gram matrix obey a linear recurrence of second order. *)
Theorem C122_course s (m : model RNum) e xo i o x rsx y rsy n X Y bs xv yv lr mu :
  (bs = 0 \/ Z.of_nat n <= bs)%Z -> (Z.of_nat n + bs <= 2 ^ 52)%Z -> (1 <= n)%nat ->
  trainable s m [e] [xo] i o MSE -> data_ok s [e] x rsx y rsy n i o X Y -> p_kind (e_p e) = Linear -> fresh_momentum lr mu i o (x_po xo) -> m_acctype m = 0%Z ->
  exists P, predicts s m [e] i o x y n bs xv yv P /\ P O = pnet [e_p e] n X /\
    forall j u lam, (j < o)%nat -> eigen n i X u lam -> let a := lr * (2 / INR o) * lam in let r t := mode n u (P t) Y j in
    r 1%nat = (1 - a) * r 0%nat /\ forall t, r (S (S t)) = r (S t) + mu * (r (S t) - r t) - a * r (S t).
Proof. exact (fit_heavy s m e xo i o x rsx y rsy n X Y bs xv yv lr mu). Qed.
Print Assumptions C122_course.

(** C122: such a residual goes to zero exactly if the rate is below (1 + momentum) o / lam; without momentum the bound is o / lam (C118). *)
Theorem C122_exactly s (m : model RNum) e xo i o x rsx y rsy n X Y bs xv yv lr mu j (u : nat -> R) lam :
  (bs = 0 \/ Z.of_nat n <= bs)%Z -> (Z.of_nat n + bs <= 2 ^ 52)%Z -> (1 <= n)%nat ->
  trainable s m [e] [xo] i o MSE -> data_ok s [e] x rsx y rsy n i o X Y -> p_kind (e_p e) = Linear -> fresh_momentum lr mu i o (x_po xo) -> m_acctype m = 0%Z ->
  0 <= mu < 1 -> (j < o)%nat -> eigen n i X u lam -> 0 < lr * (2 / INR o) * lam -> mode n u (pnet [e_p e] n X) Y j <> 0 ->
  exists P, predicts s m [e] i o x y n bs xv yv P /\ P O = pnet [e_p e] n X /\
    ((forall eps, 0 < eps -> exists T : nat, forall t, (T <= t)%nat -> Rabs (mode n u (P t) Y j) < eps) <-> lr * (2 / INR o) * lam < 2 * (1 + mu)).
Proof. exact (fun H1 H2 H3 H4 H5 H6 H7 H8 => fit_heavy_exactly s m e xo i o x rsx y rsy n X Y bs xv yv lr mu H1 H2 H3 H4 H5 H6 H7 H8 j u lam). Qed.
Print Assumptions C122_exactly.

(** C122: for every rho above (sqrt L - sqrt l) / (sqrt L + sqrt l), momentum rho^2 and a suitable rate make all residuals along eigenvalues
    between l and L shrink like rho^t, on any data; *)
Theorem C122_fast l L rho o : 0 < l <= L -> (sqrt L - sqrt l) / (sqrt L + sqrt l) < rho < 1 -> (1 <= o)%nat -> exists lr C, 0 < lr /\ 0 <= C /\
  forall s m e xo i x rsx y rsy n X Y bs xv yv, (bs = 0 \/ Z.of_nat n <= bs)%Z -> (Z.of_nat n + bs <= 2 ^ 52)%Z -> (1 <= n)%nat ->
  trainable s m [e] [xo] i o MSE -> data_ok s [e] x rsx y rsy n i o X Y -> p_kind (e_p e) = Linear -> fresh_momentum lr (rho ^ 2) i o (x_po xo) -> m_acctype m = 0%Z ->
  exists P, predicts s m [e] i o x y n bs xv yv P /\ P O = pnet [e_p e] n X /\
    forall (t j : nat) (u : nat -> R) lam, (j < o)%nat -> eigen n i X u lam -> l <= lam <= L -> Rabs (mode n u (P t) Y j) <= C * rho ^ t * Rabs (mode n u (P O) Y j).
Proof. exact (fit_fast l L rho o). Qed.
Print Assumptions C122_fast.

(** C122: without momentum no rate does better than ((L - l) / (L + l))^t on both ends, *)
Theorem C122_slow s m e xo i o x rsx y rsy n X Y bs xv yv lr u1 u2 l L j :
  (bs = 0 \/ Z.of_nat n <= bs)%Z -> (Z.of_nat n + bs <= 2 ^ 52)%Z -> (1 <= n)%nat ->
  trainable s m [e] [xo] i o MSE -> data_ok s [e] x rsx y rsy n i o X Y -> p_kind (e_p e) = Linear -> plain_sgd lr (x_po xo) -> m_acctype m = 0%Z ->
  (j < o)%nat -> eigen n i X u1 l -> eigen n i X u2 L -> 0 < l <= L ->
  exists P, predicts s m [e] i o x y n bs xv yv P /\ P O = pnet [e_p e] n X /\
    ((forall t, ((L - l) / (L + l)) ^ t * Rabs (mode n u1 (P O) Y j) <= Rabs (mode n u1 (P t) Y j)) \/
     (forall t, ((L - l) / (L + l)) ^ t * Rabs (mode n u2 (P O) Y j) <= Rabs (mode n u2 (P t) Y j))).
Proof. exact (fit_slow s m e xo i o x rsx y rsy n X Y bs xv yv lr u1 u2 l L j). Qed.
Print Assumptions C122_slow.

(** C122: so some momentum and rate beat every rate without momentum. *)
Theorem C122_beats l L o : 0 < l < L -> (1 <= o)%nat -> exists mu lr rho C, 0 < mu < 1 /\ 0 < lr /\ 0 < rho < (L - l) / (L + l) /\ 0 <= C /\
  forall s m e xo i x rsx y rsy n X Y bs xv yv, (bs = 0 \/ Z.of_nat n <= bs)%Z -> (Z.of_nat n + bs <= 2 ^ 52)%Z -> (1 <= n)%nat ->
  trainable s m [e] [xo] i o MSE -> data_ok s [e] x rsx y rsy n i o X Y -> p_kind (e_p e) = Linear -> fresh_momentum lr mu i o (x_po xo) -> m_acctype m = 0%Z ->
  exists P, predicts s m [e] i o x y n bs xv yv P /\ P O = pnet [e_p e] n X /\
    forall (t j : nat) (u : nat -> R) lam, (j < o)%nat -> eigen n i X u lam -> l <= lam <= L -> Rabs (mode n u (P t) Y j) <= C * rho ^ t * Rabs (mode n u (P O) Y j).
Proof. exact (fit_beats l L o). Qed.
Print Assumptions C122_beats.

Example C122_ex lr mu : trainable (mt_state (hv_o lr mu)) mt_m [mt_e] [hv_xo lr mu] 1 1 MSE /\ data_ok (mt_state (hv_o lr mu)) [mt_e] mt_x [3]%nat mt_y [4]%nat 1 1 1 mtX mtY /\
  p_kind (e_p mt_e) = Linear /\ fresh_momentum lr mu 1 1 (x_po (hv_xo lr mu)) /\ m_acctype mt_m = 0%Z /\ eigen 1 1 mtX (fun _ => 1) 2 /\ mode 1 (fun _ => 1) (pnet [e_p mt_e] 1 mtX) mtY 0 <> 0 /\
  1 / 8 * (2 / INR 1) * 2 < 2 * (1 + 1 / 2).
Proof. exact (heavy_ex lr mu). Qed.
Example C122_ex_two lr : trainable (cv_state lr) cv_m1 [cv_e1] [cv_xo lr 1] 2 1 MSE /\ data_ok (cv_state lr) [cv_e1] cv_x [4;5]%nat cv_y1 [6;7]%nat 2 2 1 cvX cvY1 /\
  p_kind (e_p cv_e1) = Linear /\ plain_sgd lr (x_po (cv_xo lr 1)) /\ m_acctype cv_m1 = 0%Z /\ eigen 2 2 cvX hv_u hv_lam /\ eigen 2 2 cvX md_u md_lam /\ 0 < hv_lam <= md_lam.
Proof. exact (slow_ex lr). Qed.
