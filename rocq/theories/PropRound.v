(** * Property C90: how far float64 results can be from exact ones.

    [u64] = 2^-53, [eta64] = 2^-1075, [dot_bound], [exact_layer], [layer_err], [net_err], [net_fits], [finite_layer],
    [within] and [wins] are in RoundSpec.v.  Layers that call math.Exp (sigmoid, softmax) are left out: its accuracy is
    not documented. *)
From Coq Require Import String ZArith List Bool Arith Lia Reals.
From Flocq Require Import IEEE754.Binary IEEE754.Bits.
From Verif Require Import Num NumR NumB64 Heap Spec Matrix Network ModelGo PureSpec Repr MatrixFacts OptSpec ModelSpec RSum RoundSpec RoundProofs RoundEx.
Import ListNotations.
Open Scope R_scope.
Open Scope go_scope.

(** A finite entry of a product is within (1 + 2^-53)^(k+1) - 1 times the sum of the absolute products, plus underflow, of the
    exact entry; and it is finite if that sum is far enough below the largest float64. *)
Theorem C90_Dot (L : libm) (s : state (B64 L)) m b rs rs2 r k c (A B : pm (B64 L)) : own s m rs r k A -> own s b rs2 k c B -> (1 <= r)%nat -> (1 <= c)%nat ->
  returns (Dot m b) s (fun out s' => exists rs' (D : pm (B64 L)), own s' out rs' r c D /\
    forall i j, (i < r)%nat -> (j < c)%nat ->
      let exact := rsum k (fun n => b64_R (entry A i n) * b64_R (entry B n j)) in
      let size := rsum k (fun n => Rabs (b64_R (entry A i n) * b64_R (entry B n j))) in
      (b64_finite (entry D i j) = true -> Rabs (b64_R (entry D i j) - exact) <= dot_bound k size) /\
      ((forall n, (n < k)%nat -> b64_finite (entry A i n) = true /\ b64_finite (entry B n j) = true) -> size + dot_bound k size <= 2 ^ 1023 ->
       b64_finite (entry D i j) = true)).
Proof. exact (dot_rounding L s m b rs rs2 r k c A B). Qed.
(** Predict (regression): if the input is within [E] of [Y] and nothing can overflow, the prediction is finite and within the
    running error bound of what exact arithmetic predicts for [Y]. *)
Theorem C90_predict (L : libm) (s : state (B64 L)) m es i o x rsx r (X : pm (B64 L)) (Y E : pm RNum) : consistent s m es i o -> (1 <= length es)%nat -> m_acctype m = 0%Z ->
  own s x rsx r i X -> (1 <= r)%nat -> List.Forall (finite_layer L) (net es) -> within L r i X Y E -> net_fits L (net es) r Y E ->
  returns (Predict m x) s (fun out s' => exists rs P, own s' out rs r o P /\
    within L r o P (pnet (map (exact_layer L) (net es)) r Y) (net_err L (net es) r Y E)).
Proof. exact (predict_rounding L s m es i o x rsx r X Y E). Qed.
(** Predict (categorical): a class that wins by more than the error bounds in exact arithmetic is the class predicted. *)
Theorem C90_class (L : libm) (s : state (B64 L)) m es i o x rsx r (X : pm (B64 L)) (Y E : pm RNum) : consistent s m es i o -> (1 <= length es)%nat -> m_acctype m = 1%Z ->
  own s x rsx r i X -> (1 <= r)%nat -> List.Forall (finite_layer L) (net es) -> within L r i X Y E -> net_fits L (net es) r Y E ->
  returns (Predict m x) s (fun out s' => exists rs P, own s' out rs r 1 P /\
    forall a c, (a < r)%nat -> wins o (pnet (map (exact_layer L) (net es)) r Y) (net_err L (net es) r Y E) a c -> entry P a 0 = ofZ (Z.of_nat c)).
Proof. exact (class_rounding L s m es i o x rsx r X Y E). Qed.
(** Without such a margin the predicted class can be another one than in exact arithmetic. *)
Theorem C90_class_refuted (L : libm) : exists (s : state (B64 L)) m es i o x rsx (X : pm (B64 L)), consistent s m es i o /\ m_acctype m = 1%Z /\ own s x rsx 1 i X /\
  List.Forall (finite_layer L) (net es) /\ (forall j, (j < i)%nat -> b64_finite (entry X 0 j) = true) /\
  (let Y := pnet (map (exact_layer L) (net es)) 1 (real_mat L 1 i X) in o = 2%nat /\ 0 < entry Y 0 1 < entry Y 0 0) /\
  match (P <- Predict m x ;; getc P 0 0) s with (Ret v, _) => b64_toZ v = 1%Z | _ => False end.
Proof. exact (class_not_exact L). Qed.
Print Assumptions C90_Dot. Print Assumptions C90_predict. Print Assumptions C90_class. Print Assumptions C90_class_refuted.
(** A ReLU layer followed by a leaky one: the hypotheses hold, the bounds are at most 1, the exact scores 13 and -2. *)
Example C90_ex (L : libm) : (forall acc, consistent (rd_state L) (rd_m L acc) (rd_es L) 3 2) /\ own (rd_state L) rd_x [8]%nat 1 3 (rd_X L) /\
  List.Forall (finite_layer L) (net (rd_es L)) /\ within L 1 3 (rd_X L) (rd_Y L) rd_E /\ net_fits L (net (rd_es L)) 1 (rd_Y L) rd_E /\
  (forall j, (j < 2)%nat -> entry (net_err L (net (rd_es L)) 1 (rd_Y L) rd_E) 0 j <= 1) /\
  entry (pnet (map (exact_layer L) (net (rd_es L))) 1 (rd_Y L)) 0 0 = 13 /\ entry (pnet (map (exact_layer L) (net (rd_es L))) 1 (rd_Y L)) 0 1 = -2 /\
  wins 2 (pnet (map (exact_layer L) (net (rd_es L))) 1 (rd_Y L)) (net_err L (net (rd_es L)) 1 (rd_Y L) rd_E) 0 0.
Proof. exact (conj (rd_consistent L) (conj (rd_own L) (conj (rd_finite L) (conj (rd_within L) (conj (rd_fits L) (conj (rd_error L) (conj (proj1 (rd_final L)) (conj (proj2 (rd_final L)) (rd_wins L))))))))). Qed.
Example C90_ex_dot (L : libm) : own (rd_state L) rd_x [8]%nat 1 3 (rd_X L) /\ own (rd_state L) (MkMatrix 3 2 (MkSlice 1 0 3)) [1;2;3]%nat 3 2 (p_w (rd_p0 L)) /\
  match (D <- Dot rd_x (MkMatrix 3 2 (MkSlice 1 0 3)) ;; getc D 0 0) (rd_state L) with (Ret v, _) => b64_toZ v = 12%Z | _ => False end.
Proof. exact (conj (rd_own L) (rd_dot L)). Qed.
