(** * PropFma: inference with fused multiply-add (C123).

    [Dot_fused], [Predict_fused] (FmaGo.v) are Dot and Predict compiled by a compiler that fuses the additions chosen
    by [fuse].  The bounds are those of C90 (RoundSpec.v). *)
From Coq Require Import String ZArith List Bool Arith Lia Reals.
From Flocq Require Import IEEE754.Binary IEEE754.Bits.
From Verif Require Import Num NumR NumB64 Heap Spec Matrix Network ModelGo PureSpec Repr MatrixFacts OptSpec ModelSpec RSum RoundSpec RoundProofs RoundEx FmaGo Fma FmaEx.
Import ListNotations.
Open Scope R_scope.
Open Scope go_scope.

(** C123: without fusing it is the same program. *)
Theorem C123_unfused (L : libm) m x (s : state (B64 L)) : Predict_fused L (fun _ _ _ _ => false) m x s = Predict m x s.
Proof. exact (unfused L m x s). Qed.
(** C123: whatever is fused, the entries of a product are within the bounds of C90_Dot, *)
Theorem C123_Dot (L : libm) fuse (s : state (B64 L)) m b rs rs2 r k c (A B : pm (B64 L)) : own s m rs r k A -> own s b rs2 k c B -> (1 <= r)%nat -> (1 <= c)%nat ->
  returns (Dot_fused L fuse m b) s (fun out s' => exists rs' (D : pm (B64 L)), own s' out rs' r c D /\
    forall i j, (i < r)%nat -> (j < c)%nat ->
      let exact := rsum k (fun n => b64_R (entry A i n) * b64_R (entry B n j)) in
      let size := rsum k (fun n => Rabs (b64_R (entry A i n) * b64_R (entry B n j))) in
      (b64_finite (entry D i j) = true -> Rabs (b64_R (entry D i j) - exact) <= dot_bound k size) /\
      ((forall n, (n < k)%nat -> b64_finite (entry A i n) = true /\ b64_finite (entry B n j) = true) -> size + dot_bound k size <= 2 ^ 1023 ->
       b64_finite (entry D i j) = true)).
Proof. exact (dot_fused L fuse s m b rs rs2 r k c A B). Qed.
(** C123: predictions are within the running error bound of C90_predict, *)
Theorem C123_predict (L : libm) fuse (s : state (B64 L)) m es i o x rsx r (X : pm (B64 L)) (Y E : pm RNum) : consistent s m es i o -> (1 <= length es)%nat -> m_acctype m = 0%Z ->
  own s x rsx r i X -> (1 <= r)%nat -> List.Forall (finite_layer L) (net es) -> within L r i X Y E -> net_fits L (net es) r Y E ->
  returns (Predict_fused L fuse m x) s (fun out s' => exists rs P, own s' out rs r o P /\
    within L r o P (pnet (map (exact_layer L) (net es)) r Y) (net_err L (net es) r Y E)).
Proof. exact (predict_fused L fuse s m es i o x rsx r X Y E). Qed.
(** C123: and a class that wins by more than these bounds is predicted on every platform. *)
Theorem C123_class (L : libm) fuse (s : state (B64 L)) m es i o x rsx r (X : pm (B64 L)) (Y E : pm RNum) : consistent s m es i o -> (1 <= length es)%nat -> m_acctype m = 1%Z ->
  own s x rsx r i X -> (1 <= r)%nat -> List.Forall (finite_layer L) (net es) -> within L r i X Y E -> net_fits L (net es) r Y E ->
  returns (Predict_fused L fuse m x) s (fun out s' => exists rs P, own s' out rs r 1 P /\
    forall a c, (a < r)%nat -> wins o (pnet (map (exact_layer L) (net es)) r Y) (net_err L (net es) r Y E) a c -> entry P a 0 = ofZ (Z.of_nat c)).
Proof. exact (class_fused L fuse s m es i o x rsx r X Y E). Qed.
(** C123: otherwise two platforms can predict different classes. *)
Theorem C123_same_class_refuted (L : libm) : exists (s : state (B64 L)) m es i o x rsx (X : pm (B64 L)) fuse, consistent s m es i o /\ m_acctype m = 1%Z /\ own s x rsx 1 i X /\
  List.Forall (finite_layer L) (net es) /\ (forall j, (j < i)%nat -> b64_finite (entry X 0 j) = true) /\
  match (P <- Predict m x ;; getc P 0 0) s, (P <- Predict_fused L fuse m x ;; getc P 0 0) s with (Ret v, _), (Ret v', _) => b64_toZ v = 1%Z /\ b64_toZ v' = 0%Z | _, _ => False end.
Proof. exact (fused_class L). Qed.
Print Assumptions C123_unfused. Print Assumptions C123_Dot. Print Assumptions C123_predict. Print Assumptions C123_class. Print Assumptions C123_same_class_refuted.

(** The network of C90. *)
Example C123_ex (L : libm) : (forall acc, consistent (rd_state L) (rd_m L acc) (rd_es L) 3 2) /\ own (rd_state L) rd_x [8]%nat 1 3 (rd_X L) /\
  own (rd_state L) (MkMatrix 3 2 (MkSlice 1 0 3)) [1;2;3]%nat 3 2 (p_w (rd_p0 L)) /\
  List.Forall (finite_layer L) (net (rd_es L)) /\ within L 1 3 (rd_X L) (rd_Y L) rd_E /\ net_fits L (net (rd_es L)) 1 (rd_Y L) rd_E /\
  wins 2 (pnet (map (exact_layer L) (net (rd_es L))) 1 (rd_Y L)) (net_err L (net (rd_es L)) 1 (rd_Y L) rd_E) 0 0.
Proof. exact (conj (rd_consistent L) (conj (rd_own L) (conj (proj1 (rd_dot L)) (conj (rd_finite L) (conj (rd_within L) (conj (rd_fits L) (rd_wins L))))))). Qed.
