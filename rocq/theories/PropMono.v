(** * Property C132: monotone networks.

    [rising ps X a b]: the layers are ReLU, linear, dropout, sigmoid, or leaky with a slope that is not negative; from row [a] to row [b] of [X] only features go up
    that the first layer gives no negative weight, the others stay; later layers have no negative weight.  [upto a b]: not b < a; for two numbers this is
    a <= b, and it holds if one of them is a NaN.  Both in MonoSpec.v.  With sigmoid layers the float64 theorems need an Exp that does not go down
    ([exp_rising]) and is not negative ([exp_nonneg]). *)
From Coq Require Import String ZArith List Bool Arith Lia Reals.
From Verif Require Import Num NumR NumB64 Heap Spec Matrix ModelGo PureSpec Repr ModelSpec CodecEx SoftFloat MonoSpec Mono MonoEx.
Import ListNotations.
Open Scope go_scope.

(** Float64 rounds every product and sum, and may overflow.  Even so no output of such a model goes down, unless one of the two outputs is a NaN. *)
Theorem C132_float L (s : state (B64 L)) m es i o x rsx r X a b :
  no_sigmoid (net es) \/ (exp_rising (B64 L) /\ exp_nonneg L) ->
  consistent s m es i o -> rising (net es) X a b -> m_acctype m = 0%Z -> own s x rsx r i X -> (a < r)%nat -> (b < r)%nat ->
  returns (Predict m x) s (fun out s' => exists rs P, own s' out rs r o P /\ forall j, (j < o)%nat -> upto (entry P a j) (entry P b j)).
Proof. exact (fun H => predict_mono (B64 L) (B64_mono L) s m es i o x rsx r X a b (sig_cases L (net es) H)). Qed.
(** With binary predictions no 1 becomes a 0, unless the output behind the 1 is a NaN (which Predict rounds to 1). *)
Theorem C132_binary L (s : state (B64 L)) m es i o x rsx r X a b :
  no_sigmoid (net es) \/ (exp_rising (B64 L) /\ exp_nonneg L) ->
  consistent s m es i o -> rising (net es) X a b -> m_acctype m = 2%Z -> own s x rsx r i X -> (a < r)%nat -> (b < r)%nat ->
  returns (Predict m x) s (fun out s' => exists rs P, own s' out rs r o P /\
    forall j, (j < o)%nat -> feq (entry (pnet (net es) r X) a j) (entry (pnet (net es) r X) a j) = true -> upto (entry P a j) (entry P b j)).
Proof. exact (fun H => predict_binary_mono (B64 L) (B64_mono L) s m es i o x rsx r X a b (sig_cases L (net es) H)). Qed.
(** In exact arithmetic. *)
Theorem C132_exact (s : state RNum) m es i o x rsx r (X : pm RNum) a b :
  consistent s m es i o -> rising (net es) X a b -> m_acctype m = 0%Z -> own s x rsx r i X -> (a < r)%nat -> (b < r)%nat ->
  returns (Predict m x) s (fun out s' => exists rs (P : pm RNum), own s' out rs r o P /\ forall j, (j < o)%nat -> (entry P a j <= entry P b j)%R).
Proof. exact (predict_mono_R s m es i o x rsx r X a b). Qed.
(** Positive weights do not make float64 outputs go up strictly. *)
Theorem C132_strict_refuted L : exists (s : state (B64 L)) m es x rsx (X : pm (B64 L)),
  consistent s m es 1 1 /\ map p_kind (net es) = [Linear] /\ rising (net es) X 0 1 /\ m_acctype m = 0%Z /\ own s x rsx 2 1 X /\
  (forall p, In p (net es) -> flt f0 (entry (p_w p) 0 0) = true) /\ flt (entry X 0 0) (entry X 1 0) = true /\
  match (P <- Predict m x ;; a <- getc P 0 0 ;; b <- getc P 1 0 ;; ret (a, b)) s with (Ret (a, b), _) => feq a b = true | _ => False end.
Proof. exact (not_strict L). Qed.
Print Assumptions C132_float. Print Assumptions C132_binary. Print Assumptions C132_exact. Print Assumptions C132_strict_refuted.
(** A ReLU layer with negative weights for the second feature and a leaky layer, on two samples that differ in the first feature only: -1.5 and 11. *)
Example C132_ex L : no_sigmoid (net (mn_es L)) /\ (forall acc, consistent (mn_state L) (mn_m L acc) (mn_es L) 2 1) /\ rising (net (mn_es L)) (mn_X L) 0 1 /\ own (mn_state L) mn_x [7;8]%nat 2 2 (mn_X L) /\
  flt (entry (mn_X L) 0 0) (entry (mn_X L) 1 0) = true /\
  match (P <- Predict (mn_m L 0) mn_x ;; a <- getc P 0 0 ;; b <- getc P 1 0 ;; ret (a, b)) (mn_state L) with (Ret (a, b), _) => b64_toZ a = (-1)%Z /\ b64_toZ b = 11%Z | _ => False end.
Proof. exact (conj (mn_no_sigmoid L) (mn_all L)). Qed.
(** An Exp as asked for with sigmoid layers. *)
Example C132_ex_exp : exp_rising (B64 mn_libm) /\ exp_nonneg mn_libm.
Proof. exact mn_exp. Qed.
(** One ReLU unit in exact arithmetic. *)
Example C132_ex_exact : consistent mr_state mr_m mr_es 1 1 /\ rising (net mr_es) mr_X 0 1 /\ m_acctype mr_m = 0%Z /\ own mr_state mr_x [3;4]%nat 2 1 mr_X /\ (entry mr_X 0 0 < entry mr_X 1 0)%R.
Proof. exact mr_all. Qed.
