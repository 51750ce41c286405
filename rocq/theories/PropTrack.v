(** * Property C124: how far float64 training can be from exact training.

    [tracked] numbers, [TNum], [exactly], [carry], [sure_train], [sure_net], [close] and [close_net] are in TrackSpec.v.  The bounds come out of
    running the plain training of ModelSpec.v in [TNum]; entries it does not vouch for ([t_ok] false: a possible overflow, or an
    operation such as math.Pow, which Adam uses) carry no promise. *)
From Coq Require Import String ZArith QArith Qreals List Bool Arith Lia Reals.
From Flocq Require Import IEEE754.Binary IEEE754.Bits.
From Verif Require Import Num NumR NumB64 Heap Spec Matrix Loss Network Optimizers ModelGo PureSpec Repr OptSpec ModelSpec TrackSpec Track TrackEx.
Import ListNotations.
Open Scope R_scope.
Open Scope go_scope.

(** Fit, mean squared error: the trained parameters, and every later prediction, are within the computed bounds of what exact arithmetic yields. *)
Theorem C124_fit (L : libm) (s : state (B64 L)) m es xs i o x rsx y rsy n (X Y : pm (B64 L)) epochs bs xv yv U q :
  (0 <= bs)%Z -> (Z.of_nat n + bs <= 2 ^ 52)%Z -> (1 <= n)%nat -> trainable s m es xs i o MSE -> data_ok s es x rsx y rsy n i o X Y -> m_acctype m = 0%Z ->
  let b := batch_rows n bs in let e := Z.to_nat epochs in
  let T := fst (ptrain_on (K := TNum) MSE o (map (carry (K1 := B64 L) exactly) (trainer es xs)) (fun _ => f0) 0
                 (epochs_of e b (carry_mat (K1 := B64 L) exactly X) (carry_mat (K1 := B64 L) exactly Y))) in
  let E := fst (ptrain_on (K := RNum) MSE o (map (carry (K1 := B64 L) b64_R) (trainer es xs)) U q
                 (epochs_of e b (carry_mat (K1 := B64 L) b64_R X) (carry_mat (K1 := B64 L) b64_R Y))) in
  sure_train o (map (carry (K1 := B64 L) exactly) (trainer es xs)) (epochs_of e b (carry_mat (K1 := B64 L) exactly X) (carry_mat (K1 := B64 L) exactly Y)) = true ->
  returns (Fit m x y epochs bs xv yv 0) s (fun _ s' => exists es' xs', trainable s' m es' xs' i o MSE /\ Forall2 same_place es es' /\
    close_net (net es') (map fst E) (map fst T) /\
    forall x2 rs2 r X2, own s' x2 rs2 r i X2 -> (1 <= r)%nat -> sure_net (map fst T) r (carry_mat (K1 := B64 L) exactly X2) = true ->
      returns (Predict m x2) s' (fun out s2 => exists rs P, own s2 out rs r o P /\
        close P (pnet (map fst E) r (carry_mat (K1 := B64 L) b64_R X2)) (pnet (map fst T) r (carry_mat (K1 := B64 L) exactly X2)))).
Proof. exact (fit_tracked L s m es xs i o x rsx y rsy n X Y epochs bs xv yv U q). Qed.
(** Where rounding can switch a unit, the two can part at once: after one epoch on one sample a weight is 1 in float64 and at least 8 in exact arithmetic. *)
Theorem C124_unsure_refuted (L : libm) : exists (s : state (B64 L)) m es xs i o x rsx y rsy (X Y : pm (B64 L)), trainable s m es xs i o MSE /\ data_ok s es x rsx y rsy 1 i o X Y /\ m_acctype m = 0%Z /\
  List.Forall (List.Forall (fun v => b64_finite v = true)) (h_rows s) /\
  match (Fit m x y 1 0 matrix0 matrix0 0 ;; l <- get_layer 0 ;; getc (l_w l) 0 0) s with (Ret v, _) => b64_R v = 1 | _ => False end /\
  forall U q, match fst (ptrain_on (K := RNum) MSE o (map (carry (K1 := B64 L) b64_R) (trainer es xs)) U q (epochs_of 1 1 (carry_mat (K1 := B64 L) b64_R X) (carry_mat (K1 := B64 L) b64_R Y))) with
    | (p, _) :: _ => 8 <= entry (p_w p) 0 0 | _ => False end.
Proof. exact (us_all L). Qed.
Print Assumptions C124_fit. Print Assumptions C124_unsure_refuted.
(** A ReLU layer and a linear layer under SGD with momentum at rate 0.1: the hypotheses hold, all parameter bounds are at most 2^-46 and the bounds for the predictions at most 2^-42. *)
Example C124_ex (L : libm) : trainable (tk_state L) (tk_m L) (tk_es L) (tk_xs L) 2 1 MSE /\ data_ok (tk_state L) (tk_es L) tk_x [7;8]%nat tk_y [9;10]%nat 2 2 1 (tkX L) (tkY L) /\ m_acctype (tk_m L) = 0%Z /\
  let ts := map (carry (K1 := B64 L) exactly) (trainer (tk_es L) (tk_xs L)) in
  let X := carry_mat (K1 := B64 L) exactly (tkX L) in let bs := epochs_of (Z.to_nat 1) (batch_rows 2 0) X (carry_mat (K1 := B64 L) exactly (tkY L)) in
  let T := fst (ptrain_on (K := TNum) MSE 1 ts (fun _ => f0) 0 bs) in
  sure_train 1 ts bs = true /\ sure_net (map fst T) 2 X = true /\
  forallb (fun t => bounded (1 # 2 ^ 46) (p_w (fst t)) && bounded (1 # 2 ^ 46) (p_b (fst t))) T = true /\ bounded (1 # 2 ^ 42) (pnet (map fst T) 2 X) = true.
Proof. exact (tk_all L). Qed.
