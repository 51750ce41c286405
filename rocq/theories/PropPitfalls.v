(** * C74-C75: configurations in which training cannot learn. *)
From Coq Require Import String ZArith List Bool Arith Lia Reals Lra.
From Verif Require Import Num NumR Heap Spec Matrix Loss Network Optimizers ModelGo PureSpec Repr RSum GradSpec OptSpec ModelSpec NetGradSpec HeapLemmas FitFacts Converge ConvergeEx ZeroGrad ZeroGradEx.
Import ListNotations.
Open Scope R_scope.

(** C74: with mean absolute error and two or more outputs, Fit changes no weight and no bias, whatever
    the network, the data and the optimizers (as long as the optimizers have no history yet). *)
Theorem C74_mae_never_trains s m es xs i o x rsx y rsy n (X Y : rpm) epochs bs xv yv :
  (0 <= bs)%Z -> (Z.of_nat n + bs <= 2 ^ 52)%Z -> (1 <= n)%nat -> (2 <= o)%nat ->
  trainable s m es xs i o MAE -> data_ok s es x rsx y rsy n i o X Y ->
  List.Forall (fun t => quiet_w t /\ quiet_b t) (trainer es xs) ->
  returns (Fit m x y epochs bs xv yv 0) s (fun _ s' => exists es' xs',
    trainable s' m es' xs' i o MAE /\ Forall2 same_place es es' /\ net es' = net es).
Proof. exact (mae_fit s m es xs i o x rsx y rsy n X Y epochs bs xv yv). Qed.
Print Assumptions C74_mae_never_trains.
Example C74_ex : trainable (cv_state 1) zg_m2 [cv_e2] [cv_xo 1 2] 2 2 MAE /\
  data_ok (cv_state 1) [cv_e2] cv_x [4;5]%nat cv_y2 [11;12]%nat 2 2 2 cvX cvY2 /\
  List.Forall (fun t => quiet_w t /\ quiet_b t) (trainer [cv_e2] [cv_xo 1 2]).
Proof. split; [apply zg_trainable2|]. split; [apply cv_data2|apply zg_quiet2]. Qed.

(** C74, C75: the optimizers that Finalize installs have no history. *)
Theorem C74_fresh_optimizers n (o : optimizer RNum) es : List.Forall (fun t => quiet_w t /\ quiet_b t) (trainer es (new_opts n o es)).
Proof. exact (new_opts_quiet n o es). Qed.
Print Assumptions C74_fresh_optimizers.

(** C75: a network of two or more layers that was never initialised (all weights and biases of the
    earlier layers zero, none of them Softmax, and the weights of the last layer zero) changes only
    the biases of its last layer in training, and its predictions never depend on the input. *)
Theorem C75_zero_network_never_learns s m es e xs i o k x rsx y rsy n (X Y : rpm) epochs bs xv yv :
  (0 <= bs)%Z -> (Z.of_nat n + bs <= 2 ^ 52)%Z -> (1 <= n)%nat -> es <> [] ->
  trainable s m (es ++ [e]) xs i o k -> data_ok s (es ++ [e]) x rsx y rsy n i o X Y ->
  List.Forall blank (net es) -> zero_on (p_in (e_p e)) (p_out (e_p e)) (p_w (e_p e)) ->
  List.Forall (fun t => quiet_w t /\ quiet_b t) (trainer (es ++ [e]) xs) ->
  returns (Fit m x y epochs bs xv yv 0) s (fun _ s' => exists es' e' xs',
    trainable s' m (es' ++ [e']) xs' i o k /\ Forall2 same_place (es ++ [e]) (es' ++ [e']) /\
    net es' = net es /\ p_w (e_p e') = p_w (e_p e) /\
    forall r1 r2 (X1 X2 : rpm) i1 i2 j, (i1 < r1)%nat -> (i2 < r2)%nat -> (j < o)%nat ->
      entry (pnet (net (es' ++ [e'])) r1 X1) i1 j = entry (pnet (net (es' ++ [e'])) r2 X2) i2 j).
Proof. exact (blank_fit s m es e xs i o k x rsx y rsy n X Y epochs bs xv yv). Qed.
Print Assumptions C75_zero_network_never_learns.
Example C75_ex : trainable zg_state zg_m ([zg_e1] ++ [zg_e2]) zg_xs 2 1 MSE /\
  data_ok zg_state ([zg_e1] ++ [zg_e2]) zg_x [7;8]%nat zg_y [9;10]%nat 2 2 1 cvX zgY /\
  List.Forall blank (net [zg_e1]) /\ zero_on 2 1 (p_w (e_p zg_e2)) /\
  List.Forall (fun t => quiet_w t /\ quiet_b t) (trainer ([zg_e1] ++ [zg_e2]) zg_xs).
Proof. split; [exact zg_trainable|]. split; [exact zg_data|]. split; [exact (proj1 zg_blank)|]. split; [exact (proj2 zg_blank)|exact zg_quiet]. Qed.
