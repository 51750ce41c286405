(** * PropTie: property C126. *)
From Coq Require Import ZArith List Bool Arith Reals QArith.
From Coquelicot Require Import Coquelicot.
From Verif Require Import Num NumR NumQ Heap Spec Matrix Loss Network Optimizers ModelGo PureSpec Repr RSum OptSpec ModelSpec GradSpec NetGradSpec TieSpec Tie TieGrad TieEx NetGradCode.
Import ListNotations.
Open Scope go_scope.

(** C126: training with tied weights.  Fit returns normally on a model some of whose layer objects
    share their weights and biases: in every mini-batch all gradients come from the shared
    parameters, then the layers are updated one after the other, each with its own optimizer, and
    each update is seen by all tied layers. *)
Theorem C126_fit {K : Num} s m tags es xs i o k x rsx y rsy n (X Y : pm K) epochs bs xv yv :
  min_faithful K -> (0 <= bs)%Z -> (Z.of_nat n + bs <= 2 ^ 52)%Z -> (1 <= n)%nat ->
  tied_trainable s m tags es xs i o k -> data_ok s es x rsx y rsy n i o X Y ->
  returns (Fit m x y epochs bs xv yv 0) s (fun _ s' =>
    let tq := tied_train tags k o (trainer es xs) (r_uni (h_rng s)) (r_upos (h_rng s)) (epochs_of (Z.to_nat epochs) (batch_rows n bs) X Y) in
    exists nn, snd tq = (r_upos (h_rng s) + nn)%nat /\ tied_result s s' m tags es xs i o k (fst tq) nn).
Proof. exact (tied_fit s m tags es xs i o k x rsx y rsy n X Y epochs bs xv yv). Qed.
(** Tied layers hold the same weights and biases in every state in which the model is tied. *)
Theorem C126_equal {K : Num} (s : state K) tags es a e e' : List.Forall (lok s) es -> tied tags es ->
  In (a, e) (combine tags es) -> In (a, e') (combine tags es) ->
  p_w (e_p e') = p_w (e_p e) /\ p_b (e_p e') = p_b (e_p e) /\ p_in (e_p e') = p_in (e_p e) /\ p_out (e_p e') = p_out (e_p e).
Proof. exact (tied_equal s tags es a e e'). Qed.
(** One full-batch epoch of plain SGD is one step of gradient descent on the shared parameters:
    every entry moves by the rate times the derivative of the objective when that entry moves in
    all tied layers together. *)
Theorem C126_gradient s m tags es xs i o k x rsx y rsy n (X Y : rpm) xv yv (lr : R) : (1 <= n)%nat -> (Z.of_nat n <= 2 ^ 52)%Z ->
  tied_trainable s m tags es xs i o k -> data_ok s es x rsx y rsy n i o X Y ->
  smooth_net k Y o (net es) n X (r_uni (h_rng s)) (r_upos (h_rng s)) -> no_dropout (net es) -> (forall z, (0 <= r_uni (h_rng s) z)%R) ->
  List.Forall (fun x => plain_sgd lr (x_po x)) xs -> lr <> 0%R ->
  returns (Fit m x y 1 0 xv yv 0) s (fun _ s' => exists es' xs', tied_trainable s' m tags es' xs' i o k /\ Forall2 same_place es es' /\
    forall j, (j < length es)%nat ->
      let a := nth j tags 0%nat in let p := nth j (net es) (no_layer (K := RNum)) in let p' := nth j (net es') (no_layer (K := RNum)) in
      (forall u v, (u < p_in p)%nat -> (v < p_out p)%nat ->
         is_derive (fun t => objective k n o Y (pnet (K := RNum) (set_tied tags a (put (p_in p) (p_out p) (p_w p) u v t) (p_b p) (net es)) n X))
           (entry (p_w p) u v) ((entry (p_w p) u v - entry (p_w p') u v) / lr)%R) /\
      (forall v, (v < p_out p)%nat ->
         is_derive (fun t => objective k n o Y (pnet (K := RNum) (set_tied tags a (p_w p) (put 1 (p_out p) (p_b p) 0 v t) (net es)) n X))
           (entry (p_b p) 0 v) ((entry (p_b p) 0 v - entry (p_b p') 0 v) / lr)%R)).
Proof. exact (tied_descends s m tags es xs i o k x rsx y rsy n X Y xv yv lr). Qed.
(** The layer objects must be different: one ReLU layer object used twice predicts the same, but is
    trained to other weights (the second forward call overwrites the pre-activations that the
    backward pass of the first needs, network.go:111). *)
Theorem C126_one_object_refuted : exists (s : state QNum) m es xs x rsx y rsy X Y m' s1 s2 w1 w2,
  tied_trainable s m [0;0]%nat es xs 1 1 MSE /\ data_ok s es x rsx y rsy 1 1 1 X Y /\
  (exists l, h_layers s = [l; l] /\ m_layers m = [0;1]%nat /\ m_layers m' = [0;0]%nat) /\ m_opts m' = m_opts m /\ m_loss m' = m_loss m /\
  fst ((p <- Predict m x ;; getc p 0 0) s) = fst ((p <- Predict m' x ;; getc p 0 0) s) /\
  Fit m x y 1 0 matrix0 matrix0 0 s = (Ret tt, s1) /\ Fit m' x y 1 0 matrix0 matrix0 0 s = (Ret tt, s2) /\
  fst ((l <- get_layer 0 ;; getc (l_w l) 0 0) s1) = Ret w1 /\ fst ((l <- get_layer 0 ;; getc (l_w l) 0 0) s2) = Ret w2 /\ ~ (w1 == w2)%Q.
Proof. exact object_twice. Qed.
Print Assumptions C126_fit.
Print Assumptions C126_equal.
Print Assumptions C126_gradient.
Print Assumptions C126_one_object_refuted.
Example C126_ex : tied_trainable ti_state ti_m [7;9;7]%nat ti_es ti_xs 1 1 MSE /\ data_ok ti_state ti_es ti_x [5;6]%nat ti_y [7;8]%nat 2 1 1 tiX tiY /\
  smooth_net MSE tiY 1 (net ti_es) 2 tiX (r_uni (h_rng ti_state)) (r_upos (h_rng ti_state)) /\
  no_dropout (net ti_es) /\ (forall z, (0 <= r_uni (h_rng ti_state) z)%R) /\ List.Forall (fun x => plain_sgd (1/10)%R (x_po x)) ti_xs /\ (1/10)%R <> 0%R.
Proof. split; [exact ti_trainable|]. split; [exact ti_data|]. split; [exact ti_smooth|]. exact ti_ok. Qed.
