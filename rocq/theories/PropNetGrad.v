(** * Properties of whole-network backpropagation, in exact arithmetic (C45, C53). *)
From Coq Require Import String ZArith List Bool Arith Lia Reals Lra.
From Coquelicot Require Import Coquelicot.
From Verif Require Import Num NumR Heap Spec Matrix Loss Network Optimizers ModelGo PureSpec Repr RSum GradSpec Grad LossProofs OptSpec ModelSpec NetGradSpec NetGradCode LossRefute.
Import ListNotations.
Open Scope R_scope.

(** C45: Backward after Forward returns, for each layer (last first), the gradient of the training
    objective: for every joint motion of all parameters, and for every single parameter.  Dropout
    layers contribute the factor of C31. *)
Theorem C45_backpropagation s m es i o k x rsx y rsy r (X Y : rpm) :
  has_loss s m es i o k -> own s x rsx r i X -> own s y rsy r o Y -> (1 <= r)%nat ->
  smooth_net k Y o (net es) r X (r_uni (h_rng s)) (r_upos (h_rng s)) ->
  returns (training_pass m x y) s (fun gs s' => exists Gs, grads_are s' gs (net es) Gs /\
    rates k Y o (net es) r X (r_uni (h_rng s)) (r_upos (h_rng s)) Gs /\
    partials k Y o (net es) r X (r_uni (h_rng s)) (r_upos (h_rng s)) Gs).
Proof. exact (backward_gradient s m es i o k x rsx y rsy r X Y). Qed.
(** Without dropout: the exact partial derivatives of the objective of the prediction. *)
Theorem C45_exact s m es i o k x rsx y rsy r (X Y : rpm) :
  has_loss s m es i o k -> own s x rsx r i X -> own s y rsy r o Y -> (1 <= r)%nat ->
  smooth_net k Y o (net es) r X (r_uni (h_rng s)) (r_upos (h_rng s)) ->
  no_dropout (net es) -> (forall n, 0 <= r_uni (h_rng s) n) ->
  returns (training_pass m x y) s (fun gs s' => exists Gs, grads_are s' gs (net es) Gs /\
    forall j, let p := nth j (net es) (no_layer (K := RNum)) in let g := nth j Gs ([], []) in (j < length es)%nat ->
    (forall a b, (a < p_in p)%nat -> (b < p_out p)%nat ->
       is_derive (fun t => objective k r o Y (pnet (set_params (net es) j (put (p_in p) (p_out p) (p_w p) a b t) (p_b p)) r X))
         (entry (p_w p) a b) (entry (fst g) a b)) /\
    (forall b, (b < p_out p)%nat ->
       is_derive (fun t => objective k r o Y (pnet (set_params (net es) j (p_w p) (put 1 (p_out p) (p_b p) 0 b t)) r X))
         (entry (p_b p) 0 b) (entry (snd g) 0 b))).
Proof. exact (backward_gradient_exact s m es i o k x rsx y rsy r X Y). Qed.
Print Assumptions C45_backpropagation.
Print Assumptions C45_exact.
Example C45_ex : has_loss (nr_state 1) (nr_m 1) nr_es 2 1 MSE /\ own (nr_state 1) nr_x [7;8]%nat 2 2 nrX /\
  own (nr_state 1) nr_y [9;10]%nat 2 1 nrY /\ smooth_net MSE nrY 1 (net nr_es) 2 nrX (r_uni (h_rng (nr_state 1))) 0 /\
  no_dropout (net nr_es) /\ (forall n, 0 <= r_uni (h_rng (nr_state 1)) n).
Proof.
  destruct (nr_trainable 1) as (HC & (HN & _) & HL & _ & _ & _ & _ & HM & HT & _). destruct (nr_data 1) as (HX & HY & _).
  split; [split; [exact HC|]; split; [exact HN|]; split; [exact HL|]; split; [exact HM|exact HT]|].
  split; [exact HX|]. split; [exact HY|]. split; [exact nr_smooth|].
  split; [intros p [<-|[<-|[]]]; discriminate|]. intros n. simpl. lra.
Qed.

(** C53: where the gradient is not zero, every sufficiently small full-batch step of plain SGD
    strictly decreases the training objective (with the same dropout masks). *)
Theorem C53_descent k (Y : rpm) o (ps : list (player RNum)) r U q i (X : rpm) : (1 <= r)%nat -> (Z.of_nat r <= 2 ^ 52)%Z ->
  smooth_net k Y o ps r X U q ->
  not_stationary k Y o ps r X U q ->
  exists d, 0 < d /\ forall s m es xs x rsx y rsy lr xv yv,
    trainable s m es xs i o k -> net es = ps -> data_ok s es x rsx y rsy r i o X Y ->
    r_uni (h_rng s) = U -> r_upos (h_rng s) = q -> List.Forall (fun x => plain_sgd lr (x_po x)) xs -> 0 < lr < d ->
    returns (Fit m x y 1 0 xv yv 0) s (fun _ s' => exists es' xs',
      trainable s' m es' xs' i o k /\ Forall2 same_place es es' /\
      objective k r o Y (tnet (net es') r X U q) < objective k r o Y (tnet ps r X U q)).
Proof. exact (sgd_descends k Y o ps r U q i X). Qed.
Print Assumptions C53_descent.
Example C53_ex : smooth_net MSE nrY 1 (net nr_es) 2 nrX (fun _ => 1/2) 0 /\
  not_stationary MSE nrY 1 (net nr_es) 2 nrX (fun _ => 1/2) 0 /\
  forall lr, trainable (nr_state lr) (nr_m lr) nr_es (nr_xs lr) 2 1 MSE /\
    data_ok (nr_state lr) nr_es nr_x [7;8]%nat nr_y [9;10]%nat 2 2 1 nrX nrY /\
    r_uni (h_rng (nr_state lr)) = (fun _ => 1/2) /\ r_upos (h_rng (nr_state lr)) = 0%nat /\
    List.Forall (fun x => plain_sgd lr (x_po x)) (nr_xs lr).
Proof.
  split; [exact nr_smooth|]. split; [exact nr_moving|]. intros lr. split; [apply nr_trainable|]. split; [apply nr_data|].
  split; [reflexivity|]. split; [reflexivity|]. repeat (constructor; [repeat split|]). constructor.
Qed.
