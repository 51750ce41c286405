(** * NetGradSpec: the training objective of a whole network and its gradient. *)
From Coq Require Import String ZArith List Bool Arith Lia Reals.
From Coquelicot Require Import Coquelicot.
From Verif Require Import Num NumR Heap Spec Matrix Loss Network ModelGo PureSpec Repr RSum GradSpec Grad LossProofs OptSpec ModelSpec.
Import ListNotations.
Open Scope R_scope.

(** The output of the network in training mode (dropout layers take their random numbers from
    the stream [U], from position [q] on). *)
Fixpoint tnet (ps : list (player RNum)) (r : nat) (X : rpm) (U : nat -> R) (q : nat) : rpm :=
  match ps with
  | [] => X
  | p :: t => tnet t r (ptrain p r X (from (K := RNum) U q)) U (q + pdraws p r)
  end.
(** The objective as a function of the network output [A]: for the squared and the absolute
    error the sum over the rows of the mean over the columns, for the cross-entropies the
    value the loss's Forward reports. *)
Definition objective (k : losskind) (r o : nat) (Y A : rpm) : R :=
  match k with
  | MSE => rsum r (fun i => rsum o (fun j => (entry A i j - entry Y i j) ^ 2) / INR o)
  | MAE => rsum r (fun i => rsum o (fun j => Rabs (entry A i j - entry Y i j)) / INR o)
  | CE => pce (K := RNum) r o A Y
  | BCE => pbce (K := RNum) r o A Y
  end.
(** Where the objective is differentiable, and its gradient the one the loss computes. *)
Definition objective_smooth (k : losskind) (r o : nat) (Y A : rpm) : Prop :=
  match k with
  | MSE => True
  | MAE => o = 1%nat /\ forall i, (i < r)%nat -> entry A i 0 <> entry Y i 0
  | CE => one_hot r o Y /\ in01 r o A
  | BCE => in01 r o A
  end.
Definition is_last {A} (t : list A) : bool := match t with [] => true | _ => false end.
(** No layer is a sigmoid layer, no pre-activation that meets a ReLU is exactly zero, leaky
    slopes are positive, dropout rates are in [0,1), and the objective is smooth at the output
    (for a final softmax layer under cross-entropy: the labels are one-hot). *)
Fixpoint smooth_net (k : losskind) (Y : rpm) (o : nat) (ps : list (player RNum)) (r : nat) (X : rpm) (U : nat -> R) (q : nat) : Prop :=
  match ps with
  | [] => objective_smooth k r o Y X
  | p :: t =>
      p_kind p <> SigmoidK /\ (p_kind p = Dropout -> 0 <= p_drop p < 1) /\ smooth_at p r X /\
      if (is_last t && fused k p)%bool then one_hot r o Y
      else smooth_net k Y o t r (ptrain p r X (from (K := RNum) U q)) U (q + pdraws p r)
  end.
(** A motion of all parameters through those of [ps]: curves and their derivatives at 0. *)
Fixpoint moves (ps : list (player RNum)) (cs : list ((R -> rpm) * (R -> rpm))) (ds : list (rpm * rpm)) : Prop :=
  match ps, cs, ds with
  | [], [], [] => True
  | p :: ps, c :: cs, d :: ds =>
      fst c 0 = p_w p /\ snd c 0 = p_b p /\
      mderiv (p_in p) (p_out p) (fst c) (fst d) /\ mderiv 1 (p_out p) (snd c) (snd d) /\ moves ps cs ds
  | _, _, _ => False
  end.
Fixpoint moved (ps : list (player RNum)) (cs : list ((R -> rpm) * (R -> rpm))) (t : R) : list (player RNum) :=
  match ps, cs with
  | p :: ps, c :: cs => with_params p (fst c t) (snd c t) :: moved ps cs t
  | _, _ => []
  end.
(** The code's backward pass through a dropout layer is (1 - rate) times the derivative of the
    executed pass; the factors multiply along the layers. *)
Definition kept (p : player RNum) : R := match p_kind p with Dropout => 1 - p_drop p | _ => 1 end.
Fixpoint scale (ps : list (player RNum)) : R := match ps with [] => 1 | p :: t => kept p * scale t end.
(** The rate of change that the gradients [gs] (corrected by the dropout factors) predict for
    a motion with derivatives [ds]. *)
Fixpoint predicted (ps : list (player RNum)) (gs : list (rpm * rpm)) (ds : list (rpm * rpm)) : R :=
  match ps, gs, ds with
  | p :: t, g :: gs, d :: ds =>
      (inner (p_in p) (p_out p) (fst g) (fst d) + inner 1 (p_out p) (snd g) (snd d)) / scale (p :: t) + predicted t gs ds
  | _, _, _ => 0
  end.
(** Replace the parameters of layer [j]. *)
Fixpoint set_params (ps : list (player RNum)) (j : nat) (W B : rpm) : list (player RNum) :=
  match ps, j with
  | [], _ => []
  | p :: t, O => with_params p W B :: t
  | p :: t, S j => p :: set_params t j W B
  end.
(** No layer drops anything. *)
Definition no_dropout (ps : list (player RNum)) : Prop := forall p, In p ps -> p_kind p = Dropout -> p_drop p = 0.

(** The gradients [gs] (first layer first) of the layers [ps]: for every motion of all parameters
    together they predict the rate of change of the objective. *)
Definition rates (k : losskind) (Y : rpm) (o : nat) (ps : list (player RNum)) (r : nat) (X : rpm) (U : nat -> R) (q : nat) (gs : list (rpm * rpm)) : Prop :=
  forall cs ds, moves ps cs ds ->
    is_derive (fun t => objective k r o Y (tnet (moved ps cs t) r X U q)) 0 (predicted ps gs ds).
(** The same for every single weight and bias: partial derivatives. *)
Definition partials (k : losskind) (Y : rpm) (o : nat) (ps : list (player RNum)) (r : nat) (X : rpm) (U : nat -> R) (q : nat) (gs : list (rpm * rpm)) : Prop :=
  forall j, let p := nth j ps (no_layer (K := RNum)) in let g := nth j gs ([], []) in (j < length ps)%nat ->
    (forall a b, (a < p_in p)%nat -> (b < p_out p)%nat ->
       is_derive (fun t => objective k r o Y (tnet (set_params ps j (put (p_in p) (p_out p) (p_w p) a b t) (p_b p)) r X U q))
         (entry (p_w p) a b) (entry (fst g) a b / scale (skipn j ps))) /\
    (forall b, (b < p_out p)%nat ->
       is_derive (fun t => objective k r o Y (tnet (set_params ps j (p_w p) (put 1 (p_out p) (p_b p) 0 b t)) r X U q))
         (entry (p_b p) 0 b) (entry (snd g) 0 b / scale (skipn j ps))).

(** ** Descent *)
(** The network after one step of gradient descent with learning rate [lr]. *)
Definition descend (lr : R) (ps : list (player RNum)) (gs : list (rpm * rpm)) : list (player RNum) :=
  map (fun pg => let p := fst pg in let g := snd pg in
    with_params p (mk (K := RNum) (p_in p) (p_out p) (fun i j => entry (p_w p) i j - lr * entry (fst g) i j))
                  (mk (K := RNum) 1 (p_out p) (fun i j => entry (p_b p) i j - lr * entry (snd g) i j))) (combine ps gs).
(** Some entry of some gradient is not zero. *)
Definition nonzero_gradient (ps : list (player RNum)) (gs : list (rpm * rpm)) : Prop :=
  exists j, (j < length ps)%nat /\
    let p := nth j ps (no_layer (K := RNum)) in let g := nth j gs ([], []) in
    ((exists a b, (a < p_in p)%nat /\ (b < p_out p)%nat /\ entry (fst g) a b <> 0) \/
     (exists b, (b < p_out p)%nat /\ entry (snd g) 0 b <> 0)).
(** Some partial derivative of the objective is not zero. *)
Definition not_stationary (k : losskind) (Y : rpm) (o : nat) (ps : list (player RNum)) (r : nat) (X : rpm) (U : nat -> R) (q : nat) : Prop :=
  exists j l, (j < length ps)%nat /\ l <> 0 /\
    let p := nth j ps (no_layer (K := RNum)) in
    ((exists a b, (a < p_in p)%nat /\ (b < p_out p)%nat /\
       is_derive (fun t => objective k r o Y (tnet (set_params ps j (put (p_in p) (p_out p) (p_w p) a b t) (p_b p)) r X U q)) (entry (p_w p) a b) l) \/
     (exists b, (b < p_out p)%nat /\
       is_derive (fun t => objective k r o Y (tnet (set_params ps j (p_w p) (put 1 (p_out p) (p_b p) 0 b t)) r X U q)) (entry (p_b p) 0 b) l)).
(** Plain stochastic gradient descent with learning rate [lr]: no momentum, no decay. *)
Definition plain_sgd (lr : R) (po : popt RNum) : Prop :=
  po_kind po = SGD /\ po_usemom po = false /\ po_usedecay po = false /\ po_rate po = lr.

(** ** The code *)
(** The matrices returned by Backward (last layer first) hold the gradients [Gs]. *)
Definition grads_are (s' : state RNum) (gs : list gradients) (ps : list (player RNum)) (Gs : list (rpm * rpm)) : Prop :=
  length gs = length ps /\ length Gs = length ps /\
  forall j, (j < length ps)%nat -> exists rw rb,
    let g := nth (length ps - 1 - j) gs (MkGrad matrix0 matrix0) in
    own s' (g_dw g) rw (p_in (nth j ps (no_layer (K := RNum)))) (p_out (nth j ps (no_layer (K := RNum)))) (fst (nth j Gs ([], []))) /\
    own s' (g_db g) rb 1 (p_out (nth j ps (no_layer (K := RNum)))) (snd (nth j Gs ([], []))).
(** A model with loss [k] consisting of the layers [es], without sharing. *)
Definition has_loss (s : state RNum) (m : model RNum) (es : list (lent RNum)) (i o : nat) (k : losskind) : Prop :=
  consistent s m es i o /\ NoDup (map e_ref es) /\ (1 <= length es)%nat /\
  m_loss m = Some (MkLoss k (Z.of_nat o)) /\ m_losstype m = losskind_code k.
(** One training pass and its gradients. *)
Definition training_pass (m : model RNum) (x y : matrix) : M RNum (list gradients) :=
  bind (Forward m x true) (fun outs => Backward m outs y).
