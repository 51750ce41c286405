(** * Session: building, training, using, saving and reloading a model, as the example programs do
    (examples/iris_test.go:58-79, examples/spiral_test.go:55-74, model_test.go:14-53,
    model_data_test.go). *)
From Coq Require Import String ZArith List Bool Arith Lia Init.Byte.
From Verif Require Import Num Heap Spec Matrix Activation Misc Accuracy Loss Network Optimizers ModelGo LayerData ModelData PureSpec Repr OptSpec ModelSpec CodecSpec.
Import ListNotations.
Open Scope Z_scope.
Open Scope go_scope.

Section WithNum.
Context {K : Num}.
Implicit Types (s : state K).

(** ** The program *)
(** A layer to be constructed; [sp_rate] is the slope of a leaky and the rate of a dropout layer. *)
Record lspec : Type := LSpec { sp_kind : lkind; sp_in : nat; sp_out : nat; sp_rate : K }.
Definition new_of (sp : lspec) : M K (layer K) :=
  let i := Z.of_nat (sp_in sp) in let o := Z.of_nat (sp_out sp) in
  match sp_kind sp with
  | Hidden => NewLayer i o
  | Linear => NewLinearLayer i o
  | SigmoidK => NewSigmoidLayer i o
  | Leaky => NewLeakyLayer i o (sp_rate sp)
  | SoftmaxK => NewSoftmaxLayer i o
  | Dropout => NewDropoutLayer i o (sp_rate sp)
  end.
(** l, _ := NewXLayer(...); model.AddLayer(&l) *)
Fixpoint add_all (m : model K) (sps : list lspec) : M K (model K) :=
  match sps with
  | [] => ret m
  | sp :: rest =>
      l <- new_of sp ;;
      lref <- alloc_layer l ;;
      m' <- check_err (AddLayer m lref) ;;
      add_all m' rest
  end.
Definition out_of (sps : list lspec) : nat := last (map sp_out sps) 0%nat.
Definition in_of (sps : list lspec) : nat := match sps with sp :: _ => sp_in sp | [] => 0%nat end.
(** A trained model. *)
Definition prepare (sps : list lspec) (k : losskind) (opt : optimizer K) (acctype : Z) (prec : K)
    (x y : matrix) (epochs bs : Z) : M K (model K) :=
  m <- add_all NewModel sps ;;
  InitLayers m ;;
  l <- NewLoss k (Z.of_nat (out_of sps)) ;;
  m <- check_err (Finalize m l opt acctype prec) ;;
  Fit m x y epochs bs matrix0 matrix0 0 ;;
  ret m.
(** Its predictions on [z] before and after saving and loading; [ord] is the order in which the
    map of optimizer values is visited. *)
Definition session (B : FBits K) sps k opt acctype prec x y epochs bs z (ord : gomap K) : M K (matrix * matrix) :=
  m <- prepare sps k opt acctype prec x y epochs bs ;;
  P <- Predict m z ;;
  bytes <- save B m ord ;;
  r <- LoadModel B bytes ;;
  P2 <- Predict (fst r) z ;;
  ret (P, P2).

(** ** Sensible arguments *)
Definition spec_ok (sp : lspec) : Prop :=
  (1 <= sp_in sp)%nat /\ (1 <= sp_out sp)%nat /\ Z.of_nat (sp_in sp) < 2 ^ 31 /\ Z.of_nat (sp_out sp) < 2 ^ 31 /\
  match sp_kind sp with
  | SigmoidK => False
  | Leaky => flt (sp_rate sp) f0 = false
  | Dropout => flt f1 (sp_rate sp) = false /\ flt (sp_rate sp) f0 = false
  | _ => True
  end.
(** Each layer takes what the one before yields. *)
Fixpoint linked (o : nat) (sps : list lspec) : Prop :=
  match sps with [] => True | sp :: rest => sp_in sp = o /\ linked (sp_out sp) rest end.

(** ** What comes out *)
(** The initial network: weights from consecutive normal numbers [z], biases zero. *)
Definition start_of (z : nat -> K) (sp : lspec) : player K :=
  PL (sp_kind sp) (sp_in sp) (sp_out sp)
     (mk (sp_in sp) (sp_out sp) (fun i j => fmul (z (i * sp_out sp + j)%nat) (fsqrt (fdiv (ofZ 2) (ofZ (Z.of_nat (sp_in sp)))))))
     (mk 1 (sp_out sp) (fun _ _ => f0))
     (match sp_kind sp with Leaky => sp_rate sp | _ => f0 end) (match sp_kind sp with Dropout => sp_rate sp | _ => f0 end).
Fixpoint start_net (z : nat -> K) (sps : list lspec) : list (player K) :=
  match sps with
  | [] => []
  | sp :: rest => start_of z sp :: start_net (fun n => z (sp_in sp * sp_out sp + n)%nat) rest
  end.
(** The optimizer of a layer after Finalize: the given hyperparameters, nothing accumulated. *)
Definition start_opt (o : optimizer K) (sp : lspec) : popt K :=
  let c := clone o in
  PO (o_kind o) (o_lr c) (o_decay c) (o_momentum c) (o_eps c) (o_beta1 c) (o_beta2 c) (o_lr o) 0 (o_usedecay c) (o_usemom c)
     (zmat (sp_in sp) (sp_out sp)) (zmat 1 (sp_out sp)) (zmat (sp_in sp) (sp_out sp)) (zmat 1 (sp_out sp)).
Definition final_net (sps : list lspec) (k : losskind) (o : optimizer K) (z u : nat -> K) (q : nat) (X Y : pm K) (epochs bs : Z) : list (player K) :=
  map fst (fst (ptrain_on k (out_of sps) (combine (start_net z sps) (map (start_opt o) sps)) u q
    (epochs_of (Z.to_nat epochs) (batch_rows (length X) bs) X Y))).
End WithNum.
Arguments lspec : clear implicits.
