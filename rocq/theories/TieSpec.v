(** * TieSpec: networks in which several layers share one set of weights. *)
From Coq Require Import ZArith List Bool Arith Reals.
From Verif Require Import Num NumR Heap Spec Matrix Loss Network Optimizers ModelGo PureSpec Repr OptSpec ModelSpec RSum GradSpec NetGradSpec.
Import ListNotations.

Section WithNum.
Context {K : Num}.
Implicit Types (s : state K) (es : list (lent K)) (xs : list (oent K)).

(** Two layer objects with the same weight and bias matrices (Weights and Biases are exported
    pointers, network.go:35-36, so that l2.Weights = l1.Weights and l2.Biases = l1.Biases tie
    two layers), and two layer objects without a common array. *)
Definition shares (e e' : lent K) : Prop :=
  e_rw e' = e_rw e /\ e_rb e' = e_rb e /\ p_in (e_p e') = p_in (e_p e) /\ p_out (e_p e') = p_out (e_p e).
Definition apart (e e' : lent K) : Prop := disjoint (e_rw e ++ e_rb e) (e_rw e' ++ e_rb e').
(** Layers with equal tags share their weights and biases, the others have nothing in common. *)
Definition tied (tags : list nat) es : Prop :=
  length tags = length es /\ Forall (fun e => NoDup (e_rw e ++ e_rb e)) es /\
  forall a e b e', In (a, e) (combine tags es) -> In (b, e') (combine tags es) ->
    if (a =? b)%nat then shares e e' else apart e e'.
(** [trainable], but with tied parameters. *)
Definition tied_trainable s (m : model K) (tags : list nat) es xs (i o : nat) (k : losskind) : Prop :=
  consistent s m es i o /\ NoDup (map e_ref es) /\ tied tags es /\ (1 <= length es)%nat /\
  m_opts m = map x_ref xs /\ NoDup (map x_ref xs) /\ Forall2 (ook s) es xs /\
  disjoint (prows es) (orows xs) /\
  m_loss m = Some (MkLoss k (Z.of_nat o)) /\ m_losstype m = losskind_code k /\
  Forall (fun e => p_kind (e_p e) <> SigmoidK) es.

(** ** Training *)
Definition tagged : Type := (nat * (player K * popt K))%type.
(** Every layer tagged [a] gets the parameters of [t]. *)
Definition retie (a : nat) (t : player K * popt K) (x : tagged) : tagged :=
  if (fst x =? a)%nat then (fst x, (reparam (fst (snd x)) (p_w (fst t)) (p_b (fst t)), snd (snd x))) else x.
(** One update per layer, first layer first, each with its own optimizer and its own gradient,
    and each seen at once by all layers with the same tag. *)
Fixpoint tied_loop (done todo : list tagged) (gs : list (pm K * pm K)) : list tagged :=
  match todo, gs with
  | (a, t) :: todo', g :: gs' =>
      let t' := tstep t g in
      tied_loop (map (retie a t') done ++ [(a, t')]) (map (retie a t') todo') gs'
  | _, _ => done ++ todo
  end.
Definition tied_batch (tags : list nat) (k : losskind) (o : nat) (ts : list (player K * popt K)) (X Y : pm K) (U : nat -> K) (q : nat)
    : list (player K * popt K) :=
  map snd (tied_loop [] (combine tags ts) (snd (pbackprop k Y o (map fst ts) (length X) X U q))).
Fixpoint tied_train (tags : list nat) (k : losskind) (o : nat) (ts : list (player K * popt K)) (U : nat -> K) (q : nat)
    (bs : list (pm K * pm K)) : list (player K * popt K) * nat :=
  match bs with
  | [] => (ts, q)
  | (X, Y) :: rest =>
      tied_train tags k o (tied_batch tags k o ts X Y U q) U (q + net_draws true (map fst ts) (length X)) rest
  end.
(** The model [m] after training: the same objects, tied as before, with the parameters and
    optimizers [ts']. *)
Definition tied_result s s' (m : model K) tags es xs (i o : nat) (k : losskind) (ts' : list (player K * popt K)) (n : nat) : Prop :=
  exists es' xs', tied_trainable s' m tags es' xs' i o k /\ Forall2 same_place es es' /\ same_slots s xs xs' /\
    trainer es' xs' = ts' /\ train_effect es xs n [] s s'.
End WithNum.

(** ** Gradients *)
(** Every layer tagged [a] gets the weights [W] and the biases [B]. *)
Definition set_tied (tags : list nat) (a : nat) (W B : rpm) (ps : list (player RNum)) : list (player RNum) :=
  map (fun bp => if (fst bp =? a)%nat then with_params (snd bp) W B else snd bp) (combine tags ps).
