(** * SigSpec: what training does to a model with sigmoid layers. *)
From Coq Require Import String ZArith List Bool Arith Lia Reals.
From Verif Require Import Num NumR Heap Spec Matrix Activation Loss Network Optimizers ModelGo PureSpec Repr RSum LossProofs OptSpec ModelSpec.
Import ListNotations.
Open Scope Z_scope.

Section WithNum.
Context {K : Num}.
Implicit Types (s : state K) (p : player K) (ps : list (player K)) (es : list (lent K)) (xs : list (oent K)) (X Y : pm K).

(** Backpropagation as the code performs it (model.go:172-211, network.go:343-368, activation.go:41-66).  A sigmoid
    layer's Backward overwrites the layer's own input X with
    H = dValues * s(X) * (1 - s(X)), element by element, and uses H in place of both the input
    and the gradient.  The input of a layer is the saved output of the layer before, so that
    one sees the overwritten values.  Results: the gradient for the input, the weight and bias
    gradients of the layers, and what the storage of the input holds afterwards. *)
Definition sig_grad p (r : nat) (X G : pm K) : pm K :=
  mk r (p_in p) (fun i j => sigmoid_prime1 (entry X i j) (entry G i j)).
Fixpoint sbackprop (k : losskind) (Y : pm K) (o : nat) ps (r : nat) (X : pm K) (U : nat -> K) (q : nat)
    : pm K * list (pm K * pm K) * pm K :=
  match ps with
  | [] => (ploss_back k r o X Y, [], clipped (bwd_clips k) r o X)
  | p :: t =>
      let O := ptrain p r X (from U q) in
      let '(G, gs, O') := sbackprop k Y o t r O U (q + pdraws p r) in
      match p_kind p with
      | SigmoidK =>
          let H := sig_grad p r X G in
          (pdX r (p_in p) (p_out p) H (p_w p), (pdW r (p_in p) (p_out p) H H, psum0 r (p_out p) H) :: gs, H)
      | _ =>
          let G' := if match t with [] => fused k p | _ => false end then pce_back r (p_out p) Y O
                    else pback p r O' (ptrain_mask p r (from U q)) G in
          (pdX r (p_in p) (p_out p) G' (p_w p), (pdW r (p_in p) (p_out p) X G', psum0 r (p_out p) G') :: gs, X)
      end
  end.

(** One mini-batch: the layers and optimizers afterwards, and the batch's rows afterwards. *)
Definition sbatch (k : losskind) (o : nat) (ts : list (player K * popt K)) X Y (U : nat -> K) (q : nat)
    : list (player K * popt K) * pm K :=
  let '(_, gs, X') := sbackprop k Y o (map fst ts) (length X) X U q in
  (map (fun tg => tstep (fst tg) (snd tg)) (combine ts gs), X').
(** A sequence of mini-batches, with the rows each leaves. *)
Fixpoint strain_on (k : losskind) (o : nat) (ts : list (player K * popt K)) (U : nat -> K) (q : nat)
    (bs : list (pm K * pm K)) : list (player K * popt K) * nat * list (pm K) :=
  match bs with
  | [] => (ts, q, [])
  | (X, Y) :: rest =>
      let '(ts1, X1) := sbatch k o ts X Y U q in
      let '(ts2, q2, Xs) := strain_on k o ts1 U (q + net_draws true (map fst ts) (length X)) rest in
      (ts2, q2, X1 :: Xs)
  end.
(** [n] epochs, numbered from [e]: each works on the rows the one before has left, and the log
    lines are computed from the rows as they are after the epoch. *)
Fixpoint sfit (m : model K) (k : losskind) (o b : nat) (val : option (pm K * pm K)) (every : Z) (n : nat) (e : Z)
    (ts : list (player K * popt K)) (U : nat -> K) (q : nat) X Y
    : list (player K * popt K) * nat * pm K * list (logline K) :=
  match n with
  | O => (ts, q, X, [])
  | S n' =>
      let '(ts1, q1, Xs) := strain_on k o ts U q (combine (chunks b X) (chunks b Y)) in
      let '(ts2, q2, X2, ls) := sfit m k o b val every n' (e + 1) ts1 U q1 (concat Xs) Y in
      (ts2, q2, X2, plog m k o (concat Xs) Y val every e (map fst ts1) ++ ls)
  end.

(** As [trainable], but with sigmoid layers allowed, provided that they are square. *)
Definition strainable s (m : model K) es xs (i o : nat) (k : losskind) : Prop :=
  consistent s m es i o /\ unshared es /\ (1 <= length es)%nat /\
  m_opts m = map x_ref xs /\ NoDup (map x_ref xs) /\ Forall2 (ook s) es xs /\
  disjoint (prows es) (orows xs) /\
  m_loss m = Some (MkLoss k (Z.of_nat o)) /\ m_losstype m = losskind_code k /\
  Forall (fun e => p_kind (e_p e) = SigmoidK -> p_out (e_p e) = p_in (e_p e)) es.
(** The data: kept apart from the parameters and from the optimizers' matrices, inputs and
    targets apart from each other, and no two rows of x the same array. *)
Definition sdata_ok s es xs x rsx y rsy (n i o : nat) X Y : Prop :=
  own s x rsx n i X /\ own s y rsy n o Y /\ NoDup rsx /\ disjoint rsx rsy /\
  disjoint rsx (prows es) /\ disjoint rsx (orows xs) /\ disjoint rsy (prows es).
(** Besides parameters, rows of x may change. *)
Definition strain_effect es xs (rsx : list nat) (n : nat) (ls : list (logline K)) s s' : Prop :=
  frame (among (rsx ++ prows es)) s s' /\ layers_kept (map e_ref es) s s' /\ opts_kept (map x_ref xs) s s' /\
  h_rng s' = adv_uni (h_rng s) n /\ h_logger s' = h_logger s /\ h_log s' = (h_log s ++ ls)%list.
(** Training leaves the same layer and optimizer objects with plain contents [ts'], and x with
    contents [X']. *)
Definition strain_result s s' (m : model K) es xs (i o : nat) (k : losskind) x rsx y rsy (n : nat) Y
    (ts' : list (player K * popt K)) (nd : nat) X' (ls : list (logline K)) : Prop :=
  exists es' xs', strainable s' m es' xs' i o k /\ Forall2 same_place es es' /\ same_slots s xs xs' /\
    trainer es' xs' = ts' /\ sdata_ok s' es' xs' x rsx y rsy n i o X' Y /\ strain_effect es xs rsx nd ls s s'.
(** The validation data, kept apart from the training inputs as well; and logging is off, or
    everything it needs is there. *)
Definition sval_ok s es (rsx : list nat) (xv yv : matrix) (i o : nat) (val : option (pm K * pm K)) : Prop :=
  match val with
  | None => mrows yv = 0
  | Some (Xv, Yv) => exists rvx rvy nv, (1 <= nv)%nat /\ own s xv rvx nv i Xv /\ own s yv rvy nv o Yv /\
      disjoint rvx (rsx ++ prows es) /\ disjoint rvy (rsx ++ prows es)
  end.
Definition slog_ok s (m : model K) es (rsx : list nat) (xv yv : matrix) (i o : nat) val (every : Z) : Prop :=
  every = 0 \/
  (h_logger s = true /\ int_faithful K /\ Z.of_nat o <= 2 ^ 53 /\ 0 <= m_acctype m <= 2 /\ sval_ok s es rsx xv yv i o val).
End WithNum.

(** ** Exact arithmetic *)
(** cᵀ W c. *)
Definition quad (n : nat) (W : pm RNum) (c : nat -> R) : R :=
  rsum n (fun u => rsum n (fun v => c u * entry W u v * c v)%R).
