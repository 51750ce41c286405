(** * ModelSpec: plain networks, plain training, and how a model state represents them. *)
From Coq Require Import String ZArith List Bool Arith Lia.
From Verif Require Import Num Heap Spec Matrix Accuracy Loss Network Optimizers ModelGo PureSpec Repr LossProofs OptSpec.
Import ListNotations.
Open Scope Z_scope.
Open Scope go_scope.

Section WithNum.
Context {K : Num}.
Implicit Types (s : state K) (p : player K) (ps : list (player K)) (u : nat -> K).

(** ** Plain networks *)
(** The layers fit: the first takes [i] inputs, each takes the outputs of its predecessor,
    and the last yields [o] outputs. *)
Fixpoint chain (i : nat) ps (o : nat) : Prop :=
  match ps with
  | [] => i = o
  | p :: t => p_in p = i /\ chain (p_out p) t o
  end.
(** The stream [U] of random numbers, from position [q] on. *)
Definition from (U : nat -> K) (q : nat) : nat -> K := fun n => U (q + n)%nat.
(** One layer, in training or inference mode, and how many random numbers it draws. *)
Definition player_out (training : bool) p (r : nat) (X : pm K) u : pm K :=
  if training then ptrain p r X u else pforward p r X.
Definition player_draws (training : bool) p (r : nat) : nat := if training then pdraws p r else O.
(** Input and all layer outputs, first to last; random numbers come from the stream [U] at
    position [q]. *)
Fixpoint pouts (training : bool) ps (r : nat) (X : pm K) (U : nat -> K) (q : nat) : list (pm K) :=
  match ps with
  | [] => [X]
  | p :: t => X :: pouts training t r (player_out training p r X (from U q)) U (q + player_draws training p r)
  end.
Definition net_draws (training : bool) ps (r : nat) : nat :=
  fold_right (fun p n => (player_draws training p r + n)%nat) O ps.
(** The prediction: all layers applied one after the other, without dropout. *)
Definition pnet ps (r : nat) (X : pm K) : pm K := fold_left (fun A p => pforward p r A) ps X.

(** ** Plain backpropagation *)
(** [k] is the loss, [o] the output width.  Result: the gradient with respect to the network
    input, and the weight and bias gradients of every layer, first layer first.
    The two special cases are those of the code: a final softmax layer under cross-entropy
    uses the fused formula, and the final output is clipped (in place) when the loss is
    binary cross-entropy. *)
Definition fused (k : losskind) p : bool :=
  match k, p_kind p with CE, SoftmaxK => true | _, _ => false end.
Definition pre_grad (k : losskind) (Y : pm K) (last : bool) p (r : nat) (O Mask G : pm K) : pm K :=
  if last then
    if fused k p then pce_back r (p_out p) Y O
    else pback p r (clipped (bwd_clips k) r (p_out p) O) Mask G
  else pback p r O Mask G.
Fixpoint pbackprop (k : losskind) (Y : pm K) (o : nat) ps (r : nat) (X : pm K) (U : nat -> K) (q : nat)
    : pm K * list (pm K * pm K) :=
  match ps with
  | [] => (ploss_back k r o X Y, [])
  | p :: t =>
      let O := ptrain p r X (from U q) in
      let '(G, gs) := pbackprop k Y o t r O U (q + pdraws p r) in
      let G' := pre_grad k Y (match t with [] => true | _ => false end) p r O (ptrain_mask p r (from U q)) G in
      (pdX r (p_in p) (p_out p) G' (p_w p),
       (pdW r (p_in p) (p_out p) X G', psum0 r (p_out p) G') :: gs)
  end.

(** ** Plain training *)
Definition reparam p (W B : pm K) : player K :=
  PL (p_kind p) (p_in p) (p_out p) W B (p_slope p) (p_drop p).
(** A layer and its optimizer after one update with the gradient [g]. *)
Definition tstep (t : player K * popt K) (g : pm K * pm K) : player K * popt K :=
  let '(po', W', B') := pupdate (snd t) (p_in (fst t)) (p_out (fst t)) (p_w (fst t)) (p_b (fst t)) (fst g) (snd g) in
  (reparam (fst t) W' B', po').
(** One mini-batch: all gradients from the current parameters, then one update per layer. *)
Definition pbatch (k : losskind) (o : nat) (ts : list (player K * popt K)) (X Y : pm K) (U : nat -> K) (q : nat)
    : list (player K * popt K) :=
  map (fun tg => tstep (fst tg) (snd tg))
      (combine ts (snd (pbackprop k Y o (map fst ts) (length X) X U q))).
(** A sequence of mini-batches; the second component is the final position in the stream. *)
Fixpoint ptrain_on (k : losskind) (o : nat) (ts : list (player K * popt K)) (U : nat -> K) (q : nat)
    (bs : list (pm K * pm K)) : list (player K * popt K) * nat :=
  match bs with
  | [] => (ts, q)
  | (X, Y) :: rest =>
      ptrain_on k o (pbatch k o ts X Y U q) U (q + net_draws true (map fst ts) (length X)) rest
  end.
(** Consecutive pieces of [b] elements (the last one may be shorter). *)
Fixpoint chunks_fuel {A} (n b : nat) (l : list A) : list (list A) :=
  match n, l with
  | _, [] => []
  | O, _ => []
  | S n', _ => firstn b l :: chunks_fuel n' b (skipn b l)
  end.
Definition chunks {A} (b : nat) (l : list A) : list (list A) := chunks_fuel (length l) b l.
(** The mini-batches of [e] epochs. *)
Definition epochs_of (e : nat) (b : nat) (X Y : pm K) : list (pm K * pm K) :=
  concat (repeat (combine (chunks b X) (chunks b Y)) e).

(** ** Models *)
(** One layer of a model: its reference, its parameter rows and the plain layer. *)
Record lent : Type := LE { e_ref : nat; e_rw : list nat; e_rb : list nat; e_p : player K }.
Definition lok s (e : lent) : Prop :=
  exists l, nth_error (h_layers s) (e_ref e) = Some l /\ lown s l (e_rw e) (e_rb e) (e_p e).
(** All parameter rows. *)
Definition prows (es : list lent) : list nat := concat (map (fun e => e_rw e ++ e_rb e) es).
Definition net (es : list lent) : list (player K) := map e_p es.
(** The model [m] consists of the layers [es], has [i] inputs and [o] outputs, and its layers
    fit. *)
Definition consistent s (m : model K) (es : list lent) (i o : nat) : Prop :=
  m_layers m = map e_ref es /\ m_size m = Z.of_nat (length es) /\
  m_in m = Z.of_nat i /\ m_out m = Z.of_nat o /\
  chain i (net es) o /\ Forall (lok s) es.
(** No layer object and no parameter row occurs twice. *)
Definition unshared (es : list lent) : Prop := NoDup (map e_ref es) /\ NoDup (prows es).
(** One optimizer of a model: its reference, its moment rows and the plain optimizer. *)
Record oent : Type := OE { x_ref : nat; x_ro : list nat; x_po : popt K }.
Definition ook s (e : lent) (x : oent) : Prop :=
  exists o, nth_error (h_opts s) (x_ref x) = Some o /\
    oown s o (x_ro x) (p_in (e_p e)) (p_out (e_p e)) (x_po x).
Definition orows (xs : list oent) : list nat := concat (map x_ro xs).
(** A model that can be trained: finalized with loss [k], one optimizer per layer, nothing
    shared, at least one layer and no sigmoid layer. *)
Definition trainable s (m : model K) (es : list lent) (xs : list oent) (i o : nat) (k : losskind) : Prop :=
  consistent s m es i o /\ unshared es /\ (1 <= length es)%nat /\
  m_opts m = map x_ref xs /\ NoDup (map x_ref xs) /\ Forall2 (ook s) es xs /\
  disjoint (prows es) (orows xs) /\
  m_loss m = Some (MkLoss k (Z.of_nat o)) /\ m_losstype m = losskind_code k /\
  Forall (fun e => p_kind (e_p e) <> SigmoidK) es.
Definition trainer (es : list lent) (xs : list oent) : list (player K * popt K) :=
  combine (net es) (map x_po xs).

(** ** Effects *)
(** Same layer object apart from what a forward pass saves in it. *)
Definition same_layer (l l' : layer K) : Prop :=
  l_kind l' = l_kind l /\ l_in l' = l_in l /\ l_out l' = l_out l /\ l_w l' = l_w l /\ l_b l' = l_b l /\
  l_slope l' = l_slope l /\ l_drop l' = l_drop l.
(** Of the layer objects only those in [refs] changed, and only their saved data. *)
Definition layers_kept (refs : list nat) s s' : Prop :=
  length (h_layers s') = length (h_layers s) /\
  forall n l, nth_error (h_layers s) n = Some l ->
    exists l', nth_error (h_layers s') n = Some l' /\ same_layer l l' /\ (~ In n refs -> l' = l).
(** Of the optimizer objects only those in [refs] changed. *)
Definition opts_kept (refs : list nat) s s' : Prop :=
  length (h_opts s') = length (h_opts s) /\
  forall n, ~ In n refs -> nth_error (h_opts s') n = nth_error (h_opts s) n.
(** What a forward pass through the layers [refs] does besides allocating its results: it
    draws [n] random numbers and overwrites saved data. *)
Definition forward_effect (refs : list nat) (n : nat) s s' : Prop :=
  frame nothing s s' /\ rest2 s s' /\ layers_kept refs s s' /\ h_rng s' = adv_uni (h_rng s) n.

(** ** Evaluation *)
(** The accuracy of predictions [P]; [None] for an unknown accuracy type. *)
Definition paccuracy (acctype : Z) (prec : K) (r c : nat) (P Y : pm K) : option K :=
  if acctype =? 0 then Some (regression_accuracy r c P Y prec)
  else if acctype =? 1 then Some (categorical_accuracy r c P Y)
  else if acctype =? 2 then Some (binary_accuracy r c P Y) else None.
(** Predict's result from the network output. *)
Definition ppredict (acctype : Z) (r c : nat) (P : pm K) : option (nat * pm K) :=
  if acctype =? 0 then Some (c, P)
  else if acctype =? 1 then Some (1%nat, row_max r c P)
  else if acctype =? 2 then Some (c, pmap r c binary1 P) else None.

(** The outputs of a forward pass are indexed; [no_layer] is a default. *)
Definition no_layer : player K := PL (K := K) Linear 0 0 [] [] f0 f0.
Inductive query := QPredict (x : matrix) | QLoss (x y : matrix) | QAccuracy (x y : matrix).
Inductive answer := AMat (P : matrix) | ANum (v : K).
Definition ask (m : model K) (qu : query) : M K answer :=
  match qu with
  | QPredict x => P <- Predict m x ;; ret (AMat P)
  | QLoss x y => v <- CalculateLoss m x y ;; ret (ANum v)
  | QAccuracy x y => v <- CalculateAccuracy m x y ;; ret (ANum v)
  end.
Fixpoint ask_all (m : model K) (qs : list query) : M K (list answer) :=
  match qs with
  | [] => ret []
  | qu :: t => a <- ask m qu ;; l <- ask_all m t ;; ret (a :: l)
  end.
(** The expected answer, from the plain network [ps] and the data in [s]. *)
Definition expected s (m : model K) (ps : list (player K)) (i o : nat) (k : losskind) (qu : query) (s' : state K) (a : answer) : Prop :=
  match qu, a with
  | QPredict x, AMat P => forall rs r X c A, own s x rs r i X -> ppredict (m_acctype m) r o (pnet ps r X) = Some (c, A) ->
      exists rs', own s' P rs' r c A
  | QLoss x y, ANum v => forall rs rs' r X Y, own s x rs r i X -> own s y rs' r o Y -> v = ploss k r o (pnet ps r X) Y
  | QAccuracy x y, ANum v => forall rs rs' r X Y, own s x rs r i X -> own s y rs' r o Y ->
      Some v = paccuracy (m_acctype m) (m_prec m) r o (pnet ps r X) Y
  | _, _ => False
  end.
(** The arguments have the right shapes. *)
Definition askable s (i o : nat) (qu : query) : Prop :=
  match qu with
  | QPredict x => exists rs r X, own s x rs r i X /\ (1 <= r)%nat
  | QLoss x y | QAccuracy x y => exists rs rs' r X Y, own s x rs r i X /\ own s y rs' r o Y /\ (1 <= r)%nat
  end.

(** The same number, or matrices with the same contents. *)
Definition same_answer s (a a' : answer) : Prop :=
  match a, a' with
  | ANum v, ANum v' => v = v'
  | AMat P, AMat P' => exists rs rs' r c A, own s P rs r c A /\ own s P' rs' r c A
  | _, _ => False
  end.

(** ** Building models *)
(** AddLayer for each of [refs]; the errors are collected. *)
Fixpoint add_layers (m : model K) (refs : list nat) : M K (model K * list (option err)) :=
  match refs with
  | [] => ret (m, [])
  | r :: t =>
      a <- AddLayer m r ;;
      b <- add_layers (fst a) t ;;
      ret (fst b, snd a :: snd b)
  end.
(** Which layers are accepted: the first, and then each whose input size is the output size of
    the one accepted before. *)
Fixpoint accepts (prev : option Z) (ls : list (layer K)) : list bool :=
  match ls with
  | [] => []
  | l :: t =>
      let ok := match prev with None => true | Some o => o =? l_in l end in
      ok :: accepts (if ok then Some (l_out l) else prev) t
  end.
Definition keep {A} (bs : list bool) (l : list A) : list A := map snd (filter fst (combine bs l)).
(** Adjacent layers fit. *)
Fixpoint fitting (ls : list (layer K)) : Prop :=
  match ls with
  | l :: ((l' :: _) as t) => l_out l = l_in l' /\ fitting t
  | _ => True
  end.
(** The error of AddLayer, and layers whose sizes survive the detour through float64. *)
Definition reject : option err := Some (EMsg "nn.Model: Layer's input size does not match up with previous layer's input size.").
Definition small_layer (l : layer K) : Prop := small_int (l_in l) /\ small_int (l_out l).
(** Sizes of a network: inputs of the first layer, outputs of the last. *)
Definition first_in (ps : list (player K)) : nat := match ps with p :: _ => p_in p | [] => 0%nat end.
Definition last_out (ps : list (player K)) : nat := last (map p_out ps) 0%nat.
(** The layer object [l] is what [e] describes. *)
Definition entry_of s (e : lent) (l : layer K) : Prop :=
  nth_error (h_layers s) (e_ref e) = Some l /\ lown s l (e_rw e) (e_rb e) (e_p e).
(** An optimizer with the kind and hyper-parameters of [o], before its first step. *)
Definition clone (o : optimizer K) : optimizer K :=
  match o_kind o with
  | SGD => MkOpt SGD (o_lr o) (o_decay o) (o_momentum o) f0 f0 f0 (o_lr o) 0 matrix0 matrix0 matrix0 matrix0
             (negb (feq (o_decay o) f0)) (negb (feq (o_momentum o) f0))
  | Adam => MkOpt Adam (o_lr o) (o_decay o) f0 (o_eps o) (o_beta1 o) (o_beta2 o) (o_lr o) 0 matrix0 matrix0 matrix0 matrix0
             (negb (feq (o_decay o) f0)) false
  end.

(** The hyper-parameters by name. *)
Definition opt_values (o : optimizer K) : gomap K :=
  match o_kind o with
  | SGD => [("learningRate", o_lr o); ("decay", o_decay o); ("momentum", o_momentum o)]%string
  | Adam => [("learningRate", o_lr o); ("decay", o_decay o); ("epsilon", o_eps o); ("beta1", o_beta1 o); ("beta2", o_beta2 o)]%string
  end.
(** What Finalize installs for the layers [es]: optimizers at the next free positions, all moments zero. *)
Definition new_opts (n : nat) (o : optimizer K) (es : list lent) : list oent :=
  map (fun ne => OE (fst ne) []
         (PO (o_kind o) (o_lr (clone o)) (o_decay (clone o)) (o_momentum (clone o)) (o_eps (clone o)) (o_beta1 (clone o)) (o_beta2 (clone o))
             (o_lr o) 0 (o_usedecay (clone o)) (o_usemom (clone o))
             (zmat (p_in (e_p (snd ne))) (p_out (e_p (snd ne)))) (zmat 1 (p_out (e_p (snd ne))))
             (zmat (p_in (e_p (snd ne))) (p_out (e_p (snd ne)))) (zmat 1 (p_out (e_p (snd ne))))))
      (combine (seq n (length es)) es).

(** ** Training *)
(** Same kind, sizes and hyper-parameters. *)
Definition like (p p' : player K) : Prop :=
  p_kind p' = p_kind p /\ p_in p' = p_in p /\ p_out p' = p_out p /\ p_slope p' = p_slope p /\ p_drop p' = p_drop p.
(** The same layer object with the same parameter rows, possibly holding other values, and
    likewise for optimizers. *)
Definition same_place (e e' : lent) : Prop :=
  e_ref e' = e_ref e /\ e_rw e' = e_rw e /\ e_rb e' = e_rb e /\ like (e_p e) (e_p e').
Definition same_oplace (x x' : oent) : Prop := x_ref x' = x_ref x.
(** The same optimizer objects, whose matrices are the old ones or were allocated after [s]. *)
Definition same_slots s (xs xs' : list oent) : Prop :=
  Forall2 (fun x x' => x_ref x' = x_ref x /\ (x_ro x' = x_ro x \/ fresh s (x_ro x'))) xs xs'.
(** What training does besides allocating: of the existing float arrays only parameters change,
    of the layer objects only saved data, of the optimizer objects those of the model; [n]
    random numbers are drawn and the lines [ls] are logged. *)
Definition train_effect (es : list lent) (xs : list oent) (n : nat) (ls : list (logline K)) s s' : Prop :=
  frame (among (prows es)) s s' /\ layers_kept (map e_ref es) s s' /\ opts_kept (map x_ref xs) s s' /\
  h_rng s' = adv_uni (h_rng s) n /\ h_logger s' = h_logger s /\ h_log s' = h_log s ++ ls.
(** One epoch's log lines, with the network [ps] as it is after the epoch. *)
Definition ploss_acc (m : model K) (k : losskind) (o : nat) ps (X Y : pm K) : K * K :=
  let P := pnet ps (length X) X in
  (ploss k (length X) o P Y,
   match paccuracy (m_acctype m) (m_prec m) (length X) o P Y with Some a => a | None => f0 end).
Definition plog (m : model K) (k : losskind) (o : nat) (X Y : pm K) (val : option (pm K * pm K)) (every e : Z) ps
    : list (logline K) :=
  if negb (every =? 0) && (Z.rem e every =? 0) then
    (let '(l, a) := ploss_acc m k o ps X Y in LInfo e l a) ::
    match val with
    | None => []
    | Some (X', Y') => [let '(l, a) := ploss_acc m k o ps X' Y' in LValInfo e l a]
    end
  else [].
(** [n] epochs of training, numbered from [e], with logging: final layers and optimizers,
    position in the random stream, and log lines. *)
Fixpoint pfit (m : model K) (k : losskind) (o b : nat) (X Y : pm K) (val : option (pm K * pm K)) (every : Z)
    (n : nat) (e : Z) (ts : list (player K * popt K)) (U : nat -> K) (q : nat)
    : list (player K * popt K) * nat * list (logline K) :=
  match n with
  | O => (ts, q, [])
  | S n' =>
      let '(ts1, q1) := ptrain_on k o ts U q (combine (chunks b X) (chunks b Y)) in
      let '(ts2, q2, ls) := pfit m k o b X Y val every n' (e + 1) ts1 U q1 in
      (ts2, q2, plog m k o X Y val every e (map fst ts1) ++ ls)
  end.
(** Training leaves the same layer and optimizer objects, with plain contents [ts']. *)
Definition train_result s s' (m : model K) es xs (i o : nat) (k : losskind) (ts' : list (player K * popt K)) (n : nat)
    (ls : list (logline K)) : Prop :=
  exists es' xs', trainable s' m es' xs' i o k /\ Forall2 same_place es es' /\ same_slots s xs xs' /\
    trainer es' xs' = ts' /\ train_effect es xs n ls s s'.

(** Two states in which the model [m] has the same trained parameters and optimizer contents
    (in the layer and optimizer objects it had in the beginning), with the random stream at the
    same position. *)
Definition same_training s1 s2 (m : model K) es xs (i o : nat) (k : losskind) : Prop :=
  exists es' xs1 xs2, trainable s1 m es' xs1 i o k /\ trainable s2 m es' xs2 i o k /\
    Forall2 same_place es es' /\ Forall2 same_oplace xs xs1 /\ Forall2 same_oplace xs xs2 /\
    map x_po xs1 = map x_po xs2 /\ h_rng s1 = h_rng s2.

(** Whatever a program does, this holds between its initial and final state: float arrays and
    row tables are never removed and never change their length, objects are never removed, and
    the random streams themselves never change. *)
Definition stable s s' : Prop :=
  (forall r row, row_at s r = Some row -> exists row', row_at s' r = Some row' /\ length row' = length row) /\
  (forall n arr, out_at s n = Some arr -> exists arr', out_at s' n = Some arr' /\ length arr' = length arr) /\
  (length (h_layers s) <= length (h_layers s'))%nat /\ (length (h_opts s) <= length (h_opts s'))%nat /\
  r_uni (h_rng s') = r_uni (h_rng s) /\ r_nrm (h_rng s') = r_nrm (h_rng s) /\ r_int (h_rng s') = r_int (h_rng s) /\
  (r_upos (h_rng s) <= r_upos (h_rng s') /\ r_npos (h_rng s) <= r_npos (h_rng s') /\ r_ipos (h_rng s) <= r_ipos (h_rng s'))%nat /\
  h_logger s' = h_logger s /\ (exists ls, h_log s' = h_log s ++ ls).

(** The constant error messages outside the loader. *)
Definition messages : list string :=
  ["nn.SparseToOneHot: Invalid size attribute."; "nn.Model: Layer's input size does not match up with previous layer's input size.";
   "nn.Model: Loss size does not match up with output size."; "nn.Model: Accuracy percision cannot be less than zero.";
   "nn.Model: Invalid accuracy type."; "nn.LeakyLayer: Invalid LeakyRELU slope."; "Invalid dropout value.";
   "nn.Optimizer: Invalid optimizer type."]%string.
(** The errors about dimensions, and those with one of these messages. *)
Definition plain_error (e : err) : Prop :=
  match e with EMsg msg => In msg messages | EEOF | EUnexpectedEOF => False | _ => True end.
(** The beginnings of the lines with which Fit announces an error. *)
Definition fit_messages : list string :=
  ["Failed to perform forward pass: "; "Failed to update using optimizer: "; "Failed to calculate loss: "; "Failed to calculate accuracy: ";
   "Failed to calculate validation loss: "; "Failed to calculate validation accuracy: "]%string.
(** ** Data *)
(** Matching data of [n] rows, kept apart from the parameters. *)
Definition data_ok s (es : list lent) x rsx y rsy (n i o : nat) (X Y : pm K) : Prop :=
  own s x rsx n i X /\ own s y rsy n o Y /\ disjoint rsx (prows es) /\ disjoint rsy (prows es).
(** The validation data: none, or at least one row of matching shape. *)
Definition val_ok s (es : list lent) (xv yv : matrix) (i o : nat) (val : option (pm K * pm K)) : Prop :=
  match val with
  | None => mrows yv = 0
  | Some (Xv, Yv) => exists rsx rsy nv, (1 <= nv)%nat /\ data_ok s es xv rsx yv rsy nv i o Xv Yv
  end.
(** Logging is off, or everything it needs is there. *)
Definition log_ok s (m : model K) (es : list lent) (xv yv : matrix) (i o : nat) val (every : Z) : Prop :=
  every = 0 \/
  (h_logger s = true /\ 0 <= m_acctype m <= 2 /\ int_faithful K /\ Z.of_nat o <= 2 ^ 53 /\ val_ok s es xv yv i o val).
(** Batch size 0 stands for all rows. *)
Definition batch_rows (n : nat) (bs : Z) : nat := if bs =? 0 then n else Z.to_nat bs.
End WithNum.
Arguments lent K : clear implicits.
Arguments oent K : clear implicits.
