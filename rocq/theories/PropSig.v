(** * PropSig: property C128. *)
From Coq Require Import ZArith List Bool Arith Reals.
From Verif Require Import Num NumR Heap Spec Matrix Loss Network Optimizers ModelGo PureSpec Repr RSum OptSpec ModelSpec NetGradSpec SigSpec SigFacts SigEx.
Import ListNotations.

(** C128: training a model with sigmoid layers, wherever they stand.  Fit returns normally and
    does what [sfit] says: a sigmoid layer's Backward replaces the layer's input by
    H = dValues * s(X) * (1 - s(X)) and takes H for both the input and the gradient; the layer
    before sees its own output overwritten; and if the first layer is a sigmoid layer, the next
    epoch (and the log lines) work on the overwritten training inputs. *)
Theorem C128_fit {K : Num} (s : state K) m es xs i o k x rsx y rsy n X Y epochs bs xv yv val every :
  min_faithful K -> (0 <= bs)%Z -> (Z.of_nat n + bs <= 2 ^ 52)%Z -> (1 <= n)%nat ->
  strainable s m es xs i o k -> sdata_ok s es xs x rsx y rsy n i o X Y -> slog_ok s m es rsx xv yv i o val every ->
  returns (Fit m x y epochs bs xv yv every) s (fun _ s' =>
    let '(ts', q', X', ls) := sfit m k o (batch_rows n bs) val every (Z.to_nat epochs) 0 (trainer es xs)
                                (r_uni (h_rng s)) (r_upos (h_rng s)) X Y in
    exists nn, q' = (r_upos (h_rng s) + nn)%nat /\ strain_result s s' m es xs i o k x rsx y rsy n Y ts' nn X' ls).
Proof. exact (sig_fit_returns s m es xs i o k x rsx y rsy n X Y epochs bs xv yv val every). Qed.
(** Without sigmoid layers this is the training of C48. *)
Theorem C128_plain {K : Num} m k o b val every i (Y : pm K) : (1 <= b)%nat -> forall n e ts U q X,
  chain i (map fst ts) o -> List.Forall (fun kd => kd <> SigmoidK) (map p_kind (map fst ts)) -> ts <> [] -> length Y = length X ->
  sfit m k o b val every n e ts U q X Y =
  (let '(ts', q', ls) := pfit m k o b X Y val every n e ts U q in (ts', q', X, ls)).
Proof. exact (sfit_plain m k o b val every i Y). Qed.
(** The training data survives if the first layer is not a sigmoid layer. *)
Theorem C128_inputs {K : Num} (s : state K) m es xs i o k x rsx y rsy n X Y epochs bs xv yv val every e0 et :
  min_faithful K -> (0 <= bs)%Z -> (Z.of_nat n + bs <= 2 ^ 52)%Z -> (1 <= n)%nat ->
  strainable s m es xs i o k -> sdata_ok s es xs x rsx y rsy n i o X Y -> slog_ok s m es rsx xv yv i o val every ->
  es = e0 :: et -> p_kind (e_p e0) <> SigmoidK ->
  returns (Fit m x y epochs bs xv yv every) s (fun _ s' => own s' x rsx n i X /\ own s' y rsy n o Y).
Proof. exact (sig_keeps_inputs s m es xs i o k x rsx y rsy n X Y epochs bs xv yv val every e0 et). Qed.
(** With plain SGD, whatever the data, the targets and the other layers: the quadratic form of
    a sigmoid layer's weights never increases in any direction, and their antisymmetric part
    never changes. *)
Theorem C128_form (s : state RNum) m es xs i o k x rsx y rsy n X Y epochs bs xv yv val every lr :
  (0 <= bs)%Z -> (Z.of_nat n + bs <= 2 ^ 52)%Z -> (1 <= n)%nat ->
  strainable s m es xs i o k -> sdata_ok s es xs x rsx y rsy n i o X Y -> slog_ok s m es rsx xv yv i o val every ->
  List.Forall (fun x => plain_sgd lr (x_po x)) xs -> (0 <= lr)%R ->
  returns (Fit m x y epochs bs xv yv every) s (fun _ s' => exists es' xs', strainable s' m es' xs' i o k /\ Forall2 same_place es es' /\
    Forall2 (fun e e' => let p := e_p e in let p' := e_p e' in p_kind p = SigmoidK ->
      (forall c, (quad (p_in p) (p_w p') c <= quad (p_in p) (p_w p) c)%R) /\
      (forall u v, (u < p_in p)%nat -> (v < p_in p)%nat ->
         (entry (p_w p') u v - entry (p_w p') v u = entry (p_w p) u v - entry (p_w p) v u)%R)) es es').
Proof. exact (sig_quad s m es xs i o k x rsx y rsy n X Y epochs bs xv yv val every lr). Qed.
(** So training does not learn the targets: with inputs 1 and -1 and targets 1 and 0, a sigmoid
    layer that starts at zero ranks the two the wrong way round, for every rate and after every
    number of epochs. *)
Theorem C128_learns_refuted : exists X Y : pm RNum, X = [[1];[-1]]%R /\ Y = [[1];[0]]%R /\ forall lr epochs xv yv, (0 < lr)%R -> (1 <= epochs)%Z ->
  exists s m es xs x rsx y rsy, strainable s m es xs 1 1 MSE /\ sdata_ok s es xs x rsx y rsy 2 1 1 X Y /\
    List.Forall (fun x => plain_sgd lr (x_po x)) xs /\
    returns (Fit m x y epochs 0 xv yv 0) s (fun _ s' => exists es' xs', strainable s' m es' xs' 1 1 MSE /\ Forall2 same_place es es' /\
      (entry (pnet (K := RNum) (net es') 2 X) 0 0 < entry (pnet (K := RNum) (net es') 2 X) 1 0)%R).
Proof. exact sig_wrong_way. Qed.
Print Assumptions C128_fit.
Print Assumptions C128_plain.
Print Assumptions C128_inputs.
Print Assumptions C128_form.
Print Assumptions C128_learns_refuted.

(** Sigmoid 2 -> 2, leaky 2 -> 1, sigmoid 1 -> 1, with logging and validation data. *)
Example C128_ex : strainable (sg_state (1/2)) sg_m sg_es (sg_xs (1/2)) 2 1 MSE /\
  sdata_ok (sg_state (1/2)) sg_es (sg_xs (1/2)) sg_x [9;10]%nat sg_y [11;12]%nat 2 2 1 sgX sgY /\
  slog_ok (sg_state (1/2)) sg_m sg_es [9;10]%nat sg_xv sg_yv 2 1 (Some ([[7;-1]], [[1]]))%R 1 /\
  List.Forall (fun x => plain_sgd (1/2) (x_po x)) (sg_xs (1/2)).
Proof. exact (conj (sg_trainable (1/2)) (conj (sg_data (1/2)) (conj (sg_log (1/2)) (sg_plain (1/2))))). Qed.
