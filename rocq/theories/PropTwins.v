(** * PropTwins: symmetries that training does not break (C83). *)
From Coq Require Import String ZArith List Bool Arith Lia QArith.
From Verif Require Import Num NumQ Heap Spec Matrix Network Loss Optimizers ModelGo PureSpec Repr OptSpec ModelSpec Ex ModelEx Twins TwinsProofs TwinsEx.
Import ListNotations.
Open Scope Z_scope.
Open Scope go_scope.

(** C83: two hidden units of a ReLU, leaky or linear layer that agree in incoming weights, bias, outgoing weights and optimizer contents
    still agree in all of them, bit for bit, after any training. *)
Theorem C83_units (K : Num) (s : state K) (m : model K) es xs i o k x rsx y rsy n X Y epochs bs xv yv l a b :
  min_faithful K -> 0 <= bs -> Z.of_nat n + bs <= 2 ^ 52 -> (1 <= n)%nat ->
  trainable s m es xs i o k -> data_ok s es x rsx y rsy n i o X Y -> twins (trainer es xs) l a b ->
  returns (Fit m x y epochs bs xv yv 0) s (fun _ s' => exists es' xs', trainable s' m es' xs' i o k /\ Forall2 same_place es es' /\ twins (trainer es' xs') l a b).
Proof. exact (fit_twins s m es xs i o k x rsx y rsy n X Y epochs bs xv yv l a b). Qed.
(** So they never contribute more than one unit: their outputs agree on every sample. *)
Theorem C83_output (K : Num) (ts : list (player K * popt K)) l a b r X t : twins ts l a b -> nth_error ts l = Some t -> same_cols r (pforward (fst t) r X) a b.
Proof. exact (twins_output ts l a b r X t). Qed.
(** Two features that are equal in every sample and start with equal weights keep equal weights. *)
Theorem C83_features (K : Num) (s : state K) (m : model K) es xs i o k x rsx y rsy n X Y epochs bs xv yv a b :
  min_faithful K -> 0 <= bs -> Z.of_nat n + bs <= 2 ^ 52 -> (1 <= n)%nat ->
  trainable s m es xs i o k -> data_ok s es x rsx y rsy n i o X Y -> twin_features (trainer es xs) a b -> same_cols n X a b ->
  returns (Fit m x y epochs bs xv yv 0) s (fun _ s' => exists es' xs', trainable s' m es' xs' i o k /\ Forall2 same_place es es' /\ twin_features (trainer es' xs') a b).
Proof. exact (fit_features s m es xs i o k x rsx y rsy n X Y epochs bs xv yv a b). Qed.
(** A dropout layer separates such units. *)
Theorem C83_dropout_refuted : exists (s : state QNum) m es xs x rsx y rsy X Y s' w w' t1 t2,
  trainable s m es xs 2 1 MSE /\ data_ok s es x rsx y rsy 3 2 1 X Y /\
  nth_error (trainer es xs) 0 = Some t1 /\ nth_error (trainer es xs) 1 = Some t2 /\ p_kind (fst t1) = Dropout /\ twin_units t1 0 1 /\ twin_inputs t2 0 1 /\
  Fit m x y 1 0 matrix0 matrix0 0 s = (Ret tt, s') /\
  fst ((l <- get_layer 0 ;; getc (l_w l) 0 0) s') = Ret w /\ fst ((l <- get_layer 0 ;; getc (l_w l) 0 1) s') = Ret w' /\ ~ (w == w')%Q.
Proof. exact dropout_separates. Qed.
Print Assumptions C83_units.
Print Assumptions C83_output.
Print Assumptions C83_features.
Print Assumptions C83_dropout_refuted.
Example C83_ex : trainable (tws Hidden) twM (twEs Hidden) twXs 2 1 MSE /\
  data_ok (tws Hidden) (twEs Hidden) twX [7; 8; 9]%nat twY [10; 11; 12]%nat 3 2 1 pXd pYd /\ twins (trainer (twEs Hidden) twXs) 0 0 1 /\
  match (Fit twM twX twY 1 1 matrix0 matrix0 0 ;; l <- get_layer 0 ;; u <- getc (l_w l) 0 0 ;; v <- getc (l_w l) 0 1 ;; ret (Qred u, Qred v)) (tws Hidden) with
  | (Ret (u, v), _) => u = v /\ u <> 1%Q | _ => False end.
Proof.
  split; [apply tw_trainable; discriminate|]. split; [apply tw_data|]. split; [apply tw_twins; auto|]. vm_compute. split; [reflexivity|discriminate].
Qed.
Example C83_features_ex : trainable (tws Linear) twM1 (tl (twEs Linear)) (tl twXs) 2 1 MSE /\
  data_ok (tws Linear) (tl (twEs Linear)) twX2 [13; 14; 15]%nat twY [10; 11; 12]%nat 3 2 1 twpX2 pYd /\
  twin_features (trainer (tl (twEs Linear)) (tl twXs)) 0 1 /\ same_cols 3 twpX2 0 1.
Proof. exact ex_features. Qed.
