(** * PropFit: training (C46-C50, C54, C67, C70, C69). *)
From Coq Require Import String ZArith List Bool Arith Lia QArith.
From Verif Require Import Num Heap Spec Matrix Misc Accuracy Loss Network Optimizers ModelGo PureSpec Repr NumQ OptSpec ModelSpec FitFacts EvalFrame FitRefute Calls Ex ModelEx FitGlue ErrorValues.
Import ListNotations.
Open Scope Z_scope.
Open Scope go_scope.

(** C46: the batches of an epoch ([chunks b X] is what C48 trains on, with [b] rows at a time). *)
Theorem C46_partition (A : Type) b (l : list A) : (1 <= b)%nat ->
  concat (chunks b l) = l /\ Forall (fun c => (1 <= length c <= b)%nat) (chunks b l) /\
  Forall (fun c => length c = b) (removelast (chunks b l)).
Proof. exact (chunks_partition b l). Qed.
Theorem C46_whole (A : Type) (l : list A) b : l <> [] -> (length l <= b)%nat -> chunks b l = [l].
Proof. exact (chunks_whole l b). Qed.
Theorem C46_negative_nothing (K : Num) (s : state K) m x y n epochs b xv yv : mrows y = Z.of_nat n -> (1 <= n)%nat -> 1 <= b <= Z.of_nat n ->
  Fit m x y epochs (- b) xv yv 0 s = (Ret tt, s).
Proof. exact (fit_neg_nothing s m x y n epochs b xv yv). Qed.
Theorem C46_negative_panics (K : Num) (s : state K) m x y rsx nx i X n epochs b xv yv every : min_faithful K ->
  own s x rsx nx i X -> mrows y = Z.of_nat n -> (1 <= n)%nat -> Z.of_nat n < b <= 2 ^ 53 ->
  1 <= epochs -> Fit m x y epochs (- b) xv yv every s = (Panic PSlice, s).
Proof. exact (fun HM => fit_neg_panics HM s m x y rsx nx i X n epochs b xv yv every). Qed.
Print Assumptions C46_partition.
Print Assumptions C46_whole.
Print Assumptions C46_negative_nothing.
Print Assumptions C46_negative_panics.
Example C46_ex : chunks 2 pXd = [firstn 2 pXd; skipn 2 pXd] /\ mrows eY = 3 /\
  fst (Fit eM eX eY 4 (-2) matrix0 matrix0 0 mes) = Ret tt /\ fst (Fit eM eX eY 4 (-5) matrix0 matrix0 0 mes) = Panic PSlice.
Proof. vm_compute. repeat split; reflexivity. Qed.

(** C47: training a trainable model on data of matching shape returns nil; the model stays trainable with the
    same layer and optimizer objects of the same shapes. *)
Theorem C47_never_fails (K : Num) (s : state K) m es xs i o k x rsx y rsy n X Y epochs bs xv yv val every :
  min_faithful K -> 0 <= bs -> Z.of_nat n + bs <= 2 ^ 52 -> (1 <= n)%nat ->
  trainable s m es xs i o k -> data_ok s es x rsx y rsy n i o X Y -> log_ok s m es xv yv i o val every ->
  exists s' es' xs', Fit m x y epochs bs xv yv every s = (Ret tt, s') /\
    trainable s' m es' xs' i o k /\ Forall2 same_place es es' /\ Forall2 same_oplace xs xs'.
Proof. exact (fit_never_fails s m es xs i o k x rsx y rsy n X Y epochs bs xv yv val every). Qed.
Print Assumptions C47_never_fails.

(** C48: Fit is mini-batch training. *)
Theorem C48_fit (K : Num) (s : state K) m es xs i o k x rsx y rsy n X Y epochs bs xv yv :
  min_faithful K -> 0 <= bs -> Z.of_nat n + bs <= 2 ^ 52 -> (1 <= n)%nat ->
  trainable s m es xs i o k -> data_ok s es x rsx y rsy n i o X Y ->
  returns (Fit m x y epochs bs xv yv 0) s (fun _ s' =>
    let tq := ptrain_on k o (trainer es xs) (r_uni (h_rng s)) (r_upos (h_rng s)) (epochs_of (Z.to_nat epochs) (batch_rows n bs) X Y) in
    exists nn, snd tq = (r_upos (h_rng s) + nn)%nat /\ train_result s s' m es xs i o k (fst tq) nn [] /\
      own s' x rsx n i X /\ own s' y rsy n o Y).
Proof. exact (fit_trains s m es xs i o k x rsx y rsy n X Y epochs bs xv yv). Qed.
(** With a sigmoid layer, training overwrites the training data. *)
Theorem C48_sigmoid_refuted : exists (s : state QNum) m es i o x rsx y rsy X Y X' s',
  consistent s m es i o /\ unshared es /\ data_ok s es x rsx y rsy 1 i o X Y /\
  Fit m x y 1 0 matrix0 matrix0 0 s = (Ret tt, s') /\ own s' x rsx 1 i X' /\ X' <> X.
Proof. exact sigmoid_overwrites. Qed.
Print Assumptions C48_fit.
Print Assumptions C48_sigmoid_refuted.

(** C49: however logging goes, and whatever validation data is given, the model is as after some number of whole
    epochs of the same training, and after all of them if Fit returns nil. *)
Theorem C49_anyhow (K : Num) (s : state K) m es xs i o k x rsx y rsy n X Y epochs bs xv yv every oc s' :
  min_faithful K -> 0 <= bs -> Z.of_nat n + bs <= 2 ^ 52 -> (1 <= n)%nat ->
  trainable s m es xs i o k -> data_ok s es x rsx y rsy n i o X Y ->
  Fit m x y epochs bs xv yv every s = (oc, s') ->
  exists e, (e <= Z.to_nat epochs)%nat /\ (oc = Ret tt -> e = Z.to_nat epochs) /\
    let tq := ptrain_on k o (trainer es xs) (r_uni (h_rng s)) (r_upos (h_rng s)) (epochs_of e (batch_rows n bs) X Y) in
    exists nn ls, snd tq = (r_upos (h_rng s) + nn)%nat /\ train_result s s' m es xs i o k (fst tq) nn ls.
Proof. exact (fit_anyhow s m es xs i o k x rsx y rsy n X Y epochs bs xv yv every oc s'). Qed.
Theorem C49_logging (K : Num) (s : state K) m es xs i o k x rsx y rsy n X Y epochs bs xv yv every s1 :
  min_faithful K -> 0 <= bs -> Z.of_nat n + bs <= 2 ^ 52 -> (1 <= n)%nat ->
  trainable s m es xs i o k -> data_ok s es x rsx y rsy n i o X Y ->
  Fit m x y epochs bs xv yv every s = (Ret tt, s1) ->
  exists s2, Fit m x y epochs bs matrix0 matrix0 0 s = (Ret tt, s2) /\ same_training s1 s2 m es xs i o k.
Proof. exact (fit_logging_any s m es xs i o k x rsx y rsy n X Y epochs bs xv yv every s1). Qed.
Print Assumptions C49_anyhow.
Print Assumptions C49_logging.

(** C50: training in two parts. *)
Theorem C50_split (K : Num) (s : state K) m es xs i o k x rsx y rsy n X Y e1 e2 bs xv yv :
  min_faithful K -> 0 <= bs -> Z.of_nat n + bs <= 2 ^ 52 -> (1 <= n)%nat -> 0 <= e1 -> 0 <= e2 ->
  trainable s m es xs i o k -> data_ok s es x rsx y rsy n i o X Y ->
  exists s1 s2, (Fit m x y e1 bs xv yv 0 ;; Fit m x y e2 bs xv yv 0) s = (Ret tt, s1) /\
    Fit m x y (e1 + e2) bs xv yv 0 s = (Ret tt, s2) /\ same_training s1 s2 m es xs i o k.
Proof. exact (fit_split s m es xs i o k x rsx y rsy n X Y e1 e2 bs xv yv). Qed.
Print Assumptions C50_split.

(** The hypotheses of C47-C50 and C70 on the three-layer model of ModelEx (hidden, dropout, linear; SGD with
    momentum), and what two epochs in batches of two do to its first weight. *)
Example C47_ex : trainable mes eM eEs eXs 2 1 MSE /\ data_ok mes eEs eX [10; 11; 12]%nat eY [13; 14; 15]%nat 3 2 1 pXd pYd /\
  log_ok mes eM eEs eXv eYv 2 1 (Some (pXv, pYv)) 1 /\ min_faithful QNum.
Proof.
  split; [exact trainable_e|]. split; [exact data_e|]. split; [|exact QNum_min_faithful].
  right. split; [reflexivity|]. split; [simpl; lia|]. split; [exact QNum_int_faithful|]. split; [lia|exact val_e].
Qed.

Example C48_ex : match first_weight (Fit eM eX eY 2 2 matrix0 matrix0 0) with Ret v => negb (feq (n := QNum) v (q 3)) = true | _ => False end.
Proof. vm_compute. reflexivity. Qed.
Example C49_ex : first_weight (Fit eM eX eY 2 2 eXv eYv 1) = first_weight (Fit eM eX eY 2 2 matrix0 matrix0 0) /\
  length (h_log (snd (Fit eM eX eY 2 2 eXv eYv 1 mes))) = 4%nat.
Proof. vm_compute. split; reflexivity. Qed.
Example C50_ex : first_weight (Fit eM eX eY 1 2 eXv eYv 0 ;; Fit eM eX eY 1 2 eXv eYv 0) = first_weight (Fit eM eX eY 2 2 matrix0 matrix0 0).
Proof. vm_compute. reflexivity. Qed.

(** C54: Backward after Forward gives the gradients of backpropagation, provided the model's layers and the
    arrays are left alone in between. *)
Theorem C54_forward_backward (K : Num) (s : state K) m es i o k x rsx y rsy r X Y :
  consistent s m es i o -> NoDup (map e_ref es) -> (1 <= length es)%nat ->
  m_loss m = Some (MkLoss k (Z.of_nat o)) -> m_losstype m = losskind_code k ->
  Forall (fun e => p_kind (e_p e) <> SigmoidK) es ->
  own s x rsx r i X -> own s y rsy r o Y -> (1 <= r)%nat ->
  returns (Forward m x true) s (fun outs s1 =>
    forall refs s2, frame nothing s1 s2 -> layers_kept refs s1 s2 -> disjoint (map e_ref es) refs ->
    returns (Backward m outs y) s2 (fun gs s3 =>
      length gs = length es /\
      (forall j, (j < length es)%nat -> exists rw rb,
         let g := nth (length es - 1 - j) gs (MkGrad matrix0 matrix0) in
         let G := nth j (snd (pbackprop k Y o (net es) r X (r_uni (h_rng s)) (r_upos (h_rng s)))) ([], []) in
         own s3 (g_dw g) rw (p_in (nth j (net es) no_layer)) (p_out (nth j (net es) no_layer)) (fst G) /\
         own s3 (g_db g) rb 1 (p_out (nth j (net es) no_layer)) (snd G)) /\
      frame nothing s s3 /\ rest s2 s3)).
Proof. exact (forward_backward s m es i o k x rsx y rsy r X Y). Qed.
(** A Predict in between changes the gradients, or makes Backward panic. *)
Theorem C54_interleaved_refuted : exists (s : state QNum) m es i o k x rsx y rsy r X Y x2 rs2 X2 x3 rs3 X3 g1 g2,
  consistent s m es i o /\ unshared es /\ m_loss m = Some (MkLoss k (Z.of_nat o)) /\
  own s x rsx r i X /\ own s y rsy r o Y /\ own s x2 rs2 r i X2 /\ own s x3 rs3 1 i X3 /\
  fst (grad_00 m x y (ret tt) s) = Ret g1 /\
  fst (grad_00 m x y (Predict m x2 ;; ret tt) s) = Ret g2 /\ g1 <> g2 /\
  fst (grad_00 m x y (Predict m x3 ;; ret tt) s) = Panic PIndex.
Proof. exact interleaved. Qed.
Print Assumptions C54_forward_backward.
Print Assumptions C54_interleaved_refuted.
Example C54_ex : consistent ms2 m2 [eE0; eE2] 2 1 /\ NoDup (map e_ref [eE0; eE2]) /\ m_losstype m2 = losskind_code MSE /\
  Forall (fun e => p_kind (e_p e) <> SigmoidK) [eE0; eE2] /\
  (* the layer not in the model may be used in between *)
  fst (grad_00 m2 eX eY (Layer_Forward 1 eX2 ;; ret tt) ms2) = Ret (6#1)%Q.
Proof.
  split; [exact consistent_m2|]. split; [nodup_tac|]. split; [reflexivity|]. split; [repeat constructor; discriminate|].
  vm_compute. reflexivity.
Qed.

(** C67: every error Fit returns is the last line of the log; without loggers it never returns an error, because
    each returned error becomes a nil-pointer panic at the same point. *)
Theorem C67_logged (K : Num) (s : state K) m x y ep bs xv yv every e s' :
  Fit m x y ep bs xv yv every s = (Fail e, s') -> h_logger s' = true /\ exists ls what, In what fit_messages /\ h_log s' = ls ++ [LError what e].
Proof. exact (fit_error_logged s m x y ep bs xv yv every e s'). Qed.
Theorem C67_never_returned (K : Num) (s : state K) m x y ep bs xv yv every e s' : h_logger s = false ->
  Fit m x y ep bs xv yv every s <> (Fail e, s').
Proof. exact (fit_no_logger s m x y ep bs xv yv every e s'). Qed.
Theorem C67_panics (K : Num) (s : state K) m x y ep bs xv yv :
  match Fit m x y ep bs xv yv 0 (with_logger s true) with
  | (Fail e, s1) => exists s0 what, In what fit_messages /\ s1 = with_log (with_logger s0 true) (h_log s0 ++ [LError what e]) /\
      Fit m x y ep bs xv yv 0 (with_logger s false) = (Panic PNil, with_logger s0 false)
  | (r, s1) => exists s0, s1 = with_logger s0 true /\ Fit m x y ep bs xv yv 0 (with_logger s false) = (r, with_logger s0 false)
  end.
Proof. exact (fit_nil_logger s m x y ep bs xv yv). Qed.
Theorem C67_returned_refuted : exists (s : state QNum) m es xs i o k x y, trainable s m es xs i o k /\
  (exists e s1, Fit m x y 1 0 matrix0 matrix0 0 (with_logger s true) = (Fail e, s1)) /\
  (exists s1, Fit m x y 1 0 matrix0 matrix0 0 (with_logger s false) = (Panic PNil, s1)).
Proof. exact needs_logger. Qed.
(** InitLogger fails only when a file is asked for and cannot be opened, and then changes nothing. *)
Theorem C67_init_logger (K : Num) (s : state K) verbose useFile open_ok :
  (useFile = false \/ open_ok = true -> InitLogger verbose useFile open_ok s = (Ret tt, with_logger s true)) /\
  (useFile = true -> open_ok = false -> exists e, InitLogger verbose useFile open_ok s = (Fail e, s)).
Proof. exact (init_logger_all s verbose useFile open_ok). Qed.
Print Assumptions C67_init_logger.
Print Assumptions C67_logged.
Print Assumptions C67_never_returned.
Print Assumptions C67_panics.
Print Assumptions C67_returned_refuted.
Example C67_ex : fst (Fit eM eY eY 1 0 matrix0 matrix0 0 mes) = Fail (EMatDims 3 1) /\
  h_log (snd (Fit eM eY eY 1 0 matrix0 matrix0 0 mes)) = [LError "Failed to perform forward pass: " (EMatDims 3 1)].
Proof. vm_compute. split; reflexivity. Qed.

(** C70: the log lines are the losses and accuracies of the parameters at the end of each logged epoch. *)
Theorem C70_log_lines (K : Num) (s : state K) m es xs i o k x rsx y rsy n X Y epochs bs xv yv val every :
  min_faithful K -> 0 <= bs -> Z.of_nat n + bs <= 2 ^ 52 -> (1 <= n)%nat ->
  trainable s m es xs i o k -> data_ok s es x rsx y rsy n i o X Y -> log_ok s m es xv yv i o val every ->
  returns (Fit m x y epochs bs xv yv every) s (fun _ s' =>
    let '(ts', q', ls) := pfit m k o (batch_rows n bs) X Y val every (Z.to_nat epochs) 0 (trainer es xs)
                            (r_uni (h_rng s)) (r_upos (h_rng s)) in
    exists nn, q' = (r_upos (h_rng s) + nn)%nat /\ train_result s s' m es xs i o k ts' nn ls).
Proof. exact (fit_logs s m es xs i o k x rsx y rsy n X Y epochs bs xv yv val every). Qed.
Print Assumptions C70_log_lines.
Example C70_ex : match h_log (snd (Fit eM eX eY 3 2 eXv eYv 2 mes)) with
  | [LInfo 0 _ _; LValInfo 0 _ _; LInfo 2 _ _; LValInfo 2 _ _] => True | _ => False end.
Proof. vm_compute. exact I. Qed.

(** C69: no client program, however it ends, ever removes or resizes an array, removes a layer or optimizer,
    changes the random streams, or takes back a log line. *)
Theorem C69_stable (K : Num) (A : Type) (p : M K A) : client p -> forall s, stable s (snd (p s)).
Proof. exact (client_stable p). Qed.
Print Assumptions C69_stable.
Example C69_ex : client (catch (Fit eM eY eX 2 1 eXv eYv 1) ;; P <- Predict eM eX ;; Dot P eX).
Proof. apply c_then; [apply c_handle, c_Fit|]. intros _. apply c_then; [apply c_Predict|]. intros P. apply c_Dot. Qed.
