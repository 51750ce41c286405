(** * C76-C79: what the library does with calls that do not fit together. *)
From Coq Require Import String ZArith List Bool Arith Lia QArith.
From Verif Require Import Num NumQ Heap Spec Matrix Loss Network Optimizers ModelGo PureSpec Repr HeapLemmas OptSpec OptFacts OptMore ModelSpec Ex ModelEx FitFacts LateLayer RowCount WrongShape SgdShape MisuseEx.
Import ListNotations.
Open Scope Z_scope.

(** C76: AddLayer accepts a further layer after Finalize, the model is consistent, and training it
    panics, for every data set that matches the model. *)
Theorem C76_late_layer (K : Num) (s : state K) m es xs i o k e x rsx y rsy n (X Y : pm K) epochs bs xv yv every :
  int_faithful K -> min_faithful K -> Z.of_nat o <= 2 ^ 53 ->
  0 <= bs -> Z.of_nat n + bs <= 2 ^ 52 -> (1 <= n)%nat -> 1 <= epochs ->
  trainable s m es xs i o k -> lok s e -> unshared (es ++ [e]) -> p_in (e_p e) = o -> p_out (e_p e) = o -> p_kind (e_p e) <> SigmoidK ->
  data_ok s (es ++ [e]) x rsx y rsy n i o X Y ->
  exists m' s', AddLayer m (e_ref e) s = (Ret (m', None), s) /\ consistent s m' (es ++ [e]) i o /\
    Fit m' x y epochs bs xv yv every s = (Panic PIndex, s').
Proof. exact (late_panics s m es xs i o k e x rsx y rsy n X Y epochs bs xv yv every). Qed.
Print Assumptions C76_late_layer.
Example C76_ex : trainable mes eMh [eE0] eXh 2 2 MSE /\ lok mes eE1 /\ unshared ([eE0] ++ [eE1]) /\ p_in (e_p eE1) = 2%nat /\
  p_out (e_p eE1) = 2%nat /\ p_kind (e_p eE1) <> SigmoidK /\
  data_ok mes ([eE0] ++ [eE1]) eX [10; 11; 12]%nat eX [10; 11; 12]%nat 3 2 2 pXd pXd.
Proof.
  split; [exact trainable_h|]. split; [exact lok_e1|]. split; [exact unshared_h|]. split; [reflexivity|]. split; [reflexivity|].
  split; [discriminate|exact data_h].
Qed.

(** C76: "a finalized model to which a layer was added can be trained or reports an error" is false. *)
Theorem C76_reports_error_refuted : exists (s : state QNum) m es xs i o k (e : lent QNum) m' x y s',
  trainable s m es xs i o k /\ AddLayer m (e_ref e) s = (Ret (m', None), s) /\
  mrows x = mrows y /\ mcols x = m_in m' /\ mcols y = m_out m' /\
  Fit m' x y 1 0 matrix0 matrix0 0 s = (Panic PIndex, s').
Proof. exact late_witness. Qed.
Print Assumptions C76_reports_error_refuted.

(** C77: only the first sample's place counts.  Two sample matrices that start at the same place give
    the same training run, whatever their declared sizes. *)
Theorem C77_same_start (K : Num) m x1 x2 y epochs bs xv yv (s : state K) :
  sl_loc (mdata x1) = sl_loc (mdata x2) -> sl_off (mdata x1) = sl_off (mdata x2) ->
  Fit m x1 y epochs bs xv yv 0 s = Fit m x2 y epochs bs xv yv 0 s.
Proof. exact (fit_same_start m x1 x2 y epochs bs xv yv s). Qed.
Print Assumptions C77_same_start.
Example C77_same_start_ex : exists x2, sl_loc (mdata eX) = sl_loc (mdata x2) /\ sl_off (mdata eX) = sl_off (mdata x2) /\ mrows x2 = 2 /\ x2 <> eX.
Proof. exists (MkMatrix 2 2 (MkSlice 7 0 2)). repeat split. discriminate. Qed.

(** C77: with more samples than labels, Fit trains on as many samples as there are labels and ignores
    the rest. *)
Theorem C77_extra_samples (K : Num) (s : state K) m es xs i o k x rsx y rsy nx n (X Y : pm K) epochs bs xv yv :
  min_faithful K -> 0 <= bs -> Z.of_nat n + bs <= 2 ^ 52 -> (1 <= n <= nx)%nat ->
  trainable s m es xs i o k -> own s x rsx nx i X -> own s y rsy n o Y -> disjoint rsx (prows es) -> disjoint rsy (prows es) ->
  returns (Fit m x y epochs bs xv yv 0) s (fun _ s' =>
    let tq := ptrain_on k o (trainer es xs) (r_uni (h_rng s)) (r_upos (h_rng s)) (epochs_of (Z.to_nat epochs) (batch_rows n bs) (firstn n X) Y) in
    exists nn, snd tq = (r_upos (h_rng s) + nn)%nat /\ train_result s s' m es xs i o k (fst tq) nn []).
Proof. exact (fit_extra_samples s m es xs i o k x rsx y rsy nx n X Y epochs bs xv yv). Qed.
Print Assumptions C77_extra_samples.
Example C77_extra_ex : trainable mes eM eEs eXs 2 1 MSE /\ own mes eX [10;11;12]%nat 3 2 pXd /\ own mes eYv [19;20]%nat 2 1 pYv /\
  disjoint [10;11;12]%nat (prows eEs) /\ disjoint [19;20]%nat (prows eEs).
Proof. split; [exact trainable_e|]. split; [exact own_eX|]. split; [exact own_eYv|]. split; [exact disj_x|exact disj_yv]. Qed.

(** C77: with fewer samples than labels (and no spare room behind the samples) Fit panics, for every
    batch size. *)
Theorem C77_few_samples (K : Num) (s : state K) m es xs i o k x rsx y rsy nx n (X Y : pm K) epochs bs xv yv every :
  min_faithful K -> 0 <= bs -> Z.of_nat n + bs <= 2 ^ 52 -> (nx < n)%nat -> 1 <= epochs ->
  trainable s m es xs i o k -> own s x rsx nx i X ->
  (exists arr, out_at s (sl_loc (mdata x)) = Some arr /\ length arr = (sl_off (mdata x) + nx)%nat) ->
  own s y rsy n o Y -> disjoint rsx (prows es) -> disjoint rsy (prows es) ->
  exists s', Fit m x y epochs bs xv yv every s = (Panic PSlice, s').
Proof. exact (fit_few_samples s m es xs i o k x rsx y rsy nx n X Y epochs bs xv yv every). Qed.
Print Assumptions C77_few_samples.
Example C77_few_ex : trainable mes eM eEs eXs 2 1 MSE /\ own mes eXv [17;18]%nat 2 2 pXv /\ own mes eY [13;14;15]%nat 3 1 pYd /\
  (exists arr, out_at mes (sl_loc (mdata eXv)) = Some arr /\ length arr = (sl_off (mdata eXv) + 2)%nat) /\
  disjoint [17;18]%nat (prows eEs) /\ disjoint [13;14;15]%nat (prows eEs).
Proof. split; [exact trainable_e|]. split; [exact own_eXv|]. split; [exact own_eY|]. split; [exact tight_xv|]. split; [exact disj_xv|exact disj_y]. Qed.

(** C77: "different numbers of samples and labels are reported as an error" is false in both directions. *)
Theorem C77_extra_reported_refuted : exists (s : state QNum) m es xs i o k x rsx y rsy X Y s',
  trainable s m es xs i o k /\ own s x rsx 3 i X /\ own s y rsy 2 o Y /\
  Fit m x y 1 0 matrix0 matrix0 0 s = (Ret tt, s').
Proof. exact rows_silent. Qed.
Print Assumptions C77_extra_reported_refuted.
Theorem C77_few_reported_refuted : exists (s : state QNum) m es xs i o k x rsx y rsy X Y s',
  trainable s m es xs i o k /\ own s x rsx 2 i X /\ own s y rsy 3 o Y /\
  Fit m x y 1 0 matrix0 matrix0 0 s = (Panic PSlice, s').
Proof. exact rows_panic. Qed.
Print Assumptions C77_few_reported_refuted.

(** C78: samples of the wrong width are rejected and nothing changes but the log. *)
Theorem C78_wrong_inputs (K : Num) (s : state K) m es i o x rsx y rsy n ix oy (X Y : pm K) epochs bs xv yv every :
  min_faithful K -> 0 <= bs -> Z.of_nat n + bs <= 2 ^ 52 -> (1 <= n)%nat -> 1 <= epochs ->
  consistent s m es i o -> (1 <= length es)%nat -> h_logger s = true ->
  own s x rsx n ix X -> own s y rsy n oy Y -> (1 <= ix)%nat -> (1 <= oy)%nat -> ix <> i ->
  let e := EMatDims (Z.of_nat (Nat.min (batch_rows n bs) n)) (Z.of_nat ix) in
  Fit m x y epochs bs xv yv every s = (Fail e, with_log s (h_log s ++ [LError "Failed to perform forward pass: " e])).
Proof. exact (fit_wrong_inputs s m es i o x rsx y rsy n ix oy X Y epochs bs xv yv every). Qed.
Print Assumptions C78_wrong_inputs.
Example C78_wrong_inputs_ex : consistent mes eM eEs 2 1 /\ h_logger mes = true /\ own mes eY [13;14;15]%nat 3 1 pYd /\ 1%nat <> 2%nat.
Proof. split; [exact consistent_e|]. split; [reflexivity|]. split; [exact own_eY|lia]. Qed.

(** C78: labels of the wrong width are rejected before any parameter or optimizer changes. *)
Theorem C78_wrong_labels (K : Num) (s : state K) m es i o k x rsx y rsy n oy (X Y : pm K) epochs bs xv yv every :
  min_faithful K -> 0 <= bs -> Z.of_nat n + bs <= 2 ^ 52 -> (1 <= n)%nat -> 1 <= epochs ->
  consistent s m es i o -> NoDup (map e_ref es) -> (1 <= length es)%nat -> m_loss m = Some (MkLoss k (Z.of_nat o)) -> h_logger s = true ->
  own s x rsx n i X -> own s y rsy n oy Y -> (1 <= oy)%nat -> oy <> o ->
  let e := EMatDims (Z.of_nat (Nat.min (batch_rows n bs) n)) (Z.of_nat oy) in
  exists s', Fit m x y epochs bs xv yv every s = (Fail e, s') /\ frame nothing s s' /\ h_opts s' = h_opts s /\
    layers_kept (map e_ref es) s s' /\ h_log s' = h_log s ++ [LError "Failed to perform forward pass: " e].
Proof. exact (fit_wrong_labels s m es i o k x rsx y rsy n oy X Y epochs bs xv yv every). Qed.
Print Assumptions C78_wrong_labels.
Example C78_wrong_labels_ex : consistent mes eM eEs 2 1 /\ NoDup (map e_ref eEs) /\ m_loss eM = Some (MkLoss MSE (Z.of_nat 1)) /\
  h_logger mes = true /\ own mes eX [10;11;12]%nat 3 2 pXd /\ 2%nat <> 1%nat.
Proof.
  split; [exact consistent_e|]. split; [nodup_tac|]. split; [reflexivity|]. split; [reflexivity|]. split; [exact own_eX|lia].
Qed.

(** C78: without labels and with a batch size Fit succeeds and does nothing at all, whatever the
    samples; without labels and without a batch size it reports an error. *)
Theorem C78_no_labels (K : Num) m x y epochs bs xv yv (s : state K) :
  mrows y = 0 -> bs <> 0 -> Fit m x y epochs bs xv yv 0 s = (Ret tt, s).
Proof. exact (fit_empty m x y epochs bs xv yv s). Qed.
Print Assumptions C78_no_labels.
Theorem C78_no_labels_no_batch (K : Num) (s : state K) m es i o x rsx nx ix (X : pm K) epochs xv yv every :
  min_faithful K -> 1 <= epochs -> consistent s m es i o -> (1 <= length es)%nat -> h_logger s = true -> own s x rsx nx ix X ->
  Fit m x matrix0 epochs 0 xv yv every s = (Fail (EMatDims 0 0), with_log s (h_log s ++ [LError "Failed to perform forward pass: " (EMatDims 0 0)])).
Proof. exact (fit_empty0 s m es i o x rsx nx ix X epochs xv yv every). Qed.
Print Assumptions C78_no_labels_no_batch.
Example C78_no_labels_ex : mrows matrix0 = 0 /\ consistent mes eM eEs 2 1 /\ (1 <= length eEs)%nat /\ h_logger mes = true /\ own mes eX [10;11;12]%nat 3 2 pXd.
Proof. split; [reflexivity|]. split; [exact consistent_e|]. split; [simpl; lia|]. split; [reflexivity|exact own_eX]. Qed.

(** C79: SGD without momentum does not check shapes.  From a gradient that is larger in any direction
    it uses the top left corner. *)
Theorem C79_larger_gradient (K : Num) (s : state K) oref o w b dw db rw rb rdw rdb k c k1 c1 k2 c2 (W B dW dB : pm K) :
  nth_error (h_opts s) oref = Some o -> o_kind o = SGD -> o_usemom o = false ->
  own s w rw k c W -> own s b rb 1 c B -> NoDup rw -> NoDup rb -> disjoint rw rb ->
  own s dw rdw k1 c1 dW -> own s db rdb k2 c2 dB ->
  (1 <= k /\ 1 <= c /\ 1 <= k1 /\ 1 <= c1 /\ 1 <= k2 /\ 1 <= c2)%nat -> (k <= k1 /\ c <= c1 /\ c <= c2)%nat ->
  let rate := if o_usedecay o then fmul (o_lr o) (fdiv f1 (fadd f1 (fmul (o_decay o) (ofZ (o_iter o))))) else o_rate o in
  returns (Opt_Update oref w b dw db) s (fun _ s' =>
    own s' w rw k c (mk k c (fun i j => fsub (entry W i j) (fmul (entry dW i j) rate))) /\
    own s' b rb 1 c (mk 1 c (fun i j => fsub (entry B i j) (fmul (entry dB i j) rate))) /\
    frame (among (rw ++ rb)) s s' /\ rest3 s s' /\
    h_opts s' = upd oref (set_iter (set_rate o rate) (o_iter o + 1)) (h_opts s)).
Proof. exact (sgd_larger s oref o w b dw db rw rb rdw rdb k c k1 c1 k2 c2 W B dW dB). Qed.
Print Assumptions C79_larger_gradient.
Example C79_larger_ex : nth_error (h_opts mq_state) 0 = Some mq_sgd /\ o_kind mq_sgd = SGD /\ o_usemom mq_sgd = false /\
  own mq_state oc_w [1]%nat 1 1 [[1%Q]] /\ own mq_state oc_b [2]%nat 1 1 [[2%Q]] /\ own mq_state oc_bad [5;6]%nat 2 1 [[3%Q];[3%Q]] /\
  own mq_state oc_db [4]%nat 1 1 [[4%Q]] /\ (1 <= 2)%nat.
Proof. repeat (split; [reflexivity|]). split; [apply oc_own_w|]. split; [apply oc_own_b|]. split; [apply oc_own_bad|]. split; [apply oc_own_db|lia]. Qed.

(** C79: with a weight gradient that has too few rows or columns it panics half way through. *)
Theorem C79_small_weight_gradient (K : Num) (s : state K) oref o w b dw db rw rb rdw rdb k c k1 c1 k2 c2 (W B dW dB : pm K) :
  nth_error (h_opts s) oref = Some o -> o_kind o = SGD -> o_usemom o = false ->
  own s w rw k c W -> own s b rb 1 c B -> NoDup rw -> disjoint rw rb ->
  own s dw rdw k1 c1 dW -> own s db rdb k2 c2 dB ->
  (1 <= k /\ 1 <= c /\ 1 <= k1 /\ 1 <= c1 /\ 1 <= k2 /\ 1 <= c2)%nat -> (k1 < k \/ c1 < c)%nat ->
  exists s', Opt_Update oref w b dw db s = (Panic PIndex, s') /\ own s' b rb 1 c B /\
    h_opts s' = upd oref (set_rate o (if o_usedecay o then fmul (o_lr o) (fdiv f1 (fadd f1 (fmul (o_decay o) (ofZ (o_iter o))))) else o_rate o)) (h_opts s).
Proof. exact (sgd_small_weights s oref o w b dw db rw rb rdw rdb k c k1 c1 k2 c2 W B dW dB). Qed.
Print Assumptions C79_small_weight_gradient.

(** C79: with a bias gradient that is too narrow it panics after the weights have been changed. *)
Theorem C79_small_bias_gradient (K : Num) (s : state K) oref o w b dw db rw rb rdw rdb k c k1 c1 k2 c2 (W B dW dB : pm K) :
  nth_error (h_opts s) oref = Some o -> o_kind o = SGD -> o_usemom o = false ->
  own s w rw k c W -> own s b rb 1 c B -> NoDup rw -> NoDup rb -> disjoint rw rb ->
  own s dw rdw k1 c1 dW -> own s db rdb k2 c2 dB ->
  (1 <= k /\ 1 <= c /\ 1 <= k1 /\ 1 <= c1 /\ 1 <= k2 /\ 1 <= c2)%nat -> (k <= k1 /\ c <= c1)%nat -> (c2 < c)%nat ->
  let rate := if o_usedecay o then fmul (o_lr o) (fdiv f1 (fadd f1 (fmul (o_decay o) (ofZ (o_iter o))))) else o_rate o in
  exists s', Opt_Update oref w b dw db s = (Panic PIndex, s') /\
    own s' w rw k c (mk k c (fun i j => fsub (entry W i j) (fmul (entry dW i j) rate))) /\
    h_opts s' = upd oref (set_rate o rate) (h_opts s).
Proof. exact (sgd_small_biases s oref o w b dw db rw rb rdw rdb k c k1 c1 k2 c2 W B dW dB). Qed.
Print Assumptions C79_small_bias_gradient.
Example C79_small_ex : let s := with_opts mes [mq_sgd] in
  nth_error (h_opts s) 0 = Some mq_sgd /\ o_kind mq_sgd = SGD /\ o_usemom mq_sgd = false /\
  own s eW0 [1;2]%nat 2 2 [[q 1; q (-1)]; [q 2; q 1]] /\ own s eB0 [3]%nat 1 2 [[q 0; q 1]] /\
  NoDup [1;2]%nat /\ NoDup [3]%nat /\ disjoint [1;2]%nat [3]%nat /\
  own s eW1 [4;5]%nat 2 2 [[q 1; q 0]; [q 1; q 2]] /\ own s eW2 [7;8]%nat 2 1 [[q 1]; [q (-2)]] /\ own s eB2 [9]%nat 1 1 [[q 3]] /\ (1 < 2)%nat.
Proof.
  split; [reflexivity|]. split; [reflexivity|]. split; [reflexivity|]. split; [own_tac|]. split; [own_tac|]. split; [nodup_tac|]. split; [nodup_tac|].
  split; [disj_tac|]. split; [own_tac|]. split; [own_tac|]. split; [own_tac|lia].
Qed.

(** C79: "Update reports a gradient of the wrong shape as an error" is false in both directions. *)
Theorem C79_larger_reported_refuted : exists (s s' : state QNum) oref o w b dw db,
  nth_error (h_opts s) oref = Some o /\ NewSGDOptimizer (1#2)%Q 0%Q 0%Q s = (Ret o, s) /\
  (mrows dw, mcols dw) <> (mrows w, mcols w) /\ Opt_Update oref w b dw db s = (Ret tt, s').
Proof. exact sgd_shape_silent. Qed.
Print Assumptions C79_larger_reported_refuted.
Theorem C79_smaller_reported_refuted : exists (s s' : state QNum) oref o w b dw db,
  nth_error (h_opts s) oref = Some o /\ NewSGDOptimizer (1#2)%Q 0%Q 0%Q s = (Ret o, s) /\
  (mrows dw, mcols dw) <> (mrows w, mcols w) /\ Opt_Update oref w b dw db s = (Panic PIndex, s').
Proof. exact sgd_shape_panics. Qed.
Print Assumptions C79_smaller_reported_refuted.
