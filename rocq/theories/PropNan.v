(** * PropNan: NaNs and infinities (C86). *)
From Coq Require Import String ZArith List Bool Arith Lia.
From Flocq Require Import IEEE754.BinarySingleNaN IEEE754.Binary IEEE754.Bits.
From Verif Require Import Num NumB64 Heap Spec Matrix Loss Network Optimizers ModelGo LayerData PureSpec Repr OptSpec ModelSpec CodecSpec CodecEx DeadEx Nan NanProofs NanEx.
Import ListNotations.
Open Scope Z_scope.
Open Scope go_scope.

(** C86: if one feature of one training sample is NaN, then after one epoch (or more) every weight and every bias of every layer is NaN,
    whatever the layers, the optimizer and the batch size, for every loss but the mean absolute error. *)
Theorem C86_one_nan (L : libm) s (m : model (B64 L)) es xs i o k x rsx y rsy n X Y epochs bs xv yv : exp_nan L ->
  k <> MAE -> 1 <= epochs -> some_nan L n i X ->
  0 <= bs -> Z.of_nat n + bs <= 2 ^ 52 -> (1 <= n)%nat -> trainable s m es xs i o k -> data_ok s es x rsx y rsy n i o X Y ->
  returns (Fit m x y epochs bs xv yv 0) s (fun _ s' => exists es' xs', trainable s' m es' xs' i o k /\ Forall2 same_place es es' /\
    Forall (all_nan L) (net es')).
Proof. exact (fun HL => fit_destroy L HL s m es xs i o k x rsx y rsy n X Y epochs bs xv yv). Qed.
(** Such a model answers every question with NaN (regression), class 0 (categorical) or 1 (binary). *)
Theorem C86_predictions (L : libm) s (m : model (B64 L)) es i o x rsx r X : exp_nan L ->
  consistent s m es i o -> (1 <= length es)%nat -> 0 <= m_acctype m <= 2 ->
  own s x rsx r i X -> (1 <= r)%nat -> Forall (all_nan L) (net es) ->
  returns (Predict m x) s (fun out s' => exists rs c P, own s' out rs r c P /\ (1 <= c)%nat /\ nan_answer L (m_acctype m) r c P).
Proof. exact (fun HL => predict_nan L HL s m es i o x rsx r X). Qed.
(** More training does not help: no training run turns a NaN parameter into a number or a non-finite one into a finite one. *)
Theorem C86_for_ever (L : libm) s (m : model (B64 L)) es xs i o k x rsx y rsy n X Y epochs bs xv yv :
  0 <= bs -> Z.of_nat n + bs <= 2 ^ 52 -> (1 <= n)%nat -> trainable s m es xs i o k -> data_ok s es x rsx y rsy n i o X Y ->
  returns (Fit m x y epochs bs xv yv 0) s (fun _ s' => exists es' xs', trainable s' m es' xs' i o k /\ Forall2 same_place es es' /\
    Forall2 (bad_kept L) (net es) (net es')).
Proof. exact (fit_bad L s m es xs i o k x rsx y rsy n X Y epochs bs xv yv). Qed.
Print Assumptions C86_one_nan.
Print Assumptions C86_predictions.
Print Assumptions C86_for_ever.
Example C86_ex : exp_nan nx_lib /\ MSE <> MAE /\ some_nan nx_lib 2 2 (nxX nx_lib) /\
  trainable (nx_state nx_lib) (df_m nx_lib) (df_es nx_lib) (df_xs nx_lib) 2 1 MSE /\
  data_ok (nx_state nx_lib) (df_es nx_lib) df_x [7;8]%nat df_y [9;10]%nat 2 2 1 (nxX nx_lib) ([[bz 1];[bz 5]] : pm (B64 nx_lib)).
Proof.
  split; [exact nx_exp|]. split; [discriminate|]. split; [exact (nx_some nx_lib)|]. split; [exact (nx_trainable nx_lib)|exact (nx_data nx_lib)].
Qed.
(** The run itself, for any library functions: the clean sample is trained on last. *)
Example C86_run_ex (L : libm) : match (Fit (df_m L) df_x df_y 1 1 matrix0 matrix0 0 ;; a <- nx_nan L 0 0 0 ;; b <- nx_nan L 0 1 1 ;; c <- nx_nan L 1 0 0 ;; ret [a; b; c]) (nx_state L) with
  | (Ret l, _) => l = [true; true; true] | _ => False end.
Proof. exact (nx_run L). Qed.
