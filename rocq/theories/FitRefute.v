(** * FitRefute: witnesses for PropFit. *)
From Coq Require Import String ZArith List Bool Arith Lia QArith.
From Verif Require Import Num Heap Spec Matrix Loss Network Optimizers ModelGo PureSpec Repr HeapLemmas NumQ MatrixFacts OptSpec ModelSpec ModelFacts EvalFrame Built FitProofs FitFacts Ex ModelEx.
Import ListNotations.
Open Scope Z_scope.
Open Scope go_scope.

(** A sigmoid layer 1->1 with zero weight and bias, and one sample 0.  The only exponential the
    run needs is that of 0, and [q_exp 0 = 1]: the same run in exact real arithmetic. *)
Definition sgL : layer QNum := MkLayer SigmoidK 1 1 (MkMatrix 1 1 (MkSlice 1 0 1)) (MkMatrix 1 1 (MkSlice 2 0 1)) 0%Q 0%Q matrix0 matrix0.
Definition sgO : optimizer QNum :=
  MkOpt SGD (1#10)%Q 0%Q 0%Q 0%Q 0%Q 0%Q (1#10)%Q 0 matrix0 matrix0 matrix0 matrix0 false false.
Definition sgS : state QNum := MkState [[q 0]; [q 0]; [q 0]; [q 1]] [[1]; [2]; [3]; [4]]%nat [sgL] [sgO] ex_rng true [].
Definition sgM : model QNum := MkModel 1 1 1 0 (Some (MkLoss MSE 1)) 0 (1#10)%Q 0 [] [0]%nat [0]%nat.
Definition sgX := MkMatrix 1 1 (MkSlice 3 0 1). Definition sgY := MkMatrix 1 1 (MkSlice 4 0 1).
Definition sgE : lent QNum := LE 0 [1]%nat [2]%nat (PL SigmoidK 1 1 [[q 0]] [[q 0]] 0%Q 0%Q).
Lemma sigmoid_overwrites : exists (s : state QNum) m es i o x rsx y rsy X Y X' s',
  consistent s m es i o /\ unshared es /\ data_ok s es x rsx y rsy 1 i o X Y /\
  Fit m x y 1 0 matrix0 matrix0 0 s = (Ret tt, s') /\ own s' x rsx 1 i X' /\ X' <> X.
Proof.
  exists sgS, sgM, [sgE], 1%nat, 1%nat, sgX, [3]%nat, sgY, [4]%nat, [[q 0]], [[q 1]], [[(-1#4)%Q]], (snd (Fit sgM sgX sgY 1 0 matrix0 matrix0 0 sgS)).
  split. { repeat (split; [reflexivity|]). split; [simpl; auto|]. constructor; [eexists; split; [reflexivity|lown_tac]|constructor]. }
  split; [split; nodup_tac|]. split. { split; [own_tac|]. split; [own_tac|]. split; disj_tac. }
  split; [|split; [vm_compute; own_tac|discriminate]].
  assert (H : fst (Fit sgM sgX sgY 1 0 matrix0 matrix0 0 sgS) = Ret tt) by (vm_compute; reflexivity).
  destruct (Fit sgM sgX sgY 1 0 matrix0 matrix0 0 sgS) as [a s']. simpl in *. rewrite H. reflexivity.
Qed.

(** The gradient of the first weight of the first of two layers, with something done between the
    passes. *)
Definition grad_00 (m : model QNum) (x y : matrix) (between : M QNum unit) : M QNum Q :=
  outs <- Forward m x true ;; between ;; gs <- Backward m outs y ;; getc (g_dw (nth 1 gs (MkGrad matrix0 matrix0))) 0 0.
Definition ms2 : state QNum := MkState me_rows (me_outs ++ [[16; 17; 18]%nat]) [eL0; eL1; eL2] [eO; eO; eO] ex_rng true [].
Definition m2 : model QNum := MkModel 2 2 1 0 (Some (MkLoss MSE 1)) 0 (1#10)%Q 0 [] [0; 2]%nat [0; 2]%nat.
Definition eX2 := MkMatrix 3 2 (MkSlice 12 0 3).
Lemma consistent_m2 : consistent ms2 m2 [eE0; eE2] 2 1.
Proof. repeat (split; [reflexivity|]). split; [simpl; auto|]. repeat (constructor; [eexists; split; [reflexivity|lown_tac]|]). constructor. Qed.
Lemma interleaved : exists (s : state QNum) m es i o k x rsx y rsy r X Y x2 rs2 X2 x3 rs3 X3 g1 g2,
  consistent s m es i o /\ unshared es /\ m_loss m = Some (MkLoss k (Z.of_nat o)) /\
  own s x rsx r i X /\ own s y rsy r o Y /\ own s x2 rs2 r i X2 /\ own s x3 rs3 1 i X3 /\
  fst (grad_00 m x y (ret tt) s) = Ret g1 /\
  fst (grad_00 m x y (Predict m x2 ;; ret tt) s) = Ret g2 /\ g1 <> g2 /\
  fst (grad_00 m x y (Predict m x3 ;; ret tt) s) = Panic PIndex.
Proof.
  exists ms2, m2, [eE0; eE2], 2%nat, 1%nat, MSE, eX, [10; 11; 12]%nat, eY, [13; 14; 15]%nat, 3%nat, pXd, pYd,
    eX2, [16; 17; 18]%nat, [[q 2; q (-1)]; [q 1; q 1]; [q 2; q 0]], eX1, [16]%nat, [[q 2; q (-1)]], (6#1)%Q, (12#1)%Q.
  split; [exact consistent_m2|]. split; [split; nodup_tac|]. split; [reflexivity|].
  split; [own_tac|]. split; [own_tac|]. split; [own_tac|]. split; [own_tac|].
  split; [vm_compute; reflexivity|]. split; [vm_compute; reflexivity|]. split; [discriminate|]. vm_compute; reflexivity.
Qed.

(** Data of the wrong width: with loggers Fit returns the error, without it panics. *)
Lemma needs_logger : exists (s : state QNum) m es xs i o k x y, trainable s m es xs i o k /\
  (exists e s1, Fit m x y 1 0 matrix0 matrix0 0 (with_logger s true) = (Fail e, s1)) /\
  (exists s1, Fit m x y 1 0 matrix0 matrix0 0 (with_logger s false) = (Panic PNil, s1)).
Proof.
  exists mes, eM, eEs, eXs, 2%nat, 1%nat, MSE, eY, eY. split; [exact trainable_e|].
  assert (H1 : fst (Fit eM eY eY 1 0 matrix0 matrix0 0 (with_logger mes true)) = Fail (EMatDims 3 1)) by (vm_compute; reflexivity).
  assert (H2 : fst (Fit eM eY eY 1 0 matrix0 matrix0 0 (with_logger mes false)) = Panic PNil) by (vm_compute; reflexivity).
  split.
  - destruct (Fit eM eY eY 1 0 matrix0 matrix0 0 (with_logger mes true)) as [a s1]. simpl in H1. subst a. eauto.
  - destruct (Fit eM eY eY 1 0 matrix0 matrix0 0 (with_logger mes false)) as [a s1]. simpl in H2. subst a. eauto.
Qed.

(** Fit's outcome with and without loggers. *)
Lemma fit_nil_logger {K : Num} (s : state K) m x y ep bs xv yv :
  match Fit m x y ep bs xv yv 0 (with_logger s true) with
  | (Fail e, s1) => exists s0 what, In what fit_messages /\ s1 = with_log (with_logger s0 true) (h_log s0 ++ [LError what e]) /\
      Fit m x y ep bs xv yv 0 (with_logger s false) = (Panic PNil, with_logger s0 false)
  | (r, s1) => exists s0, s1 = with_logger s0 true /\ Fit m x y ep bs xv yv 0 (with_logger s false) = (r, with_logger s0 false)
  end.
Proof. apply quiet_nil, q_Fit. Qed.
Lemma fit_error_logged {K : Num} (s : state K) m x y ep bs xv yv every e s' :
  Fit m x y ep bs xv yv every s = (Fail e, s') -> h_logger s' = true /\ exists ls what, In what fit_messages /\ h_log s' = ls ++ [LError what e].
Proof. apply logging_error, l_Fit. Qed.
(** In particular nothing fails when there are no loggers. *)
Lemma fit_no_logger {K : Num} (s : state K) m x y ep bs xv yv every e s' : h_logger s = false ->
  Fit m x y ep bs xv yv every s <> (Fail e, s').
Proof.
  intros HL E. destruct (fit_error_logged _ _ _ _ _ _ _ _ _ _ _ E) as [H _].
  assert (S := logging_stable _ (l_Fit m x y ep bs xv yv every) s). rewrite E in S. cbn [snd] in S.
  destruct S as (_ & _ & _ & _ & _ & _ & _ & _ & S & _). congruence.
Qed.

Lemma fit_never_fails {K : Num} (s : state K) m es xs i o k x rsx y rsy n X Y epochs bs xv yv val every :
  min_faithful K -> 0 <= bs -> Z.of_nat n + bs <= 2 ^ 52 -> (1 <= n)%nat ->
  trainable s m es xs i o k -> data_ok s es x rsx y rsy n i o X Y -> log_ok s m es xv yv i o val every ->
  exists s' es' xs', Fit m x y epochs bs xv yv every s = (Ret tt, s') /\
    trainable s' m es' xs' i o k /\ Forall2 same_place es es' /\ Forall2 same_oplace xs xs'.
Proof.
  intros HM Hb H52 Hn HT HD HL.
  destruct (fit_any_log s m es xs i o k x rsx y rsy n X Y epochs bs xv yv val every HM Hb H52 Hn HT HD HL) as ([] & s' & E & nn & ls & Hq & HR & _).
  destruct HR as (es' & xs' & HT' & P & Q & _). exists s', es', xs'. apply same_slots_places in Q. repeat (split; [assumption|]). assumption.
Qed.
