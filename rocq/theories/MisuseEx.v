(** * MisuseEx: concrete cases and counterexamples for C76-C80. *)
From Coq Require Import String ZArith List Bool Arith Lia QArith.
From Verif Require Import Num NumQ Heap Spec Matrix Loss Network Optimizers ModelGo PureSpec Repr HeapLemmas OptSpec OptFacts ModelSpec Ex ModelEx FitFacts LateLayer RowCount WrongShape SgdShape OptMore.
Import ListNotations.
Open Scope Z_scope.

(** The first layer of the example alone, finalized with mean squared error over 2 outputs. *)
Definition eMh : model QNum :=
  MkModel 1 2 2 0 (Some (MkLoss MSE 2)) 0 (1#10)%Q 0
    [("learningRate", (1#10)%Q); ("decay", 0%Q); ("momentum", (1#2)%Q)]%string [0]%nat [0]%nat.
Definition eXh : list (oent QNum) := [OE 0 [] (ePO 2)].
Lemma trainable_h : trainable mes eMh [eE0] eXh 2 2 MSE.
Proof.
  split; [repeat (split; [reflexivity|]); split; [simpl; auto|constructor; [eexists; split; [reflexivity|lown_tac]|constructor]]|].
  split; [split; nodup_tac|]. split; [simpl; lia|]. split; [reflexivity|].
  split; [nodup_tac|]. split.
  - repeat (constructor; [eexists; split; [reflexivity|]; split; [repeat split|]; simpl; left; repeat split|]). constructor.
  - split; [intros z _ []|]. split; [reflexivity|]. split; [reflexivity|]. repeat constructor; discriminate.
Qed.
Lemma lok_e1 : lok mes eE1. Proof. eexists; split; [reflexivity|lown_tac]. Qed.
Lemma data_h : data_ok mes ([eE0] ++ [eE1]) eX [10; 11; 12]%nat eX [10; 11; 12]%nat 3 2 2 pXd pXd.
Proof. split; [exact own_eX|]. split; [exact own_eX|]. split; disj_tac. Qed.
Lemma unshared_h : unshared ([eE0] ++ [eE1]). Proof. split; nodup_tac. Qed.

Lemma late_witness : exists (s : state QNum) m es xs i o k (e : lent QNum) m' x y s',
  trainable s m es xs i o k /\ AddLayer m (e_ref e) s = (Ret (m', None), s) /\
  mrows x = mrows y /\ mcols x = m_in m' /\ mcols y = m_out m' /\
  Fit m' x y 1 0 matrix0 matrix0 0 s = (Panic PIndex, s').
Proof.
  destruct (late_panics mes eMh [eE0] eXh 2 2 MSE eE1 eX [10;11;12]%nat eX [10;11;12]%nat 3 pXd pXd 1 0 matrix0 matrix0 0
    QNum_int_faithful QNum_min_faithful ltac:(lia) ltac:(lia) ltac:(lia) ltac:(lia) ltac:(lia) trainable_h lok_e1 unshared_h eq_refl eq_refl ltac:(discriminate) data_h)
    as (m' & s' & HA & HC & HF).
  exists mes, eMh, [eE0], eXh, 2%nat, 2%nat, MSE, eE1, m', eX, eX, s'. split; [exact trainable_h|]. split; [exact HA|].
  destruct HC as (_ & _ & E1 & E2 & _). rewrite E1, E2. split; [reflexivity|]. split; [reflexivity|]. split; [reflexivity|exact HF].
Qed.

(** Three samples with two labels, and two samples with three labels. *)
Lemma disj_yv : disjoint [19; 20]%nat (prows eEs). Proof. disj_tac. Qed.
Lemma disj_xv : disjoint [17; 18]%nat (prows eEs). Proof. disj_tac. Qed.
Lemma disj_x : disjoint [10; 11; 12]%nat (prows eEs). Proof. disj_tac. Qed.
Lemma disj_y : disjoint [13; 14; 15]%nat (prows eEs). Proof. disj_tac. Qed.
Lemma tight_xv : tight mes eXv 2. Proof. eexists. split; reflexivity. Qed.
Lemma rows_silent : exists (s : state QNum) m es xs i o k x rsx y rsy X Y s',
  trainable s m es xs i o k /\ own s x rsx 3 i X /\ own s y rsy 2 o Y /\
  Fit m x y 1 0 matrix0 matrix0 0 s = (Ret tt, s').
Proof.
  destruct (fit_extra_samples mes eM eEs eXs 2 1 MSE eX [10;11;12]%nat eYv [19;20]%nat 3 2 pXd pYv 1 0 matrix0 matrix0) as ([] & s' & HF & _);
    try exact trainable_e; try exact own_eX; try exact own_eYv; try exact disj_x; try exact disj_yv; try lia; try exact QNum_min_faithful.
  exists mes, eM, eEs, eXs, 2%nat, 1%nat, MSE, eX, [10;11;12]%nat, eYv, [19;20]%nat, pXd, pYv, s'.
  split; [exact trainable_e|]. split; [exact own_eX|]. split; [exact own_eYv|exact HF].
Qed.
Lemma rows_panic : exists (s : state QNum) m es xs i o k x rsx y rsy X Y s',
  trainable s m es xs i o k /\ own s x rsx 2 i X /\ own s y rsy 3 o Y /\
  Fit m x y 1 0 matrix0 matrix0 0 s = (Panic PSlice, s').
Proof.
  destruct (fit_few_samples mes eM eEs eXs 2 1 MSE eXv [17;18]%nat eY [13;14;15]%nat 2 3 pXv pYd 1 0 matrix0 matrix0 0) as (s' & HF);
    try exact trainable_e; try exact own_eXv; try exact own_eY; try exact disj_xv; try exact disj_y; try exact tight_xv; try lia; try exact QNum_min_faithful.
  exists mes, eM, eEs, eXs, 2%nat, 1%nat, MSE, eXv, [17;18]%nat, eY, [13;14;15]%nat, pXv, pYd, s'.
  split; [exact trainable_e|]. split; [exact own_eXv|]. split; [exact own_eY|exact HF].
Qed.

(** Plain SGD on a 1x1 layer with a 2x1 weight gradient, and on a 2x1 layer with a 1x1 gradient. *)
Definition mq_sgd : optimizer QNum := MkOpt (K := QNum) SGD (1#2)%Q 0%Q 0%Q 0%Q 0%Q 0%Q (1#2)%Q 0 matrix0 matrix0 matrix0 matrix0 false false.
Definition mq_state : state QNum := oc_state (K := QNum) 1%Q 2%Q 6%Q 4%Q 3%Q mq_sgd.
Lemma mq_new : NewSGDOptimizer (K := QNum) (1#2)%Q 0%Q 0%Q mq_state = (Ret mq_sgd, mq_state). Proof. reflexivity. Qed.
Lemma sgd_shape_silent : exists (s s' : state QNum) oref o w b dw db,
  nth_error (h_opts s) oref = Some o /\ NewSGDOptimizer (1#2)%Q 0%Q 0%Q s = (Ret o, s) /\
  (mrows dw, mcols dw) <> (mrows w, mcols w) /\ Opt_Update oref w b dw db s = (Ret tt, s').
Proof.
  destruct (sgd_larger mq_state 0 mq_sgd oc_w oc_b oc_bad oc_db [1]%nat [2]%nat [5;6]%nat [4]%nat 1 1 2 1 1 1 _ _ _ _ eq_refl eq_refl eq_refl
    (oc_own_w _ _ _ _ _ _) (oc_own_b _ _ _ _ _ _) ltac:(nodup_tac) ltac:(nodup_tac) ltac:(disj_tac) (oc_own_bad _ _ _ _ _ _) (oc_own_db _ _ _ _ _ _) ltac:(lia) ltac:(lia)) as ([] & s' & HE & _).
  exists mq_state, s', 0%nat, mq_sgd, oc_w, oc_b, oc_bad, oc_db. split; [reflexivity|]. split; [reflexivity|]. split; [discriminate|exact HE].
Qed.
Lemma sgd_shape_panics : exists (s s' : state QNum) oref o w b dw db,
  nth_error (h_opts s) oref = Some o /\ NewSGDOptimizer (1#2)%Q 0%Q 0%Q s = (Ret o, s) /\
  (mrows dw, mcols dw) <> (mrows w, mcols w) /\ Opt_Update oref w b dw db s = (Panic PIndex, s').
Proof.
  destruct (sgd_small_weights mq_state 0 mq_sgd oc_bad oc_b oc_dw oc_db [5;6]%nat [2]%nat [3]%nat [4]%nat 2 1 1 1 1 1 _ _ _ _ eq_refl eq_refl eq_refl
    (oc_own_bad _ _ _ _ _ _) (oc_own_b _ _ _ _ _ _) ltac:(nodup_tac) ltac:(disj_tac) (oc_own_dw _ _ _ _ _ _) (oc_own_db _ _ _ _ _ _) ltac:(lia) ltac:(lia)) as (s' & HE & _).
  exists mq_state, s', 0%nat, mq_sgd, oc_bad, oc_b, oc_dw, oc_db. split; [reflexivity|]. split; [reflexivity|]. split; [discriminate|exact HE].
Qed.
