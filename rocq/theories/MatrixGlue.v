(** * Proofs and definitions used by PropMatrix.v *)
From Coq Require Import String ZArith List Bool Arith Lia Reals QArith.
From Verif Require Import Num NumR NumB64 NumQ Heap Spec PureSpec Repr Matrix Activation Misc
  HeapLemmas LoopLemmas MatrixProofs ActivationProofs LayerProofs MiscProofs MatrixFacts RSum Ex.
Import ListNotations.
Open Scope Z_scope.
Open Scope go_scope.

Lemma C01_NewMatrix_fresh_zero_proof (K : Num) (s : state K) (r c : nat) :
  (1 <= r)%nat -> (1 <= c)%nat ->
  returns (NewMatrix (Z.of_nat r) (Z.of_nat c)) s (fresh_result s r c (mk r c (fun _ _ => f0))).
Proof.
  intros Hr Hc. exists (new_header s r c), (new_state s r c). split; [exact (NewMatrix_run s r c Hr Hc)|].
  exists (seq (S (nrows s)) r). split; [exact (new_state_own s r c)|exact (new_state_ext s r c)].
Qed.

Lemma C02_from_slice_proof (K : Num) (s : state K) sl rs rows :
  slice_view s sl rs rows ->
  NewMatrixFromSlice sl s =
    (match rows with
     | [] => Fail (EMatDims 0 0)
     | row0 :: _ =>
        if (length row0 <? 1)%nat then Fail (EMatDims (Z.of_nat (length rows)) (Z.of_nat (length row0)))
        else Ret (MkMatrix (Z.of_nat (length rows)) (Z.of_nat (length row0)) sl)
     end, s).
Proof. exact (NewMatrixFromSlice_run s sl rs rows). Qed.

Lemma C02_shares_storage_proof (K : Num) (s : state K) sl rs rows r c i j v :
  slice_view s sl rs rows -> shape r c rows -> NoDup rs -> (i < r)%nat -> (j < c)%nat ->
  let m := MkMatrix (Z.of_nat r) (Z.of_nat c) sl in
  let rows' := mk r c (fun a b => if ((a =? i) && (b =? j))%nat then v else entry rows a b) in
  NewMatrixFromSlice sl s = (Ret m, s) /\ own s m rs r c rows /\
  (exists s', Set_ m (Z.of_nat i) (Z.of_nat j) v s = (Ret tt, s') /\ slice_view s' sl rs rows') /\
  (exists s', set_row (nth i rs O) (Z.of_nat j) v s = (Ret tt, s') /\ own s' m rs r c rows').
Proof.
  intros HV HS HND Hi Hj m rows'.
  assert (HO : own s m rs r c rows) by (exact (slice_view_own _ _ _ _ _ _ HV HS)).
  split; [|split; [exact HO|split]].
  - rewrite (C02_from_slice_proof K s sl rs rows HV). destruct HS as [HL HF]. destruct rows as [|row0 rows]; simpl in HL; [lia|].
    inversion HF; subst. unfold m. destruct (Nat.ltb_spec (length row0) 1); [lia|]. reflexivity.
  - destruct (Set_spec _ _ _ _ _ _ _ _ v HO HND Hi Hj) as (s' & E & HO' & _). exists s'. split; auto.
    exact (own_slice_view _ _ _ _ _ _ HO').
  - destruct (set_row_own _ _ _ _ _ _ _ _ v HO HND Hi Hj) as (s' & E & HO' & _). exists s'. split; auto.
    rewrite (pset_as_mk r c) in HO' by auto. exact HO'.
Qed.

Lemma C02_rectangular_refuted_proof :
  exists (s : state QNum) sl m, NewMatrixFromSlice sl s = (Ret m, s) /\
    0 <= 1 < mrows m /\ 0 <= 1 < mcols m /\ Get m 1 1 s = (Panic PIndex, s).
Proof.
  exists (MkState [[q 1; q 2]; [q 3]] [[1; 2]%nat] [] [] ex_rng true []), (MkSlice 1 0 2), (MkMatrix 2 2 (MkSlice 1 0 2)).
  repeat split; simpl; lia.
Qed.

Lemma C03_bad_index_error_refuted_proof : exists (s : state QNum) m rs A,
  own s m rs 2 2 A /\ Get m (-1) 0 s = (Panic PIndex, s) /\ Set_ m 0 (-1) (q 7) s = (Panic PIndex, s).
Proof. exists exs, mA, [1;2]%nat, pA. split; [exact own_mA|split; reflexivity]. Qed.

Lemma C04_GetRow_alias_proof (K : Num) (s : state K) m rs r c A i j v :
  own s m rs r c A -> NoDup rs -> (i < r)%nat -> (j < c)%nat ->
  GetRow m (Z.of_nat i) s = (Ret (nth i rs O), s) /\ row_at s (nth i rs O) = Some (nth i A []) /\
  exists s', set_row (nth i rs O) (Z.of_nat j) v s = (Ret tt, s') /\
    own s' m rs r c (mk r c (fun a b => if ((a =? i) && (b =? j))%nat then v else entry A a b)).
Proof.
  intros HO HND Hi Hj. destruct (GetRow_run _ _ _ _ _ _ _ HO Hi) as [H1 H2]. split; auto. split; auto.
  destruct (set_row_own _ _ _ _ _ _ _ _ v HO HND Hi Hj) as (s' & E & HO' & _). exists s'. split; auto.
  rewrite (pset_as_mk r c) in HO' by eauto using own_shape. exact HO'.
Qed.

Lemma C06_Dot_assoc_proof (s : state RNum) a b d rs1 rs2 rs3 n k l c A B D :
  own s a rs1 n k A -> own s b rs2 k l B -> own s d rs3 l c D ->
  (1 <= n)%nat -> (1 <= k)%nat -> (1 <= l)%nat -> (1 <= c)%nat ->
  exists R, returns (ab <- Dot a b ;; Dot ab d) s (fun m s' => exists rs, own s' m rs n c R) /\
            returns (bd <- Dot b d ;; Dot a bd) s (fun m s' => exists rs, own s' m rs n c R).
Proof.
  intros H1 H2 H3 Hn Hk Hl Hc. exists (pdot n k c A (pdot k l c B D)). split; apply returns_wp.
  - eapply fresh_then; [eapply wp_Dot; [exact H1|exact H2|auto|auto]|]. intros m rs s1 HO HE.
    eapply wp_conseq; [eapply wp_Dot; [exact HO|exact (own_ext _ _ _ _ _ _ _ H3 HE)|auto|auto]|].
    intros m' s' HR. rewrite pdot_assoc in HR. exact (fresh_result_own _ _ _ _ _ _ HR).
  - eapply fresh_then; [eapply wp_Dot; [exact H2|exact H3|auto|auto]|]. intros m rs s1 HO HE.
    eapply wp_conseq; [eapply wp_Dot; [exact (own_ext _ _ _ _ _ _ _ H1 HE)|exact HO|auto|auto]|].
    intros m' s' HR. exact (fresh_result_own _ _ _ _ _ _ HR).
Qed.

Lemma C06_Dot_distributes_proof (s : state RNum) a b d rs1 rs2 rs3 n k c A B D :
  own s a rs1 n k A -> own s b rs2 n k B -> own s d rs3 k c D ->
  (1 <= n)%nat -> (1 <= k)%nat -> (1 <= c)%nat ->
  exists R, returns (ab <- Add a b ;; Dot ab d) s (fun m s' => exists rs, own s' m rs n c R) /\
            returns (ad <- Dot a d ;; bd <- Dot b d ;; Add ad bd) s (fun m s' => exists rs, own s' m rs n c R).
Proof.
  intros H1 H2 H3 Hn Hk Hc. exists (pmap2 n c fadd (pdot n k c A D) (pdot n k c B D)). split; apply returns_wp.
  - eapply fresh_then; [eapply wp_Add; [exact H1|exact H2|auto|auto]|]. intros m rs s1 HO HE.
    eapply wp_conseq; [eapply wp_Dot; [exact HO|exact (own_ext _ _ _ _ _ _ _ H3 HE)|auto|auto]|].
    intros m' s' HR. rewrite pdot_add_l in HR. exact (fresh_result_own _ _ _ _ _ _ HR).
  - eapply fresh_then; [eapply wp_Dot; [exact H1|exact H3|auto|auto]|]. intros m rs s1 HO HE.
    eapply fresh_then; [eapply wp_Dot; [exact (own_ext _ _ _ _ _ _ _ H2 HE)|exact (own_ext _ _ _ _ _ _ _ H3 HE)|auto|auto]|].
    intros m2 rs2' s2 HO2 HE2.
    eapply wp_conseq; [eapply wp_Add; [exact (own_ext _ _ _ _ _ _ _ HO HE2)|exact HO2|auto|auto]|].
    intros m' s' HR. exact (fresh_result_own _ _ _ _ _ _ HR).
Qed.

Lemma C07_T_T_proof (K : Num) (s : state K) m rs r c A : own s m rs r c A -> (1 <= r)%nat -> (1 <= c)%nat ->
  returns (t <- T m ;; T t) s (fun m' s' => exists rs', own s' m' rs' r c A).
Proof.
  intros H1 H2 H3. apply returns_wp. eapply fresh_then; [eapply wp_T; eauto|]. intros t rst s1 HO HE.
  eapply wp_conseq; [eapply wp_T; [exact HO|auto|auto]|]. intros m' s' HR.
  rewrite (ptrans_ptrans r c) in HR by eauto using own_shape. exact (fresh_result_own _ _ _ _ _ _ HR).
Qed.

Lemma C07_T_Dot_proof (K : Num) (s : state K) a b rs1 rs2 r k c A B :
  (forall x y : K, fmul x y = fmul y x) ->
  own s a rs1 r k A -> own s b rs2 k c B -> (1 <= r)%nat -> (1 <= k)%nat -> (1 <= c)%nat ->
  exists R, returns (ab <- Dot a b ;; T ab) s (fun m s' => exists rs, own s' m rs c r R) /\
            returns (bt <- T b ;; at_ <- T a ;; Dot bt at_) s (fun m s' => exists rs, own s' m rs c r R).
Proof.
  intros HC H1 H2 Hr Hk Hc. exists (pdot c k r (ptrans k c B) (ptrans r k A)). split; apply returns_wp.
  - eapply fresh_then; [eapply wp_Dot; [exact H1|exact H2|auto|auto]|]. intros m rs s1 HO HE.
    eapply wp_conseq; [eapply wp_T; [exact HO|auto|auto]|]. intros m' s' HR. rewrite ptrans_pdot in HR by exact HC.
    exact (fresh_result_own _ _ _ _ _ _ HR).
  - eapply fresh_then; [eapply wp_T; [exact H2|auto|auto]|]. intros m rs s1 HO HE.
    eapply fresh_then; [eapply wp_T; [exact (own_ext _ _ _ _ _ _ _ H1 HE)|auto|auto]|]. intros m2 rs3 s2 HO2 HE2.
    eapply wp_conseq; [eapply wp_Dot; [exact (own_ext _ _ _ _ _ _ _ HO HE2)|exact HO2|auto|auto]|]. intros m' s' HR.
    exact (fresh_result_own _ _ _ _ _ _ HR).
Qed.

Lemma C09_Equals_proof (K : Num) (s : state K) m b rs rs2 r c r2 c2 A B :
  own s m rs r c A -> own s b rs2 r2 c2 B ->
  exists ok, Equals m b s = (Ret ok, s) /\
    (ok = true <-> r = r2 /\ c = c2 /\ forall i j, (i < r)%nat -> (j < c)%nat -> feq (entry A i j) (entry B i j) = true).
Proof.
  intros H1 H2. eexists. split; [exact (Equals_run _ _ _ _ _ _ _ _ _ _ _ H1 H2)|].
  rewrite !andb_true_iff, !Nat.eqb_eq, all_cells_true. tauto.
Qed.

Lemma C09_Equals_reflexive_proof (L : libm) (s : state (B64 L)) m rs r c A :
  own s m rs r c A ->
  exists ok, Equals m m s = (Ret ok, s) /\
   (ok = true <-> forall i j, (i < r)%nat -> (j < c)%nat -> b64_nan (entry A i j) = false).
Proof.
  intros H. destruct (C09_Equals_proof _ s m m rs rs r c r c A A H H) as (ok & E & Hok). exists ok. split; auto.
  rewrite Hok. split.
  - intros (_ & _ & HA) i j Hi Hj. specialize (HA i j Hi Hj). destruct (b64_nan (entry A i j)) eqn:En; auto.
    simpl in HA. rewrite b64_eq_nan in HA by auto. discriminate.
  - intros HA. repeat split; auto. intros i j Hi Hj. apply b64_eq_refl. auto.
Qed.

Lemma C09_reflexive_refuted_proof (L : libm) : exists (s : state (B64 L)) m rs A,
  own s m rs 1 1 A /\ Equals m m s = (Ret false, s).
Proof.
  exists (MkState (K := B64 L) [[the_nan]] [[1%nat]] [] [] (MkRng (K := B64 L) (fun _ => the_nan) (fun _ => the_nan) (fun _ => 0) 0 0 0) true []),
    (MkMatrix 1 1 (MkSlice 1 0 1)), [1%nat], [[the_nan]].
  split; [own_tac|reflexivity].
Qed.
