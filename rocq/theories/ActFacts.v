(** * ActFacts: lemmas behind C16-C19. *)
From Coq Require Import String ZArith List Bool Arith Lia Reals Lra.
From Coquelicot Require Import Coquelicot.
From Verif Require Import Num NumR NumB64 Heap Spec PureSpec Repr Matrix Activation Misc Accuracy
  HeapLemmas LoopLemmas MatrixProofs ActivationProofs MiscProofs MatrixFacts B64Facts MiscFacts RSum.
Import ListNotations.
Open Scope Z_scope.
Open Scope go_scope.

(** An in-place operation applied twice. *)
Lemma inplace_twice (K : Num) (op : matrix -> M K matrix) (f : K -> K) (s : state K) m rs r c A :
  (forall s A, own s m rs r c A -> wp (op m) s (inplace_result s m rs r c (pmap r c f A))) ->
  (forall x, f (f x) = f x) -> own s m rs r c A ->
  wp (m' <- op m ;; op m') s (inplace_result s m rs r c (pmap r c f A)).
Proof.
  intros Hop Hf HO. apply wp_bind. eapply wp_conseq; [apply Hop; eauto|].
  intros m1 s1 (-> & HO1 & HF1 & HR1). eapply wp_conseq; [apply Hop; eauto|].
  intros m2 s2 (-> & HO2 & HF2 & HR2). split; [reflexivity|]. rewrite pmap_pmap in HO2. split; [|split].
  - erewrite pmap_ext; [exact HO2|]. intros i j _ _. symmetry. apply Hf.
  - eapply frame_trans; eauto. tauto.
  - eapply rest_trans; eauto.
Qed.
Lemma relu_twice (K : Num) : (forall x : K, relu1 (relu1 x) = relu1 x) -> forall (s : state K) m rs r c A, own s m rs r c A -> NoDup rs ->
  returns (m' <- RELU m ;; RELU m') s (inplace_result s m rs r c (mk r c (fun i j => fmax (entry A i j) f0))).
Proof.
  intros Hf s m rs r c A HO HND. apply returns_wp. apply (inplace_twice K RELU relu1); auto. intros. now apply wp_RELU.
Qed.
Lemma R_relu_idem (x : RNum) : relu1 (relu1 x) = relu1 x.
Proof. unfold relu1, f0. simpl. unfold Rmax. destruct (Rle_dec x 0); destruct (Rle_dec _ 0); lra. Qed.
Lemma clip_twice (K : Num) : clip_lits_ok K -> forall (s : state K) m rs r c A, own s m rs r c A -> NoDup rs ->
  returns (m' <- Clip m ;; Clip m') s (fun m' s' => returns (Clip m) s (fun m1 s1 => exists B, own s1 m1 rs r c B /\ inplace_result s m rs r c B m' s')).
Proof.
  intros HK s m rs r c A HO HND. apply returns_wp.
  eapply wp_conseq; [apply (inplace_twice K Clip clip1); eauto using clip_clip; intros; now apply wp_Clip|].
  intros m' s' H. apply returns_wp. eapply wp_conseq; [apply wp_Clip; eauto|]. intros m1 s1 (-> & H1 & _). eauto.
Qed.

Lemma relu_real (s : state RNum) m rs r c (A : rpm) : own s m rs r c A -> NoDup rs ->
  returns (RELU m) s (fun m' s' => exists B, inplace_result s m rs r c B m' s' /\
    forall i j, (i < r)%nat -> (j < c)%nat ->
      (0 <= entry B i j)%R /\ ((0 <= entry A i j)%R -> entry B i j = entry A i j) /\ ((entry A i j <= 0)%R -> entry B i j = 0%R)).
Proof.
  intros HO HND. apply returns_wp. eapply wp_conseq; [apply wp_RELU; eauto|]. intros m' s' H. eexists. split; [exact H|].
  intros i j Hi Hj. rewrite entry_pmap by auto. unfold relu1, f0. simpl. unfold Rmax. destruct (Rle_dec (entry A i j) 0); lra.
Qed.
Lemma relu_binary64 (L : libm) (s : state (B64 L)) m rs r c (A : pm (B64 L)) : own s m rs r c A -> NoDup rs ->
  returns (RELU m) s (fun m' s' => exists B, inplace_result s m rs r c B m' s' /\
    forall i j, (i < r)%nat -> (j < c)%nat ->
      flt (entry B i j) f0 = false /\
      (b64_nan (entry A i j) = false -> flt f0 (entry A i j) = true -> entry B i j = entry A i j) /\
      (b64_nan (entry A i j) = false -> flt f0 (entry A i j) = false -> feq (entry B i j) f0 = true)).
Proof.
  intros HO HND. apply returns_wp. eapply wp_conseq; [apply wp_RELU; eauto|]. intros m' s' H. eexists. split; [exact H|].
  intros i j Hi Hj. rewrite entry_pmap by auto. split; [apply b64_relu_nonneg|]. split; intros H1 H2; now apply b64_relu_value.
Qed.
Lemma sigmoid_real (s : state RNum) m rs r c (A : rpm) : own s m rs r c A -> NoDup rs ->
  returns (Sigmoid m) s (fun m' s' => exists B, inplace_result s m rs r c B m' s' /\
    (forall i j, (i < r)%nat -> (j < c)%nat ->
      entry B i j = (1 / (1 + exp (- entry A i j)))%R /\ (0 < entry B i j < 1)%R) /\
    (forall i j i' j', (i < r)%nat -> (j < c)%nat -> (i' < r)%nat -> (j' < c)%nat ->
      (entry A i j < entry A i' j')%R -> (entry B i j < entry B i' j')%R)).
Proof.
  intros HO HND. apply returns_wp. eapply wp_conseq; [apply wp_Sigmoid; eauto|]. intros m' s' H. eexists. split; [exact H|]. split.
  - intros i j Hi Hj. rewrite entry_pmap by auto. split; [reflexivity|]. apply R_sigmoid_range.
  - intros i j i' j' Hi Hj Hi' Hj' Hlt. rewrite !entry_pmap by auto. now apply R_sigmoid_incr.
Qed.
Lemma sigmoid_derive (x : R) : is_derive (fun t => 1 / (1 + exp (- t)))%R x (sigmoid1 (K := RNum) x * (1 - sigmoid1 (K := RNum) x))%R.
Proof.
  rewrite !R_sigmoid. pose proof (exp_pos (- x)). auto_derive; [lra|]. field. lra.
Qed.
Lemma sigmoid_prime_real (s : state RNum) m rs x rsx r c (A D : rpm) :
  own s m rs r c A -> own s x rsx r c D -> NoDup rs -> disjoint rsx rs ->
  returns (SigmoidPrime m x) s (fun m' s' => exists B (d : nat -> nat -> R), inplace_result s m rs r c B m' s' /\
    forall i j, (i < r)%nat -> (j < c)%nat ->
      is_derive (fun t => 1 / (1 + exp (- t)))%R (entry A i j) (d i j) /\ entry B i j = (entry D i j * d i j)%R).
Proof.
  intros HO HX HND HD. apply returns_wp. eapply wp_conseq; [eapply wp_SigmoidPrime; eauto|]. intros m' s' H.
  eexists. exists (fun i j => sigmoid1 (K := RNum) (entry A i j) * (1 - sigmoid1 (K := RNum) (entry A i j)))%R. split; [exact H|].
  intros i j Hi Hj. split; [apply sigmoid_derive|]. rewrite entry_pmap2 by auto. unfold sigmoid_prime1, f1. simpl. ring.
Qed.
Lemma softmax_real (s : state RNum) m rs r c (A : rpm) : own s m rs r c A -> NoDup rs -> (1 <= c)%nat ->
  returns (Softmax m) s (fun m' s' => exists B, inplace_result s m rs r c B m' s' /\
    (forall i, (i < r)%nat -> rsum c (fun j => entry B i j) = 1%R) /\
    (forall i j, (i < r)%nat -> (j < c)%nat -> (0 < entry B i j <= 1)%R) /\
    (forall i j k, (i < r)%nat -> (j < c)%nat -> (k < c)%nat -> (entry A i j < entry A i k)%R <-> (entry B i j < entry B i k)%R)).
Proof.
  intros HO HND Hc. apply returns_wp. eapply wp_conseq; [apply wp_Softmax; eauto|]. intros m' s' H. eexists. split; [exact H|]. split; [|split].
  - intros i Hi. now apply R_softmax_sum.
  - intros i j Hi Hj. split; [now apply R_softmax_pos|]. rewrite <- (R_softmax_sum r c A i Hi Hc).
    apply (rsum_term_le c (fun j => entry (psoftmax r c A) i j)); auto. intros k Hk. left. now apply R_softmax_pos.
  - intros i j k Hi Hj Hk. now apply R_softmax_order.
Qed.
Lemma softmax_shift (s : state RNum) m rs r c (A A' : rpm) m2 rs2 (t : nat -> R) :
  own s m rs r c A -> own s m2 rs2 r c A' -> NoDup rs -> NoDup rs2 ->
  (forall i j, (i < r)%nat -> (j < c)%nat -> entry A' i j = (entry A i j + t i)%R) ->
  exists B, returns (Softmax m) s (inplace_result s m rs r c B) /\ returns (Softmax m2) s (inplace_result s m2 rs2 r c B).
Proof.
  intros HO HO2 HND HND2 Ht. exists (psoftmax r c A). split; apply returns_wp.
  - now apply wp_Softmax.
  - rewrite <- (R_softmax_shift r c A A' t Ht). now apply wp_Softmax.
Qed.
Lemma softmax_overflow (L : libm) (s : state (B64 L)) m rs r c (A : pm (B64 L)) i j :
  own s m rs r c A -> NoDup rs -> (i < r)%nat -> (j < c)%nat -> l_exp L (entry A i j) = b64_inf false ->
  returns (Softmax m) s (fun m' s' => exists B, inplace_result s m rs r c B m' s' /\ b64_nan (entry B i j) = true).
Proof.
  intros HO HND Hi Hj HE. apply returns_wp. eapply wp_conseq; [apply wp_Softmax; eauto|]. intros m' s' H. eexists. split; [exact H|].
  unfold psoftmax. rewrite entry_mk by auto. simpl. rewrite HE. apply div_inf_inf.
  apply (fsum_inf L c (fun k => l_exp L (entry A i k)) j); auto. simpl. now rewrite HE.
Qed.
Lemma softmax_binary64_bad (L : libm) (x : Bits.binary64) : b64_finite x = true -> l_exp L x = b64_inf false ->
  exists (s : state (B64 L)) m rs A, own s m rs 1 2 A /\
    (forall j, (j < 2)%nat -> b64_finite (entry A 0 j) = true) /\
    returns (Softmax m) s (fun m' s' => exists B, inplace_result s m rs 1 2 B m' s' /\ b64_nan (entry B 0 1) = true).
Proof.
  intros Hf He.
  set (s := MkState (K := B64 L) [[f0 : B64 L; x]] [[1%nat]] [] [] (MkRng (K := B64 L) (fun _ => x) (fun _ => x) (fun _ => 0) 0 0 0) true []).
  assert (HO : own s (MkMatrix 1 2 (MkSlice 1 0 1)) [1%nat] 1 2 [[f0 : B64 L; x]]).
  { unfold own; simpl; repeat (split; [reflexivity|]). split; [split; [reflexivity|repeat constructor]|].
    split; [eexists; split; [reflexivity|]; split; [simpl; lia|reflexivity]|repeat constructor]. }
  exists s, (MkMatrix 1 2 (MkSlice 1 0 1)), [1%nat], [[f0 : B64 L; x]]. split; [exact HO|]. split.
  - intros [|[|j]] Hj; [reflexivity|exact Hf|lia].
  - eapply softmax_overflow; eauto. repeat constructor; simpl; tauto.
Qed.

Lemma clip_real (s : state RNum) m rs r c (A : rpm) : own s m rs r c A -> NoDup rs ->
  returns (Clip m) s (fun m' s' => exists B, inplace_result s m rs r c B m' s' /\
    forall i j, (i < r)%nat -> (j < c)%nat -> (0 <= entry B i j <= 1)%R /\
      ((0 <= entry A i j <= 1)%R -> entry B i j = entry A i j)).
Proof.
  intros HO HND. apply returns_wp. eapply wp_conseq; [apply wp_Clip; eauto|]. intros m' s' H. eexists. split; [exact H|].
  intros i j Hi Hj. rewrite entry_pmap by auto. destruct (R_clip (entry A i j)) as (H1 & H2 & H3). split; auto.
  destruct (Rlt_dec (entry A i j) 0) as [Hl|Hl]; [rewrite H1 by auto; lra|].
  destruct (Rlt_dec 1 (entry A i j)) as [Hg|Hg]; [rewrite H2 by auto; lra|]. rewrite H3; lra.
Qed.
Lemma clip_binary64 (L : libm) (s : state (B64 L)) m rs r c (A : pm (B64 L)) : own s m rs r c A -> NoDup rs ->
  (forall i j, (i < r)%nat -> (j < c)%nat -> b64_nan (entry A i j) = false) ->
  returns (Clip m) s (fun m' s' => exists B, inplace_result s m rs r c B m' s' /\
    forall i j, (i < r)%nat -> (j < c)%nat -> fle f0 (entry B i j) = true /\ fle (entry B i j) f1 = true /\
      (fle f0 (entry A i j) = true -> fle (entry A i j) f1 = true -> entry B i j = entry A i j)).
Proof.
  intros HO HND HN. apply returns_wp. eapply wp_conseq; [apply wp_Clip; eauto|]. intros m' s' H. eexists. split; [exact H|].
  intros i j Hi Hj. rewrite entry_pmap by auto. destruct (B64_clip_range L (entry A i j) (HN i j Hi Hj)) as (H1 & H2).
  split; auto. split; auto. intros H3 H4. pose proof (HN i j Hi Hj) as Hn. unfold clip1, f0, f1 in *. simpl in *.
  rewrite b64_le_spec in H3, H4 by auto.
  destruct (b64_lt (entry A i j) (b64_ofZ 0)) eqn:E1; [apply b64_lt_spec in E1; auto; contradiction|].
  destruct (b64_lt (b64_ofZ 1) (entry A i j)) eqn:E2; [apply b64_lt_spec in E2; auto; contradiction|]. reflexivity.
Qed.
Lemma clip_not_strict (L : libm) : exists (s : state (B64 L)) m rs A,
  own s m rs 1 2 A /\ returns (Clip m) s (fun m' s' => exists B, own s' m' rs 1 2 B /\ entry B 0 0 = f0 /\ entry B 0 1 = f1).
Proof.
  set (s := MkState (K := B64 L) [[f0 : B64 L; f1]] [[1%nat]] [] [] (MkRng (K := B64 L) (fun _ => f0) (fun _ => f0) (fun _ => 0) 0 0 0) true []).
  assert (HO : own s (MkMatrix 1 2 (MkSlice 1 0 1)) [1%nat] 1 2 [[f0 : B64 L; f1]]).
  { unfold own; simpl; repeat (split; [reflexivity|]). split; [split; [reflexivity|repeat constructor]|].
    split; [eexists; split; [reflexivity|]; split; [simpl; lia|reflexivity]|repeat constructor]. }
  exists s, (MkMatrix 1 2 (MkSlice 1 0 1)), [1%nat], [[f0 : B64 L; f1]]. split; [exact HO|].
  apply returns_wp. eapply wp_conseq; [apply wp_Clip; [exact HO|repeat constructor; simpl; tauto]|].
  intros m' s' (-> & H & _). eexists. split; [exact H|]. split; reflexivity.
Qed.
