(** * Over: overflow during training is permanent, and an ordinary training run can reach it. *)
From Coq Require Import String ZArith List Bool Arith Lia.
From Flocq Require Import IEEE754.BinarySingleNaN IEEE754.Binary IEEE754.Bits.
From Verif Require Import Num NumB64 Heap Spec Matrix Loss Network Optimizers ModelGo LayerData PureSpec Repr HeapLemmas OptSpec ModelSpec ModelFacts FitLoop FitFacts CodecSpec CodecEx Ex ModelEx DeadEx BinomialProofs Nan NanProofs OverSpec.
Import ListNotations.
Open Scope Z_scope.
Open Scope go_scope.

Section Over.
Context (L : libm).
Notation BN := (B64 L).
Lemma finite_back p p' : bad_kept L p p' -> all_finite L p' -> all_finite L p.
Proof.
  intros (_ & Ei & Eo & HW & HB) (FW & FB). rewrite Ei, Eo in FW. rewrite Eo in FB. split.
  - intros i j Hi Hj. destruct (b64_finite (entry (p_w p) i j)) eqn:E; [reflexivity|]. specialize (FW i j Hi Hj). rewrite (proj2 (HW i j Hi Hj) E) in FW. discriminate.
  - intros j Hj. destruct (b64_finite (entry (p_b p) 0 j)) eqn:E; [reflexivity|]. specialize (FB j Hj). rewrite (proj2 (HB j Hj) E) in FB. discriminate.
Qed.
Lemma finite_back_all ps ps' : Forall2 (bad_kept L) ps ps' -> Forall (all_finite L) ps' -> Forall (all_finite L) ps.
Proof. intros H. induction H as [|p p' ps ps' H HH IH]; intros F; constructor; inversion F; subst; [eapply finite_back; eassumption|auto]. Qed.
Lemma epochs_plus e e' b (X Y : pm BN) : epochs_of (e + e') b X Y = (epochs_of e b X Y ++ epochs_of e' b X Y)%list.
Proof. unfold epochs_of. rewrite repeat_app, concat_app. reflexivity. Qed.
Lemma epochs_bad k o ts U q e e' b (X Y : pm BN) : (e' <= e)%nat ->
  Forall2 (bad_kept L) (map fst (fst (ptrain_on k o ts U q (epochs_of e' b X Y)))) (map fst (fst (ptrain_on k o ts U q (epochs_of e b X Y)))).
Proof. intros H. replace e with (e' + (e - e'))%nat by lia. rewrite epochs_plus, ptrain_on_app. apply train_bad. Qed.
Lemma fit_check s (m : model BN) es xs i o k x rsx y rsy n X Y e e' bs xv yv xv' yv' :
  0 <= bs -> Z.of_nat n + bs <= 2 ^ 52 -> (1 <= n)%nat -> trainable s m es xs i o k -> data_ok s es x rsx y rsy n i o X Y -> e' <= e ->
  exists s1 s2 es1 xs1 es2 xs2, Fit m x y e' bs xv' yv' 0 s = (Ret tt, s1) /\ Fit m x y e bs xv yv 0 s = (Ret tt, s2) /\
    trainable s1 m es1 xs1 i o k /\ Forall2 same_place es es1 /\ trainable s2 m es2 xs2 i o k /\ Forall2 same_place es es2 /\
    (Forall (all_finite L) (net es2) -> Forall (all_finite L) (net es1)) /\ (Forall (all_nan L) (net es1) -> Forall (all_nan L) (net es2)).
Proof.
  intros Hb Hn H1 HT HD He.
  destruct (fit_trains s m es xs i o k x rsx y rsy n X Y e' bs xv' yv' (B64_min_faithful L) Hb Hn H1 HT HD) as ([] & s1 & E1 & nn1 & _ & (es1 & xs1 & A1 & A2 & _ & A3 & _) & _).
  destruct (fit_trains s m es xs i o k x rsx y rsy n X Y e bs xv yv (B64_min_faithful L) Hb Hn H1 HT HD) as ([] & s2 & E2 & nn2 & _ & (es2 & xs2 & B1 & B2 & _ & B3 & _) & _).
  exists s1, s2, es1, xs1, es2, xs2. do 6 (split; [assumption|]).
  rewrite <- (trainer_net _ _ _ _ _ _ _ _ A1), <- (trainer_net _ _ _ _ _ _ _ _ B1), A3, B3.
  pose proof (epochs_bad k o (trainer es xs) (r_uni (h_rng s)) (r_upos (h_rng s)) (Z.to_nat e) (Z.to_nat e') (batch_rows n bs) X Y ltac:(lia)) as HB.
  split; intros H; [eapply finite_back_all; eassumption|eapply all_kept; eassumption].
Qed.

(** ** One linear unit with zero parameters, the sample 2 with target 1, learning rate 1/2 *)
Definition ov_state : state BN := MkState (K := BN) [[bz 0]; [bz 0]; [bz 2]; [bz 1]] [[1]; [2]; [3]; [4]]%nat
  [MkLayer (K := BN) Linear 1 1 (MkMatrix 1 1 (MkSlice 1 0 1)) (MkMatrix 1 1 (MkSlice 2 0 1)) f0 f0 matrix0 matrix0] [cO L f0] (c_rng L) true [].
Definition ov_m : model BN := MkModel (K := BN) 1 1 1 0 (Some (MkLoss MSE 1)) 0 (bhalf : BN) 0 [("learningRate", (bhalf : BN)); ("decay", f0); ("momentum", f0)]%string [0]%nat [0]%nat.
Definition ov_es : list (lent BN) := [LE (K := BN) 0 [1]%nat [2]%nat (PL (K := BN) Linear 1 1 [[bz 0]] [[bz 0]] f0 f0)].
Definition ov_xs : list (oent BN) := [OE 0 [] (df_po L 1 1)].
Definition ov_x := MkMatrix 1 1 (MkSlice 3 0 1). Definition ov_y := MkMatrix 1 1 (MkSlice 4 0 1).
Definition ovX : pm BN := [[bz 2]]. Definition ovY : pm BN := [[bz 1]].
Lemma ov_trainable : trainable ov_state ov_m ov_es ov_xs 1 1 MSE.
Proof.
  split; [|split; [|split; [|split; [|split; [|split; [|split; [|split; [|split]]]]]]]].
  - repeat (split; [reflexivity|]). split; [simpl; auto|]. repeat (constructor; [eexists; split; [reflexivity|lown_tac]|]). constructor.
  - split; nodup_tac.
  - simpl; lia.
  - reflexivity.
  - nodup_tac.
  - repeat (constructor; [eexists; split; [reflexivity|]; split; [repeat split|]; simpl; reflexivity|]). constructor.
  - intros z _ [].
  - reflexivity.
  - reflexivity.
  - repeat constructor; discriminate.
Qed.
Lemma ov_data : data_ok ov_state ov_es ov_x [3]%nat ov_y [4]%nat 1 1 1 ovX ovY.
Proof. split; [own_tac|]. split; [own_tac|]. split; disj_tac. Qed.
Definition ov_after (e : nat) : list (player BN) := map fst (fst (ptrain_on MSE 1 (trainer ov_es ov_xs) (r_uni (h_rng ov_state)) (r_upos (h_rng ov_state)) (epochs_of e (batch_rows 1 0) ovX ovY))).
Definition ov_test (f : BN -> bool) (ps : list (player BN)) : bool :=
  match ps with [p] => (p_in p =? 1)%nat && (p_out p =? 1)%nat && f (entry (p_w p) 0 0) && f (entry (p_b p) 0 0) | _ => false end.
Lemma ov_511 : ov_test (fun v => b64_finite v) (ov_after 511) = true.
Proof. vm_compute. reflexivity. Qed.
Lemma ov_514 : ov_test (fun v => b64_nan v) (ov_after 514) = true.
Proof. vm_compute. reflexivity. Qed.
Lemma ov_entries f ps : ov_test f ps = true -> exists p, ps = [p] /\ p_in p = 1%nat /\ p_out p = 1%nat /\ f (entry (p_w p) 0 0) = true /\ f (entry (p_b p) 0 0) = true.
Proof.
  destruct ps as [|p [|]]; try discriminate. unfold ov_test. intros H. apply andb_prop in H as (H & H4). apply andb_prop in H as (H & H3). apply andb_prop in H as (H1 & H2).
  exists p. apply Nat.eqb_eq in H1, H2. auto.
Qed.
Lemma ov_bad e e' : (e' <= e)%nat -> Forall2 (bad_kept L) (ov_after e') (ov_after e).
Proof. apply epochs_bad. Qed.
Lemma ov_finite e : (e <= 511)%nat -> Forall (all_finite L) (ov_after e).
Proof.
  intros H. apply (finite_back_all _ _ (ov_bad 511 e H)). destruct (ov_entries _ _ ov_511) as (p & -> & Hi & Ho & HW & HB). constructor; [|constructor]. split.
  - rewrite Hi, Ho. intros i j Hi' Hj'. now replace i with 0%nat by lia; replace j with 0%nat by lia.
  - rewrite Ho. intros j Hj'. now replace j with 0%nat by lia.
Qed.
Lemma ov_nan e : (514 <= e)%nat -> Forall (all_nan L) (ov_after e).
Proof.
  intros H. apply (all_kept L _ _ (ov_bad e 514 H)). destruct (ov_entries _ _ ov_514) as (p & -> & Hi & Ho & HW & HB). constructor; [|constructor]. split.
  - rewrite Hi, Ho. intros i j Hi' Hj'. now replace i with 0%nat by lia; replace j with 0%nat by lia.
  - rewrite Ho. intros j Hj'. now replace j with 0%nat by lia.
Qed.
Lemma overflows : exists s (m : model BN) es xs x rsx y rsy X Y, trainable s m es xs 1 1 MSE /\ data_ok s es x rsx y rsy 1 1 1 X Y /\
  Forall (all_finite L) (net es) /\ finite_rows L X /\ finite_rows L Y /\
  forall e xv yv, returns (Fit m x y e 0 xv yv 0) s (fun _ s' => exists es' xs', trainable s' m es' xs' 1 1 MSE /\ Forall2 same_place es es' /\
    (e <= 511 -> Forall (all_finite L) (net es')) /\ (514 <= e -> Forall (all_nan L) (net es'))).
Proof.
  exists ov_state, ov_m, ov_es, ov_xs, ov_x, [3]%nat, ov_y, [4]%nat, ovX, ovY. split; [exact ov_trainable|]. split; [exact ov_data|].
  split; [exact (ov_finite 0 ltac:(lia))|]. split; [repeat constructor|]. split; [repeat constructor|]. intros e xv yv.
  destruct (fit_trains ov_state ov_m ov_es ov_xs 1 1 MSE ov_x [3]%nat ov_y [4]%nat 1 ovX ovY e 0 xv yv (B64_min_faithful L)) as ([] & s' & E & nn & _ & (es' & xs' & A1 & A2 & _ & A3 & _) & _); try lia; [exact ov_trainable|exact ov_data|].
  exists tt, s'. split; [exact E|]. exists es', xs'. split; [exact A1|]. split; [exact A2|]. rewrite <- (trainer_net _ _ _ _ _ _ _ _ A1), A3.
  split; intros He; [apply (ov_finite (Z.to_nat e)); lia|apply (ov_nan (Z.to_nat e)); lia].
Qed.
End Over.
