(** * HandFit: the hand-written training loop of the optimizer tests does what Fit does. *)
From Coq Require Import String ZArith List Bool Arith Lia Reals Lra.
From Verif Require Import Num NumR NumB64 Heap Spec PureSpec OptSpec Repr HeapLemmas MatrixFacts ModelSpec ModelProofs SessionProofs
  FitFacts FitProofs Matrix Loss Network Optimizers ModelGo Tests HandSpec TestLoop B64Facts LossReal LossCode NetGrad SoftFloat.
Import ListNotations.

Section AnyNum.
Context {K : Num}.
(** Clipping leaves what softmax returns alone. *)
Definition soft_stable : Prop := forall r c (A : pm K), pmap r c clip1 (psoftmax r c A) = psoftmax r c A.
Fixpoint soft_last (ks : list lkind) : Prop := match ks with [] => False | [k] => k = SoftmaxK | _ :: t => soft_last t end.

Lemma hand_is_backprop Y o : soft_stable -> forall ps r X U q, soft_last (map p_kind ps) ->
  hand_backprop (K := K) Y ps r X U q = pbackprop CE Y o ps r X U q.
Proof.
  intros HS. induction ps as [|p t IH]; intros r X U q H; [destruct H|].
  cbn [hand_backprop pbackprop]. destruct t as [|p2 t].
  - cbn [hand_backprop pbackprop map soft_last] in *. unfold pre_grad, fused. rewrite H.
    assert (E : ptrain p r X (from U q) = psoftmax r (p_out p) (paffine p r X)) by (unfold ptrain, pforward, pact; now rewrite H).
    rewrite E, HS. reflexivity.
  - rewrite IH by exact H. destruct (pbackprop CE Y o (p2 :: t) r _ U _) as [G gs]. reflexivity.
Qed.
Lemma pbackprop_len k Y o : forall ps r X U q, length (snd (pbackprop (K := K) k Y o ps r X U q)) = length ps.
Proof.
  induction ps as [|p t IH]; intros r X U q; [reflexivity|]. cbn [pbackprop].
  specialize (IH r (ptrain p r X (from U q)) U (q + pdraws p r)%nat). destruct (pbackprop k Y o t r _ U _) as [G gs]. cbn [snd length] in *. now rewrite IH.
Qed.
Lemma tsteps_shape (ts : list (player K * popt K)) : forall gs, length gs = length ts ->
  map (fun t => (p_kind (fst t), p_out (fst t))) (map (fun tg => tstep (fst tg) (snd tg)) (combine ts gs)) = map (fun t => (p_kind (fst t), p_out (fst t))) ts.
Proof.
  induction ts as [|t ts IH]; intros [|g gs] H; try discriminate; [reflexivity|]. cbn [combine map fst snd]. f_equal; [|apply IH; now injection H].
  unfold tstep. destruct (pupdate _ _ _ _ _ _ _) as [[po W] B]. reflexivity.
Qed.
Lemma draws_shape (ts ts' : list (player K * popt K)) n : map (fun t => (p_kind (fst t), p_out (fst t))) ts' = map (fun t => (p_kind (fst t), p_out (fst t))) ts ->
  net_draws true (map fst ts') n = net_draws true (map fst ts) n.
Proof.
  revert ts'. induction ts as [|t ts IH]; intros [|t' ts'] H; try discriminate; [reflexivity|]. cbn [map] in H. injection H as H1 H2 H3.
  unfold net_draws in *. cbn [map fold_right]. rewrite (IH ts' H3). f_equal. unfold player_draws, pdraws. now rewrite H1, H2.
Qed.
Lemma kinds_shape (ts ts' : list (player K * popt K)) : map (fun t => (p_kind (fst t), p_out (fst t))) ts' = map (fun t => (p_kind (fst t), p_out (fst t))) ts ->
  map p_kind (map fst ts') = map p_kind (map fst ts).
Proof. intros H. apply (f_equal (map fst)) in H. rewrite !map_map in *. exact H. Qed.

Lemma hand_is_train o X Y U : soft_stable -> X <> [] -> forall e (ts : list (player K * popt K)) q, soft_last (map p_kind (map fst ts)) -> length Y = length X ->
  ptrain_on CE o ts U q (epochs_of e (length X) X Y) = (hand_train e ts X Y U q, (q + e * net_draws true (map fst ts) (length X))%nat).
Proof.
  intros HS HX. induction e as [|e IH]; intros ts q HL HY.
  { cbn. now rewrite Nat.add_0_r. }
  assert (HYn : Y <> []) by (destruct X; [congruence|destruct Y; [discriminate|discriminate]]).
  assert (EE : forall e, epochs_of e (length X) X Y = repeat (X, Y) e).
  { intros n. unfold epochs_of. rewrite chunks_whole by (auto; lia). rewrite chunks_whole by (auto; lia). cbn [combine]. induction n as [|n IHn]; [reflexivity|]. cbn [repeat concat app]. f_equal. exact IHn. }
  rewrite EE in *. cbn [repeat ptrain_on hand_train]. unfold pbatch. rewrite (hand_is_backprop Y o HS) by exact HL.
  set (ts' := map _ (combine _ _)).
  assert (SH : map (fun t => (p_kind (fst t), p_out (fst t))) ts' = map (fun t => (p_kind (fst t), p_out (fst t))) ts).
  { apply tsteps_shape. rewrite pbackprop_len, map_length. reflexivity. }
  rewrite IH; [|rewrite (kinds_shape _ _ SH); exact HL|exact HY]. f_equal. rewrite (draws_shape _ _ _ SH). lia.
Qed.
Open Scope Z_scope.
Lemma hand_loop_fits (s : state K) m e1 e2 e3 x1 x2 x3 i o x rsx y rsy n X Y epochs bs xv yv :
  let es := [e1; e2; e3] in let xs := [x1; x2; x3] in
  soft_stable -> min_faithful K -> bs = 0 \/ bs = Z.of_nat n -> Z.of_nat n + bs <= 2 ^ 52 -> (1 <= n)%nat ->
  trainable s m es xs i o CE -> p_kind (e_p e3) = SoftmaxK -> data_ok s es x rsx y rsy n i o X Y ->
  exists s1 s2,
    hand_epochs epochs (e_ref e1) (e_ref e2) (e_ref e3) (x_ref x1) (x_ref x2) (x_ref x3) (MkLoss CE (Z.of_nat o)) x y (Z.of_nat n) s = (Ret true, s1) /\
    Fit m x y (Z.of_nat epochs) bs xv yv 0 s = (Ret tt, s2) /\ same_training s1 s2 m es xs i o CE.
Proof.
  intros es xs HS HM Hbs H52 Hn HT H3 HD.
  pose proof (wp_hand_epochs epochs s m e1 e2 e3 x1 x2 x3 i o x rsx y rsy n X Y HT H3 HD Hn) as H1. apply wp_ex in H1.
  destruct H1 as (b & s1 & E1 & -> & R1 & _). fold es xs in R1.
  assert (Hb0 : 0 <= bs) by (destruct Hbs; lia).
  destruct (fit_trains s m es xs i o CE x rsx y rsy n X Y (Z.of_nat epochs) bs xv yv HM Hb0 H52 Hn HT HD) as ([] & s2 & E2 & n2 & Q2 & R2 & _).
  exists s1, s2. split; [exact E1|]. split; [exact E2|].
  assert (EB : batch_rows n bs = n). { unfold batch_rows. destruct Hbs as [->| ->]; [reflexivity|]. destruct (Z.eqb_spec (Z.of_nat n) 0); [lia|]. apply Nat2Z.id. }
  assert (LX : length X = n) by (destruct HD as (HD & _); apply (own_shape _ _ _ _ _ _ HD)).
  assert (LY : length Y = n) by (destruct HD as (_ & HD & _); apply (own_shape _ _ _ _ _ _ HD)).
  rewrite EB, Nat2Z.id in *. rewrite <- LX in R2, Q2.
  assert (HXn : X <> []) by (intros ->; simpl in LX; lia).
  rewrite (hand_is_train o X Y _ HS HXn epochs (trainer es xs)) in R2, Q2 by (first [exact H3|congruence]).
  cbn [fst snd] in *. eapply results_agree; [exact R1|exact R2|].
  assert (LT : map fst (trainer es xs) = net es) by (apply trainer_net; reflexivity).
  rewrite LT, LX in Q2. lia.
Qed.
End AnyNum.

(** Over the reals clipping never matters. *)
Lemma R_soft_stable : soft_stable (K := RNum).
Proof.
  intros r c A. unfold pmap. transitivity (mk (K := RNum) r c (entry (psoftmax r c A))); [|apply mk_entry, shape_mk].
  apply mk_ext. intros i j Hi Hj. pose proof (softmax_range r c A i j Hi Hj). apply clipR_id. lra.
Qed.
Lemma B64_soft_stable (L : libm) : exp_nonneg L -> soft_stable (K := B64 L).
Proof. intros H r c A. now apply softmax_clip. Qed.
