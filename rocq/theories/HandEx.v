(** * HandEx: a network and data for the theorems about the hand-written training loop. *)
From Coq Require Import String ZArith List Bool Arith Lia Permutation.
From Flocq Require Import IEEE754.Bits IEEE754.BinarySingleNaN.
From Verif Require Import Num NumB64 LayerData Heap Spec Matrix Activation Misc Accuracy Network Loss Optimizers ModelGo ModelData CodecSpec CodecGlue Session
  PureSpec OptSpec ModelSpec HeapLemmas MatrixFacts LayerGlue Repr SessionProofs ModelProofs Tests TestProofs TestModels TestRuns.
Import ListNotations.
Open Scope Z_scope.

Lemma hand_any (K : Num) (s0 : state K) (half : K) n (sps : list (lspec K)) (new_opt : M K (optimizer K)) (opt : optimizer K) (prec : K) : int_faithful K -> feq (f0 : K) f0 = true -> (1 <= n)%nat ->
  (forall s, new_opt s = (Ret opt, s)) -> sps <> [] -> Forall spec_ok sps -> linked (in_of sps) sps -> flt prec f0 = false -> in_of sps = 1%nat -> out_of sps = 2%nat -> length sps = 3%nat ->
  map sp_kind sps = [Hidden; Hidden; SoftmaxK] ->
  exists (s : state K) m e1 e2 e3 x1 x2 x3 x rsx y rsy X Y,
  trainable s m [e1; e2; e3] [x1; x2; x3] 1 2 CE /\ p_kind (e_p e3) = SoftmaxK /\ data_ok s [e1; e2; e3] x rsx y rsy n 1 2 X Y /\ h_logger s = h_logger s0.
Proof.
  intros H1 H2 Hn HNew HNe HS HLk HPr Ei Eo HLen HK.
  pose proof (wp_test_data half n s0 Hn) as D. apply wp_ex in D. cbv zeta beta in D.
  destruct D as ([x y] & s1 & _ & rsx & rsy & HX & HY & _ & _ & _ & _ & _ & FR1 & RS1 & _ & HR). cbn [fst snd] in *.
  pose proof (wp_test_model H1 H2 sps CE new_opt opt 1 prec HNew HNe HS HLk HPr s1) as M.
  apply wp_ex in M. destruct M as (m & s & _ & es & xs & HT & HF & _ & _ & HN & HP & FR & HL). rewrite Ei, Eo in HT.
  assert (LS : forall z l, length (start_net (K := K) z l) = length l) by (intros z l; revert z; induction l; intros; [reflexivity|cbn [start_net length]; f_equal; auto]).
  assert (KS : forall z l, map p_kind (start_net (K := K) z l) = map sp_kind l) by (intros z l; revert z; induction l; intros; [reflexivity|cbn [start_net map]; f_equal; auto]).
  assert (LE : length es = 3%nat) by (rewrite <- HLen, <- (LS (normals s1) sps), <- HN; unfold net; now rewrite map_length).
  assert (LX : length xs = 3%nat). { destruct HT as (_ & _ & _ & _ & _ & F & _). apply Forall2_length in F. lia. }
  apply (f_equal (map p_kind)) in HN. rewrite KS, HK in HN.
  destruct es as [|e1 [|e2 [|e3 [|]]]]; try discriminate. destruct xs as [|x1 [|x2 [|x3 [|]]]]; try discriminate.
  exists s, m, e1, e2, e3, x1, x2, x3, x, rsx, y, rsy. eexists _, _. split; [exact HT|]. split; [cbn in HN; congruence|].
  split.
  { split; [eapply own_frame; [exact HX|exact FR|intros ? ? []]|]. split; [eapply own_frame; [exact HY|exact FR|intros ? ? []]|].
    split; intros v Hv Hv'; pose proof (fresh_in _ _ _ HP Hv').
    - pose proof (proj1 (Forall_forall _ _) (own_old _ _ _ _ _ _ HX) v Hv). simpl in *. lia.
    - pose proof (proj1 (Forall_forall _ _) (own_old _ _ _ _ _ _ HY) v Hv). simpl in *. lia. }
  rewrite HL. destruct RS1 as (_ & -> & _). reflexivity.
Qed.
(** A three-layer network with softmax and 100 rows of data, as in TestTrainModel: the hypotheses about the training loop. *)
Lemma hand_case (L : libm) (r : rng (B64 L)) logger : exists (s : state (B64 L)) m e1 e2 e3 x1 x2 x3 x rsx y rsy X Y,
  trainable s m [e1; e2; e3] [x1; x2; x3] 1 2 CE /\ p_kind (e_p e3) = SoftmaxK /\ data_ok s [e1; e2; e3] x rsx y rsy 100 1 2 X Y /\ h_logger s = logger.
Proof.
  destruct (codec_semantics L) as (H1 & H2 & _).
  apply (hand_any (B64 L) (start L r logger) (dec L 1 2) 100 [LSpec (K := B64 L) Hidden 1 8 f0; LSpec (K := B64 L) Hidden 8 8 f0; LSpec (K := B64 L) SoftmaxK 8 2 f0]
    (new_adam L (dec L 1 1000)) (adam_opt L (dec L 1 1000)) (z L 0) H1 H2); try reflexivity; try discriminate; try lia.
  - repeat constructor; simpl; try lia; discriminate.
  - simpl; auto.
Qed.
Lemma exp_case : exists L : libm, forall x, b64_lt (l_exp L x) (b64_ofZ 0) = false.
Proof.
  exists (MkLibm (fun x => if b64_lt x (b64_ofZ 0) then b64_ofZ 1 else x) (fun x => x) (fun x _ => x)). intros x. cbn [l_exp].
  destruct (b64_lt x (b64_ofZ 0)) eqn:E; [reflexivity|exact E].
Qed.
