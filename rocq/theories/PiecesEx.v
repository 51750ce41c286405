(** * PiecesEx: thin models of every depth exist; a small model with data that bends too often. *)
From Coq Require Import ZArith List Bool Arith Lia Reals Lra.
From Verif Require Import Num NumR Heap Spec Matrix Loss Network Optimizers ModelGo PureSpec Repr HeapLemmas MatrixFacts MiscFacts RSum OptSpec ModelSpec FitFacts ModelRefute Session SessionProofs BalanceEx LinearSpec CapacitySpec CapacityEx DeepSpec Deep DeepEx PiecesSpec Pieces.
Import ListNotations.
Open Scope R_scope.

Lemma thin_linked n : linked (K := RNum) 1 (map ask (thin n)) /\ out_of (map ask (thin n)) = 1%nat /\ in_of (map ask (thin n)) = 1%nat.
Proof.
  unfold thin. cbn [map ask linked fst snd sp_in sp_out]. split; [split; [reflexivity|]|split; [|reflexivity]].
  - induction n as [|n IH]; [cbn; auto|]. cbn [repeat app map ask linked fst snd sp_in sp_out]. split; [reflexivity|]. exact IH.
  - unfold out_of. cbn [map]. rewrite map_map, map_app. cbn [map ask sp_out snd]. rewrite app_comm_cons. apply last_last.
Qed.
Lemma thin_exists n : exists s m es xs, trainable s m es xs 1 1 MSE /\ thin_net es n /\ m_acctype m = 0%Z.
Proof.
  destruct (thin_linked n) as (HL & EO & EI). destruct (dx_own 1 1) as (OX & OY).
  assert (HF : List.Forall spec_ok (map ask (thin n))).
  { apply List.Forall_map. apply List.Forall_forall. intros [[kd i] j] H. unfold spec_ok, ask. cbn [fst snd sp_in sp_out sp_kind].
    assert (Q : (kd = Hidden \/ kd = Linear) /\ (1 <= i <= 2)%nat /\ (1 <= j <= 2)%nat).
    { destruct H as [H|H]; [injection H as <- <- <-; split; [auto|lia]|]. apply in_app_or in H. destruct H as [H|[H|[]]]; [|injection H as <- <- <-; split; [auto|lia]].
      apply repeat_spec in H. injection H as -> -> ->. split; [auto|lia]. }
    destruct Q as (Q1 & Q2 & Q3). repeat (split; [lia|]). destruct Q1 as [-> | ->]; exact I. }
  pose proof (prepare_run (map ask (thin n)) MSE bl_sgd 0%Z 0 (dx_state 1 1) (MkMatrix (Z.of_nat 1) (Z.of_nat 1) (MkSlice 1 0 1)) [1%nat] (MkMatrix (Z.of_nat 1) (Z.of_nat 1) (MkSlice 2 0 1)) [2%nat] 1 (one_row 1) (one_row 1) 0%Z 0%Z
    RNum_int_faithful RNum_min_faithful ltac:(cbn; now apply r_eqb_true) ltac:(discriminate) HF) as P.
  rewrite EI, EO in P. specialize (P HL ltac:(cbn; apply r_ltb_false; lra) OX OY ltac:(lia) ltac:(lia) ltac:(lia)).
  destruct P as (m & s' & _ & es & xs & HT & _ & HA & _ & _ & HLk & _). exists s', m, es, xs. split; [exact HT|]. split; [|exact HA].
  unfold thin_net. rewrite (start_like _ _ _ HLk), map_map. unfold ask. cbn [sp_kind sp_in sp_out]. rewrite <- (map_id (thin n)) at 2. apply map_ext. intros [[? ?] ?]. reflexivity.
Qed.
(** Three hidden units and the nine points of depth 3: (3+1)^1 pieces. *)
Lemma ex_bent : trainable (cx_state 1 3 1 9 Linear (zigX 9) (zigY 9)) (cx_m 1 1 0) (cx_es 1 3 1 9 Linear) (cx_xs 1 3 1) 1 1 MSE /\ bent (cx_es 1 3 1 9 Linear) /\ pieces (net (cx_es 1 3 1 9 Linear)) = 4%nat /\
  data_ok (cx_state 1 3 1 9 Linear (zigX 9) (zigY 9)) (cx_es 1 3 1 9 Linear) (cx_x 1 9) (blk 1 3 1 9 4 9) (cx_y 1 9) (blk 1 3 1 9 5 9) 9 1 1 (zigX 9) (zigY 9) /\ m_acctype (cx_m 1 1 0) = 0%Z.
Proof.
  assert (S1 : shape (K := RNum) 9 1 (zigX 9)) by apply shape_mk. assert (S2 : shape (K := RNum) 9 1 (zigY 9)) by apply shape_mk.
  split; [apply cx_trainable; (discriminate || lia || assumption)|]. split; [repeat constructor; discriminate|]. split; [reflexivity|]. split; [apply cx_data; (discriminate || lia || assumption)|]. reflexivity.
Qed.
