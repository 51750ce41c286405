(** * DeepEx: deep models exist; a narrow model with data. *)
From Coq Require Import ZArith List Bool Arith Lia Reals Lra.
From Verif Require Import Num NumR Heap Spec Matrix Loss Network Optimizers ModelGo PureSpec Repr HeapLemmas MatrixFacts MiscFacts RSum OptSpec ModelSpec FitFacts ModelRefute Session SessionProofs BalanceEx LinearSpec CapacitySpec CapacityEx DeepSpec Deep.
Import ListNotations.
Open Scope R_scope.

(** The layers that the code is asked to build. *)
Definition ask (a : lkind * nat * nat) : lspec RNum := LSpec (K := RNum) (fst (fst a)) (snd (fst a)) (snd a) 0.
Definition one_row (n : nat) : rpm := mk (K := RNum) 1 n (fun _ _ => 0).
Definition dx_state (d o : nat) : state RNum :=
  MkState (K := RNum) (one_row d ++ one_row o) [[1]; [2]]%nat [] [] (MkRng (K := RNum) (fun n => INR n) (fun _ => 0) (fun _ => 0%Z) 0 0 0) false [].
Lemma dx_own d o : own (dx_state d o) (MkMatrix (Z.of_nat 1) (Z.of_nat d) (MkSlice 1 0 1)) [1%nat] 1 d (one_row d) /\
  own (dx_state d o) (MkMatrix (Z.of_nat 1) (Z.of_nat o) (MkSlice 2 0 1)) [2%nat] 1 o (one_row o).
Proof.
  split.
  - apply (own_block (dx_state d o) [] (one_row d) (one_row o) 0 1 d); [reflexivity|apply shape_mk|reflexivity].
  - apply (own_block (dx_state d o) (one_row d) (one_row o) [] 1 1 o); [cbn [dx_state h_rows]; now rewrite app_nil_r|apply shape_mk|reflexivity].
Qed.
Lemma start_like (sps : list (lspec RNum)) : forall z ps, Forall2 like (start_net z sps) ps -> map (fun p => (p_kind p, p_in p, p_out p)) ps = map (fun sp => (sp_kind sp, sp_in sp, sp_out sp)) sps.
Proof.
  induction sps as [|sp sps IH]; intros z ps H; cbn [start_net] in H; inversion H as [|? p ? ps' H1 H2]; subst; [reflexivity|].
  cbn [map]. f_equal; [|exact (IH _ _ H2)]. destruct H1 as (-> & -> & -> & _). reflexivity.
Qed.
Lemma tower_linked d o n : linked (K := RNum) d (map ask (tower d o n)) /\ out_of (map ask (tower d o n)) = o /\ in_of (map ask (tower d o n)) = d.
Proof.
  unfold tower. cbn [map ask linked fst snd sp_in sp_out]. split; [split; [reflexivity|]|split; [|reflexivity]].
  - induction n as [|n IH]; [cbn; auto|]. cbn [repeat concat app map ask linked fst snd sp_in sp_out]. split; [reflexivity|]. split; [reflexivity|]. exact IH.
  - unfold out_of. cbn [map]. rewrite map_map, map_app. cbn [map ask sp_out snd]. rewrite app_comm_cons. apply last_last.
Qed.
Lemma deep_exists d o n : (1 <= d)%nat -> (1 <= o)%nat -> (Z.of_nat (d + o + d + 1) < 2 ^ 31)%Z ->
  exists s m es xs, trainable s m es xs d o MSE /\ deep es d o n /\ m_acctype m = 0%Z.
Proof.
  intros Hd Ho HS. destruct (tower_linked d o n) as (HL & EO & EI). destruct (dx_own d o) as (OX & OY).
  assert (HF : List.Forall spec_ok (map ask (tower d o n))).
  { apply List.Forall_map. apply List.Forall_forall. intros [[kd i] j] H. unfold spec_ok, ask. cbn [fst snd sp_in sp_out sp_kind].
    assert (Q : (kd = Hidden \/ kd = Linear) /\ (1 <= i <= d + o + d + 1)%nat /\ (1 <= j <= d + o + d + 1)%nat).
    { destruct H as [H|H]; [injection H as <- <- <-; split; [auto|lia]|]. apply in_app_or in H. destruct H as [H|[H|[]]]; [|injection H as <- <- <-; split; [auto|lia]].
      apply in_concat in H. destruct H as (l & H1 & H2). apply repeat_spec in H1. subst l. destruct H2 as [H|[H|[]]]; injection H as <- <- <-; (split; [auto|lia]). }
    destruct Q as (Q1 & Q2 & Q3). repeat (split; [lia|]). destruct Q1 as [-> | ->]; exact I. }
  pose proof (prepare_run (map ask (tower d o n)) MSE bl_sgd 0%Z 0 (dx_state d o) (MkMatrix (Z.of_nat 1) (Z.of_nat d) (MkSlice 1 0 1)) [1%nat] (MkMatrix (Z.of_nat 1) (Z.of_nat o) (MkSlice 2 0 1)) [2%nat] 1 (one_row d) (one_row o) 0%Z 0%Z
    RNum_int_faithful RNum_min_faithful ltac:(cbn; now apply r_eqb_true) ltac:(discriminate) HF) as P.
  rewrite EI, EO in P. specialize (P HL ltac:(cbn; apply r_ltb_false; lra) OX OY ltac:(lia) ltac:(lia) ltac:(lia)).
  destruct P as (m & s' & _ & es & xs & HT & _ & HA & _ & _ & HLk & _). exists s', m, es, xs. split; [exact HT|]. split; [|exact HA].
  unfold deep. rewrite (start_like _ _ _ HLk), map_map. unfold ask. cbn [sp_kind sp_in sp_out]. rewrite <- (map_id (tower d o n)) at 2. apply map_ext. intros [[? ?] ?]. reflexivity.
Qed.
(** Two inputs, one hidden unit. *)
Lemma ex_narrow : trainable (cx_state 2 1 1 4 Linear xorX xorY) (cx_m 2 1 0) (cx_es 2 1 1 4 Linear) (cx_xs 2 1 1) 2 1 MSE /\ narrow (cx_es 2 1 1 4 Linear) 2 /\
  data_ok (cx_state 2 1 1 4 Linear xorX xorY) (cx_es 2 1 1 4 Linear) (cx_x 2 4) (blk 2 1 1 4 4 4) (cx_y 1 4) (blk 2 1 1 4 5 4) 4 2 1 xorX xorY /\ m_acctype (cx_m 2 1 0) = 0%Z.
Proof.
  destruct xor_shapes as (S1 & S2 & _).
  split; [apply cx_trainable; (discriminate || lia || assumption)|]. split; [eexists _, _; split; [reflexivity|]; cbn; lia|]. split; [apply cx_data; (discriminate || lia || assumption)|]. reflexivity.
Qed.
