(** Goroutines evaluating models on one heap. *)
From Coq Require Import String ZArith List Bool Arith Lia QArith.
From Verif Require Import Num NumQ Heap Spec Matrix Network Optimizers ModelGo PureSpec Repr OptSpec ModelSpec Ex ModelEx ShareSpec Share.
Import ListNotations.

(** C98: any number of goroutines evaluate models (different ones or the same) on one heap, switching after
    any layer; for every schedule nobody fails, every goroutine that had a turn for each of its layers holds
    the output of its network on its own input, and the models and inputs are as before.  In any arithmetic. *)
Theorem C98_shared {K : Num} (js : list (job K)) sch (s : state K) : Forall (job_ok s) js ->
  exists ts' s', turns sch (map (fun j => start (j_m j) (j_x j)) js) s = (Ret ts', s') /\ length ts' = length js /\
    Forall (job_ok s') js /\
    forall a j, nth_error js a = Some j -> (length (j_es j) <= turns_of a sch)%nat ->
      exists t rs, nth_error ts' a = Some t /\ th_todo t = [] /\ own s' (th_cur t) rs (j_r j) (j_o j) (pnet (net (j_es j)) (j_r j) (j_X j)).
Proof. exact (shared_evaluation js sch s). Qed.
Print Assumptions C98_shared.

(** C98: a goroutine running alone is Model.Forward. *)
Theorem C98_alone {K : Num} (s : state K) (m : model K) x outs s' : m_size m = Z.of_nat (length (m_layers m)) -> Forward m x false s = (Ret outs, s') ->
  turns (repeat 0%nat (length (m_layers m))) [start m x] s = (Ret [Th [] (last outs x)], s').
Proof. exact (alone s m x outs s'). Qed.
Print Assumptions C98_alone.

(** Three goroutines, two of them on the same model with different inputs. *)
Example C98_ex : Forall (job_ok mes) [Job eM eEs 2 1 eX [10;11;12]%nat 3 pXd; Job eM eEs 2 1 eXv [17;18]%nat 2 pXv; Job eM0 eEs 2 1 eX1 [16]%nat 1 [nth 1 pXd []]] /\
  (length eEs <= turns_of 1 [0;1;2;1;1;0;2])%nat /\
  match turns [0;1;2;1;1;0;2]%nat [start eM eX; start eM eXv; start eM0 eX1] mes with
  | (Ret [t0; t1; t2], s') => length (th_todo t0) = 1%nat /\ th_todo t1 = [] /\ length (th_todo t2) = 1%nat
  | _ => False end.
Proof.
  split; [|split; [vm_compute; repeat constructor|vm_compute; auto]].
  constructor; [|constructor; [|constructor; [|constructor]]].
  - split; [exact consistent_e|]. split; [repeat constructor|]. exact own_eX.
  - split; [exact consistent_e|]. split; [repeat constructor|]. exact own_eXv.
  - split; [exact consistent_e0|]. split; [repeat constructor|]. exact own_eX1.
Qed.
