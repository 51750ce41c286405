(** * ModelRefute: witnesses against statements about models, and small facts for PropModel and PropFit. *)
From Coq Require Import String ZArith List Bool Arith Lia QArith.
From Verif Require Import Num Heap Spec Matrix Misc Accuracy Loss Network Optimizers ModelGo PureSpec Repr HeapLemmas NumQ NumR NumB64 MatrixFacts OptSpec ModelSpec EvalProofs ModelFacts EvalFrame Ex ModelEx.
Import ListNotations.
Open Scope Z_scope.

Lemma semantics_faithful : (forall L, int_faithful (B64 L) /\ min_faithful (B64 L)) /\
  (int_faithful RNum /\ min_faithful RNum) /\ (int_faithful QNum /\ min_faithful QNum).
Proof.
  split; [intros L; split; [apply B64_int_faithful|apply B64_min_faithful]|].
  split; split; [apply RNum_int_faithful|apply RNum_min_faithful|apply QNum_int_faithful|apply QNum_min_faithful].
Qed.

Lemma predict_spec {K : Num} (s : state K) m es i o x rsx r X c P :
  consistent s m es i o -> (1 <= length es)%nat ->
  ppredict (m_acctype m) r o (pnet (net es) r X) = Some (c, P) ->
  own s x rsx r i X -> (1 <= r)%nat ->
  returns (Predict m x) s (fun out s' => exists rs, own s' out rs r c P /\ fresh s rs /\ NoDup rs /\
    forward_effect (map e_ref es) 0 s s').
Proof. intros. apply returns_wp. eapply wp_Predict; eauto. Qed.

Lemma finalize_not_atomic : exists (s : state QNum) m l o acctype prec m' e s',
  Finalize m l o acctype prec s = (Ret (m', Some e), s') /\ m_loss m = None /\ m_loss m' = Some l /\
  m_opts m = [] /\ m_opts m' <> [] /\ h_opts s' <> h_opts s.
Proof.
  exists mes, eM0, (MkLoss MSE 1), eO, 0, (-1#1)%Q. 
  assert (H : match Finalize eM0 (MkLoss MSE 1) eO 0 (-1#1)%Q mes with
    | (Ret (m', Some e), s') => m_loss m' = Some (MkLoss MSE 1) /\ m_opts m' = [3; 4; 5]%nat /\ length (h_opts s') = 6%nat
    | _ => False end) by (vm_compute; repeat split; reflexivity).
  destruct (Finalize eM0 (MkLoss MSE 1) eO 0 (-1#1)%Q mes) as [[[m' [e|]]|e|p] s'] eqn:E; try contradiction.
  destruct H as (H1 & H2 & H3). exists m', e, s'. split; [reflexivity|]. split; [reflexivity|]. split; [exact H1|]. split; [reflexivity|].
  split; [rewrite H2; discriminate|]. intros H. rewrite H in H3. discriminate.
Qed.

Lemma forward_empty : exists (s : state QNum) m es i o x, consistent s m es i o /\ mcols x <> Z.of_nat i /\
  exists outs s', Forward m x false s = (Ret outs, s').
Proof.
  exists mes, NewModel, [], 0%nat, 0%nat, eX. split; [repeat split; constructor|]. split; [discriminate|].
  exists [eX], mes. reflexivity.
Qed.

Definition empty_bin : model QNum := MkModel 0 2 2 0 None 2 0%Q 0 [] [] [].
Lemma evaluation_empty : exists (s : state QNum) m x rsx X y X' s', m_size m = 0 /\ own s x rsx 2 2 X /\
  ask m (QAccuracy x y) s = (Ret (ANum (1#1)%Q), s') /\ own s' x rsx 2 2 X' /\ X' <> X.
Proof.
  exists mes, empty_bin, eXv, [17; 18]%nat, pXv, eXv, [[q 1; q 1]; [q 1; q 0]], (snd (ask empty_bin (QAccuracy eXv eXv) mes)).
  split; [reflexivity|]. split; [exact own_eXv|]. split; [|split; [vm_compute; own_tac|discriminate]].
  destruct (ask empty_bin (QAccuracy eXv eXv) mes) as [a s'] eqn:E. cbn [snd]. f_equal.
  change a with (fst (a, s')). rewrite <- E. vm_compute. reflexivity.
Qed.
