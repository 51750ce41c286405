(** * FlipRelu: with a ReLU last layer the predictions do not turn. *)
From Coq Require Import String ZArith List Bool Arith Lia Reals Lra.
From Verif Require Import Num NumR Heap Spec Matrix Loss Network Optimizers ModelGo PureSpec Repr HeapLemmas OptSpec ModelSpec FitFacts LayerReal ShiftEx FlipSpec FlipNum.
From Verif Require ModelRefute.
Import ListNotations.
Open Scope R_scope.

Lemma relu_predict b y : returns (Predict su_m su_x) (su_state b y) (fun P s' => exists rs A, own s' P rs 1 1 A /\ entry A 0 0 = Rmax (0 + 1 * 0 + b) 0).
Proof.
  destruct (su_trainable b y) as (HC & _ & HL & _).
  destruct (ModelRefute.predict_spec (su_state b y) su_m (su_es b) 1 1 su_x [3]%nat 1 [[1]] 1 (pnet (net (su_es b)) 1 [[1]]) HC HL) as (P & s' & E & rs & HO & _); [reflexivity|exact (proj1 (su_data b y))|lia|].
  exists P, s'. split; [exact E|]. exists rs, (pnet (net (su_es b)) 1 [[1]]). split; [exact HO|reflexivity].
Qed.
Lemma relu_not_turned : exists (s1 s2 : state RNum) m es1 es2 xs x rsx X t u, trainable s1 m es1 xs 1 1 MSE /\ trainable s2 m es2 xs 1 1 MSE /\ own s1 x rsx 1 1 X /\ own s2 x rsx 1 1 X /\
  trainer es1 xs = [t] /\ trainer es2 xs = [u] /\ p_kind (fst t) = Hidden /\ tturned true t u /\
  returns (Predict m x) s1 (fun P1 s1' => returns (Predict m x) s2 (fun P2 s2' => exists rs1 rs2 A B, own s1' P1 rs1 1 1 A /\ own s2' P2 rs2 1 1 B /\ ~ mturned true 1 1 A B)).
Proof.
  exists (su_state 1 0), (su_state (-1) 0), su_m, (su_es 1), (su_es (-1)), su_xs, su_x, [3]%nat, [[1]], (su_p 1, su_po), (su_p (-1), su_po).
  split; [apply su_trainable|]. split; [apply su_trainable|]. split; [exact (proj1 (su_data 1 0))|]. split; [exact (proj1 (su_data (-1) 0))|]. do 3 (split; [reflexivity|]). 
  assert (H1 : forall a b, b = - a -> mturned (K := RNum) true 1 1 [[a]] [[b]]).
  { intros a b E n j Hn Hj. assert (n = 0)%nat as -> by lia. assert (j = 0)%nat as -> by lia. apply turned_R. exact E. }
  assert (HZ : mturned (K := RNum) true 1 1 (zmat 1 1) (zmat 1 1)) by (change (zmat (K := RNum) 1 1) with ([[0]] : pm RNum); apply H1; lra).
  split.
  - split; [unfold lturned; cbn [fst su_p p_kind p_in p_out p_slope p_drop p_w p_b]; do 5 (split; [reflexivity|]); split; apply H1; lra|].
    unfold oturned. cbn [fst snd su_p p_in p_out su_po po_kind po_lr po_decay po_mom po_rate po_iter po_usedecay po_usemom po_eps po_b1 po_b2 po_wm po_bm po_wc po_bc].
    split; [left; reflexivity|]. do 11 (split; [reflexivity|]). split; [exact HZ|]. split; [exact HZ|]. split; intros n j _ _; left; reflexivity.
  - destruct (relu_predict 1 0) as (P1 & s1' & E1 & rs1 & A & HA & EA). destruct (relu_predict (-1) 0) as (P2 & s2' & E2 & rs2 & B & HB & EB).
    exists P1, s1'. split; [exact E1|]. exists P2, s2'. split; [exact E2|]. exists rs1, rs2, A, B. split; [exact HA|]. split; [exact HB|]. intros H. specialize (H 0%nat 0%nat ltac:(lia) ltac:(lia)). rewrite EA, EB in H. apply (proj1 (turned_R _ _ _)) in H.
    rewrite Rmax_right in H by lra. rewrite Rmax_left in H by lra. lra.
Qed.
