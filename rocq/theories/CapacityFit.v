(** * CapacityFit: capacity results for models in memory. *)
From Coq Require Import ZArith List Bool Arith Lia Reals Lra.
From Verif Require Import Num NumR Heap Spec Matrix Loss Network Optimizers ModelGo PureSpec Repr HeapLemmas MatrixFacts MiscProofs MiscFacts RSum LayerReal LossProofs OptSpec ModelSpec EvalProofs FitProofs FitFacts ModelRefute Robust Params CapacitySpec Capacity.
Import ListNotations.
Open Scope R_scope.

(** The two layers with other parameters. *)
Definition newp (p : player RNum) (W B : rpm) : player RNum := PL (K := RNum) (p_kind p) (p_in p) (p_out p) W B (p_slope p) (p_drop p).
Lemma two_params s m es xs i o k n k2 W1 B1 W2 B2 : trainable s m es xs i o k -> one_hidden es n k2 ->
  shape (K := RNum) i n W1 -> shape (K := RNum) 1 n B1 -> shape (K := RNum) n o W2 -> shape (K := RNum) 1 o B2 ->
  exists s' es' p q, Forall2 same_place es es' /\ frame (among (prows es)) s s' /\ rest s s' /\ trainable s' m es' xs i o k /\ net es' = [p; q] /\
    p_kind p = Hidden /\ p_in p = i /\ p_out p = n /\ p_kind q = k2 /\ p_in q = n /\ p_out q = o /\ p_w p = W1 /\ p_b p = B1 /\ p_w q = W2 /\ p_b q = B2.
Proof.
  intros HT (e1 & e2 & -> & K1 & EN & K2) H1 H2 H3 H4. pose proof HT as ((_ & _ & _ & _ & HC & _) & _).
  cbn [net map chain] in HC. destruct HC as (C1 & C2 & C3).
  set (p := newp (e_p e1) W1 B1). set (q := newp (e_p e2) W2 B2).
  assert (HF : Forall2 fits_in [e1; e2] [p; q]).
  { constructor; [|constructor; [|constructor]]; (split; [repeat split|]); cbn [p q newp p_in p_out p_w p_b].
    - rewrite C1, EN. auto.
    - rewrite C2, C3, EN. auto. }
  destruct (set_params s m _ xs i o k _ HT HF) as (s' & F1 & F2 & F3).
  exists s', (refits [e1; e2] [p; q]), p, q. split; [now apply refits_places|]. do 3 (split; [assumption|]). split; [reflexivity|].
  cbn [p q newp p_kind p_in p_out p_w p_b]. repeat split; congruence.
Qed.
Lemma chain_end (es : list (lent RNum)) p q i o : net es = [p; q] -> chain i (net es) o -> p_out q = o.
Proof. intros -> (_ & _ & H). exact H. Qed.
Lemma shapes s m es xs i o k : trainable (K := RNum) s m es xs i o k -> (1 <= length es)%nat.
Proof. intros H. apply H. Qed.

Lemma memorise s m es xs i o k n x rsx y rsy r X Y : trainable s m es xs i o k -> one_hidden es n Linear -> data_ok s es x rsx y rsy r i o X Y ->
  (1 <= r <= n)%nat -> agree r i o X Y -> m_acctype m = 0%Z ->
  exists s' es', Forall2 same_place es es' /\ frame (among (prows es)) s s' /\ rest s s' /\ trainable s' m es' xs i o k /\
    returns (Predict m x) s' (fun out s'' => exists rs, own s'' out rs r o Y).
Proof.
  intros HT H1 (HX & HY & DX & DY) Hr HA HC.
  destruct (fit_net i o n r X Y ltac:(lia) HA) as (W1 & B1 & W2 & B2 & S1 & S2 & S3 & S4 & HN).
  destruct (two_params s m es xs i o k n Linear W1 B1 W2 B2 HT H1 S1 S2 S3 S4) as (s' & es' & p & q & P1 & P2 & P3 & P4 & EN & K1 & E1 & E2 & K2 & E3 & E4 & E5 & E6 & E7 & E8).
  exists s', es'. do 4 (split; [assumption|]).
  assert (EP : pnet (net es') r X = Y).
  { rewrite EN. cbn [pnet fold_left]. unfold pforward at 1, pact. rewrite K2.
    destruct HY as (_ & _ & _ & SY & _). rewrite <- (mk_entry r o Y SY). rewrite <- (mk_entry r o (paffine q r (pforward p r X))).
    - apply mk_ext. intros a j Ha Hj. apply HN; assumption.
    - unfold paffine, paff. rewrite E4. apply shape_mk. }
  destruct (predict_spec s' m es' i o x rsx r X o Y) as (out & s'' & E & rs & Q & _).
  - apply P4.
  - now apply (shapes _ _ _ _ _ _ _ P4).
  - unfold ppredict. rewrite HC, EP. reflexivity.
  - eapply own_frame; [exact HX|exact P2|]. intros z Hz HW. exact (DX z Hz HW).
  - lia.
  - exists out, s''. eauto.
Qed.
Lemma memorise_classes s m es xs i o k n x rsx y rsy r X Y : trainable s m es xs i o k -> one_hidden es n SoftmaxK -> data_ok s es x rsx y rsy r i o X Y ->
  (1 <= r <= n)%nat -> (Z.of_nat o <= 2 ^ 53)%Z -> agree r i o X Y -> one_hot r o Y -> m_acctype m = 1%Z ->
  exists s' es', Forall2 same_place es es' /\ frame (among (prows es)) s s' /\ rest s s' /\ trainable s' m es' xs i o k /\
    returns (CalculateAccuracy m x y) s' (fun v _ => v = 1).
Proof.
  intros HT H1 (HX & HY & DX & DY) Hr Ho HA HH HC.
  destruct (fit_net i o n r X Y ltac:(lia) HA) as (W1 & B1 & W2 & B2 & S1 & S2 & S3 & S4 & HN).
  destruct (two_params s m es xs i o k n SoftmaxK W1 B1 W2 B2 HT H1 S1 S2 S3 S4) as (s' & es' & p & q & P1 & P2 & P3 & P4 & EN & K1 & E1 & E2 & K2 & E3 & E4 & E5 & E6 & E7 & E8).
  exists s', es'. do 4 (split; [assumption|]).
  pose proof (wp_CalculateAccuracy s' m es' i o x rsx y rsy r X Y (categorical_accuracy (K := RNum) r o (pnet (net es') r X) Y) RNum_int_faithful Ho (proj1 P4) (shapes _ _ _ _ _ _ _ P4)
    ltac:(now rewrite HC)) as W.
  assert (OX : own s' x rsx r i X) by (eapply own_frame; [exact HX|exact P2|]; intros z Hz HW; exact (DX z Hz HW)).
  assert (OY : own s' y rsy r o Y) by (eapply own_frame; [exact HY|exact P2|]; intros z Hz HW; exact (DY z Hz HW)).
  specialize (W OX OY ltac:(lia)). apply returns_wp in W. destruct W as (v & s'' & E & -> & _). eexists _, s''. split; [exact E|].
  unfold categorical_accuracy. rewrite count_rows_all.
  - cbn [fdiv ofZ RNum]. apply Rinv_r. apply not_0_IZR. lia.
  - intros a Ha. cbn [feq RNum]. apply r_eqb_true.
    destruct (HH a Ha) as (c & Hc & HJ).
    rewrite (scan_ahead o _ c Hc).
    + rewrite HJ by exact Hc. rewrite Nat.eqb_refl. reflexivity.
    + rewrite EN. cbn [pnet fold_left]. unfold pforward at 1, pact. rewrite K2, E4. now apply R_softmax_pos.
    + intros j Hj HN'. rewrite EN. cbn [pnet fold_left]. unfold pforward at 1 3, pact. rewrite K2, E4. rewrite !R_softmax_entry by assumption.
      apply Rmult_lt_compat_r; [apply Rinv_0_lt_compat, R_expsum_pos; lia|]. apply exp_increasing.
      rewrite !HN by assumption. rewrite !HJ by assumption. rewrite Nat.eqb_refl. destruct (Nat.eqb_spec j c); [congruence|lra].
Qed.

(** ** Alternating targets *)
Lemma zig_net (p q : player RNum) n r : p_kind p = Hidden -> p_in p = 1%nat -> p_out p = n -> p_in q = n -> p_out q = 1%nat -> (2 * n + 3 <= r)%nat ->
  exists a, (a < r)%nat /\ 1 / 2 <= Rabs (entry (paffine q r (pforward p r (zigX r))) a 0 - entry (zigY r) a 0).
Proof.
  intros HK E1 E2 E3 E4 Hr.
  destruct (zig_miss n (fun k => entry (p_w p) 0 k) (fun k => entry (p_b p) 0 k) (fun k => entry (p_w q) k 0) (entry (p_b q) 0 0)) as (a & Ha & H).
  exists a. split; [lia|]. rewrite two_entry by (congruence || lia). rewrite E1, E3. unfold zigY. rewrite entry_mk by lia.
  match goal with |- _ <= Rabs (?u + _ - _) => replace u with (rsum n (fun k => unit_at (entry (p_w p) 0 k) (entry (p_b p) 0 k) (INR a) * entry (p_w q) k 0)); [exact H|] end.
  apply rsum_ext. intros k Hk. unfold unit_at. rewrite rsum_1. unfold zigX. now rewrite entry_mk by lia.
Qed.
Lemma zig_fails s m es n r x rsx : consistent s m es 1 1 -> one_hidden es n Linear -> (2 * n + 3 <= r)%nat -> m_acctype m = 0%Z -> own s x rsx r 1 (zigX r) ->
  returns (Predict m x) s (fun out s' => exists rs P, own s' out rs r 1 P /\ exists a, (a < r)%nat /\ 1 / 2 <= Rabs (entry P a 0 - entry (zigY r) a 0)).
Proof.
  intros HC (e1 & e2 & -> & K1 & EN & K2) Hr HM HX. pose proof HC as (_ & _ & _ & _ & (C1 & C2 & C3) & _).
  destruct (predict_spec s m _ 1 1 x rsx r (zigX r) 1 (pnet (net [e1; e2]) r (zigX r)) HC ltac:(simpl; lia) ltac:(unfold ppredict; now rewrite HM) HX ltac:(lia)) as (out & s' & E & rs & Q & _).
  exists out, s'. split; [exact E|]. exists rs, (pnet (net [e1; e2]) r (zigX r)). split; [exact Q|].
  cbn [net map pnet fold_left]. unfold pforward at 1, pact. rewrite K2. apply (zig_net _ _ n); congruence || lia.
Qed.
Lemma one_hidden_kept es es' n k2 : Forall2 same_place es es' -> one_hidden es n k2 -> one_hidden es' n k2.
Proof.
  intros H (e1 & e2 & -> & K1 & EN & K2). inversion H as [|? f1 ? ? A H']; subst. inversion H' as [|? f2 ? ? B H'']; subst. inversion H''; subst.
  destruct A as (_ & _ & _ & A1 & _ & A2 & _), B as (_ & _ & _ & B1 & _). exists f1, f2. split; [reflexivity|]. repeat split; congruence.
Qed.
Lemma zig_trained s m es xs k n r x rsx y rsy epochs bs xv yv : (0 <= bs)%Z -> (Z.of_nat r + bs <= 2 ^ 52)%Z ->
  trainable s m es xs 1 1 k -> one_hidden es n Linear -> (2 * n + 3 <= r)%nat -> m_acctype m = 0%Z -> data_ok s es x rsx y rsy r 1 1 (zigX r) (zigY r) ->
  exists s' out s'' rs P, Fit m x y epochs bs xv yv 0 s = (Ret tt, s') /\ Predict m x s' = (Ret out, s'') /\ own s'' out rs r 1 P /\
    exists a, (a < r)%nat /\ 1 / 2 <= Rabs (entry P a 0 - entry (zigY r) a 0).
Proof.
  intros Hb H52 HT H1 Hr HM HD.
  destruct (fit_trains s m es xs 1 1 k x rsx y rsy r (zigX r) (zigY r) epochs bs xv yv RNum_min_faithful Hb H52 ltac:(lia) HT HD) as ([] & s' & E & nn & _ & (es' & xs' & HT' & HPl & _) & HX & HY).
  destruct (zig_fails s' m es' n r x rsx (proj1 HT') (one_hidden_kept _ _ _ _ HPl H1) Hr HM HX) as (out & s'' & E2 & rs & P & Q & H).
  exists s', out, s'', rs, P. auto.
Qed.
