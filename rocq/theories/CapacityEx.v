(** * CapacityEx: models with one hidden layer of any width, and data for them. *)
From Coq Require Import ZArith List Bool Arith Lia Reals Lra.
From Verif Require Import Num NumR Heap Spec Matrix Loss Network Optimizers ModelGo PureSpec Repr HeapLemmas LoopLemmas MatrixFacts MiscFacts RSum LayerFacts LayerReal LossProofs OptSpec ModelSpec ModelProofs FitProofs FitFacts NetGradCode LossRefute Ex ModelEx LinearSpec CapacitySpec Capacity CapacityFit Approx.
Import ListNotations.
Open Scope R_scope.

(** A matrix whose rows lie one after the other in memory. *)
Lemma own_block {K : Num} (s : state K) pre (A : pm K) post o r c : h_rows s = pre ++ A ++ post -> shape r c A -> nth_error (h_outs s) o = Some (seq (S (length pre)) r) ->
  own s (MkMatrix (Z.of_nat r) (Z.of_nat c) (MkSlice (S o) 0 r)) (seq (S (length pre)) r) r c A.
Proof.
  intros HR HS HO. unfold own. cbn [mrows mcols mdata sl_len]. do 3 (split; [reflexivity|]). split; [exact HS|]. split.
  - exists (seq (S (length pre)) r). cbn [sl_loc sl_off sl_len out_at]. split; [exact HO|]. rewrite seq_length. split; [lia|]. cbn [skipn]. symmetry. apply firstn_all2. rewrite seq_length. lia.
  - destruct HS as [HL _]. subst r. assert (G : forall B n, (forall k, nth_error (h_rows s) (n + k) = match nth_error B k with Some b => Some b | None => nth_error (h_rows s) (n + k) end) ->
      Forall2 (fun ref row => row_at s ref = Some row) (seq (S n) (length B)) B).
    { induction B as [|b B IH]; intros n H; [constructor|]. cbn [length seq]. constructor.
      - specialize (H 0%nat). rewrite Nat.add_0_r in H. exact H.
      - apply IH. intros k. specialize (H (S k)). rewrite Nat.add_succ_r in H. exact H. }
    apply G. intros k. rewrite HR. rewrite nth_error_app2 by lia. replace (length pre + k - length pre)%nat with k by lia.
    destruct (nth_error A k) eqn:E; [|reflexivity]. rewrite nth_error_app1; [exact E|]. apply nth_error_Some. congruence.
Qed.
Definition zeros (r c : nat) : rpm := repeat (repeat 0 c) r.
Lemma zeros_shape r c : shape (K := RNum) r c (zeros r c).
Proof. split; [apply repeat_length|]. apply Forall_forall. intros row H. apply repeat_spec in H. subst. apply repeat_length. Qed.
Definition cb (i n o r k : nat) : nat := nth k [0; i; i + 1; i + 1 + n; i + 1 + n + 1; i + 1 + n + 1 + r]%nat O.
Definition blk (i n o r k len : nat) : list nat := seq (S (cb i n o r k)) len.
Definition cx_state (i n o r : nat) (k2 : lkind) (X Y : rpm) : state RNum :=
  MkState (K := RNum) (zeros i n ++ zeros 1 n ++ zeros n o ++ zeros 1 o ++ X ++ Y)
    [blk i n o r 0 i; blk i n o r 1 1; blk i n o r 2 n; blk i n o r 3 1; blk i n o r 4 r; blk i n o r 5 r]
    [MkLayer (K := RNum) Hidden (Z.of_nat i) (Z.of_nat n) (MkMatrix (Z.of_nat i) (Z.of_nat n) (MkSlice 1 0 i)) (MkMatrix (Z.of_nat 1) (Z.of_nat n) (MkSlice 2 0 1)) 0 0 matrix0 matrix0;
     MkLayer (K := RNum) k2 (Z.of_nat n) (Z.of_nat o) (MkMatrix (Z.of_nat n) (Z.of_nat o) (MkSlice 3 0 n)) (MkMatrix (Z.of_nat 1) (Z.of_nat o) (MkSlice 4 0 1)) 0 0 matrix0 matrix0]
    [nr_o 1; nr_o 1] nr_rng true [].
Definition cx_es (i n o r : nat) (k2 : lkind) : list (lent RNum) :=
  [LE (K := RNum) 0 (blk i n o r 0 i) (blk i n o r 1 1) (PL (K := RNum) Hidden i n (zeros i n) (zeros 1 n) 0 0);
   LE (K := RNum) 1 (blk i n o r 2 n) (blk i n o r 3 1) (PL (K := RNum) k2 n o (zeros n o) (zeros 1 o) 0 0)].
Definition cx_po (i o : nat) : popt RNum :=
  PO (K := RNum) SGD 1 0 0 0 0 0 1 0 false false (zmat (K := RNum) i o) (zmat (K := RNum) 1 o) (zmat (K := RNum) i o) (zmat (K := RNum) 1 o).
Definition cx_xs (i n o : nat) : list (oent RNum) := [OE (K := RNum) 0 [] (cx_po i n); OE (K := RNum) 1 [] (cx_po n o)].
Definition cx_m (i o : nat) (acc : Z) : model RNum := MkModel (K := RNum) 2 (Z.of_nat i) (Z.of_nat o) 0 (Some (MkLoss MSE (Z.of_nat o))) acc 0 0 [] [0;1]%nat [0;1]%nat.
Definition cx_x (i r : nat) : matrix := MkMatrix (Z.of_nat r) (Z.of_nat i) (MkSlice 5 0 r).
Definition cx_y (o r : nat) : matrix := MkMatrix (Z.of_nat r) (Z.of_nat o) (MkSlice 6 0 r).
Section Ok.
Variables (i n o r : nat) (k2 : lkind) (X Y : rpm) (acc : Z).
Hypotheses (Hi : (1 <= i)%nat) (Hn : (1 <= n)%nat) (Ho : (1 <= o)%nat) (HK : k2 <> SigmoidK) (HX : shape (K := RNum) r i X) (HY : shape (K := RNum) r o Y).
Let s := cx_state i n o r k2 X Y.
Lemma zlen a b : length (zeros a b) = a.
Proof. apply repeat_length. Qed.
Ltac blk p q := let H := fresh in pose proof (own_block s p q) as H; rewrite ?app_length, ?zlen in H; simpl length in H.
Lemma cx_own : own s (MkMatrix (Z.of_nat i) (Z.of_nat n) (MkSlice 1 0 i)) (blk i n o r 0 i) i n (zeros i n) /\
  own s (MkMatrix (Z.of_nat 1) (Z.of_nat n) (MkSlice 2 0 1)) (blk i n o r 1 1) 1 n (zeros 1 n) /\
  own s (MkMatrix (Z.of_nat n) (Z.of_nat o) (MkSlice 3 0 n)) (blk i n o r 2 n) n o (zeros n o) /\
  own s (MkMatrix (Z.of_nat 1) (Z.of_nat o) (MkSlice 4 0 1)) (blk i n o r 3 1) 1 o (zeros 1 o) /\
  own s (cx_x i r) (blk i n o r 4 r) r i X /\ own s (cx_y o r) (blk i n o r 5 r) r o Y.
Proof.
  assert (LX : length X = r) by apply HX.
  assert (G : forall pre A post b k a c, zeros i n ++ zeros 1 n ++ zeros n o ++ zeros 1 o ++ X ++ Y = pre ++ A ++ post -> shape (K := RNum) a c A ->
    cb i n o r k = length pre -> nth_error (h_outs s) b = Some (blk i n o r k a) -> own s (MkMatrix (Z.of_nat a) (Z.of_nat c) (MkSlice (S b) 0 a)) (blk i n o r k a) a c A).
  { intros pre A post b k a c E HS HB HO. unfold blk in *. rewrite HB in *. eapply own_block; eauto. }
  split; [|split; [|split; [|split; [|split]]]].
  - apply (G [] (zeros i n) (zeros 1 n ++ zeros n o ++ zeros 1 o ++ X ++ Y)); [reflexivity|apply zeros_shape|reflexivity|reflexivity].
  - apply (G (zeros i n) (zeros 1 n) (zeros n o ++ zeros 1 o ++ X ++ Y)); [reflexivity|apply zeros_shape|now rewrite zlen|reflexivity].
  - apply (G (zeros i n ++ zeros 1 n) (zeros n o) (zeros 1 o ++ X ++ Y)); [now rewrite <- !app_assoc|apply zeros_shape|now rewrite app_length, !zlen|reflexivity].
  - apply (G (zeros i n ++ zeros 1 n ++ zeros n o) (zeros 1 o) (X ++ Y)); [now rewrite <- !app_assoc|apply zeros_shape|rewrite !app_length, !zlen; unfold cb; simpl; lia|reflexivity].
  - apply (G (zeros i n ++ zeros 1 n ++ zeros n o ++ zeros 1 o) X Y); [now rewrite <- !app_assoc|exact HX|rewrite !app_length, !zlen; unfold cb; simpl; lia|reflexivity].
  - apply (G (zeros i n ++ zeros 1 n ++ zeros n o ++ zeros 1 o ++ X) Y []); [now rewrite app_nil_r, <- !app_assoc|exact HY|rewrite !app_length, !zlen, LX; unfold cb; simpl; lia|reflexivity].
Qed.
Lemma cx_prows : prows (cx_es i n o r k2) = seq 1 (i + 1 + n + 1).
Proof.
  unfold prows, cx_es, blk, cb. cbn [map concat e_rw e_rb nth]. rewrite app_nil_r.
  rewrite !seq_app. rewrite <- !app_assoc. reflexivity.
Qed.
Lemma cx_trainable : trainable s (cx_m i o acc) (cx_es i n o r k2) (cx_xs i n o) i o MSE.
Proof.
  destruct cx_own as (O1 & O2 & O3 & O4 & _ & _).
  unfold trainable. split; [|split; [|split; [|split; [|split; [|split; [|split; [|split; [|split]]]]]]]].
  - unfold consistent. do 4 (split; [reflexivity|]). split; [simpl; auto|].
    constructor; [|constructor; [|constructor]]; (eexists; split; [reflexivity|]); unfold lown; cbn [p_kind p_in p_out p_slope p_drop p_w p_b l_kind l_in l_out l_w l_b l_slope l_drop e_rw e_rb e_p];
      repeat (split; [first [reflexivity|lia]|]); split; assumption.
  - split; [cbn; nd|]. rewrite cx_prows. apply seq_NoDup.
  - simpl; lia.
  - reflexivity.
  - nd.
  - repeat constructor; eexists; (split; [reflexivity|]); unfold oown, oscal; simpl; auto 20.
  - intros z _ Hz. simpl in Hz. exact Hz.
  - reflexivity.
  - reflexivity.
  - repeat constructor; cbn; [discriminate|exact HK].
Qed.
Lemma cx_data : data_ok s (cx_es i n o r k2) (cx_x i r) (blk i n o r 4 r) (cx_y o r) (blk i n o r 5 r) r i o X Y.
Proof.
  destruct cx_own as (_ & _ & _ & _ & O5 & O6). split; [exact O5|]. split; [exact O6|].
  split; intros z Hz HP; rewrite cx_prows in HP; unfold blk, cb in Hz; cbn [nth] in Hz; apply in_seq in HP, Hz; lia.
Qed.
Lemma cx_hidden : one_hidden (cx_es i n o r k2) n k2.
Proof. unfold one_hidden, cx_es. eexists _, _. split; [reflexivity|]. cbn. auto. Qed.
End Ok.
Lemma xor_agree : agree 4 2 1 xorX xorY.
Proof.
  intros a b Ha Hb H j Hj. assert (H0 := H 0%nat ltac:(lia)). assert (H1 := H 1%nat ltac:(lia)). destruct j; [|lia].
  destruct a as [|[|[|[|a]]]], b as [|[|[|[|b]]]]; try lia; try reflexivity; cbn in *; lra.
Qed.
Lemma xor_shapes : shape (K := RNum) 4 2 xorX /\ shape (K := RNum) 4 1 xorY /\ shape (K := RNum) 4 2 xorY2.
Proof. repeat split; repeat constructor. Qed.
Lemma xor_onehot : agree 4 2 2 xorX xorY2 /\ one_hot 4 2 xorY2.
Proof.
  split.
  - intros a b Ha Hb H j Hj. assert (H0 := H 0%nat ltac:(lia)). assert (H1 := H 1%nat ltac:(lia)).
    destruct a as [|[|[|[|a]]]], b as [|[|[|[|b]]]]; try lia; try reflexivity; destruct j as [|[|j]]; try lia; cbn in *; lra.
  - intros a Ha. exists (if (a =? 1)%nat || (a =? 2)%nat then 1%nat else 0%nat). destruct a as [|[|[|[|a]]]]; try lia; (split; [simpl; lia|]); intros [|[|j]] Hj; try lia; reflexivity.
Qed.
Lemma ex_memorise : trainable (cx_state 2 4 1 4 Linear xorX xorY) (cx_m 2 1 0) (cx_es 2 4 1 4 Linear) (cx_xs 2 4 1) 2 1 MSE /\ one_hidden (cx_es 2 4 1 4 Linear) 4 Linear /\
  data_ok (cx_state 2 4 1 4 Linear xorX xorY) (cx_es 2 4 1 4 Linear) (cx_x 2 4) (blk 2 4 1 4 4 4) (cx_y 1 4) (blk 2 4 1 4 5 4) 4 2 1 xorX xorY /\ agree 4 2 1 xorX xorY /\ m_acctype (cx_m 2 1 0) = 0%Z.
Proof.
  destruct xor_shapes as (S1 & S2 & _).
  split; [apply cx_trainable; (discriminate || lia || assumption)|]. split; [apply cx_hidden|]. split; [apply cx_data; (discriminate || lia || assumption)|]. split; [exact xor_agree|reflexivity].
Qed.
Lemma ex_classes : trainable (cx_state 2 4 2 4 SoftmaxK xorX xorY2) (cx_m 2 2 1) (cx_es 2 4 2 4 SoftmaxK) (cx_xs 2 4 2) 2 2 MSE /\ one_hidden (cx_es 2 4 2 4 SoftmaxK) 4 SoftmaxK /\
  data_ok (cx_state 2 4 2 4 SoftmaxK xorX xorY2) (cx_es 2 4 2 4 SoftmaxK) (cx_x 2 4) (blk 2 4 2 4 4 4) (cx_y 2 4) (blk 2 4 2 4 5 4) 4 2 2 xorX xorY2 /\
  agree 4 2 2 xorX xorY2 /\ one_hot 4 2 xorY2 /\ m_acctype (cx_m 2 2 1) = 1%Z.
Proof.
  destruct xor_shapes as (S1 & _ & S2).
  split; [apply cx_trainable; (discriminate || lia || assumption)|]. split; [apply cx_hidden|]. split; [apply cx_data; (discriminate || lia || assumption)|].
  destruct xor_onehot. auto.
Qed.
Lemma ex_zig n r : (1 <= n)%nat -> (2 * n + 3 <= r)%nat -> trainable (cx_state 1 n 1 r Linear (zigX r) (zigY r)) (cx_m 1 1 0) (cx_es 1 n 1 r Linear) (cx_xs 1 n 1) 1 1 MSE /\ one_hidden (cx_es 1 n 1 r Linear) n Linear /\
  data_ok (cx_state 1 n 1 r Linear (zigX r) (zigY r)) (cx_es 1 n 1 r Linear) (cx_x 1 r) (blk 1 n 1 r 4 r) (cx_y 1 r) (blk 1 n 1 r 5 r) r 1 1 (zigX r) (zigY r) /\ m_acctype (cx_m 1 1 0) = 0%Z.
Proof.
  intros Hn Hr. split; [apply cx_trainable; (discriminate || lia || apply shape_mk)|]. split; [apply cx_hidden|]. split; [apply cx_data; (discriminate || lia || apply shape_mk)|reflexivity].
Qed.
Lemma ex_cont : continuous_on (-1) 1 Rabs.
Proof. intros x _. apply Rcontinuity_abs. Qed.
