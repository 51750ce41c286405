(** * RoundEx: a float64 network with its error bound, and one whose rounding changes the predicted class. *)
From Coq Require Import String ZArith List Bool Arith Lia Reals Lra Psatz.
From Flocq Require Import IEEE754.BinarySingleNaN IEEE754.Binary IEEE754.Bits.
From Verif Require Import Num NumR NumB64 Heap Spec Matrix Network ModelGo PureSpec Repr HeapLemmas OptSpec ModelSpec RSum CodecEx Ex ModelEx RoundSpec Rounding RoundProofs.
Import ListNotations.
Open Scope R_scope.

Lemma bz_R z : (Z.abs z <= 2 ^ 53)%Z -> b64_R (bz z) = IZR z.
Proof. intros H. apply (ofZ_exact z H). Qed.

Section Ex.
Context (L : libm).
Notation BN := (B64 L).
(** ReLU 3 -> 2, then leaky ReLU 2 -> 2 with slope 2. *)
Definition rd_rows : list (list BN) := [[bz 2; bz 0]; [bz 2; bz 1]; [bz 2; bz 0]; [bz 0; bz 0]; [bz 1; bz 0]; [bz 0; bz 1]; [bz 1; bz (-3)]; [bz 1; bz 2; bz 3]; [bz (2 ^ 53); bz 1; bz (- 2 ^ 53)]].
Definition rd_outs : list (list nat) := [[1;2;3]; [4]; [5;6]; [7]; [8]; [9]]%nat.
Definition rd_state : state BN :=
  MkState rd_rows rd_outs
    [MkLayer Hidden 3 2 (MkMatrix 3 2 (MkSlice 1 0 3)) (MkMatrix 1 2 (MkSlice 2 0 1)) f0 f0 matrix0 matrix0;
     MkLayer Leaky 2 2 (MkMatrix 2 2 (MkSlice 3 0 2)) (MkMatrix 1 2 (MkSlice 4 0 1)) (bz 2 : BN) f0 matrix0 matrix0]
    [] (c_rng L) true [].
Definition rd_p0 : player BN := PL (K := BN) Hidden 3 2 [[bz 2; bz 0]; [bz 2; bz 1]; [bz 2; bz 0]] [[bz 0; bz 0]] f0 f0.
Definition rd_p1 : player BN := PL (K := BN) Leaky 2 2 [[bz 1; bz 0]; [bz 0; bz 1]] [[bz 1; bz (-3)]] (bz 2 : BN) f0.
Definition rd_m (acc : Z) : model BN := MkModel 2 3 2 0 None acc (f0 : BN) 0 [] [0;1]%nat [].
Definition rd_es : list (lent BN) := [LE 0 [1;2;3]%nat [4]%nat rd_p0; LE 1 [5;6]%nat [7]%nat rd_p1].
Definition rd_x : matrix := MkMatrix 1 3 (MkSlice 5 0 1).
Definition rd_X : pm BN := [[bz 1; bz 2; bz 3]].
Lemma rd_consistent acc : consistent rd_state (rd_m acc) rd_es 3 2.
Proof. repeat (split; [reflexivity|]). split; [simpl; auto|]. repeat (constructor; [eexists; split; [reflexivity|lown_tac]|]). constructor. Qed.
Lemma rd_own : own rd_state rd_x [8]%nat 1 3 rd_X.
Proof. own_tac. Qed.

Lemma rd_dot : own rd_state (MkMatrix 3 2 (MkSlice 1 0 3)) [1;2;3]%nat 3 2 (p_w rd_p0) /\
  match (D <- Dot rd_x (MkMatrix 3 2 (MkSlice 1 0 3)) ;; getc D 0 0)%go rd_state with (Ret v, _) => b64_toZ v = 12%Z | _ => False end.
Proof. split; [own_tac|vm_compute; reflexivity]. Qed.
Lemma rd_finite : List.Forall (finite_layer L) (net (rd_es)).
Proof.
  apply List.Forall_cons; [|apply List.Forall_cons; [|apply List.Forall_nil]]; (split; [simpl; auto|]; split; [reflexivity|]; split).
  - intros [|[|[|i]]] [|[|j]] Hi Hj; simpl in Hi, Hj; try lia; reflexivity.
  - intros [|[|j]] Hj; simpl in Hj; try lia; reflexivity.
  - intros [|[|i]] [|[|j]] Hi Hj; simpl in Hi, Hj; try lia; reflexivity.
  - intros [|[|j]] Hj; simpl in Hj; try lia; reflexivity.
Qed.
Definition rd_Y : pm RNum := real_mat L 1 3 rd_X.
Definition rd_E : pm RNum := mk 1 3 (fun _ _ => 0).
Lemma rd_within : within L 1 3 rd_X rd_Y rd_E.
Proof.
  intros i j Hi Hj. split.
  - destruct i; [|lia]. destruct j as [|[|[|j]]]; try lia; reflexivity.
  - unfold rd_Y, rd_E, real_mat. rewrite !entry_mk by assumption. rewrite Rminus_eq_0, Rabs_R0. apply Rle_refl.
Qed.
Lemma small : 0 < u64 <= / 1024 /\ 0 < eta64 <= / 1024.
Proof.
  split; (split; [apply u64_pos || apply eta64_pos|]); unfold u64, eta64; (apply Rinv_le_contravar; [lra|]).
  - replace 1024 with (2 ^ 10) by ring. apply Rle_pow; [lra|lia].
  - replace 1024 with (2 ^ 10) by ring. apply Rle_pow; [lra|lia].
Qed.
Lemma dot_small n a : 0 <= a -> dot_bound n a <= ((1 + / 1024) ^ (n + 1) - 1) * a + INR n * / 1024 * (1 + / 1024) ^ n.
Proof.
  intros Ha. destruct small as (U & T). unfold dot_bound. pose proof (pos_INR n).
  assert (P : forall k, 0 <= (1 + u64) ^ k <= (1 + / 1024) ^ k) by (intros k; split; [apply pow_le; lra|apply pow_incr; lra]).
  apply Rplus_le_compat; [apply Rmult_le_compat_r; [exact Ha|]; specialize (P (n + 1)%nat); lra|].
  apply Rmult_le_compat; [apply Rmult_le_pos; lra|apply P| |apply P]. apply Rmult_le_compat_l; lra.
Qed.
Lemma e0 j : (j < 2)%nat -> size_of L rd_p0 rd_Y rd_E 0 j = match j with O => 12 | _ => 2 end.
Proof.
  intros Hj. destruct j as [|[|j]]; try lia; unfold size_of, weighted; cbn [rd_p0 p_in p_w]; rewrite !rsum_S, rsum_0; cbn -[b64_R Rabs IZR];
   rewrite !bz_R by (simpl; lia); rewrite ?Rabs_pos_eq by lra; lra.
Qed.

Lemma weighted_zero p Y i j : weighted L p (fun n => entry (K := RNum) (mk Y (p_in p) (fun _ _ => 0)) i n) j = 0 \/ (Y <= i)%nat.
Proof.
  destruct (le_lt_dec Y i) as [H|H]; [right; exact H|left]. unfold weighted. rewrite (rsum_ext _ _ (fun _ => 0)); [apply rsum_zero|].
  intros n Hn. rewrite entry_mk by assumption. apply Rmult_0_l.
Qed.
(** A crude bound for sizes up to 14 and at most three inputs. *)
Lemma crude n a b : (n <= 3)%nat -> 0 <= a <= 14 -> 0 <= b <= 3 -> 0 <= dot_bound n a * (1 + u64) + (a + b) * u64 <= / 10 /\ dot_bound n a <= 1.
Proof.
  intros Hn Ha Hb. destruct small as (U & T). pose proof (dot_bound_nonneg n a (proj1 Ha)) as D0. pose proof (dot_small n a (proj1 Ha)) as D1.
  assert (D : dot_bound n a <= / 14).
  { eapply Rle_trans; [exact D1|]. destruct n as [|[|[|[|n]]]]; try lia; cbn [Nat.add pow INR]; lra. }
  split; [split|lra].
  - apply Rplus_le_le_0_compat; apply Rmult_le_pos; lra.
  - apply Rle_trans with (/ 14 * (1 + / 1024) + 17 * / 1024); [|lra]. apply Rplus_le_compat; apply Rmult_le_compat; lra.
Qed.
Lemma err0 j : (j < 2)%nat -> 0 <= affine_err L rd_p0 rd_Y rd_E 0 j <= / 10.
Proof.
  intros Hj. unfold affine_err. cbv zeta. rewrite e0 by exact Hj.
  destruct (weighted_zero rd_p0 1 0 j) as [W|W]; [|lia]. change (mk 1 (p_in rd_p0) (fun _ _ => 0)) with rd_E in W. rewrite W, Rplus_0_l.
  apply crude; [simpl; lia|destruct j; lra|].
  destruct j as [|[|j]]; try lia; cbn -[b64_R Rabs IZR]; rewrite bz_R by (simpl; lia); rewrite Rabs_R0; lra.
Qed.
Lemma exact0 j : (j < 2)%nat -> entry (pforward (exact_layer L rd_p0) 1 rd_Y) 0 j = match j with O => 12 | _ => 2 end.
Proof.
  intros Hj. destruct j as [|[|j]]; try lia; cbn -[b64_R Rmax IZR]; rewrite !bz_R by (simpl; lia); rewrite Rmax_left; lra.
Qed.
Notation Y1 := (pforward (exact_layer L rd_p0) 1 rd_Y).
Notation E1 := (layer_err L rd_p0 1 rd_Y rd_E).
Lemma E1_small j : (j < 2)%nat -> 0 <= entry E1 0 j <= / 10.
Proof. intros Hj. unfold layer_err. rewrite entry_mk by (assumption || (simpl; lia)). apply err0, Hj. Qed.
Lemma w_entry i j : (i < 2)%nat -> (j < 2)%nat -> Rabs (b64_R (entry (p_w rd_p1) i j)) = if (i =? j)%nat then 1 else 0.
Proof.
  intros Hi Hj. destruct i as [|[|i]], j as [|[|j]]; try lia; cbn -[b64_R Rabs IZR]; rewrite bz_R by (simpl; lia); first [apply Rabs_R1|apply Rabs_R0].
Qed.
Lemma b_entry j : (j < 2)%nat -> b64_R (entry (p_b rd_p1) 0 j) = match j with O => 1 | _ => -3 end.
Proof. intros Hj. destruct j as [|[|j]]; try lia; cbn -[b64_R IZR]; rewrite bz_R by (simpl; lia); reflexivity. Qed.
Lemma weighted1 V j : (j < 2)%nat -> weighted L rd_p1 V j = V j.
Proof.
  intros Hj. unfold weighted. change (p_in rd_p1) with 2%nat. rewrite !rsum_S, rsum_0, !w_entry by (assumption || lia).
  destruct j as [|[|j]]; try lia; cbn [Nat.eqb]; ring.
Qed.
Lemma size1 j : (j < 2)%nat -> 0 <= size_of L rd_p1 Y1 E1 0 j <= 13.
Proof.
  intros Hj. unfold size_of. rewrite weighted1, exact0 by exact Hj. pose proof (E1_small j Hj). destruct j; rewrite Rabs_pos_eq by lra; lra.
Qed.
Lemma err1 j : (j < 2)%nat -> 0 <= affine_err L rd_p1 Y1 E1 0 j <= / 5.
Proof.
  intros Hj. unfold affine_err. cbv zeta. rewrite weighted1 by exact Hj. pose proof (E1_small j Hj) as H. pose proof (size1 j Hj) as S1.
  destruct (crude 2 (size_of L rd_p1 Y1 E1 0 j) (Rabs (b64_R (entry (p_b rd_p1) 0 j)))) as (C & _); [lia|lra| |change (p_in rd_p1) with 2%nat; lra].
  rewrite b_entry by exact Hj. destruct j; [rewrite Rabs_R1; lra|]. rewrite Rabs_left by lra. lra.
Qed.
Lemma aff1 j : (j < 2)%nat -> entry (paffine (exact_layer L rd_p1) 1 Y1) 0 j = match j with O => 13 | _ => -1 end.
Proof.
  intros Hj. destruct j as [|[|j]]; try lia; cbn -[b64_R Rmax IZR]; rewrite !bz_R by (simpl; lia); rewrite !Rmax_left by lra; lra.
Qed.
Lemma slope1 : b64_R (p_slope rd_p1) = 2.
Proof. apply (bz_R 2). simpl; lia. Qed.
Lemma big x : x <= 1024 -> x <= 2 ^ 1023.
Proof. intros H. eapply Rle_trans; [exact H|]. replace 1024 with (2 ^ 10) by ring. apply Rle_pow; [lra|lia]. Qed.
Lemma rd_fits : net_fits L (net rd_es) 1 rd_Y rd_E.
Proof.
  split; [change (layer_fits L rd_p0 1 rd_Y rd_E)|split; [change (layer_fits L rd_p1 1 Y1 E1)|exact I]]; intros i j Hi Hj; (destruct i; [|lia]); cbv zeta.
  - change (j < 2)%nat in Hj. split; [|discriminate]. rewrite e0 by exact Hj. destruct (crude 3 (match j with O => 12 | _ => 2 end) 0) as (_ & C); [lia|destruct j; lra|lra|].
    change (p_in rd_p0) with 3%nat.
    assert (B : Rabs (b64_R (entry (p_b rd_p0) 0 j)) = 0) by (destruct j as [|[|j]]; try lia; cbn -[b64_R Rabs IZR]; rewrite bz_R by (simpl; lia); apply Rabs_R0).
    rewrite B. apply big. destruct j; lra.
  - change (j < 2)%nat in Hj. pose proof (size1 j Hj) as S1.
    assert (B : 0 <= Rabs (b64_R (entry (p_b rd_p1) 0 j)) <= 3) by (rewrite b_entry by exact Hj; destruct j; [rewrite Rabs_R1; lra|rewrite Rabs_left by lra; lra]).
    destruct (crude 2 (size_of L rd_p1 Y1 E1 0 j) (Rabs (b64_R (entry (p_b rd_p1) 0 j)))) as (_ & C); [lia|lra|exact B|].
    split; [change (p_in rd_p1) with 2%nat; apply big; lra|]. intros _. apply big. rewrite slope1, aff1 by exact Hj. pose proof (err1 j Hj).
    rewrite (Rabs_pos_eq 2) by lra. destruct j; [rewrite Rabs_pos_eq by lra; lra|rewrite Rabs_left by lra; lra].
Qed.
Lemma rd_final : entry (pnet (map (exact_layer L) (net rd_es)) 1 rd_Y) 0 0 = 13 /\ entry (pnet (map (exact_layer L) (net rd_es)) 1 rd_Y) 0 1 = -2.
Proof.
  change (pnet (map (exact_layer L) (net rd_es)) 1 rd_Y) with (pforward (exact_layer L rd_p1) 1 Y1). unfold pforward at 1 3, pact.
  change (p_kind (exact_layer L rd_p1)) with Leaky. cbv iota. unfold pmap. rewrite !entry_mk by (simpl; lia). rewrite !aff1 by lia.
  unfold act1. change (p_kind (exact_layer L rd_p1)) with Leaky. cbv iota. change (p_slope (exact_layer L rd_p1)) with (b64_R (p_slope rd_p1)). rewrite slope1. unfold leaky1.
  change (flt (n := RNum) 13 f0) with (r_ltb 13 0). change (flt (n := RNum) (-1) f0) with (r_ltb (-1) 0).
  replace (r_ltb 13 0) with false by (symmetry; apply r_ltb_false; lra). replace (r_ltb (-1) 0) with true by (symmetry; apply r_ltb_true; lra).
  split; [reflexivity|]. change (-1 * 2 = -2). lra.
Qed.
Lemma rd_error j : (j < 2)%nat -> entry (net_err L (net rd_es) 1 rd_Y rd_E) 0 j <= 1.
Proof.
  intros Hj. change (net_err L (net rd_es) 1 rd_Y rd_E) with (layer_err L rd_p1 1 Y1 E1). unfold layer_err at 1. rewrite entry_mk by (assumption || (simpl; lia)). cbv zeta.
  change (p_kind rd_p1) with Leaky. cbv iota. rewrite slope1, aff1 by exact Hj. pose proof (err1 j Hj) as H. destruct small as (U & T). rewrite (Rabs_pos_eq 2), Rmax_right by lra.
  assert (A : Rabs (match j with O => 13 | _ => -1 end) <= 13) by (destruct j; [rewrite Rabs_pos_eq by lra; lra|rewrite Rabs_left by lra; lra]).
  set (e := affine_err L rd_p1 Y1 E1 0 j) in *. set (z := Rabs (match j with O => 13 | _ => -1 end)) in *. assert (0 <= z) by apply Rabs_pos.
  assert (u64 * (2 * (z + e)) <= / 1024 * 28) by (apply Rmult_le_compat; lra). change (2 * e + (u64 * (2 * (z + e)) + eta64) <= 1). lra.
Qed.
Lemma rd_wins : wins 2 (pnet (map (exact_layer L) (net rd_es)) 1 rd_Y) (net_err L (net rd_es) 1 rd_Y rd_E) 0 0.
Proof.
  destruct rd_final as (F0 & F1). pose proof (rd_error 0 ltac:(lia)) as H0. pose proof (rd_error 1 ltac:(lia)) as H1. split; [lia|]. rewrite F0. split; [lra|].
  intros j Hj Hn. destruct j as [|[|j]]; try lia. rewrite F1. lra.
Qed.

(** ** A linear layer with the same weights, applied to (2^53, 1, -2^53): the exact scores are 2 and 1, the computed ones 0 and 1. *)
Definition rr_p : player BN := PL (K := BN) Linear 3 2 [[bz 2; bz 0]; [bz 2; bz 1]; [bz 2; bz 0]] [[bz 0; bz 0]] f0 f0.
Definition rr_state : state BN :=
  MkState rd_rows rd_outs [MkLayer Linear 3 2 (MkMatrix 3 2 (MkSlice 1 0 3)) (MkMatrix 1 2 (MkSlice 2 0 1)) f0 f0 matrix0 matrix0] [] (c_rng L) true [].
Definition rr_m : model BN := MkModel 1 3 2 0 None 1 (f0 : BN) 0 [] [0]%nat [].
Definition rr_es : list (lent BN) := [LE 0 [1;2;3]%nat [4]%nat rr_p].
Definition rr_x : matrix := MkMatrix 1 3 (MkSlice 6 0 1).
Definition rr_X : pm BN := [[bz (2 ^ 53); bz 1; bz (- 2 ^ 53)]].
Lemma class_not_exact : exists (s : state BN) m es i o x rsx (X : pm BN), consistent s m es i o /\ m_acctype m = 1%Z /\ own s x rsx 1 i X /\
  List.Forall (finite_layer L) (net es) /\ (forall j, (j < i)%nat -> b64_finite (entry X 0 j) = true) /\
  (let Y := pnet (map (exact_layer L) (net es)) 1 (real_mat L 1 i X) in o = 2%nat /\ 0 < entry Y 0 1 < entry Y 0 0) /\
  match (P <- Predict m x ;; getc P 0 0)%go s with (Ret v, _) => b64_toZ v = 1%Z | _ => False end.
Proof.
  exists rr_state, rr_m, rr_es, 3%nat, 2%nat, rr_x, [9]%nat, rr_X. split; [|split; [reflexivity|split; [own_tac|split; [|split; [|split]]]]].
  - repeat (split; [reflexivity|]). split; [simpl; auto|]. repeat (constructor; [eexists; split; [reflexivity|lown_tac]|]). constructor.
  - apply List.Forall_cons; [|apply List.Forall_nil]. split; [simpl; auto|]. split; [reflexivity|]. split.
    + intros [|[|[|i]]] [|[|j]] Hi Hj; simpl in Hi, Hj; try lia; reflexivity.
    + intros [|[|j]] Hj; simpl in Hj; try lia; reflexivity.
  - intros [|[|[|j]]] Hj; try lia; reflexivity.
  - cbv zeta. split; [reflexivity|]. cbn -[b64_R IZR Z.pow]. rewrite !bz_R by (simpl; lia). rewrite opp_IZR. generalize (IZR (2 ^ 53)). intros y. lra.
  - vm_compute. reflexivity.
Qed.
End Ex.
