(** * Layer facts that depend on the number semantics. *)
From Coq Require Import String ZArith List Bool Arith Lia Reals Lra.
From Flocq Require Import Core.Core IEEE754.BinarySingleNaN IEEE754.Binary IEEE754.Bits.
From Coquelicot Require Import Coquelicot.
From Verif Require Import Num NumR NumB64 Heap Spec PureSpec Repr Matrix Activation Network
  HeapLemmas LoopLemmas MatrixProofs ActivationProofs LayerProofs MatrixFacts B64Facts MiscFacts ActFacts RSum LayerFacts.
Import ListNotations.
Open Scope Z_scope.
Open Scope go_scope.
Ltac toR := match goal with |- ?a = ?b => change (@eq R a b) end.

(** ** The mask *)
Lemma R_mask (d u : R) : (0 <= d <= 1)%R ->
  mask1 (K := RNum) d u = if Rlt_dec d (1/2) then (if Rle_dec d u then 1 else 0)%R else (if Rlt_dec u (1 - d) then 1 else 0)%R.
Proof.
  intros Hd. unfold mask1. rewrite (proj1 R_lits). unfold f1, f0. cbn [flt fsub fadd feq ofZ RNum].
  destruct (r_ltb (1/2) (1 - d)) eqn:E1.
  - apply r_ltb_true in E1. destruct (Rlt_dec d (1/2)); [|lra].
    replace (1 - (1 - d))%R with d by lra.
    replace (r_eqb d (1 - d)) with false by (symmetry; apply r_eqb_false; lra). simpl negb. cbv iota.
    unfold r_ltb. destruct (Rlt_dec u d), (Rle_dec d u); lra.
  - apply r_ltb_false in E1. destruct (Rlt_dec d (1/2)); [lra|].
    replace (r_eqb (1 - d) (1 - d)) with true by (symmetry; now apply r_eqb_true). simpl negb. cbv iota.
    unfold r_ltb. destruct (Rlt_dec u (1 - d)); lra.
Qed.
(** The draws in [0,1) that keep an output form an interval of length 1 - d. *)
Lemma R_mask_interval (d : R) : (0 <= d <= 1)%R -> exists a b : R, (0 <= a)%R /\ (b <= 1)%R /\ (b - a = 1 - d)%R /\
  forall u : R, (0 <= u < 1)%R -> mask1 (K := RNum) d u = (if Rle_dec a u then if Rlt_dec u b then 1 else 0 else 0)%R.
Proof.
  intros Hd. destruct (Rlt_dec d (1/2)) as [Hl|Hl].
  - exists d, 1%R. split; [lra|split; [lra|split; [lra|]]]. intros u Hu. rewrite R_mask by auto.
    destruct (Rlt_dec d (1/2)); [|lra]. destruct (Rlt_dec u 1); [|lra]. reflexivity.
  - exists 0%R, (1 - d)%R. split; [lra|split; [lra|split; [lra|]]]. intros u Hu. rewrite R_mask by auto.
    destruct (Rlt_dec d (1/2)); [lra|]. destruct (Rle_dec 0 u); [|lra]. reflexivity.
Qed.
Lemma R_drop_entry (p : player RNum) r (X : rpm) (u : nat -> R) i j : (i < r)%nat -> (j < p_out p)%nat -> (0 <= p_drop p < 1)%R ->
  entry (pforward_drop p r X u) i j =
    if Rlt_dec 0 (mask1 (K := RNum) (p_drop p) (u (i * p_out p + j)%nat))
    then (Rmax (entry (paffine p r X) i j) 0 / (1 - p_drop p))%R else 0%R.
Proof.
  intros Hi Hj Hd. unfold pforward_drop. rewrite entry_mk by auto. rewrite R_relu.
  cbn [fmul fdiv fsub RNum]. unfold f1. cbn [ofZ RNum].
  assert (H01 : mask1 (K := RNum) (p_drop p) (u (i * p_out p + j)%nat) = 0%R \/ mask1 (K := RNum) (p_drop p) (u (i * p_out p + j)%nat) = 1%R).
  { rewrite R_mask by lra. repeat match goal with |- context [if ?x then _ else _] => destruct x end; auto. }
  destruct H01 as [-> | ->].
  - destruct (Rlt_dec 0 0); [lra|]. toR. unfold Rdiv. ring.
  - destruct (Rlt_dec 0 1); [|lra]. toR. unfold Rdiv. ring.
Qed.
Lemma R_drop_zero (p : player RNum) r (X : rpm) (u : nat -> R) : p_kind p = Dropout -> p_drop p = 0%R ->
  (forall n, (0 <= u n)%R) -> pforward_drop p r X u = pforward p r X.
Proof.
  intros Hk Hd Hu. unfold pforward, pact. rewrite Hk. unfold pforward_drop, pmap. apply mk_ext. intros i j Hi Hj.
  rewrite Hd. rewrite R_mask by lra. destruct (Rlt_dec 0 (1/2)); [|lra].
  destruct (Rle_dec 0 (u (i * p_out p + j)%nat)) as [_|n]; [|exfalso; apply n, Hu].
  unfold act1. rewrite Hk. rewrite R_relu.
  unfold f1. cbn [fmul fdiv fsub ofZ RNum]. toR. field.
Qed.

(** ** binary64, dropout 1 *)
Lemma b64_mask_one (L : libm) (u : B64 L) : flt u f0 = false -> mask1 (K := B64 L) f1 u = f0.
Proof.
  intros Hu. unfold mask1.
  assert (E1 : fsub (n := B64 L) f1 f1 = f0) by (vm_compute; reflexivity). rewrite E1.
  assert (E2 : flt (n := B64 L) lit_half f0 = false) by (vm_compute; reflexivity). rewrite E2. rewrite Hu.
  assert (E3 : feq (n := B64 L) f0 f0 = true) by (vm_compute; reflexivity). rewrite E3. reflexivity.
Qed.
Lemma b64_mult_nan (x y : binary64) : b64_nan y = true -> b64_nan (b64_mult mode_NE x y) = true.
Proof. destruct x, y; try discriminate; reflexivity. Qed.
Lemma b64_drop_one_nan (L : libm) (p : player (B64 L)) r (X : pm (B64 L)) u i j : (i < r)%nat -> (j < p_out p)%nat ->
  p_drop p = f1 -> (forall n, flt (u n) f0 = false) -> b64_nan (entry (pforward_drop p r X u) i j) = true.
Proof.
  intros Hi Hj Hd Hu. unfold pforward_drop. rewrite entry_mk by auto. rewrite Hd, b64_mask_one by apply Hu.
  apply b64_mult_nan. vm_compute. reflexivity.
Qed.

Lemma dropout_zero_agree (s : state RNum) lref l rw rb p x rsx r X :
  nth_error (h_layers s) lref = Some l -> lown s l rw rb p -> p_kind p = Dropout -> p_drop p = 0%R ->
  own s x rsx r (p_in p) X -> (1 <= r)%nat -> (forall n, (0 <= uniforms s n)%R) ->
  exists A, returns (Layer_Forward lref x) s (fun out s' => exists rs, own s' out rs r (p_out p) A) /\
            returns (Dropout_ForwardNoDropout lref x) s (fun out s' => exists rs, own s' out rs r (p_out p) A).
Proof.
  intros Hl HL Hk Hd HX Hr Hu. exists (pforward p r X). split; apply returns_wp.
  - eapply wp_conseq; [eapply wp_forward_train; eauto|].
    cbv beta. intros out s' (rs & rsm & l' & (HO & _) & _). exists rs. unfold ptrain in HO. rewrite Hk in HO.
    rewrite (R_drop_zero p r X (uniforms s) Hk Hd Hu) in HO. exact HO.
  - pose proof (wp_forward_plain s lref l rw rb p x rsx r X false Hl HL HX Hr (or_introl eq_refl)) as H.
    destruct HL as (H1 & _). rewrite H1, Hk in H. eapply wp_conseq; [exact H|].
    cbv beta. intros out s' (rs & (HO & _) & _). exists rs. exact HO.
Qed.
Lemma dropout_one_nan (L : libm) (s : state (B64 L)) lref l rw rb p x rsx r X :
  nth_error (h_layers s) lref = Some l -> lown s l rw rb p -> p_kind p = Dropout -> p_drop p = f1 ->
  own s x rsx r (p_in p) X -> (1 <= r)%nat -> (forall n, flt (uniforms s n) f0 = false) ->
  returns (Layer_Forward lref x) s (fun out s' => exists rs A, own s' out rs r (p_out p) A /\
    forall i j, (i < r)%nat -> (j < p_out p)%nat -> b64_nan (entry A i j) = true).
Proof.
  intros Hl HL Hk Hd HX Hr Hu. apply returns_wp. eapply wp_conseq; [eapply wp_forward_train; eauto|].
  cbv beta. intros out s' (rs & rsm & l' & (HO & _) & _). exists rs. unfold ptrain in HO. rewrite Hk in HO.
  eexists. split; [exact HO|]. intros i j Hi Hj. apply b64_drop_one_nan; auto.
Qed.
Lemma dropout_one_bad (L : libm) : exists (s s' : state (B64 L)) l x rsx (A : pm (B64 L)),
  NewDropoutLayer 1 1 f1 s = (Ret l, s') /\ own s' x rsx 1 1 A /\ b64_finite (entry A 0 0) = true /\
  returns (lref <- alloc_layer l ;; Layer_Forward lref x) s' (fun out s2 => exists rs B,
    own s2 out rs 1 1 B /\ b64_nan (entry B 0 0) = true).
Proof.
  set (s := MkState (K := B64 L) [[f0 : B64 L]] [[1%nat]] [] [] (MkRng (K := B64 L) (fun _ => f0) (fun _ => f0) (fun _ => 0) 0 0 0) true []).
  assert (HO : own s (MkMatrix 1 1 (MkSlice 1 0 1)) [1%nat] 1 1 [[f0 : B64 L]]).
  { unfold own; simpl; repeat (split; [reflexivity|]). split; [split; [reflexivity|repeat constructor]|].
    split; [eexists; split; [reflexivity|]; split; [simpl; lia|reflexivity]|repeat constructor]. }
  assert (HN : NewDropoutLayer (K := B64 L) 1 1 f1 s = fresh_layer Dropout (Z.of_nat 1) (Z.of_nat 1) f0 f1 s).
  { unfold NewDropoutLayer.
    assert (E1 : flt (n := B64 L) f1 f1 = false) by (vm_compute; reflexivity).
    assert (E2 : flt (n := B64 L) f1 f0 = false) by (vm_compute; reflexivity). rewrite E1, E2. reflexivity. }
  destruct (fresh_layer_ok s Dropout 1 1 f0 f1 (le_n 1) (le_n 1)) as (l & s' & E & (K1&K2&K3&K4&K5& rw & rb & HW & HB & HD & HE)).
  exists s, s', l, (MkMatrix 1 1 (MkSlice 1 0 1)), [1%nat], [[f0 : B64 L]].
  pose proof (own_ext _ _ _ _ _ _ _ HO HE) as HO'.
  split; [now rewrite HN|]. split; [exact HO'|]. split; [vm_compute; reflexivity|].
  apply returns_wp. apply wp_bind. eapply wp_eq; [reflexivity|].
  set (s2 := with_layers s' (h_layers s' ++ [l])).
  set (p := PL (K := B64 L) Dropout 1 1 (mk 1 1 (fun _ _ => f0)) (mk 1 1 (fun _ _ => f0)) f0 f1).
  assert (Hl : nth_error (h_layers s2) (length (h_layers s')) = Some l).
  { unfold s2. simpl. rewrite nth_error_app2 by lia. now rewrite Nat.sub_diag. }
  assert (HL : lown s2 l rw rb p).
  { unfold lown. repeat (split; [first [assumption|simpl; lia]|]). split; [apply HW|apply HB]. }
  assert (Hu : forall n, flt (uniforms s2 n) f0 = false).
  { intros n. unfold uniforms, s2. simpl. destruct HE as [_ (_ & _ & -> & _)]. vm_compute. reflexivity. }
  destruct (dropout_one_nan L s2 _ l rw rb p (MkMatrix 1 1 (MkSlice 1 0 1)) [1%nat] 1 [[f0 : B64 L]] Hl HL eq_refl eq_refl HO' (le_n 1) Hu)
    as (out & s3 & E3 & rs & A & HA & Hn).
  eapply wp_eq; [exact E3|]. exists rs, A. split; [exact HA|]. apply Hn; simpl; lia.
Qed.

(** ** SigmoidLayer.Backward is not the derivative *)
Open Scope R_scope.
Definition sg1 (t : R) : R := 1 / (1 + exp (- t)).
Lemma sg1_sigmoid t : sigmoid1 (K := RNum) t = sg1 t.
Proof. reflexivity. Qed.
Lemma sigmoid_w_derive : is_derive (fun w => sg1 (w * 1 + 0)) 1 (sg1 1 * (1 - sg1 1)).
Proof.
  apply (is_derive_ext (fun w => sg1 w)). { intros t. now rewrite Rmult_1_r, Rplus_0_r. }
  exact (sigmoid_derive 1).
Qed.
Definition sig_state : state RNum :=
  MkState (K := RNum) [[1%R]; [1%R]; [0%R]; [1%R]] [[1]; [2]; [3]; [4]]%nat
    [MkLayer SigmoidK 1 1 (MkMatrix 1 1 (MkSlice 2 0 1)) (MkMatrix 1 1 (MkSlice 3 0 1)) 0%R 0%R matrix0 matrix0]
    [] (MkRng (K := RNum) (fun _ => 0%R) (fun _ => 0%R) (fun _ => 0%Z) 0 0 0) true [].
Definition sig_x : matrix := MkMatrix 1 1 (MkSlice 1 0 1).
Definition sig_dv : matrix := MkMatrix 1 1 (MkSlice 4 0 1).
Definition sig_p : player RNum := PL (K := RNum) SigmoidK 1 1 [[1%R]] [[0%R]] 0%R 0%R.
Ltac own_tac' :=
  unfold own; simpl; repeat (split; [reflexivity|]);
  split; [split; [reflexivity|repeat constructor]|];
  split; [eexists; split; [reflexivity|]; split; [simpl; lia|reflexivity]|repeat constructor].
Lemma sigmoid_backward_wrong : exists (s : state RNum) l rw rb p x rsx dv rsg,
  nth_error (h_layers s) 0 = Some l /\ lown s l rw rb p /\ p_kind p = SigmoidK /\ p_in p = 1%nat /\ p_out p = 1%nat /\
  own s x rsx 1 1 [[1]] /\ own s dv rsg 1 1 [[1]] /\ disjoint rsg rsx /\ disjoint rw rsx /\ disjoint rb rsx /\
  p_w p = [[1]] /\ p_b p = [[0]] /\
  returns (Layer_Backward 0 x dv) s (fun g s' => exists rsw dW X',
    own s' (g_w g) rsw 1 1 dW /\ ~ is_derive (fun w => sg1 (w * 1 + 0)) 1 (entry dW 0 0) /\
    own s' x rsx 1 1 X' /\ X' <> [[1]]).
Proof.
  exists sig_state. eexists. exists [2%nat], [3%nat], sig_p, sig_x, [1%nat], sig_dv, [4%nat].
  assert (Hw : own sig_state (MkMatrix 1 1 (MkSlice 2 0 1)) [2%nat] 1 1 [[1]]) by own_tac'.
  assert (Hb : own sig_state (MkMatrix 1 1 (MkSlice 3 0 1)) [3%nat] 1 1 [[0]]) by own_tac'.
  assert (Hx : own sig_state sig_x [1%nat] 1 1 [[1]]) by own_tac'.
  assert (Hd : own sig_state sig_dv [4%nat] 1 1 [[1]]) by own_tac'.
  split; [reflexivity|].
  match goal with |- lown _ ?l _ _ _ /\ _ => assert (HL : lown sig_state l [2%nat] [3%nat] sig_p) end.
  { unfold lown. simpl. repeat (split; [first [reflexivity|lia]|]). split; [exact Hw|exact Hb]. }
  split; [exact HL|]. do 3 (split; [reflexivity|]). split; [exact Hx|]. split; [exact Hd|].
  assert (D1 : disjoint [4%nat] [1%nat]) by (unfold disjoint; simpl; lia).
  assert (D2 : disjoint [2%nat] [1%nat]) by (unfold disjoint; simpl; lia).
  assert (D3 : disjoint [3%nat] [1%nat]) by (unfold disjoint; simpl; lia).
  split; [exact D1|]. split; [exact D2|]. split; [exact D3|]. do 2 (split; [reflexivity|]).
  assert (N1 : NoDup [1%nat]) by (repeat constructor; simpl; tauto).
  match type of HL with lown _ ?l _ _ _ => assert (Hl : nth_error (h_layers sig_state) 0 = Some l) by reflexivity end.
  pose proof (Sigmoid_Backward_square _ _ _ _ _ _ _ _ 1 _ _ _ _ Hl HL eq_refl eq_refl (le_n 1) Hx Hd N1 D1 D2 D3) as HS.
  cbv zeta in HS. apply returns_wp. eapply wp_conseq; [exact HS|].
  cbv zeta. intros g s' ((rsw & rsb & rsx & (HO & _) & _) & HX).
  match type of HX with own _ _ _ _ _ ?h => set (H := h) in * end.
  change (p_in sig_p) with 1%nat in *. change (p_out sig_p) with 1%nat in *.
  assert (EH : entry H 0 0 = sg1 1 * (1 - sg1 1)).
  { unfold H. rewrite entry_mk by lia. unfold sigmoid_prime1. rewrite !sg1_sigmoid.
    change (1 * sg1 1 * (1 - sg1 1) = sg1 1 * (1 - sg1 1)). ring. }
  assert (EW : entry (pdW 1 1 1 H H) 0 0 = entry H 0 0 * entry H 0 0).
  { unfold pdW, pdot. rewrite entry_mk by lia. fold (rsum 1). rewrite rsum_1. unfold ptrans. rewrite entry_mk by lia. reflexivity. }
  pose proof (R_sigmoid_range 1) as Hr. rewrite sg1_sigmoid in Hr.
  assert (H0 : 0 < sg1 1 * (1 - sg1 1)) by (apply Rmult_lt_0_compat; lra).
  assert (H1 : sg1 1 * (1 - sg1 1) < 1) by nra.
  exists rsw. eexists. eexists. split; [exact HO|]. split; [|split; [exact HX|]].
  - intros HD. pose proof (is_derive_unique _ _ _ HD) as E1. pose proof (is_derive_unique _ _ _ sigmoid_w_derive) as E2.
    rewrite E1 in E2. rewrite EW, EH in E2. generalize dependent (sg1 1 * (1 - sg1 1)). intros a; intros. nra.
  - intros E. rewrite E in EH. unfold entry in EH. simpl nth in EH. lra.
Qed.
