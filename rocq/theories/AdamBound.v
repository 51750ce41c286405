(** * AdamBound: how far one optimizer step can go. *)
From Coq Require Import String ZArith List Bool Arith Lia Reals Lra Psatz.
From Verif Require Import Num NumR Heap Spec Matrix Network Optimizers PureSpec Repr OptSpec OptFacts RSum OptReal OptMore OptGlue Converge.
Import ListNotations.
Open Scope R_scope.

Lemma rsum_abs n f : Rabs (rsum n f) <= rsum n (fun i => Rabs (f i)).
Proof.
  induction n as [|n IH]; [rewrite !rsum_0, Rabs_R0; lra|]. rewrite !rsum_S. eapply Rle_trans; [apply Rabs_triang|]. lra.
Qed.
Lemma geom_rev q n : 0 <= q < 1 -> rsum (S n) (fun u => q ^ (n - u)) <= 1 / (1 - q).
Proof.
  intros Hq. assert (H : (1 - q) * rsum (S n) (fun u => q ^ (n - u)) = 1 - q ^ (S n)).
  { induction n as [|n IH]; [rewrite rsum_1; simpl; ring|].
    rewrite rsum_S, Nat.sub_diag.
    rewrite (rsum_ext _ _ (fun u => q * q ^ (n - u))).
    2:{ intros i Hi. replace (S n - i)%nat with (S (n - i)) by lia. reflexivity. }
    rewrite rsum_scal. replace ((1 - q) * (q * rsum (S n) (fun u => q ^ (n - u)) + q ^ 0)) with (q * ((1 - q) * rsum (S n) (fun u => q ^ (n - u))) + (1 - q)) by (simpl; ring).
    rewrite IH. simpl. ring. }
  assert (0 <= q ^ S n) by (apply pow_le; lra).
  apply Rmult_le_reg_l with (1 - q); [lra|]. rewrite H. replace ((1 - q) * (1 / (1 - q))) with 1 by (field; lra). lra.
Qed.
Lemma pow_sq a n : (a ^ n) ^ 2 = (a ^ 2) ^ n. Proof. rewrite <- !pow_mult. f_equal. lia. Qed.

(** The largest step in units of the learning rate. *)
Definition adam_factor (b1 b2 : R) : R := sqrt (1 - b1) / sqrt ((1 - b2) * (1 - b1 ^ 2 / b2)).

Section Step.
Variables (b1 b2 eps : R).
Hypothesis H1 : 0 <= b1 < 1.
Hypothesis H2 : 0 < b2 < 1.
Hypothesis H12 : b1 ^ 2 < b2.
Hypothesis He : 0 < eps.

Lemma ratio_range : 0 <= b1 ^ 2 / b2 < 1.
Proof.
  split; [apply Rmult_le_pos; [apply pow2_ge_0|left; apply Rinv_0_lt_compat; lra]|].
  apply Rmult_lt_reg_r with b2; [lra|]. unfold Rdiv. rewrite Rmult_assoc, Rinv_l by lra. lra.
Qed.
Lemma moment_bound t (g : nat -> R) :
  ((1 - b1) * rsum (S t) (fun u => b1 ^ (t - u) * g u)) ^ 2 <=
  (1 - b1) ^ 2 / ((1 - b2) * (1 - b1 ^ 2 / b2)) * ((1 - b2) * rsum (S t) (fun u => b2 ^ (t - u) * g u ^ 2)).
Proof.
  pose proof ratio_range as Hq. set (q := b1 ^ 2 / b2) in *.
  pose proof (cauchy_schwarz (S t) (fun u => b1 ^ (t - u) / sqrt b2 ^ (t - u)) (fun u => sqrt b2 ^ (t - u) * g u)) as HC. cbv beta in HC.
  assert (Hs : 0 < sqrt b2) by (apply sqrt_lt_R0; lra).
  assert (Es : sqrt b2 ^ 2 = b2) by (simpl; rewrite Rmult_1_r; apply sqrt_sqrt; lra).
  rewrite (rsum_ext _ _ (fun u => b1 ^ (t - u) * g u)) in HC.
  2:{ intros i _. field. apply pow_nonzero. lra. }
  rewrite (rsum_ext _ (fun i => (b1 ^ (t - i) / sqrt b2 ^ (t - i)) ^ 2) (fun u => q ^ (t - u))) in HC.
  2:{ intros i _. unfold Rdiv. rewrite <- pow_inv by lra. rewrite <- Rpow_mult_distr, pow_sq. f_equal.
      rewrite Rpow_mult_distr. rewrite pow_inv by lra. rewrite Es. reflexivity. }
  rewrite (rsum_ext _ (fun i => (sqrt b2 ^ (t - i) * g i) ^ 2) (fun u => b2 ^ (t - u) * g u ^ 2)) in HC.
  2:{ intros i _. rewrite Rpow_mult_distr, pow_sq, Es. reflexivity. }
  set (S2 := rsum (S t) (fun u => b2 ^ (t - u) * g u ^ 2)) in *.
  assert (0 <= S2). { apply rsum_nonneg. intros. apply Rmult_le_pos; [apply pow_le; lra|apply pow2_ge_0]. }
  pose proof (geom_rev q t Hq) as HG.
  replace ((1 - b1) ^ 2 / ((1 - b2) * (1 - q)) * ((1 - b2) * S2)) with ((1 - b1) ^ 2 * (1 / (1 - q) * S2)) by (field; lra).
  rewrite Rpow_mult_distr. apply Rmult_le_compat_l; [apply pow2_ge_0|]. eapply Rle_trans; [exact HC|].
  apply Rmult_le_compat_r; assumption.
Qed.

Lemma step_bound lr decay t (g : nat -> R) : 0 <= lr -> 0 <= decay ->
  Rabs (lr / (1 + decay * INR t) * ((1 - b1) * rsum (S t) (fun u => b1 ^ (t - u) * g u) / (1 - b1 ^ (t + 1))) /
    (sqrt ((1 - b2) * rsum (S t) (fun u => b2 ^ (t - u) * g u ^ 2) / (1 - b1 ^ (t + 1))) + eps)) <=
  lr / (1 + decay * INR t) * adam_factor b1 b2.
Proof.
  intros Hlr Hd. pose proof ratio_range as Hq. pose proof (moment_bound t g) as HM.
  set (m := (1 - b1) * rsum (S t) (fun u => b1 ^ (t - u) * g u)) in *.
  assert (Hv : 0 <= (1 - b2) * rsum (S t) (fun u => b2 ^ (t - u) * g u ^ 2)).
  { apply Rmult_le_pos; [lra|]. apply rsum_nonneg. intros. apply Rmult_le_pos; [apply pow_le; lra|apply pow2_ge_0]. }
  set (v := (1 - b2) * rsum (S t) (fun u => b2 ^ (t - u) * g u ^ 2)) in *.
  assert (Hp : b1 ^ (t + 1) <= b1).
  { rewrite Nat.add_1_r. simpl. apply Rle_trans with (b1 * 1); [|lra]. apply Rmult_le_compat_l; [lra|]. rewrite <- (pow1 t). apply pow_incr. lra. }
  set (D := 1 - b1 ^ (t + 1)) in *. assert (HD : 1 - b1 <= D) by (unfold D; lra).
  assert (Hr : 0 <= lr / (1 + decay * INR t)).
  { apply Rmult_le_pos; [exact Hlr|]. left. apply Rinv_0_lt_compat. assert (0 <= decay * INR t) by (apply Rmult_le_pos; [lra|apply pos_INR]). lra. }
  unfold Rdiv at 1. rewrite !Rabs_mult. rewrite (Rabs_right (lr / _)) by lra. rewrite Rmult_assoc. apply Rmult_le_compat_l; [exact Hr|].
  set (E := (1 - b2) * (1 - b1 ^ 2 / b2)) in *. assert (HE : 0 < E) by (apply Rmult_lt_0_compat; lra).
  assert (Hden : 0 < sqrt (v / D) + eps) by (pose proof (sqrt_pos (v / D)); lra).
  rewrite Rabs_inv, (Rabs_right (sqrt (v / D) + eps)) by lra.
  apply Rmult_le_reg_r with (sqrt (v / D) + eps); [exact Hden|]. rewrite Rmult_assoc, Rinv_l, Rmult_1_r by lra.
  assert (HF : 0 <= adam_factor b1 b2). { apply Rmult_le_pos; [apply sqrt_pos|]. left. apply Rinv_0_lt_compat, sqrt_lt_R0. exact HE. }
  apply Rle_trans with (adam_factor b1 b2 * sqrt (v / D)); [|apply Rmult_le_compat_l; lra].
  apply Rsqr_incr_0_var; [|apply Rmult_le_pos; [exact HF|apply sqrt_pos]].
  rewrite <- Rsqr_abs, Rsqr_mult, Rsqr_sqrt.
  2:{ apply Rmult_le_pos; [exact Hv|]. left. apply Rinv_0_lt_compat. lra. }
  unfold adam_factor. fold E. rewrite (Rsqr_div' (sqrt _)). rewrite Rsqr_sqrt by lra. rewrite Rsqr_sqrt by lra.
  unfold Rsqr. replace (m / D * (m / D)) with (m ^ 2 / D / D) by (field; lra).
  replace ((1 - b1) / E * (v / D)) with ((1 - b1) ^ 2 / E * v / (1 - b1) / D) by (field; lra).
  apply Rmult_le_compat_r; [left; apply Rinv_0_lt_compat; lra|].
  assert (0 <= (1 - b1) ^ 2 / E * v). { apply Rmult_le_pos; [|exact Hv]. apply Rmult_le_pos; [apply pow2_ge_0|left; apply Rinv_0_lt_compat; exact HE]. }
  apply Rmult_le_compat; [apply pow2_ge_0|left; apply Rinv_0_lt_compat; lra|exact HM|]. apply Rinv_le_contravar; lra.
Qed.
End Step.

(** ** Whole updates *)
Lemma updates_snoc {K : Num} oref w b gs dw db (s s1 s2 : state K) : updates oref w b gs s = (Ret tt, s1) -> updates oref w b (gs ++ [(dw, db)]) s = (Ret tt, s2) ->
  Opt_Update oref w b dw db s1 = (Ret tt, s2).
Proof.
  revert s. induction gs as [|[a c] gs IH]; intros s H1 H2; simpl in *.
  - injection H1 as <-. unfold bind, ret in H2. destruct (Opt_Update oref w b dw db s) as [[[]| |] s0] eqn:E; congruence.
  - unfold bind in H1, H2. destruct (Opt_Update oref w b a c s) as [[[]| |] s'] eqn:E; try discriminate. eauto.
Qed.
Lemma grads_prefix {K : Num} (s : state K) rw rb k c gs g Gs G : grads s rw rb k c (gs ++ [g]) (Gs ++ [G]) -> grads s rw rb k c gs Gs.
Proof.
  unfold grads. intros H. apply Forall2_app_inv_l in H as (l1 & l2 & H1 & H2 & E).
  inversion H2 as [|? ? ? ? _ H3 E1 E2]. subst. inversion H3. subst. apply app_inj_tail in E as [-> _]. exact H1.
Qed.

Lemma adam_rates lr decay eps b1 b2 (s : state RNum) o : NewAdamOptimizer (K := RNum) lr decay eps b1 b2 s = (Ret o, s) -> 0 < lr /\ 0 <= decay.
Proof.
  unfold NewAdamOptimizer. simpl. unfold r_leb, r_ltb. destruct (Rle_dec lr 0); [discriminate|]. destruct (Rlt_dec decay 0); [discriminate|]. lra.
Qed.
Lemma sgd_rates lr decay mu (s : state RNum) o : NewSGDOptimizer (K := RNum) lr decay mu s = (Ret o, s) -> 0 < lr /\ 0 <= decay /\ 0 <= mu.
Proof.
  unfold NewSGDOptimizer. simpl. unfold r_leb, r_ltb. destruct (Rle_dec lr 0); [discriminate|]. destruct (Rlt_dec decay 0); [discriminate|]. destruct (Rlt_dec mu 0); [discriminate|]. lra.
Qed.

Lemma adam_step lr decay eps b1 b2 (s : state RNum) o oref w b rw rb k c (W B : rpm) gs Gs dw db dW dB :
  0 <= b1 < 1 -> 0 < b2 < 1 -> b1 ^ 2 < b2 -> 0 < eps ->
  NewAdamOptimizer (K := RNum) lr decay eps b1 b2 s = (Ret o, s) ->
  nth_error (h_opts s) oref = Some o -> params s w b rw rb k c W B -> grads s rw rb k c (gs ++ [(dw, db)]) (Gs ++ [(dW, dB)]) ->
  let bound := lr / (1 + decay * INR (length Gs)) * (sqrt (1 - b1) / sqrt ((1 - b2) * (1 - b1 ^ 2 / b2))) in
  exists s1 W1 B1 s2 W2 B2, updates oref w b gs s = (Ret tt, s1) /\ own s1 w rw k c W1 /\ own s1 b rb 1 c B1 /\
    Opt_Update oref w b dw db s1 = (Ret tt, s2) /\ own s2 w rw k c W2 /\ own s2 b rb 1 c B2 /\
    (forall i j, (i < k)%nat -> (j < c)%nat -> Rabs (entry W2 i j - entry W1 i j) <= bound) /\
    (forall j, (j < c)%nat -> Rabs (entry B2 0 j - entry B1 0 j) <= bound).
Proof.
  intros H1 H2 H12 He Hn Hl HP HG bound.
  destruct (@C40_exact_proof lr decay eps b1 b2 s o oref w b rw rb k c W B gs Gs H1 ltac:(lra) He Hn Hl HP (grads_prefix _ _ _ _ _ _ _ _ _ HG)) as ([] & s1 & E1 & O1 & O2 & _).
  destruct (@C40_exact_proof lr decay eps b1 b2 s o oref w b rw rb k c W B _ _ H1 ltac:(lra) He Hn Hl HP HG) as ([] & s2 & E2 & O3 & O4 & _).
  do 6 eexists. split; [exact E1|]. split; [exact O1|]. split; [exact O2|]. split; [exact (updates_snoc _ _ _ _ _ _ _ _ _ E1 E2)|].
  split; [exact O3|]. split; [exact O4|]. destruct (adam_rates _ _ _ _ _ _ _ Hn) as [Hlr Hd].
  assert (Hgen : forall (g : list R) x p, length g = length Gs ->
    let step g t :=
      (let m := (1 - b1) * rsum (S t) (fun u => b1 ^ (t - u) * nth u g 0) in
       let v := (1 - b2) * rsum (S t) (fun u => b2 ^ (t - u) * nth u g 0 ^ 2) in
       lr / (1 + decay * INR t) * (m / (1 - b1 ^ (t + 1))) / (sqrt (v / (1 - b1 ^ (t + 1))) + eps)) in
    Rabs (p - rsum (length (Gs ++ [(dW, dB)])) (step (g ++ [x])) - (p - rsum (length Gs) (step g))) <= bound).
  { intros g x p Hlen step. rewrite app_length. simpl length. rewrite Nat.add_1_r, rsum_S.
    rewrite (rsum_ext (length Gs) (step (g ++ [x])) (step g)).
    2:{ intros t Ht. unfold step. rewrite (rsum_ext (S t) (fun u => b1 ^ (t - u) * nth u (g ++ [x]) 0) (fun u => b1 ^ (t - u) * nth u g 0)) by (intros u Hu; rewrite app_nth1 by lia; reflexivity).
        rewrite (rsum_ext (S t) (fun u => b2 ^ (t - u) * nth u (g ++ [x]) 0 ^ 2) (fun u => b2 ^ (t - u) * nth u g 0 ^ 2)) by (intros u Hu; rewrite app_nth1 by lia; reflexivity). reflexivity. }
    replace (p - (rsum (length Gs) (step g) + step (g ++ [x]) (length Gs)) - (p - rsum (length Gs) (step g))) with (- step (g ++ [x]) (length Gs)) by ring.
    rewrite Rabs_Ropp. exact (step_bound b1 b2 eps H1 H2 H12 He lr decay (length Gs) (fun u => nth u (g ++ [x]) 0) ltac:(lra) Hd). }
  split.
  - intros i j Hi Hj. rewrite !entry_mk by auto. unfold wgrad. rewrite map_app. cbn [map]. apply (Hgen (map (fun G => entry (fst G) i j) Gs)). apply map_length.
  - intros j Hj. rewrite !entry_mk by auto. unfold bgrad. rewrite map_app. cbn [map]. apply (Hgen (map (fun G => entry (snd G) 0 j) Gs)). apply map_length.
Qed.

Lemma momentum_step lr decay mu G (s : state RNum) o oref w b rw rb k c (W B : rpm) gs Gs dw db dW dB :
  0 < mu < 1 -> NewSGDOptimizer (K := RNum) lr decay mu s = (Ret o, s) ->
  nth_error (h_opts s) oref = Some o -> params s w b rw rb k c W B -> grads s rw rb k c (gs ++ [(dw, db)]) (Gs ++ [(dW, dB)]) ->
  (forall H, In H (Gs ++ [(dW, dB)]) -> (forall i j, Rabs (entry (fst H) i j) <= G) /\ (forall j, Rabs (entry (snd H) 0 j) <= G)) ->
  let bound := lr * G / (1 - mu) in
  exists s1 W1 B1 s2 W2 B2, updates oref w b gs s = (Ret tt, s1) /\ own s1 w rw k c W1 /\ own s1 b rb 1 c B1 /\
    Opt_Update oref w b dw db s1 = (Ret tt, s2) /\ own s2 w rw k c W2 /\ own s2 b rb 1 c B2 /\
    (forall i j, (i < k)%nat -> (j < c)%nat -> Rabs (entry W2 i j - entry W1 i j) <= bound) /\
    (forall j, (j < c)%nat -> Rabs (entry B2 0 j - entry B1 0 j) <= bound).
Proof.
  intros Hmu Hn Hl HP HG HB bound.
  destruct (momentum_exact lr decay mu s o oref w b rw rb k c W B gs Gs Hn ltac:(lra) Hl HP (grads_prefix _ _ _ _ _ _ _ _ _ HG)) as ([] & s1 & E1 & O1 & O2 & _).
  destruct (momentum_exact lr decay mu s o oref w b rw rb k c W B _ _ Hn ltac:(lra) Hl HP HG) as ([] & s2 & E2 & O3 & O4 & _).
  do 6 eexists. split; [exact E1|]. split; [exact O1|]. split; [exact O2|]. split; [exact (updates_snoc _ _ _ _ _ _ _ _ _ E1 E2)|].
  split; [exact O3|]. split; [exact O4|]. destruct (sgd_rates _ _ _ _ _ Hn) as (Hlr & Hd & _).
  assert (Hgen : forall (g : list R) x p, length g = length Gs -> (forall y, In y (g ++ [x]) -> Rabs y <= G) ->
    let total n g := rsum n (fun t => - rsum (S t) (fun u => mu ^ (t - u) * (lr / (1 + decay * INR u)) * nth u g 0)) in
    Rabs (p + total (length (Gs ++ [(dW, dB)])) (g ++ [x]) - (p + total (length Gs) g)) <= bound).
  { intros g x p Hlen Hg total. rewrite app_length. simpl length. rewrite Nat.add_1_r. unfold total. rewrite rsum_S. set (n := length Gs) in *.
    rewrite (rsum_ext n _ (fun t => - rsum (S t) (fun u => mu ^ (t - u) * (lr / (1 + decay * INR u)) * nth u g 0))).
    2:{ intros t Ht. f_equal. apply rsum_ext. intros u Hu. rewrite app_nth1 by lia. reflexivity. }
    match goal with |- Rabs (p + (?a + - ?b) - (p + ?a)) <= _ => replace (p + (a + - b) - (p + a)) with (- b) by ring end.
    rewrite Rabs_Ropp. eapply Rle_trans; [apply rsum_abs|].
    apply Rle_trans with (rsum (S n) (fun u => lr * G * mu ^ (n - u))).
    - apply rsum_le. intros u Hu. assert (HGu : Rabs (nth u (g ++ [x]) 0) <= G) by (apply Hg, nth_In; rewrite app_length; simpl; lia).
      rewrite !Rabs_mult. assert (Hp : 0 <= mu ^ (n - u)) by (apply pow_le; lra). rewrite (Rabs_right (mu ^ (n - u))) by lra.
      assert (Hdu : 1 <= 1 + decay * INR u) by (assert (0 <= decay * INR u) by (apply Rmult_le_pos; [lra|apply pos_INR]); lra).
      assert (Hr : 0 <= lr / (1 + decay * INR u) <= lr).
      { split; [apply Rmult_le_pos; [lra|left; apply Rinv_0_lt_compat; lra]|]. apply Rmult_le_reg_r with (1 + decay * INR u); [lra|].
        unfold Rdiv. rewrite Rmult_assoc, Rinv_l, Rmult_1_r by lra. rewrite <- (Rmult_1_r lr) at 1. apply Rmult_le_compat_l; lra. }
      rewrite (Rabs_right (lr / _)) by lra. rewrite Rmult_assoc, (Rmult_comm (lr * G)). apply Rmult_le_compat_l; [exact Hp|].
      apply Rmult_le_compat; try lra. apply Rabs_pos.
    - rewrite rsum_scal. unfold bound. replace (lr * G / (1 - mu)) with (lr * G * (1 / (1 - mu))) by (field; lra).
      apply Rmult_le_compat_l; [|apply geom_rev; lra]. apply Rmult_le_pos; [lra|]. eapply Rle_trans; [apply Rabs_pos|apply (Hg x)]. apply in_or_app. right. left. reflexivity. }
  split.
  - intros i j Hi Hj. rewrite !entry_mk by auto. unfold wgrad. rewrite map_app. cbn [map]. apply (Hgen (map (fun G => entry (fst G) i j) Gs)); [apply map_length|].
    intros y Hy. apply in_app_or in Hy as [Hy|[<-|[]]]; [apply in_map_iff in Hy as (H & <- & HI); apply (HB H), in_or_app; auto|apply (HB (dW, dB)), in_or_app; right; left; reflexivity].
  - intros j Hj. rewrite !entry_mk by auto. unfold bgrad. rewrite map_app. cbn [map]. apply (Hgen (map (fun G => entry (snd G) 0 j) Gs)); [apply map_length|].
    intros y Hy. apply in_app_or in Hy as [Hy|[<-|[]]]; [apply in_map_iff in Hy as (H & <- & HI); apply (HB H), in_or_app; auto|apply (HB (dW, dB)), in_or_app; right; left; reflexivity].
Qed.

(** The first step. *)
Lemma adam_first lr decay eps b1 b2 (s : state RNum) o oref w b rw rb k c (W B : rpm) dw db dW dB :
  0 <= b1 < 1 -> 0 <= b2 < 1 -> 0 < eps ->
  NewAdamOptimizer (K := RNum) lr decay eps b1 b2 s = (Ret o, s) ->
  nth_error (h_opts s) oref = Some o -> params s w b rw rb k c W B -> grads s rw rb k c [(dw, db)] [(dW, dB)] ->
  let step g := lr * g / (sqrt ((1 - b2) / (1 - b1)) * Rabs g + eps) in
  returns (Opt_Update oref w b dw db) s (fun _ s' =>
    own s' w rw k c (mk (K := RNum) k c (fun i j => entry W i j - step (entry dW i j))) /\
    own s' b rb 1 c (mk (K := RNum) 1 c (fun i j => entry B i j - step (entry dB i j)))).
Proof.
  intros H1 H2 He Hn Hl HP HG step.
  destruct (@C40_exact_proof lr decay eps b1 b2 s o oref w b rw rb k c W B _ _ H1 ltac:(lra) He Hn Hl HP HG) as ([] & s' & E & O1 & O2 & _).
  exists tt, s'. split; [exact (updates_snoc _ _ _ [] _ _ _ _ _ eq_refl E)|].
  assert (Hgen : forall p g : R, (p - rsum 1 (fun t =>
      (let m := (1 - b1) * rsum (S t) (fun u => b1 ^ (t - u) * nth u [g] 0) in
       let v := (1 - b2) * rsum (S t) (fun u => b2 ^ (t - u) * nth u [g] 0 ^ 2) in
       lr / (1 + decay * INR t) * (m / (1 - b1 ^ (t + 1))) / (sqrt (v / (1 - b1 ^ (t + 1))) + eps)))) = p - step g).
  { intros p g. rewrite rsum_1. cbv zeta. rewrite !rsum_1. simpl. unfold step. f_equal. rewrite Rmult_0_r, Rplus_0_r, !Rmult_1_r, !Rmult_1_l.
    replace ((1 - b2) * (g * g) / (1 - b1)) with ((1 - b2) / (1 - b1) * Rsqr g) by (unfold Rsqr; field; lra).
    assert (Hq : 0 <= (1 - b2) / (1 - b1)) by (apply Rmult_le_pos; [lra|left; apply Rinv_0_lt_compat; lra]).
    rewrite (sqrt_mult _ _ Hq (Rle_0_sqr g)), sqrt_Rsqr_abs.
    assert (0 < sqrt ((1 - b2) / (1 - b1)) * Rabs g + eps) by (pose proof (Rmult_le_pos _ _ (sqrt_pos ((1 - b2) / (1 - b1))) (Rabs_pos g)); lra).
    field. split; lra. }
  split.
  - eapply own_mk_ext; [exact O1|]. intros i j Hi Hj. exact (Hgen (entry W i j) (entry dW i j)).
  - eapply own_mk_ext; [exact O2|]. intros i j Hi Hj. exact (Hgen (entry B i j) (entry dB i j)).
Qed.

Lemma adam_exceeds : exists (s : state RNum) o oref w b rw rb (W B : rpm) dw db dW dB lr eps b1 b2,
  NewAdamOptimizer (K := RNum) lr 0 eps b1 b2 s = (Ret o, s) /\ nth_error (h_opts s) oref = Some o /\
  0 < b1 < 1 /\ 0 < b2 < 1 /\ b1 ^ 2 < b2 /\ 0 < eps /\
  params s w b rw rb 1 1 W B /\ grads s rw rb 1 1 [(dw, db)] [(dW, dB)] /\
  returns (Opt_Update oref w b dw db) s (fun _ s' => exists W', own s' w rw 1 1 W' /\ Rabs (entry W' 0 0 - entry W 0 0) = 5 * lr).
Proof.
  destruct oadam_new as (o & Ho). match type of Ho with NewAdamOptimizer _ _ _ _ _ ?s = _ => set (s0 := s) in * end.
  assert (Es : s0 = oc_state (K := RNum) 0 0 1 1 0 o).
  { unfold s0. f_equal. unfold NewAdamOptimizer in Ho. simpl in Ho. replace (r_leb 1 0) with false in Ho by (symmetry; apply r_leb_false; lra).
    replace (r_ltb 0 0) with false in Ho by (symmetry; apply r_ltb_false; lra). unfold ret in Ho. injection Ho as E _. exact E. }
  rewrite Es in Ho. assert (HP := oc_params (K := RNum) 0 0 1 1 0 o). assert (HG := oc_grads (K := RNum) 0 0 1 1 0 o 1). simpl in HG.
  exists (oc_state (K := RNum) 0 0 1 1 0 o), o, 0%nat, oc_w, oc_b, [1]%nat, [2]%nat, [[0]], [[0]], oc_dw, oc_db, [[1]], [[1]], 1, (1/10), (9/10), (999/1000).
  split; [exact Ho|]. split; [reflexivity|]. repeat (split; [lra|]). split; [exact HP|]. split; [exact HG|].
  destruct (adam_first 1 0 (1/10) (9/10) (999/1000) _ o 0 oc_w oc_b [1]%nat [2]%nat 1 1 _ _ _ _ _ _ ltac:(lra) ltac:(lra) ltac:(lra) Ho eq_refl HP HG) as (u & s' & E & Q1 & _).
  exists u, s'. split; [exact E|]. eexists. split; [exact Q1|]. rewrite entry_mk by lia. unfold entry; simpl.
  replace ((1 - 999 / 1000) / (1 - 9 / 10)) with ((1/10) * (1/10)) by lra. rewrite sqrt_square by lra. rewrite Rabs_R1.
  match goal with |- Rabs ?x = _ => replace x with (-5) by lra end. rewrite Rabs_left by lra. lra.
Qed.
Lemma momentum_case : exists (s : state RNum) o, NewSGDOptimizer (K := RNum) 1 0 (1/2) s = (Ret o, s) /\ nth_error (h_opts s) 0 = Some o /\
  params s oc_w oc_b [1]%nat [2]%nat 1 1 [[0]] [[0]] /\ grads s [1]%nat [2]%nat 1 1 ([(oc_dw, oc_db)] ++ [(oc_dw, oc_db)]) ([([[1]], [[1]])] ++ [([[1]], [[1]])]) /\
  forall H, In H [([[1]], [[1]]); ([[1]], [[1]])] -> forall i j, Rabs (entry (K := RNum) (fst H) i j) <= 1.
Proof.
  set (o := MkOpt (K := RNum) SGD 1 0 (1/2) 0 0 0 1 0%Z matrix0 matrix0 matrix0 matrix0 (negb (r_eqb 0 0)) (negb (r_eqb (1/2) 0))).
  exists (oc_state (K := RNum) 0 0 1 1 0 o), o. split; [|split; [reflexivity|split; [apply oc_params|split; [exact (oc_grads (K := RNum) 0 0 1 1 0 o 2)|]]]].
  - unfold NewSGDOptimizer. simpl. rewrite (proj2 (r_leb_false 1 0)), (proj2 (r_ltb_false 0 0)), (proj2 (r_ltb_false (1/2) 0)) by lra. reflexivity.
  - intros H HI i j. assert (Hc : H = ([[1]], [[1]])) by (simpl in HI; tauto || (destruct HI as [<-|[<-|[]]]; reflexivity)). subst H.
    unfold entry. destruct i as [|[|i]]; simpl; [|rewrite ?Rabs_R0; destruct j; simpl; rewrite Rabs_R0; lra|destruct j; simpl; rewrite Rabs_R0; lra].
    destruct j as [|[|j]]; simpl; rewrite ?Rabs_R1, ?Rabs_R0; lra.
Qed.
