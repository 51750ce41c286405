(** * OptReal: closed forms of the optimizer recurrences in exact arithmetic. *)
From Coq Require Import String ZArith List Bool Arith Lia Reals Lra.
From Verif Require Import Num Heap Spec Matrix Network Optimizers PureSpec Repr NumR RSum LossReal OptSpec OptProofs OptFacts.
Import ListNotations.
Open Scope R_scope.

Lemma rsum_shift n f : rsum (S n) f = f O + rsum n (fun k => f (S k)).
Proof. induction n as [|n IH]; [rewrite !rsum_S, !rsum_0; lra|]. rewrite rsum_S, IH, rsum_S. lra. Qed.

Lemma sgd_closed (rate : Z -> R) gs : forall t p,
  sgd_run (K := RNum) rate t p gs = p - rsum (length gs) (fun k => rate (t + Z.of_nat k)%Z * nth k gs 0).
Proof.
  induction gs as [|g gs IH]; intros t p.
  - simpl length. rewrite rsum_0. simpl. lra.
  - simpl length. rewrite rsum_shift. cbn [sgd_run]. rewrite IH. unfold sgd1. cbn [nth]. rewrite Z.add_0_r.
    rewrite (rsum_ext _ (fun k => rate (t + 1 + Z.of_nat k)%Z * nth k gs 0) (fun k => rate (t + Z.of_nat (S k))%Z * nth k gs 0)).
    2:{ intros k _. do 2 f_equal. lia. } simpl (fsub _ _). simpl (fmul _ _). change (nth 0 (g :: gs) 0) with g. simpl. lra.
Qed.

(** The velocity of momentum SGD after gradient number [j]. *)
Definition velocity (mu : R) (rate : nat -> R) (g : nat -> R) (j : nat) : R :=
  - rsum (S j) (fun k => mu ^ (j - k) * rate k * g k).
Lemma velocity_S mu rate g j : velocity mu rate g (S j) = - (mu ^ (S j) * (rate O * g O)) + velocity mu (fun k => rate (S k)) (fun k => g (S k)) j.
Proof.
  unfold velocity. rewrite rsum_shift.
  rewrite (rsum_ext (S j) (fun k => mu ^ (S j - S k) * rate (S k) * g (S k)) (fun k => mu ^ (j - k) * rate (S k) * g (S k))).
  2:{ intros; simpl; reflexivity. } rewrite Nat.sub_0_r. lra.
Qed.
Lemma mom_closed mu (rate : Z -> R) gs : forall t p v,
  fst (mom_run (K := RNum) mu rate t p v gs) =
  p + rsum (length gs) (fun j => mu ^ (S j) * v + velocity mu (fun k => rate (t + Z.of_nat k)%Z) (fun k => nth k gs 0) j) /\
  snd (mom_run (K := RNum) mu rate t p v gs) =
  match length gs with O => v | S j => mu ^ (S j) * v + velocity mu (fun k => rate (t + Z.of_nat k)%Z) (fun k => nth k gs 0) j end.
Proof.
  induction gs as [|g gs IH]; intros t p v.
  - simpl. rewrite rsum_0. split; [lra|reflexivity].
  - cbn [mom_run length]. set (v' := vel1 (K := RNum) mu (rate t) v g).
    assert (Ev : v' = mu * v - rate t * g) by (unfold v', vel1; simpl; lra).
    destruct (IH (t + 1)%Z (p + v') v') as [IH1 IH2]. change (fadd (n := RNum) p v') with (p + v'). rewrite IH1, IH2. clear IH IH1 IH2.
    set (h := fun k => nth k (g :: gs) 0). set (r := fun k => rate (t + Z.of_nat k)%Z).
    assert (EV : forall j, mu ^ (S j) * v' + velocity mu (fun k => rate (t + 1 + Z.of_nat k)%Z) (fun k => nth k gs 0) j =
                 mu ^ (S (S j)) * v + velocity mu r h (S j)).
    { intros j. rewrite velocity_S. change (fun k => h (S k)) with (fun k => nth k gs 0).
      replace (velocity mu (fun k => r (S k)) (fun k => nth k gs 0) j) with (velocity mu (fun k => rate (t + 1 + Z.of_nat k)%Z) (fun k => nth k gs 0) j).
      2:{ unfold velocity. f_equal. apply rsum_ext. intros k _. unfold r. do 3 f_equal. lia. }
      change (h O) with g. replace (r O) with (rate t) by (unfold r; now rewrite Z.add_0_r). rewrite Ev. simpl. ring. }
    assert (E0 : v' = mu ^ 1 * v + velocity mu r h 0).
    { unfold velocity. rewrite rsum_S, rsum_0. change (h O) with g. unfold r. rewrite Z.add_0_r, Ev. simpl. ring. }
    split.
    + rewrite rsum_shift. rewrite (rsum_ext _ _ _ (fun j _ => EV j)). rewrite <- E0. lra.
    + destruct gs as [|g2 gs]; [exact E0|]. cbn [length]. apply EV.
Qed.

(** The exponential moving averages of Adam. *)
Definition ema (b : R) (g : nat -> R) (j : nat) : R := (1 - b) * rsum (S j) (fun k => b ^ (j - k) * g k).
Lemma ema_S b g j : ema b g (S j) = b ^ (S j) * ((1 - b) * g O) + ema b (fun k => g (S k)) j.
Proof.
  unfold ema. rewrite rsum_shift.
  rewrite (rsum_ext (S j) (fun k => b ^ (S j - S k) * g (S k)) (fun k => b ^ (j - k) * g (S k))) by (intros; reflexivity).
  rewrite Nat.sub_0_r. ring.
Qed.
(** One step of the code's Adam from the averages [m] and [c]. *)
Definition adam_step (lr eps corr m c : R) : R := lr * (m / corr) / (sqrt (c / corr) + eps).

Lemma adam_corr_R b t : (0 <= t)%Z -> adam_corr (K := RNum) b t = / (1 - b ^ (Z.to_nat t + 1)).
Proof.
  intros Ht. unfold adam_corr. simpl. unfold Rdiv. rewrite Rmult_1_l. do 2 f_equal. rewrite r_pow_Z.
  replace (t + 1)%Z with (Z.of_nat (Z.to_nat t + 1)) by lia. rewrite <- pow_powerRZ. reflexivity.
Qed.
Lemma adam_closed b1 b2 eps (rate : Z -> R) gs : forall t p m c, (0 <= t)%Z ->
  fst (fst (adam_run (K := RNum) b1 b2 eps rate t p m c gs)) =
  p - rsum (length gs) (fun j => adam_step (rate (t + Z.of_nat j)%Z) eps (1 - b1 ^ (Z.to_nat t + j + 1))
        (b1 ^ (S j) * m + ema b1 (fun k => nth k gs 0) j) (b2 ^ (S j) * c + ema b2 (fun k => nth k gs 0 ^ 2) j)).
Proof.
  induction gs as [|g gs IH]; intros t p m c Ht.
  - simpl. rewrite rsum_0. lra.
  - cbn [adam_run length]. set (m' := adam_m1 (K := RNum) b1 m g). set (c' := adam_c1 (K := RNum) b2 c g).
    assert (Em : m' = b1 * m + (1 - b1) * g) by (unfold m', adam_m1; simpl; lra).
    assert (Ec : c' = b2 * c + (1 - b2) * g ^ 2).
    { unfold c', adam_c1. cbn [fadd fmul fpow fsub f1 ofZ RNum]. rewrite r_pow_Z. simpl. lra. }
    rewrite IH by lia. rewrite rsum_shift. unfold adam_p1. rewrite adam_corr_R by lia.
    change (fun k => nth k (g :: gs) 0 ^ 2) with (fun k => (fun k => nth k (g :: gs) 0) k ^ 2).
    set (h := fun k => nth k (g :: gs) 0).
    rewrite (rsum_ext (length gs) _ (fun j => adam_step (rate (t + Z.of_nat (S j))%Z) eps (1 - b1 ^ (Z.to_nat t + S j + 1))
        (b1 ^ (S (S j)) * m + ema b1 h (S j)) (b2 ^ (S (S j)) * c + ema b2 (fun k => h k ^ 2) (S j)))).
    2:{ intros j _. rewrite !ema_S. change (fun k => h (S k)) with (fun k => nth k gs 0).
        change (fun k => h (S k) ^ 2) with (fun k => nth k gs 0 ^ 2). change (h O) with g. rewrite Em, Ec.
        replace (Z.to_nat (t + 1) + j + 1)%nat with (Z.to_nat t + S j + 1)%nat by lia.
        replace (t + 1 + Z.of_nat j)%Z with (t + Z.of_nat (S j))%Z by lia. f_equal; simpl; ring. }
    replace (b1 ^ 1 * m + ema b1 h 0) with m'. 2:{ unfold ema. rewrite rsum_S, rsum_0. change (h O) with g. rewrite Em. simpl. ring. }
    replace (b2 ^ 1 * c + ema b2 (fun k => h k ^ 2) 0) with c'. 2:{ unfold ema. rewrite rsum_S, rsum_0. change (h O) with g. rewrite Ec. simpl. ring. }
    rewrite !Nat.add_0_r, Z.add_0_r. unfold adam_step. cbn [fadd fmul fdiv fneg fsqrt RNum]. unfold Rdiv. match goal with |- ?a = ?b => change (@eq R a b) end. ring.
Qed.

(** ** The learning rate schedule *)
Lemma NewSGD_R lr decay mu (s : state RNum) o : NewSGDOptimizer lr decay mu s = (Ret o, s) -> 0 < lr /\ 0 <= decay /\ 0 <= mu.
Proof.
  unfold NewSGDOptimizer. simpl. destruct (r_leb lr 0) eqn:E1, (r_ltb decay 0) eqn:E2, (r_ltb mu 0) eqn:E3; cbn; intros E; inversion E.
  apply r_leb_false in E1. apply r_ltb_false in E2, E3. auto.
Qed.
Lemma NewAdam_R lr decay eps b1 b2 (s : state RNum) o : NewAdamOptimizer lr decay eps b1 b2 s = (Ret o, s) -> 0 < lr /\ 0 <= decay.
Proof.
  unfold NewAdamOptimizer. simpl. destruct (r_leb lr 0) eqn:E1, (r_ltb decay 0) eqn:E2; cbn; intros E; inversion E.
  apply r_leb_false in E1. apply r_ltb_false in E2. auto.
Qed.
Lemma schedule_R (lr decay : R) n : 0 <= decay -> schedule (K := RNum) lr decay (Z.of_nat n) = lr / (1 + decay * INR n).
Proof.
  intros Hd. unfold schedule, rate_at. simpl. rewrite <- INR_IZR_INZ. assert (Hn := pos_INR n).
  assert (0 <= decay * INR n) by now apply Rmult_le_pos.
  destruct (r_eqb decay 0) eqn:E; [apply r_eqb_true in E; subst|]; match goal with |- ?a = ?b => change (@eq R a b) end; field; lra.
Qed.

(** ** The code in exact arithmetic *)
Lemma wgrad_length (Gs : list (pm RNum * pm RNum)) i j : length (wgrad Gs i j) = length Gs. Proof. apply map_length. Qed.
Lemma bgrad_length (Gs : list (pm RNum * pm RNum)) i j : length (bgrad Gs i j) = length Gs. Proof. apply map_length. Qed.

Theorem sgd_exact lr decay (s : state RNum) o oref w b rw rb k c (W B : rpm) gs Gs :
  NewSGDOptimizer lr decay 0 s = (Ret o, s) ->
  nth_error (h_opts s) oref = Some o -> params s w b rw rb k c W B -> grads s rw rb k c gs Gs ->
  let n := length Gs in
  returns (updates oref w b gs) s (fun _ s' =>
    own s' w rw k c (mk (K := RNum) k c (fun i j => entry W i j - rsum n (fun t => lr / (1 + decay * INR t) * nth t (wgrad Gs i j) 0))) /\
    own s' b rb 1 c (mk (K := RNum) 1 c (fun i j => entry B i j - rsum n (fun t => lr / (1 + decay * INR t) * nth t (bgrad Gs i j) 0))) /\
    only_params oref s s' rw rb).
Proof.
  intros HN Hl HP HG n. destruct (NewSGD_R _ _ _ _ _ HN) as (Hlr & Hd & _).
  destruct (sgd_history (K := RNum) lr decay 0 o s oref w b rw rb k c W B gs Gs HN ltac:(simpl; apply r_eqb_true; reflexivity) Hl HP HG) as (u & s' & E & Q1 & Q2 & Q3).
  exists u, s'. split; [exact E|]. split; [|split; [|exact Q3]].
  - eapply own_mk_ext; [exact Q1|]. intros i j _ _. cbv beta. rewrite sgd_closed, wgrad_length. fold n. f_equal. apply rsum_ext. intros t _.
    now rewrite Z.add_0_l, schedule_R.
  - eapply own_mk_ext; [exact Q2|]. intros i j _ _. cbv beta. rewrite sgd_closed, bgrad_length. fold n. f_equal. apply rsum_ext. intros t _.
    now rewrite Z.add_0_l, schedule_R.
Qed.

Lemma velocity_ext mu r r' g j : (forall k, r k = r' k) -> velocity mu r g j = velocity mu r' g j.
Proof. intros H. unfold velocity. f_equal. apply rsum_ext. intros. now rewrite H. Qed.

Theorem momentum_exact lr decay mu (s : state RNum) o oref w b rw rb k c (W B : rpm) gs Gs :
  NewSGDOptimizer lr decay mu s = (Ret o, s) -> mu <> 0 ->
  nth_error (h_opts s) oref = Some o -> params s w b rw rb k c W B -> grads s rw rb k c gs Gs ->
  let n := length Gs in
  let total g := rsum n (fun t => - rsum (S t) (fun u => mu ^ (t - u) * (lr / (1 + decay * INR u)) * nth u g 0)) in
  returns (updates oref w b gs) s (fun _ s' =>
    own s' w rw k c (mk (K := RNum) k c (fun i j => entry W i j + total (wgrad Gs i j))) /\
    own s' b rb 1 c (mk (K := RNum) 1 c (fun i j => entry B i j + total (bgrad Gs i j))) /\
    only_params oref s s' rw rb).
Proof.
  intros HN Hmu Hl HP HG n total. destruct (NewSGD_R _ _ _ _ _ HN) as (Hlr & Hd & _).
  destruct (mom_history (K := RNum) lr decay mu o s oref w b rw rb k c W B gs Gs HN ltac:(simpl; apply r_eqb_false; exact Hmu) Hl HP HG) as (u & s' & E & Q1 & Q2 & Q3).
  exists u, s'. split; [exact E|].
  assert (X : forall p g, length g = n -> fst (mom_run (K := RNum) mu (schedule (K := RNum) lr decay) 0 p 0 g) = p + total g).
  { intros p g Hg. rewrite (proj1 (mom_closed mu _ g 0 p 0)), Hg. f_equal. unfold total. apply rsum_ext. intros t _.
    rewrite (velocity_ext mu _ (fun k => lr / (1 + decay * INR k))).
    - unfold velocity. rewrite Rmult_0_r, Rplus_0_l. reflexivity.
    - intros x. now rewrite Z.add_0_l, schedule_R. }
  split; [|split; [|exact Q3]].
  - eapply own_mk_ext; [exact Q1|]. intros i j _ _. cbv beta. apply X, wgrad_length.
  - eapply own_mk_ext; [exact Q2|]. intros i j _ _. cbv beta. apply X, bgrad_length.
Qed.

(** The step sizes: [corr1] and [corr2] are the powers used in the two bias corrections. *)
Definition adam_total (b1 b2 lr decay eps bc : R) (n : nat) (g : list R) : R :=
  rsum n (fun t =>
    let m := (1 - b1) * rsum (S t) (fun u => b1 ^ (t - u) * nth u g 0) in
    let v := (1 - b2) * rsum (S t) (fun u => b2 ^ (t - u) * nth u g 0 ^ 2) in
    lr / (1 + decay * INR t) * (m / (1 - b1 ^ (t + 1))) / (sqrt (v / (1 - bc ^ (t + 1))) + eps)).

Theorem adam_exact lr decay eps b1 b2 (s : state RNum) o oref w b rw rb k c (W B : rpm) gs Gs :
  NewAdamOptimizer lr decay eps b1 b2 s = (Ret o, s) ->
  nth_error (h_opts s) oref = Some o -> params s w b rw rb k c W B -> grads s rw rb k c gs Gs ->
  let n := length Gs in
  returns (updates oref w b gs) s (fun _ s' =>
    own s' w rw k c (mk (K := RNum) k c (fun i j => entry W i j - adam_total b1 b2 lr decay eps b1 n (wgrad Gs i j))) /\
    own s' b rb 1 c (mk (K := RNum) 1 c (fun i j => entry B i j - adam_total b1 b2 lr decay eps b1 n (bgrad Gs i j))) /\
    only_params oref s s' rw rb).
Proof.
  intros HN Hl HP HG n. destruct (NewAdam_R _ _ _ _ _ _ _ HN) as (Hlr & Hd).
  destruct (adam_history (K := RNum) lr decay eps b1 b2 o s oref w b rw rb k c W B gs Gs HN Hl HP HG) as (u & s' & E & Q1 & Q2 & Q3).
  exists u, s'. split; [exact E|].
  assert (X : forall p g, length g = n -> fst (fst (adam_run (K := RNum) b1 b2 eps (schedule (K := RNum) lr decay) 0 p 0 0 g)) = p - adam_total b1 b2 lr decay eps b1 n g).
  { intros p g Hg. rewrite adam_closed by lia. rewrite Hg. f_equal. unfold adam_total. apply rsum_ext. intros t _.
    rewrite Z.add_0_l, schedule_R by exact Hd. unfold adam_step, ema. rewrite !Rmult_0_r, !Rplus_0_l. reflexivity. }
  split; [|split; [|exact Q3]].
  - eapply own_mk_ext; [exact Q1|]. intros i j _ _. cbv beta. apply X, wgrad_length.
  - eapply own_mk_ext; [exact Q2|]. intros i j _ _. cbv beta. apply X, bgrad_length.
Qed.

(** Standard Adam (Kingma and Ba): total decrease of a parameter after the gradients [g]. *)
Definition standard_adam (lr decay eps b1 b2 : R) (n : nat) (g : list R) : R :=
  rsum n (fun t =>
    let m := (1 - b1) * rsum (S t) (fun u => b1 ^ (t - u) * nth u g 0) in
    let v := (1 - b2) * rsum (S t) (fun u => b2 ^ (t - u) * nth u g 0 ^ 2) in
    lr / (1 + decay * INR t) * (m / (1 - b1 ^ (t + 1))) / (sqrt (v / (1 - b2 ^ (t + 1))) + eps)).
Theorem adam_standard_equal lr decay eps beta (s : state RNum) o oref w b rw rb k c (W B : rpm) gs Gs :
  0 <= beta < 1 -> 0 < eps ->
  NewAdamOptimizer lr decay eps beta beta s = (Ret o, s) ->
  nth_error (h_opts s) oref = Some o -> params s w b rw rb k c W B -> grads s rw rb k c gs Gs ->
  returns (updates oref w b gs) s (fun _ s' =>
    own s' w rw k c (mk (K := RNum) k c (fun i j => entry W i j - standard_adam lr decay eps beta beta (length Gs) (wgrad Gs i j))) /\
    own s' b rb 1 c (mk (K := RNum) 1 c (fun i j => entry B i j - standard_adam lr decay eps beta beta (length Gs) (bgrad Gs i j)))).
Proof.
  intros _ _ HN Hl HP HG. destruct (adam_exact lr decay eps beta beta s o oref w b rw rb k c W B gs Gs HN Hl HP HG) as (u & s' & E & Q1 & Q2 & _).
  exists u, s'. split; [exact E|]. split; [exact Q1|exact Q2].
Qed.
