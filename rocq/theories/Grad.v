(** * Grad: derivatives of the plain layers. *)
From Coq Require Import String ZArith List Bool Arith Lia Reals Lra.
From Coquelicot Require Import Coquelicot.
From Verif Require Import Num NumR Heap Spec PureSpec RSum MiscFacts ActFacts LayerFacts LayerReal GradSpec.
Import ListNotations.
Open Scope R_scope.

(** ** Calculus *)
Lemma d_const (a x : R) : is_derive (fun _ : R => a) x 0.
Proof. exact (is_derive_const a x). Qed.
Lemma d_plus (f g : R -> R) (x a b : R) : is_derive f x a -> is_derive g x b -> is_derive (fun t => f t + g t) x (a + b).
Proof. exact (is_derive_plus f g x a b). Qed.
Lemma d_minus (f g : R -> R) (x a b : R) : is_derive f x a -> is_derive g x b -> is_derive (fun t => f t - g t) x (a - b).
Proof. exact (is_derive_minus f g x a b). Qed.
Lemma d_opp (f : R -> R) (x a : R) : is_derive f x a -> is_derive (fun t => - f t) x (- a).
Proof. exact (is_derive_opp f x a). Qed.
Lemma d_mult (f g : R -> R) (x a b : R) : is_derive f x a -> is_derive g x b -> is_derive (fun t => f t * g t) x (a * g x + f x * b).
Proof. intros Hf Hg. exact (is_derive_mult f g x a b Hf Hg Rmult_comm). Qed.
Lemma d_scal (f : R -> R) (x a k : R) : is_derive f x a -> is_derive (fun t => k * f t) x (k * a).
Proof. exact (is_derive_scal f x k a). Qed.
Lemma d_scal_r (f : R -> R) (x a k : R) : is_derive f x a -> is_derive (fun t => f t * k) x (a * k).
Proof.
  intros H. rewrite Rmult_comm. apply (is_derive_ext (fun t => k * f t)). { intros t. apply Rmult_comm. }
  now apply d_scal.
Qed.
Lemma d_comp (phi f : R -> R) (x a b : R) : is_derive phi (f x) b -> is_derive f x a -> is_derive (fun t => phi (f t)) x (b * a).
Proof. intros H1 H2. rewrite Rmult_comm. exact (is_derive_comp phi f x b a H1 H2). Qed.
Lemma d_ext (f g : R -> R) (x a : R) : (forall t, f t = g t) -> is_derive f x a -> is_derive g x a.
Proof. intros H. exact (is_derive_ext f g x a H). Qed.
Lemma d_eq (f : R -> R) (x a b : R) : a = b -> is_derive f x a -> is_derive f x b.
Proof. now intros ->. Qed.
Lemma d_inv (f : R -> R) (x a : R) : f x <> 0 -> is_derive f x a -> is_derive (fun t => / f t) x (- a / (f x) ^ 2).
Proof. intros H1 H2. exact (is_derive_inv f x a H2 H1). Qed.
Lemma d_rsum n (f : nat -> R -> R) (x : R) (d : nat -> R) :
  (forall k, (k < n)%nat -> is_derive (f k) x (d k)) -> is_derive (fun t => rsum n (fun k => f k t)) x (rsum n d).
Proof.
  induction n as [|n IH]; intros H.
  - rewrite rsum_0. apply (d_ext (fun _ => 0)). { intros t. now rewrite rsum_0. } apply d_const.
  - rewrite rsum_S. apply (d_ext (fun t => rsum n (fun k => f k t) + f n t)). { intros t. now rewrite rsum_S. }
    apply d_plus; [apply IH; intros; apply H; lia|apply H; lia].
Qed.
Lemma d_exp (f : R -> R) (x a : R) : is_derive f x a -> is_derive (fun t => exp (f t)) x (exp (f x) * a).
Proof. intros H. apply (d_comp exp); [|exact H]. exact (is_derive_exp (f x)). Qed.

Lemma d_relu (z : R) : z <> 0 -> is_derive (fun t => Rmax t 0) z (if Rlt_dec 0 z then 1 else 0).
Proof.
  intros Hz. destruct (Rlt_dec 0 z) as [H|H].
  - apply (is_derive_ext_loc (fun t => t)).
    + exists (mkposreal z H). intros y Hy. unfold ball in Hy. simpl in Hy. unfold AbsRing_ball, abs, minus, plus, opp in Hy. simpl in Hy.
      apply Rabs_def2 in Hy. rewrite Rmax_left; lra.
    + exact (is_derive_id z).
  - apply (is_derive_ext_loc (fun _ => 0)).
    + assert (H' : 0 < - z) by lra. exists (mkposreal (- z) H'). intros y Hy. unfold ball in Hy. simpl in Hy. unfold AbsRing_ball, abs, minus, plus, opp in Hy. simpl in Hy.
      apply Rabs_def2 in Hy. rewrite Rmax_right; lra.
    + apply d_const.
Qed.
Lemma d_leaky (a z : R) : z <> 0 -> is_derive (fun t => if Rlt_dec t 0 then t * a else t) z (if Rlt_dec z 0 then a else 1).
Proof.
  intros Hz. destruct (Rlt_dec z 0) as [H|H].
  - apply (is_derive_ext_loc (fun t => t * a)).
    + assert (H' : 0 < - z) by lra. exists (mkposreal (- z) H'). intros y Hy. unfold ball in Hy. simpl in Hy. unfold AbsRing_ball, abs, minus, plus, opp in Hy. simpl in Hy.
      apply Rabs_def2 in Hy. destruct (Rlt_dec y 0); lra.
    + apply d_eq with (a := 1 * a); [ring|]. apply d_scal_r. exact (is_derive_id z).
  - assert (H0 : 0 < z) by lra. apply (is_derive_ext_loc (fun t => t)).
    + exists (mkposreal z H0). intros y Hy. unfold ball in Hy. simpl in Hy. unfold AbsRing_ball, abs, minus, plus, opp in Hy. simpl in Hy.
      apply Rabs_def2 in Hy. destruct (Rlt_dec y 0); lra.
    + exact (is_derive_id z).
Qed.

(** ** Inner products *)
Lemma inner_ext r c (A B A' B' : rpm) :
  (forall i j, (i < r)%nat -> (j < c)%nat -> entry A i j * entry B i j = entry A' i j * entry B' i j) ->
  inner r c A B = inner r c A' B'.
Proof. intros H. unfold inner. apply rsum_ext. intros i Hi. apply rsum_ext. intros j Hj. now apply H. Qed.
Lemma R_fsum n g : fsum (K := RNum) n g = rsum n g.
Proof. reflexivity. Qed.

(** ** Affine part *)
Definition paff' (r k c : nat) (X W X' W' B' : rpm) : rpm :=
  mk (K := RNum) r c (fun i j => rsum k (fun n => entry X' i n * entry W n j + entry X i n * entry W' n j) + entry B' 0 j).
Lemma paff_entry r k c (X W b : rpm) i j : (i < r)%nat -> (j < c)%nat ->
  entry (paff r k c X W b) i j = rsum k (fun n => entry X i n * entry W n j) + entry b 0 j.
Proof. intros Hi Hj. unfold paff. rewrite entry_mk by auto. reflexivity. Qed.
Lemma d_paff r k c Xc Wc Bc (X' W' B' : rpm) :
  mderiv r k Xc X' -> mderiv k c Wc W' -> mderiv 1 c Bc B' ->
  mderiv r c (fun t => paff r k c (Xc t) (Wc t) (Bc t)) (paff' r k c (Xc 0) (Wc 0) X' W' B').
Proof.
  intros HX HW HB i j Hi Hj. unfold paff'. rewrite entry_mk by auto.
  apply (d_ext (fun t => rsum k (fun n => entry (Xc t) i n * entry (Wc t) n j) + entry (Bc t) 0 j)).
  { intros t. now rewrite paff_entry. }
  apply d_plus; [|apply HB; lia].
  apply (d_rsum k (fun n t => entry (Xc t) i n * entry (Wc t) n j)). intros n Hn.
  apply d_mult; [apply HX; auto|apply HW; auto].
Qed.
Lemma affine_adjoint r k c (X W X' W' B' G : rpm) :
  inner r c G (paff' r k c X W X' W' B') =
    inner k c (pdW r k c X G) W' + inner 1 c (psum0 r c G) B' + inner r k (pdX r k c G W) X'.
Proof.
  assert (E1 : inner k c (pdW r k c X G) W' = rsum r (fun i => rsum c (fun j => rsum k (fun n => entry G i j * (entry X i n * entry W' n j))))).
  { unfold inner, pdW. rewrite pdot_trans_l.
    transitivity (rsum k (fun n => rsum c (fun j => rsum r (fun i => entry G i j * (entry X i n * entry W' n j))))).
    - apply rsum_ext. intros n Hn. apply rsum_ext. intros j Hj. rewrite entry_mk by auto. rewrite R_fsum.
      rewrite <- rsum_scal_r. apply rsum_ext. intros i Hi. cbn [fmul RNum]. ring.
    - rewrite (rsum_ext k _ (fun n => rsum r (fun i => rsum c (fun j => entry G i j * (entry X i n * entry W' n j))))).
      2:{ intros n Hn. apply rsum_swap. }
      rewrite rsum_swap. apply rsum_ext. intros i Hi. apply rsum_swap. }
  assert (E2 : inner 1 c (psum0 r c G) B' = rsum r (fun i => rsum c (fun j => entry G i j * entry B' 0 j))).
  { unfold inner, psum0. rewrite rsum_1. rewrite rsum_swap. apply rsum_ext. intros j Hj. rewrite entry_mk by (auto; lia).
    rewrite R_fsum. rewrite <- rsum_scal_r. reflexivity. }
  assert (E3 : inner r k (pdX r k c G W) X' = rsum r (fun i => rsum c (fun j => rsum k (fun n => entry G i j * (entry X' i n * entry W n j))))).
  { unfold inner, pdX. rewrite pdot_trans_r. apply rsum_ext. intros i Hi. rewrite rsum_swap. apply rsum_ext. intros n Hn.
    rewrite entry_mk by auto. rewrite R_fsum. rewrite <- rsum_scal_r. apply rsum_ext. intros j Hj. cbn [fmul RNum]. ring. }
  rewrite E1, E2, E3. clear E1 E2 E3. unfold inner, paff'.
  rewrite <- !rsum_plus. apply rsum_ext. intros i Hi. rewrite <- !rsum_plus. apply rsum_ext. intros j Hj.
  rewrite entry_mk by auto. rewrite Rmult_plus_distr_l, <- rsum_scal.
  rewrite (rsum_ext k _ (fun n => entry G i j * (entry X' i n * entry W n j) + entry G i j * (entry X i n * entry W' n j))).
  2:{ intros n Hn. ring. }
  rewrite rsum_plus. ring.
Qed.

(** A layer whose output depends on the pre-activations by a map [act] with (scaled) adjoint
    [G'] has the dense gradients of [G'] as (scaled) vector-Jacobian product. *)
Definition act_adjoint (scale : R) (act : rpm -> rpm) (r c : nat) (Zm G G' : rpm) : Prop :=
  forall (Zc : R -> rpm) (Z' : rpm), (forall i j, (i < r)%nat -> (j < c)%nat -> entry (Zc 0) i j = entry Zm i j) -> mderiv r c Zc Z' ->
  exists O', mderiv r c (fun t => act (Zc t)) O' /\ scale * inner r c G O' = inner r c G' Z'.

Lemma vjp_of_act scale (f : player RNum -> rpm -> rpm) act p r (X G G' : rpm) :
  (forall W B X1, f (with_params p W B) X1 = act (paff r (p_in p) (p_out p) X1 W B)) ->
  act_adjoint scale act r (p_out p) (paffine p r X) G G' ->
  is_vjp_scaled scale f p r X G (pdW r (p_in p) (p_out p) X G') (psum0 r (p_out p) G') (pdX r (p_in p) (p_out p) G' (p_w p)).
Proof.
  intros Hf HA Wc Bc Xc W' B' X' HW0 HB0 HX0 HW HB HX.
  pose proof (d_paff _ _ _ _ _ _ _ _ _ HX HW HB) as HZ. rewrite HX0, HW0 in HZ.
  assert (H0 : forall i j, (i < r)%nat -> (j < p_out p)%nat ->
    entry ((fun t => paff r (p_in p) (p_out p) (Xc t) (Wc t) (Bc t)) 0) i j = entry (paffine p r X) i j).
  { intros i j _ _. cbv beta. now rewrite HX0, HW0, HB0. }
  destruct (HA _ _ H0 HZ) as (O' & HO & E).
  exists O'. split.
  - intros i j Hi Hj. apply (d_ext (fun t => entry (act (paff r (p_in p) (p_out p) (Xc t) (Wc t) (Bc t))) i j)).
    { intros t. now rewrite Hf. } now apply HO.
  - rewrite E. apply affine_adjoint.
Qed.

(** ** Elementwise activations *)
Lemma elementwise_adjoint scale (phi : nat -> nat -> R -> R) (dphi : nat -> nat -> R) act r c (Zm G G' : rpm) :
  (forall Z i j, (i < r)%nat -> (j < c)%nat -> entry (act Z) i j = phi i j (entry Z i j)) ->
  (forall i j, (i < r)%nat -> (j < c)%nat -> is_derive (phi i j) (entry Zm i j) (dphi i j)) ->
  (forall i j, (i < r)%nat -> (j < c)%nat -> entry G' i j = scale * (entry G i j * dphi i j)) ->
  act_adjoint scale act r c Zm G G'.
Proof.
  intros Hact Hd HG Zc Z' H0 HZ.
  exists (mk (K := RNum) r c (fun i j => dphi i j * entry Z' i j)). split.
  - intros i j Hi Hj. rewrite entry_mk by auto. apply (d_ext (fun t => phi i j (entry (Zc t) i j))).
    { intros t. now rewrite Hact. }
    apply (d_comp (phi i j) (fun t => entry (Zc t) i j)); [|now apply HZ]. rewrite H0 by auto. now apply Hd.
  - unfold inner. rewrite <- rsum_scal. apply rsum_ext. intros i Hi. rewrite <- rsum_scal. apply rsum_ext. intros j Hj.
    rewrite entry_mk by auto. rewrite HG by auto. ring.
Qed.

Lemma linear_adjoint r c (Zm G : rpm) : act_adjoint 1 (fun Z => Z) r c Zm G G.
Proof.
  apply (elementwise_adjoint 1 (fun _ _ t => t) (fun _ _ => 1)); auto.
  - intros. exact (is_derive_id _).
  - intros. now rewrite Rmult_1_r, Rmult_1_l.
Qed.
Lemma relu_prime_R (d x : R) : relu_prime1 (K := RNum) d x = if Rlt_dec 0 x then d else 0.
Proof.
  unfold relu_prime1, f0. cbn [fle ofZ RNum]. unfold r_leb. destruct (Rle_dec x 0), (Rlt_dec 0 x); try reflexivity; lra.
Qed.
Lemma leaky_R (a x : R) : leaky1 (K := RNum) a x = if Rlt_dec x 0 then x * a else x.
Proof. unfold leaky1, f0. cbn [flt fmul ofZ RNum]. unfold r_ltb. destruct (Rlt_dec x 0); reflexivity. Qed.
Lemma leaky_prime_R (a d x : R) : leaky_prime1 (K := RNum) a d x = if Rlt_dec x 0 then d * a else d.
Proof. unfold leaky_prime1, f0. cbn [flt fmul ofZ RNum]. unfold r_ltb. destruct (Rlt_dec x 0); reflexivity. Qed.

Lemma hidden_adjoint r c (Zm G : rpm) : (forall i j, (i < r)%nat -> (j < c)%nat -> entry Zm i j <> 0) ->
  act_adjoint 1 (pmap r c relu1) r c Zm G (pmap2 r c relu_prime1 G (pmap r c relu1 Zm)).
Proof.
  intros Hz. apply (elementwise_adjoint 1 (fun _ _ t => Rmax t 0) (fun i j => if Rlt_dec 0 (entry Zm i j) then 1 else 0)).
  - intros Z i j Hi Hj. rewrite entry_pmap by auto. apply R_relu.
  - intros i j Hi Hj. apply d_relu, Hz; auto.
  - intros i j Hi Hj. rewrite entry_pmap2, entry_pmap by auto. rewrite R_relu, relu_prime_R.
    pose proof (Hz i j Hi Hj). destruct (Rlt_dec 0 (entry Zm i j)).
    + rewrite Rmax_left by lra. destruct (Rlt_dec 0 (entry Zm i j)); [toR; apply Rminus_diag_uniq; ring|lra].
    + rewrite Rmax_right by lra. destruct (Rlt_dec 0 0); [lra|toR; apply Rminus_diag_uniq; ring].
Qed.
Lemma leaky_adjoint (a : R) r c (Zm G : rpm) : 0 < a -> (forall i j, (i < r)%nat -> (j < c)%nat -> entry Zm i j <> 0) ->
  act_adjoint 1 (pmap r c (leaky1 (K := RNum) a)) r c Zm G (pmap2 r c (leaky_prime1 (K := RNum) a) G (pmap r c (leaky1 (K := RNum) a) Zm)).
Proof.
  intros Ha Hz. apply (elementwise_adjoint 1 (fun _ _ t => if Rlt_dec t 0 then t * a else t) (fun i j => if Rlt_dec (entry Zm i j) 0 then a else 1)).
  - intros Z i j Hi Hj. rewrite entry_pmap by auto. apply leaky_R.
  - intros i j Hi Hj. apply d_leaky, Hz; auto.
  - intros i j Hi Hj. rewrite entry_pmap2, entry_pmap by auto. rewrite leaky_R, leaky_prime_R.
    pose proof (Hz i j Hi Hj). destruct (Rlt_dec (entry Zm i j) 0).
    + destruct (Rlt_dec (entry Zm i j * a) 0); [toR; apply Rminus_diag_uniq; ring|nra].
    + destruct (Rlt_dec (entry Zm i j) 0); [lra|toR; apply Rminus_diag_uniq; ring].
Qed.
Lemma sigmoid_adjoint r c (Zm G : rpm) :
  act_adjoint 1 (pmap r c sigmoid1) r c Zm G (pmap2 r c (fun d z => sigmoid_prime1 z d) G Zm).
Proof.
  apply (elementwise_adjoint 1 (fun _ _ t => 1 / (1 + exp (- t))) (fun i j => sigmoid1 (K := RNum) (entry Zm i j) * (1 - sigmoid1 (K := RNum) (entry Zm i j)))).
  - intros Z i j Hi Hj. rewrite entry_pmap by auto. reflexivity.
  - intros i j Hi Hj. apply sigmoid_derive.
  - intros i j Hi Hj. rewrite entry_pmap2 by auto. unfold sigmoid_prime1, f1. cbn [fmul fsub ofZ RNum]. toR. apply Rminus_diag_uniq. ring.
Qed.
(** Dropout with a fixed mask [u]: (1 - d) times the true adjoint. *)
Lemma mask01 (d u : R) : 0 <= d <= 1 -> mask1 (K := RNum) d u = 0 \/ mask1 (K := RNum) d u = 1.
Proof.
  intros Hd. rewrite R_mask by lra. repeat match goal with |- context [if ?x then _ else _] => destruct x end; auto.
Qed.
Definition drop_act (d : R) (r c : nat) (u : nat -> R) (Z : rpm) : rpm :=
  mk (K := RNum) r c (fun i j => relu1 (K := RNum) (entry Z i j) * (mask1 (K := RNum) d (u (i * c + j)%nat) / (1 - d))).
Lemma drop_adjoint (d : R) (u : nat -> R) r c (Zm G : rpm) : 0 <= d < 1 -> (forall i j, (i < r)%nat -> (j < c)%nat -> entry Zm i j <> 0) ->
  act_adjoint (1 - d) (drop_act d r c u) r c Zm G
    (pmap2 r c relu_prime1 (pmap2 r c fmul G (pmask (K := RNum) d r c u)) (drop_act d r c u Zm)).
Proof.
  intros Hd Hz. apply (elementwise_adjoint (1 - d) (fun i j t => Rmax t 0 * (mask1 (K := RNum) d (u (i * c + j)%nat) / (1 - d)))
     (fun i j => (if Rlt_dec 0 (entry Zm i j) then 1 else 0) * (mask1 (K := RNum) d (u (i * c + j)%nat) / (1 - d)))).
  - intros Z i j Hi Hj. unfold drop_act. rewrite entry_mk by auto. now rewrite R_relu.
  - intros i j Hi Hj. apply (d_scal_r (fun t => Rmax t 0)). apply d_relu, Hz; auto.
  - intros i j Hi Hj. rewrite !entry_pmap2 by auto. unfold drop_act, pmask. rewrite !entry_mk by auto.
    rewrite R_relu, relu_prime_R. cbn [fmul RNum].
    set (m := mask1 (K := RNum) d (u (i * c + j)%nat)) in *.
    assert (Hm : m = 0 \/ m = 1) by (apply mask01; lra).
    pose proof (Hz i j Hi Hj). destruct Hm as [-> | ->].
    + replace (Rmax (entry Zm i j) 0 * (0 / (1 - d))) with 0 by (unfold Rdiv; ring).
      destruct (Rlt_dec 0 0); [lra|]. toR. unfold Rdiv. ring.
    + destruct (Rlt_dec 0 (entry Zm i j)).
      * rewrite Rmax_left by lra.
        assert (0 < entry Zm i j * (1 / (1 - d))). { apply Rmult_lt_0_compat; [lra|]. apply Rdiv_lt_0_compat; lra. }
        destruct (Rlt_dec 0 (entry Zm i j * (1 / (1 - d)))); [|lra]. toR. apply Rminus_diag_uniq. field. lra.
      * rewrite Rmax_right by lra. rewrite Rmult_0_l. destruct (Rlt_dec 0 0); [lra|]. toR. apply Rminus_diag_uniq. ring.
Qed.

(** ** Softmax *)
Definition smx (c : nat) (z : nat -> R) (j : nat) : R := exp (z j) / rsum c (fun k => exp (z k)).
Lemma d_softmax c (zc : nat -> R -> R) (z' : nat -> R) (x : R) j : (j < c)%nat ->
  (forall k, (k < c)%nat -> is_derive (zc k) x (z' k)) ->
  is_derive (fun t => smx c (fun k => zc k t) j) x
    (smx c (fun k => zc k x) j * (z' j - rsum c (fun n => smx c (fun k => zc k x) n * z' n))).
Proof.
  intros Hj Hz. unfold smx.
  assert (HS : 0 < rsum c (fun k => exp (zc k x))) by (apply R_expsum_pos; lia).
  apply (d_ext (fun t => exp (zc j t) * / rsum c (fun k => exp (zc k t)))). { intros t. reflexivity. }
  eapply d_eq; [|apply d_mult; [apply d_exp, Hz, Hj|apply d_inv; [lra|apply (d_rsum c (fun k t => exp (zc k t)) x (fun k => exp (zc k x) * z' k)); intros k Hk; apply d_exp, Hz, Hk]]].
  cbv beta.
  assert (E : rsum c (fun n => exp (zc n x) / rsum c (fun k => exp (zc k x)) * z' n) = rsum c (fun n => exp (zc n x) * z' n) / rsum c (fun k => exp (zc k x))).
  { rewrite <- rsum_div. apply rsum_ext. intros n Hn. unfold Rdiv. ring. }
  rewrite E. toR. apply Rminus_diag_uniq. field. lra.
Qed.
Lemma softmax_adjoint r c (Zm G : rpm) :
  act_adjoint 1 (psoftmax r c) r c Zm G (psoftmax_back r c (psoftmax r c Zm) G).
Proof.
  intros Zc Z' H0 HZ.
  set (P := fun i j => smx c (fun k => entry Zm i k) j).
  exists (mk (K := RNum) r c (fun i j => P i j * (entry Z' i j - rsum c (fun n => P i n * entry Z' i n)))). split.
  - intros i j Hi Hj. rewrite entry_mk by auto.
    apply (d_ext (fun t => smx c (fun k => entry (Zc t) i k) j)). { intros t. now rewrite R_softmax_entry. }
    pose proof (d_softmax c (fun k t => entry (Zc t) i k) (fun k => entry Z' i k) 0 j Hj (fun k Hk => HZ i k Hi Hk)) as HD.
    eapply d_eq; [|exact HD]. cbv beta.
    assert (E : forall n, (n < c)%nat -> smx c (fun k => entry (Zc 0) i k) n = P i n).
    { intros n Hn. unfold P, smx. rewrite H0 by auto. f_equal. apply rsum_ext. intros k Hk. now rewrite H0 by auto. }
    rewrite E by auto. f_equal. f_equal. apply rsum_ext. intros n Hn. now rewrite E by auto.
  - rewrite Rmult_1_l. unfold inner. apply rsum_ext. intros i Hi.
    assert (EO : forall j, (j < c)%nat -> entry (psoftmax r c Zm) i j = P i j) by (intros j Hj; apply R_softmax_entry; auto).
    transitivity (rsum c (fun j => entry G i j * (P i j * entry Z' i j)) - rsum c (fun j => entry G i j * P i j) * rsum c (fun n => P i n * entry Z' i n)).
    { rewrite <- rsum_scal_r, <- rsum_minus. apply rsum_ext. intros j Hj. rewrite entry_mk by auto. ring. }
    transitivity (rsum c (fun j => (P i j * entry G i j - P i j * rsum c (fun n => P i n * entry G i n)) * entry Z' i j)).
    { rewrite (rsum_ext c (fun j => (P i j * entry G i j - P i j * rsum c (fun n => P i n * entry G i n)) * entry Z' i j)
        (fun j => entry G i j * (P i j * entry Z' i j) - rsum c (fun n => entry G i n * P i n) * (P i j * entry Z' i j))).
      - now rewrite rsum_minus, rsum_scal.
      - intros j Hj. rewrite (rsum_ext c (fun n => P i n * entry G i n) (fun n => entry G i n * P i n)) by (intros; ring). ring. }
    apply rsum_ext. intros j Hj. f_equal. symmetry.
    transitivity (rsum c (fun n => (if (j =? n)%nat then P i n * entry G i n else 0) - P i j * (P i n * entry G i n))).
    { unfold psoftmax_back. rewrite entry_mk by auto. apply rsum_ext. intros n Hn.
      unfold f0. cbn [fmul fsub fadd ofZ RNum]. rewrite !EO by auto.
      destruct (Nat.eqb_spec j n) as [E|_]; [rewrite E|]; toR; ring. }
    rewrite rsum_minus, rsum_scal, (rsum_delta c j (fun n => P i n * entry G i n)) by auto. reflexivity.
Qed.

(** ** The layers *)
Definition smooth_at (p : player RNum) (r : nat) (X : rpm) : Prop :=
  match p_kind p with
  | Hidden | Dropout => away_from_zero p r X
  | Leaky => 0 < p_slope p /\ away_from_zero p r X
  | _ => True
  end.
Lemma vjp_plain p r (X G : rpm) : p_kind p <> SigmoidK -> p_kind p <> Dropout -> smooth_at p r X ->
  let G' := pback p r (pforward p r X) [] G in
  is_vjp (fun q Y => pforward q r Y) p r X G (pdW r (p_in p) (p_out p) X G') (psum0 r (p_out p) G') (pdX r (p_in p) (p_out p) G' (p_w p)).
Proof.
  intros Hs Hd Hsm G'. unfold is_vjp. apply vjp_of_act with (act := pact p r).
  { intros W B X1. reflexivity. }
  unfold smooth_at, G', pback, pforward, pact, act1 in *. fold (paffine p r X) in *. destruct (p_kind p); try congruence.
  - apply hidden_adjoint. exact Hsm.
  - apply linear_adjoint.
  - apply leaky_adjoint; apply Hsm.
  - apply softmax_adjoint.
Qed.
Lemma vjp_dropout p r (X G : rpm) (u : nat -> R) : p_kind p = Dropout -> 0 <= p_drop p < 1 -> away_from_zero p r X ->
  let G' := pback p r (pforward_drop p r X u) (pmask (p_drop p) r (p_out p) u) G in
  is_vjp_scaled (1 - p_drop p) (fun q Y => pforward_drop q r Y u) p r X G
    (pdW r (p_in p) (p_out p) X G') (psum0 r (p_out p) G') (pdX r (p_in p) (p_out p) G' (p_w p)).
Proof.
  intros Hk Hd Hz G'. apply vjp_of_act with (act := drop_act (p_drop p) r (p_out p) u).
  { intros W B X1. reflexivity. }
  unfold G', pback. rewrite Hk.
  exact (drop_adjoint (p_drop p) u r (p_out p) (paffine p r X) G Hd Hz).
Qed.

(** ** Partial derivatives from the curve form *)
Lemma inner_mk_delta r c (A : rpm) a b : (a < r)%nat -> (b < c)%nat ->
  inner r c A (mk (K := RNum) r c (fun i j => if ((i =? a) && (j =? b))%nat then 1 else 0)) = entry A a b.
Proof.
  intros Ha Hb. unfold inner.
  rewrite (rsum_ext r _ (fun i => if (a =? i)%nat then entry A a b else 0)).
  - now rewrite (rsum_delta r a (fun _ => entry A a b)).
  - intros i Hi. destruct (Nat.eqb_spec a i) as [->|Hne].
    + rewrite (rsum_ext c _ (fun j => if (b =? j)%nat then entry A i j else 0)).
      * now apply (rsum_delta c b (fun j => entry A i j)).
      * intros j Hj. rewrite entry_mk by auto. rewrite Nat.eqb_refl. simpl. rewrite (Nat.eqb_sym j b). destruct (b =? j)%nat; ring.
    + transitivity (rsum c (fun _ => 0)); [|apply rsum_zero]. apply rsum_ext. intros j Hj. rewrite entry_mk by auto.
      destruct (Nat.eqb_spec i a); [congruence|]. simpl. ring.
Qed.
Lemma inner_zero r c (A : rpm) : inner r c A (mk (K := RNum) r c (fun _ _ => 0)) = 0.
Proof.
  unfold inner. transitivity (rsum r (fun _ => 0)); [|apply rsum_zero]. apply rsum_ext. intros i Hi.
  transitivity (rsum c (fun _ => 0)); [|apply rsum_zero]. apply rsum_ext. intros j Hj. rewrite entry_mk by auto. ring.
Qed.
Lemma d_inner r c (G : rpm) (A : R -> rpm) A' : mderiv r c A A' -> is_derive (fun t => inner r c G (A t)) 0 (inner r c G A').
Proof.
  intros H. unfold inner. apply (d_rsum r (fun i t => rsum c (fun j => entry G i j * entry (A t) i j))). intros i Hi.
  apply (d_rsum c (fun j t => entry G i j * entry (A t) i j)). intros j Hj. apply d_scal, H; auto.
Qed.
Lemma mderiv_const r c (A : rpm) : mderiv r c (fun _ => A) (mk (K := RNum) r c (fun _ _ => 0)).
Proof. intros i j Hi Hj. rewrite entry_mk by auto. apply d_const. Qed.
Lemma mderiv_put r c (A : rpm) a b : shape r c A -> (a < r)%nat -> (b < c)%nat ->
  mderiv r c (fun t => put r c A a b (entry A a b + t)) (mk (K := RNum) r c (fun i j => if ((i =? a) && (j =? b))%nat then 1 else 0)).
Proof.
  intros HS Ha Hb i j Hi Hj. rewrite entry_mk by auto.
  apply (d_ext (fun t => if ((i =? a) && (j =? b))%nat then entry A a b + t else entry A i j)).
  { intros t. unfold put. now rewrite entry_mk by auto. }
  destruct ((i =? a) && (j =? b))%nat; [|apply d_const].
  eapply d_eq; [|apply d_plus; [apply d_const|exact (is_derive_id 0)]]. apply Rplus_0_l.
Qed.
Lemma put_same r c (A : rpm) a b : shape r c A -> put r c A a b (entry A a b + 0) = A.
Proof.
  intros HS. rewrite Rplus_0_r. transitivity (mk (K := RNum) r c (entry A)); [|now apply mk_entry].
  apply mk_ext. intros i j Hi Hj. destruct (Nat.eqb_spec i a), (Nat.eqb_spec j b); simpl; subst; reflexivity.
Qed.
Lemma d_shift (f : R -> R) (x a : R) : is_derive (fun t => f (x + t)) 0 a -> is_derive f x a.
Proof.
  intros H. apply (d_ext (fun t => f (x + (t - x)))). { intros t. f_equal. ring. }
  eapply d_eq; [|apply (d_comp (fun t => f (x + t)) (fun t => t - x) x 1)]. 2:{ rewrite Rminus_eq_0. exact H. }
  - apply Rmult_1_r.
  - eapply d_eq; [|apply d_minus; [exact (is_derive_id x)|apply d_const]]. apply Rminus_0_r.
Qed.
Lemma vjp_partials f p r (X G dW dB dX : rpm) :
  shape (p_in p) (p_out p) (p_w p) -> shape 1 (p_out p) (p_b p) -> shape r (p_in p) X ->
  is_vjp f p r X G dW dB dX ->
  (forall a b, (a < p_in p)%nat -> (b < p_out p)%nat ->
     is_derive (fun t => inner r (p_out p) G (f (with_params p (put (p_in p) (p_out p) (p_w p) a b t) (p_b p)) X)) (entry (p_w p) a b) (entry dW a b)) /\
  (forall b, (b < p_out p)%nat ->
     is_derive (fun t => inner r (p_out p) G (f (with_params p (p_w p) (put 1 (p_out p) (p_b p) 0 b t)) X)) (entry (p_b p) 0 b) (entry dB 0 b)) /\
  (forall a b, (a < r)%nat -> (b < p_in p)%nat ->
     is_derive (fun t => inner r (p_out p) G (f (with_params p (p_w p) (p_b p)) (put r (p_in p) X a b t))) (entry X a b) (entry dX a b)).
Proof.
  intros HSw HSb HSx H. split; [|split].
  - intros a b Ha Hb. apply d_shift.
    destruct (H _ (fun _ => p_b p) (fun _ => X) _ _ _ (put_same _ _ _ a b HSw) eq_refl eq_refl (mderiv_put _ _ _ a b HSw Ha Hb) (mderiv_const _ _ _) (mderiv_const _ _ _)) as (O' & HO & E).
    eapply d_eq; [|apply d_inner, HO]. rewrite Rmult_1_l in E. rewrite E. rewrite !inner_zero, inner_mk_delta by auto. toR; apply Rminus_diag_uniq; ring.
  - intros b Hb. apply d_shift. assert (H01 : (0 < 1)%nat) by lia.
    destruct (H (fun _ => p_w p) _ (fun _ => X) _ _ _ eq_refl (put_same _ _ _ 0 b HSb) eq_refl (mderiv_const _ _ _) (mderiv_put _ _ _ 0 b HSb H01 Hb) (mderiv_const _ _ _)) as (O' & HO & E).
    eapply d_eq; [|apply d_inner, HO]. rewrite Rmult_1_l in E. rewrite E. rewrite !inner_zero, inner_mk_delta by auto. toR; apply Rminus_diag_uniq; ring.
  - intros a b Ha Hb. apply d_shift.
    destruct (H (fun _ => p_w p) (fun _ => p_b p) _ _ _ _ eq_refl eq_refl (put_same _ _ _ a b HSx) (mderiv_const _ _ _) (mderiv_const _ _ _) (mderiv_put _ _ _ a b HSx Ha Hb)) as (O' & HO & E).
    eapply d_eq; [|apply d_inner, HO]. rewrite Rmult_1_l in E. rewrite E. rewrite !inner_zero, inner_mk_delta by auto. toR; apply Rminus_diag_uniq; ring.
Qed.
