(** * ExamplesFacts: what the data of the example programs look like, in the reals and in float64. *)
From Coq Require Import String ZArith List Bool Arith Lia Permutation Reals Lra Ascii.
From Flocq Require Import Core.Core IEEE754.BinarySingleNaN IEEE754.Binary IEEE754.Bits.
From Verif Require Import Num NumR NumB64 B64Facts Heap Spec Matrix Network Loss Optimizers ModelGo LayerData PureSpec Repr HeapLemmas MiscProofs OptSpec ModelSpec ModelProofs Session SessionProofs
  LayerReal Nan NanProofs ExamplesGo ExamplesSpec ExamplesData ExamplesProofs.
Import ListNotations.
Open Scope Z_scope.
Open Scope go_scope.

Lemma pick_nan L p n i (X : pm (B64 L)) : Permutation (seq 0 n) p -> length X = n -> some_nan L n i X -> some_nan L n i (pick [] p X).
Proof.
  intros HP HL (a & f & Ha & Hf & H). assert (I : In a p) by (eapply Permutation_in; [exact HP|apply in_seq; lia]).
  apply (In_nth _ _ 0%nat) in I as (b & Hb & E). exists b, f. assert (LP : length p = n) by (rewrite <- (Permutation_length HP); apply seq_length).
  split; [lia|]. split; [exact Hf|]. unfold entry, pick. rewrite (nth_indep _ _ (nth 0 X [])) by (rewrite map_length; exact Hb). rewrite (map_nth (fun a => nth a X [])). rewrite E. exact H.
Qed.

Lemma linked_chain {K : Num} (sps : list (lspec K)) : forall z i, sps <> [] -> linked i sps -> chain i (start_net z sps) (out_of sps).
Proof.
  induction sps as [|sp sps IH]; intros z i H HL; [congruence|]. destruct HL as [E HL]. cbn [start_net chain]. split; [exact E|].
  destruct sps as [|sp' sps]; [reflexivity|]. apply IH; [discriminate|exact HL].
Qed.

Lemma map_fst_combine' {A B} (l : list A) (l' : list B) : length l = length l' -> map fst (combine l l') = l.
Proof. revert l'. induction l as [|a l IH]; intros [|b l'] H; try discriminate; [reflexivity|]. simpl in *. f_equal. apply IH. lia. Qed.
Lemma start_length {K : Num} (sps : list (lspec K)) : forall z, length (start_net z sps) = length sps.
Proof. induction sps as [|sp sps IH]; intros z; [reflexivity|]. cbn. now rewrite IH. Qed.
Lemma start_wide L (sps : list (lspec (B64 L))) : Forall spec_ok sps -> forall z, Forall (wide L) (start_net z sps).
Proof. induction 1 as [|sp sps H _ IH]; intros z; [constructor|]. cbn [start_net]. constructor; [|apply IH]. destruct H as (H1 & H2 & _). split; cbn; lia. Qed.

(** A network trained on data with a NaN is all NaN. *)
Lemma final_nan L sps k (opt : optimizer (B64 L)) z u q X Y epochs bs i : exp_nan L -> k <> MAE -> 1 <= epochs -> 0 <= bs -> (1 <= length X)%nat -> length X = length Y ->
  sps <> [] -> Forall spec_ok sps -> linked i sps -> some_nan L (length X) i X -> Forall (all_nan L) (final_net sps k opt z u q X Y epochs bs).
Proof.
  intros HE Hk He Hb H1 HL Hs HS HK HN. unfold final_net.
  assert (EL : map fst (combine (start_net z sps) (map (start_opt opt) sps)) = start_net z sps) by (apply map_fst_combine'; rewrite start_length, map_length; reflexivity).
  apply (train_destroy L HE k _ _ i Hk).
  - rewrite EL. apply linked_chain; assumption.
  - intros E. rewrite E in EL. destruct sps; [congruence|]. discriminate.
  - rewrite EL. apply start_wide. exact HS.
  - apply epochs_nan; try lia; try assumption. unfold batch_rows. destruct (Z.eqb_spec bs 0); lia.
Qed.

(** ** One point per class: a division by zero. *)
Lemma one_point_radius L : b64_nan (spiral_radius (K := B64 L) 1 0) = true.
Proof. reflexivity. Qed.
Lemma one_point_nan L fsin fcos z c a j : (a < c)%nat -> (j < 2)%nat -> b64_nan (entry (spiral_X (K := B64 L) fsin fcos z 1 c) a j) = true.
Proof.
  intros Ha Hj. unfold spiral_X. rewrite entry_mk by lia. replace (a mod 1)%nat with 0%nat by (symmetry; apply Nat.mod_1_r). apply nan_mul_l. apply one_point_radius.
Qed.
Lemma one_point_run L fsin fcos sps k new_opt (opt : optimizer (B64 L)) acctype prec c epochs bs every s : exp_nan L -> k <> MAE -> 1 <= epochs ->
  (forall s, new_opt s = (Ret opt, s)) -> sps <> [] -> Forall spec_ok sps -> linked (in_of sps) sps -> flt prec f0 = false -> 0 <= acctype <= 2 ->
  in_of sps = 2%nat -> out_of sps = c -> (1 <= c)%nat -> 0 <= bs -> Z.of_nat c + bs <= 2 ^ 52 ->
  returns (spiral_example fsin fcos sps k new_opt acctype prec 1 (Z.of_nat c) epochs bs every) s (fun r s' =>
    snd r = None /\ exists es xs, trainable s' (fst r) es xs 2 c k /\ Forall (all_nan L) (net es)).
Proof.
  intros HE Hk He HN Hs HS HL Hp Hacc HI HO Hc Hb Hbig.
  destruct (spiral_example_run fsin fcos sps k new_opt opt acctype prec 1 c epochs bs every s (B64_int_faithful L) (B64_min_faithful L) eq_refl HN Hs HS HL Hp Hacc HI HO ltac:(lia) Hc Hb ltac:(lia))
    as (r & s' & E & E0 & perm & es & xs & HP & HT & EN).
  exists r, s'. split; [exact E|]. split; [exact E0|]. exists es, xs. split; [exact HT|]. rewrite EN.
  assert (LP : length perm = c) by (rewrite <- (Permutation_length HP), seq_length; lia).
  apply (final_nan L _ _ _ _ _ _ _ _ _ _ 2 HE Hk He Hb); try assumption; unfold pick; rewrite ?map_length; try lia.
  - rewrite <- HI. exact HL.
  - rewrite LP. apply pick_nan.
    + replace c with (1 * c)%nat by lia. exact HP.
    + unfold spiral_X. unfold mk. rewrite map_length, seq_length. lia.
    + exists 0%nat, 0%nat. split; [lia|]. split; [lia|]. apply one_point_nan; lia.
Qed.

(** ** Real numbers: point i lies at distance i / (points - 1) from the origin. *)
Lemma spiral_radius_real p i : (2 <= p)%nat -> (spiral_radius (K := RNum) p i = INR i / INR (p - 1))%R.
Proof.
  intros Hp. unfold spiral_radius, spaced. cbn [fadd fmul fdiv fsub ofZ RNum f0 f1]. unfold f0, f1. cbn [ofZ RNum].
  rewrite <- !INR_IZR_INZ. replace (Z.of_nat p - 1) with (Z.of_nat (p - 1)) by lia. rewrite <- INR_IZR_INZ.
  assert (0 < INR (p - 1))%R by (apply lt_0_INR; lia). change (F RNum) with R. field. lra.
Qed.
Lemma spiral_distance z p c a : (2 <= p)%nat -> (a < p * c)%nat -> let X := spiral_X (K := RNum) sin cos z p c in
  (entry X a 0 * entry X a 0 + entry X a 1 * entry X a 1 = (INR (a mod p) / INR (p - 1)) * (INR (a mod p) / INR (p - 1)))%R /\
  (INR (a mod p) / INR (p - 1) <= 1)%R.
Proof.
  intros Hp Ha X. unfold X, spiral_X. rewrite !entry_mk by lia. rewrite <- (spiral_radius_real p (a mod p) Hp).
  set (r := spiral_radius p (a mod p)). cbn [Nat.eqb]. set (t := spiral_angle p (a / p) (a mod p) (z a)). cbn [fmul RNum]. change (F RNum) with R in *.
  split.
  - pose proof (sin2_cos2 t) as H. unfold Rsqr in H. transitivity (r * r * (sin t * sin t + cos t * cos t))%R; [ring|]. rewrite H. ring.
  - unfold r. rewrite spiral_radius_real by exact Hp. assert (0 < INR (p - 1))%R by (apply lt_0_INR; lia).
    apply (Rmult_le_reg_r (INR (p - 1))); [assumption|]. unfold Rdiv. rewrite Rmult_assoc, Rinv_l, Rmult_1_r, Rmult_1_l by lra.
    apply le_INR. pose proof (Nat.mod_upper_bound a p). lia.
Qed.

(** ** ParseFloat yields the nearest float64. *)
Lemma decimal_bound s : forall n d f r d' f', 0 <= n < 10 ^ Z.of_nat d -> (match f with Some f => f <= d | None => True end)%nat ->
  decimal s n d f = Some (r, d', f') -> 0 <= r < 10 ^ Z.of_nat d' /\ (f' <= d')%nat.
Proof.
  induction s as [|a s IH]; intros n d f r d' f' Hn Hf; cbn [decimal].
  - intros [= <- <- <-]. split; [exact Hn|]. destruct f; lia.
  - destruct (_ && _) eqn:E.
    + apply IH; [|destruct f; [lia|exact I]]. replace (Z.of_nat (S d)) with (Z.of_nat d + 1) by lia. rewrite Z.pow_add_r by lia. change (10 ^ 1) with 10. lia.
    + destruct (Ascii.eqb a "."%char); [|discriminate]. destruct f; [discriminate|]. apply IH; [exact Hn|lia].
Qed.
Lemma b64_quot (a b : Z) : 0 <= a < 2 ^ 53 -> 1 <= b < 2 ^ 53 ->
  let q := b64_div mode_NE (b64_ofZ a) (b64_ofZ b) in b64_finite q = true /\ b64_R q = rnd (IZR a / IZR b).
Proof.
  intros Ha Hb q. destruct (ofZ_exact a ltac:(lia)) as (Fa & Ra & _). destruct (ofZ_exact b ltac:(lia)) as (Fb & Rb & _).
  pose proof (Bdiv_correct 53 1024 (eq_refl Lt) (eq_refl Lt) binop_nan_pl64 mode_NE (b64_ofZ a) (b64_ofZ b)) as H.
  change (B2R 53 1024 (b64_ofZ b)) with (b64_R (b64_ofZ b)) in H. change (B2R 53 1024 (b64_ofZ a)) with (b64_R (b64_ofZ a)) in H. rewrite Ra, Rb in H.
  assert (B1 : (1 <= IZR b)%R) by (apply IZR_le; lia). assert (A0 : (0 <= IZR a)%R) by (apply IZR_le; lia). specialize (H ltac:(lra)).
  change (round radix2 (SpecFloat.fexp 53 1024) (round_mode mode_NE) (IZR a / IZR b)) with (rnd (IZR a / IZR b)) in H.
  assert (T0 : (0 <= IZR a / IZR b)%R) by (unfold Rdiv; apply Rmult_le_pos; [lra|left; apply Rinv_0_lt_compat; lra]).
  assert (T1 : (IZR a / IZR b <= IZR a)%R) by (apply (Rmult_le_reg_r (IZR b)); [lra|]; unfold Rdiv; rewrite Rmult_assoc, Rinv_l by lra; nra).
  assert (R0 : (0 <= rnd (IZR a / IZR b))%R) by (rewrite <- rnd_0; now apply rnd_mono).
  assert (R1 : (rnd (IZR a / IZR b) <= IZR a)%R) by (rewrite <- (rnd_Z a) at 2 by lia; now apply rnd_mono).
  rewrite Rlt_bool_true in H.
  - destruct H as (H1 & H2 & _). change (Bdiv 53 1024 (eq_refl Lt) (eq_refl Lt) binop_nan_pl64 mode_NE (b64_ofZ a) (b64_ofZ b)) with q in H1, H2. split; [unfold b64_finite in *; congruence|exact H1].
  - rewrite Rabs_pos_eq by exact R0. eapply Rle_lt_trans; [exact R1|]. apply Rlt_trans with (IZR (2 ^ 53)); [apply IZR_lt; lia|].
    change (IZR (2 ^ 53)) with (IZR (Zpower radix2 53)). rewrite IZR_Zpower by lia. apply bpow_lt. lia.
Qed.
Lemma parse_nearest L (other : string -> B64 L) s n d f : decimal s 0 0 None = Some (n, d, f) -> (1 <= d <= 15)%nat ->
  b64_finite (ParseFloat other s) = true /\ b64_R (ParseFloat other s) = rnd (IZR n / IZR (10 ^ Z.of_nat f)).
Proof.
  intros H Hd. unfold ParseFloat. rewrite H. replace ((1 <=? d)%nat && (d <=? 15)%nat) with true by (symmetry; apply andb_true_iff; split; apply Nat.leb_le; lia).
  destruct (decimal_bound s 0 0 None n d f ltac:(simpl; lia) I H) as (Hn & Hf).
  assert (P : forall k, (k <= 15)%nat -> 1 <= 10 ^ Z.of_nat k <= 10 ^ 15) by (intros k Hk; split; [apply Z.lt_pred_le; apply Z.pow_pos_nonneg; lia|apply Z.pow_le_mono_r; lia]).
  pose proof (P d ltac:(lia)) as Pd. pose proof (P f ltac:(lia)) as Pf. assert (10 ^ 15 < 2 ^ 53) by reflexivity.
  destruct f as [|f].
  - destruct (ofZ_exact n ltac:(lia)) as (F1 & R1 & _). split; [exact F1|]. change (b64_R (b64_ofZ n) = rnd (IZR n / IZR 1)). rewrite R1.
    unfold Rdiv. rewrite Rinv_1, Rmult_1_r. symmetry. apply rnd_Z. lia.
  - apply (b64_quot n (10 ^ Z.of_nat (S f))); lia.
Qed.
