(** * EvalParts: accuracies and losses sample by sample. *)
From Coq Require Import String ZArith List Bool Arith Lia Reals Lra Permutation.
From Verif Require Import Num NumR Heap Spec Matrix Loss Network Optimizers ModelGo PureSpec Repr HeapLemmas MatrixFacts MiscFacts MiscProofs RSum LayerReal LossProofs LossReal OptSpec ModelSpec ModelProofs ModelFacts EvalProofs ModelRefute MiniBatch EvalSpec.
Import ListNotations.
Open Scope R_scope.
Notation rpm := (pm RNum).

Definition tick (b : bool) : R := if b then 1 else 0.
Lemma seq_filter_S n p : length (filter p (seq 0 (S n))) = (length (filter p (seq 0 n)) + if p n then 1 else 0)%nat.
Proof. rewrite seq_S, filter_app, app_length. simpl. destruct (p n); reflexivity. Qed.
Lemma count_rows_sum r p : INR (count_rows r p) = rsum r (fun i => tick (p i)).
Proof.
  unfold count_rows. induction r as [|r IH]; [reflexivity|]. rewrite seq_filter_S, plus_INR, IH, rsum_S. unfold tick. destruct (p r); simpl; lra.
Qed.
Lemma filter_map_ {A B} (f : A -> B) p l : length (filter p (map f l)) = length (filter (fun x => p (f x)) l).
Proof. induction l as [|x l IH]; [reflexivity|]. simpl. destruct (p (f x)); simpl; now rewrite IH. Qed.
Lemma count_cells_sum r c p : INR (count_cells r c p) = rsum r (fun i => rsum c (fun j => tick (p i j))).
Proof.
  unfold count_cells. induction r as [|r IH]; [reflexivity|]. rewrite seq_S. rewrite rsum_S, <- IH.
  assert (E : forall (l l' : list nat) (m : list nat), list_prod (l ++ l') m = list_prod l m ++ list_prod l' m).
  { induction l as [|a l IHl]; intros l' m; [reflexivity|]. cbn [list_prod app]. rewrite IHl. apply app_assoc. }
  rewrite E, filter_app, app_length, plus_INR. f_equal. cbn [Nat.add list_prod]. rewrite app_nil_r, filter_map_. cbn [fst snd]. apply (count_rows_sum c (fun j => p r j)).
Qed.
Lemma ofZ_INR n : ofZ (n := RNum) (Z.of_nat n) = INR n.
Proof. cbn [ofZ RNum]. symmetry. apply INR_IZR_INZ. Qed.
Lemma entry_row (A : rpm) a j : entry [nth a A []] 0 j = entry A a j.
Proof. reflexivity. Qed.
Lemma mean_ext n f g : (forall a, (a < n)%nat -> f a = g a) -> mean n f = mean n g.
Proof. intros H. unfold mean. f_equal. now apply rsum_ext. Qed.
Lemma INR_pos n : (1 <= n)%nat -> 0 < INR n. Proof. intros H. apply lt_0_INR. lia. Qed.
Lemma cells_mean r c p q : (1 <= r)%nat -> (1 <= c)%nat -> (forall a j, q a 0%nat j = p a j) -> INR (count_cells r c p) / INR (r * c) = mean r (fun a => INR (count_cells 1 c (q a)) / INR (1 * c)).
Proof.
  intros Hr Hc HQ. pose proof (INR_pos r Hr). pose proof (INR_pos c Hc). unfold mean. rewrite count_cells_sum, mult_INR.
  assert (E : rsum r (fun a => INR (count_cells 1 c (q a)) / INR (1 * c)) = / INR c * rsum r (fun i => rsum c (fun j => tick (p i j)))).
  { rewrite <- rsum_scal. apply rsum_ext. intros a Ha. rewrite count_cells_sum, rsum_1, Nat.mul_1_l. unfold Rdiv. rewrite Rmult_comm. f_equal. apply rsum_ext. intros j Hj. now rewrite HQ. }
  rewrite E. field. lra.
Qed.
Lemma acc_mean kind prec r c (P Y : rpm) v : paccuracy (K := RNum) kind prec r c P Y = Some v -> (1 <= r)%nat -> (1 <= c)%nat ->
  exists vf, (forall a, (a < r)%nat -> paccuracy (K := RNum) kind prec 1 c [nth a P []] [nth a Y []] = Some (vf a)) /\ v = mean r vf.
Proof.
  intros H Hr Hc. unfold paccuracy in *. destruct (kind =? 0)%Z; [|destruct (kind =? 1)%Z; [|destruct (kind =? 2)%Z; [|discriminate]]]; injection H as <-; eexists; (split; [intros a Ha; reflexivity|]).
  - unfold regression_accuracy. cbn [fdiv RNum]. rewrite !ofZ_INR. erewrite (cells_mean r c _ _ Hr Hc); [apply mean_ext; intros a Ha; rewrite !ofZ_INR; reflexivity|reflexivity].
  - unfold categorical_accuracy. cbn [fdiv RNum]. rewrite !ofZ_INR, count_rows_sum. unfold mean. f_equal. apply rsum_ext. intros a Ha. rewrite !ofZ_INR, count_rows_sum, rsum_1. change (INR 1) with 1. unfold Rdiv. rewrite Rinv_1, Rmult_1_r. reflexivity.
  - unfold binary_accuracy. cbn [fdiv RNum]. rewrite !ofZ_INR. erewrite (cells_mean r c _ _ Hr Hc); [apply mean_ext; intros a Ha; rewrite !ofZ_INR; reflexivity|reflexivity].
Qed.
Lemma loss_mean k r c (P Y : rpm) : k = CE \/ k = BCE -> (1 <= r)%nat -> (1 <= c)%nat -> ploss (K := RNum) k r c P Y = mean r (fun a => ploss (K := RNum) k 1 c [nth a P []] [nth a Y []]).
Proof.
  intros HK Hr Hc. pose proof (INR_pos r Hr). pose proof (INR_pos c Hc). unfold mean. destruct HK as [-> | ->]; unfold ploss.
  - unfold pce. change (fsum (K := RNum) r ?g) with (rsum r g). unfold Rdiv at 1. rewrite Rmult_comm, <- rsum_scal. apply rsum_ext. intros a Ha.
    change (fsum (K := RNum) 1 ?g) with (rsum 1 g). rewrite rsum_1. cbn [fdiv fneg flog fmul RNum]. rewrite !ofZ_INR. change (INR 1) with 1.
    unfold Rdiv. rewrite Rinv_1, Rmult_1_r. apply Rmult_comm.
  - unfold pbce. rewrite R_csum. unfold Rdiv at 1. rewrite Rmult_comm, <- rsum_scal. apply rsum_ext. intros a Ha. rewrite R_csum, rsum_1, <- rsum_scal. apply rsum_ext. intros j Hj. rewrite !entry_row. cbn [fdiv RNum]. rewrite !ofZ_INR. change (INR 1) with 1. field. lra.
Qed.
Lemma loss_first k r c (P Y : rpm) : k = MSE \/ k = MAE -> ploss (K := RNum) k r c P Y = ploss (K := RNum) k 1 c [nth 0 P []] [nth 0 Y []].
Proof. intros [-> | ->]; reflexivity. Qed.

(** ** The code *)
Lemma chain_out s : forall es i o, chain (K := RNum) i (net es) o -> List.Forall (lok s) es -> (1 <= length es)%nat -> (1 <= o)%nat.
Proof.
  induction es as [|e es IH]; intros i o HC HL H1; [simpl in H1; lia|]. destruct HC as (_ & HC). inversion HL as [|? ? (l & _ & He) HL']; subst. destruct es as [|e' es].
  - simpl in HC. subst o. apply He.
  - apply (IH (p_out (e_p e)) o HC HL'). simpl. lia.
Qed.
Section Model.
Variables (m : model RNum) (ps : list (player RNum)) (o : nat).
(** The accuracy and the loss of one sample. *)
Definition acc1 (x y : list (F RNum)) : R := match paccuracy (K := RNum) (m_acctype m) (m_prec m) 1 o (pnet ps 1 [x]) [y] with Some v => v | None => 0 end.
Definition loss1 (k : losskind) (x y : list (F RNum)) : R := ploss (K := RNum) k 1 o (pnet ps 1 [x]) [y].
Definition acc_kind : Prop := (m_acctype m = 0 \/ m_acctype m = 1 \/ m_acctype m = 2)%Z.
Lemma acc_some r (P Y : rpm) : acc_kind -> exists v, paccuracy (K := RNum) (m_acctype m) (m_prec m) r o P Y = Some v.
Proof. unfold paccuracy. intros [-> | [-> | ->]]; simpl; eexists; reflexivity. Qed.
End Model.
Section Query.
Variables (s : state RNum) (m : model RNum) (es : list (lent RNum)) (i o : nat).
Hypothesis HC : consistent s m es i o.
Hypothesis HL : (1 <= length es)%nat.
Lemma acc_rows x rsx y rsy n (X Y : rpm) : (Z.of_nat o <= 2 ^ 53)%Z -> acc_kind m -> own s x rsx n i X -> own s y rsy n o Y -> (1 <= n)%nat ->
  exists s', CalculateAccuracy m x y s = (Ret (mean n (fun a => acc1 m (net es) o (nth a X []) (nth a Y []))), s').
Proof.
  intros Ho HA HX HY Hn. destruct (acc_some m o n (pnet (net es) n X) Y HA) as (v & Ev).
  destruct (returns_wp _ _ _ (wp_CalculateAccuracy s m es i o x rsx y rsy n X Y v RNum_int_faithful Ho HC HL Ev HX HY Hn)) as (v' & s' & E & -> & _).
  exists s'. rewrite E. do 2 f_equal. pose proof (chain_out s es i o (proj1 (proj2 (proj2 (proj2 (proj2 HC))))) (proj2 (proj2 (proj2 (proj2 (proj2 HC))))) HL) as H1.
  destruct (acc_mean _ _ _ _ _ _ _ Ev Hn H1) as (vf & F & ->). apply mean_ext. intros a Ha. unfold acc1. rewrite (pnet_row (net es) n X a Ha). now rewrite F.
Qed.
Lemma loss_rows k x rsx y rsy n (X Y : rpm) : m_loss m = Some (MkLoss k (Z.of_nat o)) -> own s x rsx n i X -> own s y rsy n o Y -> (1 <= n)%nat ->
  exists s', CalculateLoss m x y s = (Ret (match k with CE | BCE => mean n (fun a => loss1 (net es) o k (nth a X []) (nth a Y [])) | MSE | MAE => loss1 (net es) o k (nth 0 X []) (nth 0 Y []) end), s').
Proof.
  intros Hk HX HY Hn. destruct (returns_wp _ _ _ (wp_CalculateLoss s m es i o k x rsx y rsy n X Y HC HL Hk HX HY Hn)) as (v' & s' & E & -> & _).
  exists s'. rewrite E. do 2 f_equal. pose proof (chain_out s es i o (proj1 (proj2 (proj2 (proj2 (proj2 HC))))) (proj2 (proj2 (proj2 (proj2 (proj2 HC))))) HL) as H1.
  destruct k.
  - rewrite (loss_first MSE n o _ _ (or_introl eq_refl)). unfold loss1. now rewrite (pnet_row (net es) n X 0%nat Hn).
  - rewrite (loss_first MAE n o _ _ (or_intror eq_refl)). unfold loss1. now rewrite (pnet_row (net es) n X 0%nat Hn).
  - rewrite (loss_mean CE n o _ _ (or_introl eq_refl) Hn H1). apply mean_ext. intros a Ha. unfold loss1. now rewrite (pnet_row (net es) n X a Ha).
  - rewrite (loss_mean BCE n o _ _ (or_intror eq_refl) Hn H1). apply mean_ext. intros a Ha. unfold loss1. now rewrite (pnet_row (net es) n X a Ha).
Qed.
Lemma mean_1 f : mean 1 f = f 0%nat.
Proof. unfold mean. rewrite rsum_1. change (INR 1) with 1. unfold Rdiv. now rewrite Rinv_1, Rmult_1_r. Qed.
(** Sample by sample. *)
Lemma eval_accuracy x rsx y rsy n (X Y : rpm) xf rx yf ry : (Z.of_nat o <= 2 ^ 53)%Z -> acc_kind m -> own s x rsx n i X -> own s y rsy n o Y -> (1 <= n)%nat -> singles s xf rx n i X -> singles s yf ry n o Y ->
  exists v s' vf, CalculateAccuracy m x y s = (Ret v, s') /\ measured (fun a => CalculateAccuracy m (xf a) (yf a)) s n vf /\ v = mean n vf.
Proof.
  intros Ho HA HX HY Hn SX SY. destruct (acc_rows x rsx y rsy n X Y Ho HA HX HY Hn) as (s' & E). eexists _, s', (fun a => acc1 m (net es) o (nth a X []) (nth a Y [])). split; [exact E|]. split; [|reflexivity].
  intros a Ha. destruct (acc_rows (xf a) (rx a) (yf a) (ry a) 1 _ _ Ho HA (SX a Ha) (SY a Ha) ltac:(lia)) as (sa & Ea). exists sa. rewrite Ea, mean_1. reflexivity.
Qed.
Lemma eval_loss k x rsx y rsy n (X Y : rpm) xf rx yf ry : m_loss m = Some (MkLoss k (Z.of_nat o)) -> own s x rsx n i X -> own s y rsy n o Y -> (1 <= n)%nat -> singles s xf rx n i X -> singles s yf ry n o Y ->
  exists v s' vf, CalculateLoss m x y s = (Ret v, s') /\ measured (fun a => CalculateLoss m (xf a) (yf a)) s n vf /\ v = match k with CE | BCE => mean n vf | MSE | MAE => vf 0%nat end.
Proof.
  intros Hk HX HY Hn SX SY. destruct (loss_rows k x rsx y rsy n X Y Hk HX HY Hn) as (s' & E). eexists _, s', (fun a => loss1 (net es) o k (nth a X []) (nth a Y [])). split; [exact E|]. split; [|destruct k; reflexivity].
  intros a Ha. destruct (loss_rows k (xf a) (rx a) (yf a) (ry a) 1 _ _ Hk (SX a Ha) (SY a Ha) ltac:(lia)) as (sa & Ea). exists sa. rewrite Ea, mean_1. destruct k; reflexivity.
Qed.
(** In two parts. *)
Lemma mean_app n1 n2 f : (1 <= n1)%nat -> (1 <= n2)%nat -> mean (n1 + n2) f = (INR n1 * mean n1 f + INR n2 * mean n2 (fun a => f (n1 + a)%nat)) / (INR n1 + INR n2).
Proof. intros H1 H2. pose proof (INR_pos n1 H1). pose proof (INR_pos n2 H2). unfold mean. rewrite rsum_app, plus_INR. field. lra. Qed.
Lemma mean_rows n1 n2 (g : list (F RNum) -> list (F RNum) -> R) (X1 X2 Y1 Y2 : rpm) : (1 <= n1)%nat -> (1 <= n2)%nat -> length X1 = n1 -> length Y1 = n1 ->
  mean (n1 + n2) (fun a => g (nth a (X1 ++ X2) []) (nth a (Y1 ++ Y2) [])) =
  (INR n1 * mean n1 (fun a => g (nth a X1 []) (nth a Y1 [])) + INR n2 * mean n2 (fun a => g (nth a X2 []) (nth a Y2 []))) / (INR n1 + INR n2).
Proof.
  intros H1 H2 L1 L2. rewrite (mean_app n1 n2) by assumption. f_equal. f_equal; f_equal; apply mean_ext; intros a Ha.
  - rewrite !app_nth1 by lia. reflexivity.
  - rewrite !app_nth2 by lia. rewrite L1, L2. replace (n1 + a - n1)%nat with a by lia. reflexivity.
Qed.
Section Parts.
Variables (x x1 x2 y y1 y2 : matrix) (rx rx1 rx2 ry ry1 ry2 : list nat) (n1 n2 : nat) (X1 X2 Y1 Y2 : rpm).
Hypothesis H1 : (1 <= n1)%nat.
Hypothesis H2 : (1 <= n2)%nat.
Hypothesis HX : own s x rx (n1 + n2) i (X1 ++ X2).
Hypothesis HY : own s y ry (n1 + n2) o (Y1 ++ Y2).
Hypothesis HX1 : own s x1 rx1 n1 i X1.
Hypothesis HY1 : own s y1 ry1 n1 o Y1.
Hypothesis HX2 : own s x2 rx2 n2 i X2.
Hypothesis HY2 : own s y2 ry2 n2 o Y2.
Lemma parts_accuracy : (Z.of_nat o <= 2 ^ 53)%Z -> acc_kind m -> exists v v1 v2 s' s1 s2,
  CalculateAccuracy m x y s = (Ret v, s') /\ CalculateAccuracy m x1 y1 s = (Ret v1, s1) /\ CalculateAccuracy m x2 y2 s = (Ret v2, s2) /\
  v = (INR n1 * v1 + INR n2 * v2) / (INR n1 + INR n2).
Proof.
  intros Ho HA. destruct (acc_rows x rx y ry _ _ _ Ho HA HX HY ltac:(lia)) as (s' & E). destruct (acc_rows x1 rx1 y1 ry1 _ _ _ Ho HA HX1 HY1 H1) as (s1 & E1). destruct (acc_rows x2 rx2 y2 ry2 _ _ _ Ho HA HX2 HY2 H2) as (s2 & E2).
  do 3 eexists. exists s', s1, s2. split; [exact E|]. split; [exact E1|]. split; [exact E2|]. destruct (own_lengths _ _ _ _ _ _ HX1) as (_ & L1). destruct (own_lengths _ _ _ _ _ _ HY1) as (_ & L2).
  apply (mean_rows n1 n2 (acc1 m (net es) o)); assumption.
Qed.
Lemma parts_loss k : m_loss m = Some (MkLoss k (Z.of_nat o)) -> exists v v1 v2 s' s1 s2,
  CalculateLoss m x y s = (Ret v, s') /\ CalculateLoss m x1 y1 s = (Ret v1, s1) /\ CalculateLoss m x2 y2 s = (Ret v2, s2) /\
  v = match k with CE | BCE => (INR n1 * v1 + INR n2 * v2) / (INR n1 + INR n2) | MSE | MAE => v1 end.
Proof.
  intros Hk. destruct (loss_rows k x rx y ry _ _ _ Hk HX HY ltac:(lia)) as (s' & E). destruct (loss_rows k x1 rx1 y1 ry1 _ _ _ Hk HX1 HY1 H1) as (s1 & E1). destruct (loss_rows k x2 rx2 y2 ry2 _ _ _ Hk HX2 HY2 H2) as (s2 & E2).
  do 3 eexists. exists s', s1, s2. split; [exact E|]. split; [exact E1|]. split; [exact E2|]. destruct (own_lengths _ _ _ _ _ _ HX1) as (_ & L1). destruct (own_lengths _ _ _ _ _ _ HY1) as (_ & L2).
  destruct k; try (rewrite !app_nth1 by lia; reflexivity); apply (mean_rows n1 n2 (loss1 (net es) o _)); assumption.
Qed.
End Parts.
(** In another order. *)
Lemma rsum_list {A} (g : A -> R) d (l : list A) : rsum (length l) (fun a => g (nth a l d)) = fold_right Rplus 0 (map g l).
Proof.
  induction l as [|x l IH] using rev_ind; [reflexivity|]. rewrite app_length, Nat.add_comm. cbn [length Nat.add]. rewrite rsum_S, map_app, fold_right_app. cbn [map fold_right].
  rewrite (rsum_ext (length l) _ (fun a => g (nth a l d))) by (intros a Ha; now rewrite app_nth1). rewrite IH, nth_middle, Rplus_0_r.
  clear. induction l as [|y l IH]; cbn [map fold_right]; [lra|]. rewrite <- IH. lra.
Qed.
Lemma sum_perm l l' : Permutation l l' -> fold_right Rplus 0 l = fold_right Rplus 0 l'.
Proof. induction 1; cbn [fold_right]; lra. Qed.
Lemma mean_perm n (g : list (F RNum) -> list (F RNum) -> R) (X Y X' Y' : rpm) : length X = n -> length Y = n -> length X' = n -> length Y' = n -> Permutation (combine X Y) (combine X' Y') ->
  mean n (fun a => g (nth a X []) (nth a Y [])) = mean n (fun a => g (nth a X' []) (nth a Y' [])).
Proof.
  intros L1 L2 L3 L4 HP. unfold mean. f_equal.
  assert (E : forall A B : rpm, length A = n -> length B = n -> rsum n (fun a => g (nth a A []) (nth a B [])) = fold_right Rplus 0 (map (fun z => g (fst z) (snd z)) (combine A B))).
  { intros A B LA LB. rewrite <- (rsum_list (fun z => g (fst z) (snd z)) ([], [])). rewrite combine_length, LA, LB, Nat.min_id. apply rsum_ext. intros a Ha. rewrite combine_nth by congruence. reflexivity. }
  rewrite !E by assumption. apply sum_perm. apply Permutation_map. exact HP.
Qed.
Lemma order_accuracy x rx y ry x' rx' y' ry' n (X Y X' Y' : rpm) : (Z.of_nat o <= 2 ^ 53)%Z -> acc_kind m -> (1 <= n)%nat -> own s x rx n i X -> own s y ry n o Y -> own s x' rx' n i X' -> own s y' ry' n o Y' ->
  Permutation (combine X Y) (combine X' Y') -> exists v s1 s2, CalculateAccuracy m x y s = (Ret v, s1) /\ CalculateAccuracy m x' y' s = (Ret v, s2).
Proof.
  intros Ho HA Hn HX HY HX' HY' HP. destruct (acc_rows x rx y ry _ _ _ Ho HA HX HY Hn) as (s1 & E1). destruct (acc_rows x' rx' y' ry' _ _ _ Ho HA HX' HY' Hn) as (s2 & E2).
  eexists _, s1, s2. split; [exact E1|]. rewrite E2. rewrite (mean_perm n (acc1 m (net es) o) X Y X' Y'); try exact HP; try reflexivity; eapply own_lengths; eassumption.
Qed.
Lemma order_loss k x rx y ry x' rx' y' ry' n (X Y X' Y' : rpm) : k = CE \/ k = BCE -> m_loss m = Some (MkLoss k (Z.of_nat o)) -> (1 <= n)%nat -> own s x rx n i X -> own s y ry n o Y -> own s x' rx' n i X' -> own s y' ry' n o Y' ->
  Permutation (combine X Y) (combine X' Y') -> exists v s1 s2, CalculateLoss m x y s = (Ret v, s1) /\ CalculateLoss m x' y' s = (Ret v, s2).
Proof.
  intros HK Hk Hn HX HY HX' HY' HP. destruct (loss_rows k x rx y ry _ _ _ Hk HX HY Hn) as (s1 & E1). destruct (loss_rows k x' rx' y' ry' _ _ _ Hk HX' HY' Hn) as (s2 & E2).
  eexists _, s1, s2. split; [exact E1|]. rewrite E2. destruct HK as [-> | ->]; rewrite (mean_perm n (loss1 (net es) o _) X Y X' Y'); try exact HP; try reflexivity; eapply own_lengths; eassumption.
Qed.
End Query.
