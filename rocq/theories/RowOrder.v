(** * RowOrder: in exact arithmetic the order of the rows of a batch does not matter. *)
From Coq Require Import String ZArith List Bool Arith Lia Reals Lra Permutation.
From Verif Require Import Num NumR Heap Spec Matrix Loss Network Optimizers ModelGo PureSpec Repr HeapLemmas MatrixFacts MiscFacts RSum LayerReal LossProofs OptSpec ModelSpec FitProofs FitFacts.
Import ListNotations.
Open Scope R_scope.

(** ** Sums *)
Definition lsum (l : list R) : R := fold_left Rplus l 0.
Lemma lsum_acc l a : fold_left Rplus l a = a + lsum l.
Proof. revert a. unfold lsum. induction l as [|x l IH]; intros a; simpl; [lra|]. rewrite (IH (a + x)), (IH (0 + x)). lra. Qed.
Lemma lsum_cons x l : lsum (x :: l) = x + lsum l.
Proof. unfold lsum at 1. simpl. rewrite lsum_acc. lra. Qed.
Lemma lsum_perm l l' : Permutation l l' -> lsum l = lsum l'.
Proof. induction 1; rewrite ?lsum_cons; try lra; congruence. Qed.
Lemma rsum_lsum n g : rsum n g = lsum (map g (seq 0 n)).
Proof.
  assert (H : forall l b, fold_left (fun (s : RNum) k => fadd (n := RNum) s (g k)) l b = fold_left Rplus (map g l) b) by (induction l as [|x l IH]; intros b; simpl; auto).
  unfold rsum, fsum, lsum. rewrite H. reflexivity.
Qed.
(** [p] is a reordering of 0 .. n-1. *)
Lemma rsum_perm n p g : Permutation p (seq 0 n) -> rsum n (fun i => g (nth i p 0%nat)) = rsum n g.
Proof.
  intros HP. rewrite !rsum_lsum. apply lsum_perm.
  rewrite <- (map_map (fun i => nth i p 0%nat) g). apply Permutation_map.
  assert (E : map (fun i => nth i p 0%nat) (seq 0 n) = p).
  { pose proof (Permutation_length HP) as HL. rewrite seq_length in HL. apply nth_ext with (d := 0%nat) (d' := 0%nat).
    - rewrite map_length, seq_length. auto.
    - intros i Hi. rewrite map_length, seq_length in Hi. rewrite nth_map_seq by lia. reflexivity. }
  rewrite E. exact HP.
Qed.

Section Perm.
Variables (n : nat) (p : list nat).
Hypothesis HP : Permutation p (seq 0 n).
Notation sg := (fun i => nth i p 0%nat).
Lemma sg_lt i : (i < n)%nat -> (sg i < n)%nat.
Proof.
  intros Hi. assert (In (nth i p 0%nat) (seq 0 n)); [|apply in_seq in H; lia].
  apply (Permutation_in _ HP). apply nth_In. rewrite (Permutation_length HP), seq_length. exact Hi.
Qed.
(** The rows of [A'] are those of [A], reordered. *)
Definition reordered (c : nat) (A A' : rpm) : Prop := forall i j, (i < n)%nat -> (j < c)%nat -> entry A' i j = entry A (sg i) j.
Lemma pick_reordered c (A : rpm) : reordered c A (pick [] p A).
Proof.
  intros i j Hi _. unfold entry, pick. f_equal.
  rewrite (nth_indep _ [] (nth 0 A [])) by (rewrite map_length, (Permutation_length HP), seq_length; exact Hi).
  now rewrite (map_nth (fun k => nth k A [])).
Qed.
Lemma reordered_mk c (f f' : nat -> nat -> R) : (forall i j, (i < n)%nat -> (j < c)%nat -> f' i j = f (sg i) j) ->
  reordered c (mk (K := RNum) n c f) (mk (K := RNum) n c f').
Proof. intros H i j Hi Hj. rewrite !entry_mk by (auto using sg_lt). now apply H. Qed.

Lemma re_aff k c (X X' W B : rpm) : reordered k X X' -> reordered c (paff n k c X W B) (paff n k c X' W B).
Proof.
  intros H. apply reordered_mk. intros i j Hi Hj. f_equal. apply fsum_ext. intros m Hm. now rewrite H.
Qed.
Lemma re_map c f (A A' : rpm) : reordered c A A' -> reordered c (pmap n c f A) (pmap n c f A').
Proof. intros H. apply reordered_mk. intros i j Hi Hj. now rewrite H. Qed.
Lemma re_map2 c f (A A' B B' : rpm) : reordered c A A' -> reordered c B B' -> reordered c (pmap2 n c f A B) (pmap2 n c f A' B').
Proof. intros H1 H2. apply reordered_mk. intros i j Hi Hj. now rewrite H1, H2. Qed.
Lemma re_softmax c (A A' : rpm) : reordered c A A' -> reordered c (psoftmax n c A) (psoftmax n c A').
Proof. intros H. apply reordered_mk. intros i j Hi Hj. rewrite H by auto. f_equal. apply fsum_ext. intros m Hm. now rewrite H. Qed.
Lemma re_forward (l : player RNum) (X X' : rpm) : reordered (p_in l) X X' -> reordered (p_out l) (pforward l n X) (pforward l n X').
Proof.
  intros H. unfold pforward, pact. pose proof (re_aff (p_in l) (p_out l) X X' (p_w l) (p_b l) H) as HA. fold (paffine l n X) (paffine l n X') in HA.
  destruct (p_kind l); first [exact HA|now apply re_map|now apply re_softmax].
Qed.
Lemma re_train (l : player RNum) (X X' : rpm) u u' : p_kind l <> Dropout -> reordered (p_in l) X X' -> reordered (p_out l) (ptrain l n X u) (ptrain l n X' u').
Proof. intros HK H. unfold ptrain. destruct (p_kind l); try now apply re_forward. congruence. Qed.
Lemma re_softmax_back c (O O' G G' : rpm) : reordered c O O' -> reordered c G G' -> reordered c (psoftmax_back n c O G) (psoftmax_back n c O' G').
Proof. intros H1 H2. apply reordered_mk. intros i j Hi Hj. apply fsum_ext. intros m Hm. rewrite !H1, H2 by auto. reflexivity. Qed.
Lemma re_back (l : player RNum) (O O' G G' M M' : rpm) : p_kind l <> Dropout -> reordered (p_out l) O O' -> reordered (p_out l) G G' ->
  reordered (p_out l) (pback l n O M G) (pback l n O' M' G').
Proof. intros HK H1 H2. unfold pback. destruct (p_kind l); try exact H2; first [now apply re_map2|now apply re_softmax_back|congruence]. Qed.
Lemma re_clipped b c (A A' : rpm) : reordered c A A' -> reordered c (clipped b n c A) (clipped b n c A').
Proof. intros H. unfold clipped. destruct b; [now apply re_map|exact H]. Qed.
Lemma re_loss_back k c (A A' Y Y' : rpm) : reordered c A A' -> reordered c Y Y' -> reordered c (ploss_back k n c A Y) (ploss_back k n c A' Y').
Proof. intros H1 H2. destruct k; apply reordered_mk; intros i j Hi Hj; now rewrite H1, H2. Qed.
Lemma re_ce_back c (O O' Y Y' : rpm) : reordered c O O' -> reordered c Y Y' -> reordered c (pce_back n c Y O) (pce_back n c Y' O').
Proof. intros H1 H2. apply reordered_mk; intros i j Hi Hj; now rewrite H1, H2. Qed.
Lemma re_pre k (last : bool) (l : player RNum) o (Y Y' O O' G G' M M' : rpm) : p_kind l <> Dropout -> (last = true -> p_out l = o) ->
  reordered o Y Y' -> reordered (p_out l) O O' -> reordered (p_out l) G G' ->
  reordered (p_out l) (pre_grad k Y last l n O M G) (pre_grad k Y' last l n O' M' G').
Proof.
  intros HK HL HY HO HG. unfold pre_grad. destruct last; [|now apply re_back]. rewrite <- (HL eq_refl) in HY.
  destruct (fused k l); [now apply re_ce_back|apply re_back; auto; now apply re_clipped].
Qed.
Lemma re_dX k c (G G' W : rpm) : reordered c G G' -> reordered k (pdX n k c G W) (pdX n k c G' W).
Proof. intros H. apply reordered_mk. intros i j Hi Hj. apply fsum_ext. intros m Hm. now rewrite H. Qed.
Lemma same_dW k c (X X' G G' : rpm) : reordered k X X' -> reordered c G G' -> pdW n k c X' G' = pdW n k c X G.
Proof.
  intros H1 H2. unfold pdW, pdot. apply mk_ext. intros i j Hi Hj.
  change (rsum n (fun m => entry (ptrans n k X') i m * entry G' m j) = rsum n (fun m => entry (ptrans n k X) i m * entry G m j)).
  rewrite <- (rsum_perm n p (fun m => entry (ptrans n k X) i m * entry G m j) HP). apply rsum_ext. intros m Hm.
  unfold ptrans. rewrite !entry_mk by (auto using sg_lt). rewrite H1, H2 by auto. reflexivity.
Qed.
Lemma same_sum c (G G' : rpm) : reordered c G G' -> psum0 n c G' = psum0 n c G.
Proof.
  intros H. unfold psum0. apply mk_ext. intros i j Hi Hj.
  change (rsum n (fun i => entry G' i j) = rsum n (fun i => entry G i j)).
  rewrite <- (rsum_perm n p (fun i => entry G i j) HP). apply rsum_ext. intros m Hm. now apply H.
Qed.
Lemma re_backprop k o (Y Y' : rpm) U U' : reordered o Y Y' -> forall ps i q q' (X X' : rpm),
  chain i ps o -> Forall (fun l => p_kind l <> Dropout) ps -> reordered i X X' ->
  reordered i (fst (pbackprop k Y o ps n X U q)) (fst (pbackprop k Y' o ps n X' U' q')) /\
  snd (pbackprop k Y' o ps n X' U' q') = snd (pbackprop k Y o ps n X U q).
Proof.
  intros HY. induction ps as [|l t IH]; intros i q q' X X' HC HF HX.
  - simpl in HC. subst i. split; [|reflexivity]. now apply re_loss_back.
  - destruct HC as (Hi & HC). inversion HF as [|? ? Hl Ht]; subst. cbn [pbackprop].
    pose proof (re_train l X X' (from (K := RNum) U q) (from (K := RNum) U' q') Hl HX) as HO.
    specialize (IH (p_out l) (q + pdraws l n)%nat (q' + pdraws l n)%nat _ _ HC Ht HO).
    destruct (pbackprop k Y o t n (ptrain l n X (from U q)) U (q + pdraws l n)) as (G & gs).
    destruct (pbackprop k Y' o t n (ptrain l n X' (from U' q')) U' (q' + pdraws l n)) as (G' & gs').
    cbn [fst snd] in *. destruct IH as (HG & ->).
    assert (HPre : reordered (p_out l)
      (pre_grad k Y (match t with [] => true | _ => false end) l n (ptrain l n X (from (K := RNum) U q)) (ptrain_mask l n (from (K := RNum) U q)) G)
      (pre_grad k Y' (match t with [] => true | _ => false end) l n (ptrain l n X' (from (K := RNum) U' q')) (ptrain_mask l n (from (K := RNum) U' q')) G')).
    { apply re_pre with (o := o); auto. destruct t; [intros _; exact HC|discriminate]. }
    split; [now apply re_dX|]. f_equal. f_equal; [now apply same_dW|now apply same_sum].
Qed.
End Perm.

Lemma tstep_kind (t : player RNum * popt RNum) g : p_kind (fst (tstep t g)) = p_kind (fst t) /\ p_in (fst (tstep t g)) = p_in (fst t) /\ p_out (fst (tstep t g)) = p_out (fst t).
Proof. unfold tstep. destruct (pupdate _ _ _ _ _ _ _) as ((? & ?) & ?). simpl. auto. Qed.
Lemma batch_kept k o ts (X Y : rpm) U q i : chain i (map fst ts) o -> Forall (fun l => p_kind l <> Dropout) (map fst ts) ->
  chain i (map fst (pbatch (K := RNum) k o ts X Y U q)) o /\ Forall (fun l => p_kind l <> Dropout) (map fst (pbatch (K := RNum) k o ts X Y U q)).
Proof.
  intros HC HF. unfold pbatch.
  assert (HL : length (snd (pbackprop (K := RNum) k Y o (map fst ts) (length X) X U q)) = length (map fst ts)).
  { generalize (length X) as r. generalize q. revert X. generalize (map fst ts) as ps. induction ps as [|l t IH]; intros X0 q0 r0; [reflexivity|]. cbn [pbackprop].
    specialize (IH (ptrain l r0 X0 (from U q0)) (q0 + pdraws l r0)%nat r0). destruct (pbackprop _ _ _ t _ _ _ _) as (G & gs). simpl in *. congruence. }
  rewrite map_length in HL. revert HL. generalize (snd (pbackprop (K := RNum) k Y o (map fst ts) (length X) X U q)) as gs.
  revert i HC HF. induction ts as [|t ts IH]; intros i HC HF [|g gs] HL; try discriminate; [split; auto|].
  cbn [combine map fst snd] in *. destruct (tstep_kind t g) as (E1 & E2 & E3). destruct HC as (Hi & HC). inversion HF; subst.
  destruct (IH _ HC ltac:(assumption) gs ltac:(simpl in HL; lia)) as (A & B). split.
  - simpl. rewrite E2, E3. split; [reflexivity|exact A].
  - constructor; [now rewrite E1|exact B].
Qed.
Lemma perm_batch k o ts n pm (X Y : rpm) U q U' q' i : Permutation pm (seq 0 n) -> chain i (map fst ts) o -> Forall (fun l => p_kind l <> Dropout) (map fst ts) ->
  length X = n -> pbatch (K := RNum) k o ts (pick [] pm X) (pick [] pm Y) U' q' = pbatch (K := RNum) k o ts X Y U q.
Proof.
  intros HP HC HF HX. unfold pbatch. f_equal. f_equal.
  replace (length (pick [] pm X)) with n by (unfold pick; now rewrite map_length, (Permutation_length HP), seq_length). rewrite HX.
  apply (re_backprop n pm HP k o Y (pick [] pm Y) U U' (pick_reordered n pm HP o Y) (map fst ts) i q q' X (pick [] pm X) HC HF (pick_reordered n pm HP i X)).
Qed.
Lemma perm_epochs k o n pm (X Y : rpm) U U' i e : Permutation pm (seq 0 n) -> length X = n -> forall ts q q',
  chain i (map fst ts) o -> Forall (fun l => p_kind l <> Dropout) (map fst ts) ->
  fst (ptrain_on (K := RNum) k o ts U' q' (repeat (pick [] pm X, pick [] pm Y) e)) = fst (ptrain_on (K := RNum) k o ts U q (repeat (X, Y) e)).
Proof.
  intros HP HX. induction e as [|e IH]; intros ts q q' HC HF; [reflexivity|]. cbn [repeat ptrain_on].
  rewrite (perm_batch k o ts n pm X Y U q U' q' i HP HC HF HX).
  destruct (batch_kept k o ts X Y U q i HC HF). now apply IH.
Qed.

(** Two full-batch trainings of equal networks on the same samples in different order end in equal networks
    and optimizers. *)
Lemma fit_row_order s1 m1 es1 xs1 x1 rsx1 y1 rsy1 xv1 yv1 s2 m2 es2 xs2 x2 rsx2 y2 rsy2 xv2 yv2 i o k n pm (X Y : rpm) epochs bs1 bs2 :
  (bs1 = 0 \/ Z.of_nat n <= bs1)%Z -> (Z.of_nat n + bs1 <= 2 ^ 52)%Z ->
  (bs2 = 0 \/ Z.of_nat n <= bs2)%Z -> (Z.of_nat n + bs2 <= 2 ^ 52)%Z -> (1 <= n)%nat ->
  Permutation pm (seq 0 n) ->
  trainable s1 m1 es1 xs1 i o k -> data_ok s1 es1 x1 rsx1 y1 rsy1 n i o X Y ->
  trainable s2 m2 es2 xs2 i o k -> data_ok s2 es2 x2 rsx2 y2 rsy2 n i o (pick [] pm X) (pick [] pm Y) ->
  trainer es1 xs1 = trainer es2 xs2 -> Forall (fun e => p_kind (e_p e) <> Dropout) es1 ->
  exists s1' s2' es1' xs1' es2' xs2',
    Fit m1 x1 y1 epochs bs1 xv1 yv1 0 s1 = (Ret tt, s1') /\ Fit m2 x2 y2 epochs bs2 xv2 yv2 0 s2 = (Ret tt, s2') /\
    trainable s1' m1 es1' xs1' i o k /\ Forall2 same_place es1 es1' /\
    trainable s2' m2 es2' xs2' i o k /\ Forall2 same_place es2 es2' /\
    trainer es1' xs1' = trainer es2' xs2'.
Proof.
  intros Hb1 H1 Hb2 H2 Hn HP HT1 HD1 HT2 HD2 HE HF.
  destruct (fit_trains s1 m1 es1 xs1 i o k x1 rsx1 y1 rsy1 n X Y epochs bs1 xv1 yv1 RNum_min_faithful ltac:(lia) H1 Hn HT1 HD1)
    as ([] & s1' & E1 & nn1 & _ & (es1' & xs1' & HT1' & HPl1 & _ & Htr1 & _) & _).
  destruct (fit_trains s2 m2 es2 xs2 i o k x2 rsx2 y2 rsy2 n _ _ epochs bs2 xv2 yv2 RNum_min_faithful ltac:(lia) H2 Hn HT2 HD2)
    as ([] & s2' & E2 & nn2 & _ & (es2' & xs2' & HT2' & HPl2 & _ & Htr2 & _) & _).
  exists s1', s2', es1', xs1', es2', xs2'. do 6 (split; [assumption|]).
  rewrite Htr1, Htr2. clear Htr1 Htr2.
  destruct HD1 as (HX & HY & _ & _). pose proof (own_shape _ _ _ _ _ _ HX) as (HXl & _). pose proof (own_shape _ _ _ _ _ _ HY) as (HYl & _).
  destruct HD2 as (HX2 & HY2 & _ & _). pose proof (own_shape _ _ _ _ _ _ HX2) as (HXl2 & _). pose proof (own_shape _ _ _ _ _ _ HY2) as (HYl2 & _).
  unfold epochs_of.
  assert (HW : forall (A : rpm) bs, length A = n -> (bs = 0 \/ Z.of_nat n <= bs)%Z -> chunks (batch_rows n bs) A = [A]).
  { intros A bs HA Hbs. apply chunks_whole; [destruct A; simpl in *; [lia|discriminate]|]. unfold batch_rows. destruct (Z.eqb_spec bs 0); lia. }
  rewrite !HW by auto. cbn [combine].
  assert (HR : forall A (x : A) m, concat (repeat [x] m) = repeat x m) by (intros A x0 m0; induction m0; simpl; congruence).
  rewrite !HR. rewrite <- HE. symmetry.
  assert (HLx : length xs1 = length es1). { destruct HT1 as (_ & _ & _ & _ & _ & HO & _). symmetry. eapply Forall2_length; eauto. }
  apply (perm_epochs k o n pm X Y _ _ i _ HP HXl).
  - rewrite (trainer_net es1 xs1 HLx). apply HT1.
  - rewrite (trainer_net es1 xs1 HLx). unfold net. now rewrite Forall_map.
Qed.
