(** * RowCount: training with different numbers of samples and labels, and with no labels. *)
From Coq Require Import String ZArith List Bool Arith Lia.
From Verif Require Import Num Heap Spec Matrix Loss Network Optimizers ModelGo PureSpec Repr HeapLemmas LoopLemmas MatrixProofs MatrixFacts LayerProofs LayerFacts LossProofs LossCode MiscProofs OptSpec OptProofs OptFacts ModelSpec ModelProofs FitProofs FitLoop FitFacts LateLayer.
Import ListNotations.
Open Scope Z_scope.
Open Scope go_scope.

Section WithNum.
Context {K : Num}.
Implicit Types (s : state K) (es : list (lent K)) (xs : list (oent K)).

(** The first [n] rows of the array a matrix starts in. *)
Definition cut (n : nat) (x : matrix) : matrix := MkMatrix (Z.of_nat n) (mcols x) (MkSlice (sl_loc (mdata x)) (sl_off (mdata x)) n).

Lemma fit_same_start m x1 x2 y epochs bs xv yv s :
  sl_loc (mdata x1) = sl_loc (mdata x2) -> sl_off (mdata x1) = sl_off (mdata x2) ->
  Fit (K := K) m x1 y epochs bs xv yv 0 s = Fit m x2 y epochs bs xv yv 0 s.
Proof.
  intros E1 E2. unfold Fit. cbv zeta. unfold for_ at 1 3, for_acc. apply loop_ext. intros j [] s1 _.
  rewrite !(andb_false_r), !andb_false_l. cbn [negb Z.eqb andb].
  assert (HE : forall st bsz s2, fit_batch m x1 y bsz st s2 = fit_batch (K := K) m x2 y bsz st s2).
  { intros st bsz s2. unfold fit_batch, reslice. rewrite E1, E2. reflexivity. }
  match goal with |- bind ?a _ _ = bind ?b _ _ => assert (HA : a s1 = b s1) end.
  { unfold for_, for_acc. apply loop_ext. intros. apply HE. }
  unfold bind at 1 3. rewrite HA. reflexivity.
Qed.
Lemma own_cut s x rs nx c (X : pm K) n : own s x rs nx c X -> (n <= nx)%nat -> own s (cut n x) (firstn n rs) n c (firstn n X).
Proof.
  intros (E1 & E2 & E3 & HS & (arr & Ha & Hb & ->) & HF) Hn. split; [reflexivity|]. split; [exact E2|]. split; [reflexivity|].
  split; [exact (shape_sub 0 n nx c X HS Hn)|]. split.
  - exists arr. cbn. split; [exact Ha|]. split; [lia|]. rewrite firstn_firstn. f_equal. lia.
  - exact (Forall2_sub _ 0 _ _ n HF).
Qed.

(** More samples than labels: the extra samples are ignored. *)
Lemma fit_extra_samples s m es xs i o k x rsx y rsy nx n (X Y : pm K) epochs bs xv yv :
  min_faithful K -> 0 <= bs -> Z.of_nat n + bs <= 2 ^ 52 -> (1 <= n <= nx)%nat ->
  trainable s m es xs i o k -> own s x rsx nx i X -> own s y rsy n o Y -> disjoint rsx (prows es) -> disjoint rsy (prows es) ->
  returns (Fit m x y epochs bs xv yv 0) s (fun _ s' =>
    let tq := ptrain_on k o (trainer es xs) (r_uni (h_rng s)) (r_upos (h_rng s)) (epochs_of (Z.to_nat epochs) (batch_rows n bs) (firstn n X) Y) in
    exists nn, snd tq = (r_upos (h_rng s) + nn)%nat /\ train_result s s' m es xs i o k (fst tq) nn []).
Proof.
  intros HM Hbs H52 Hn HT HX HY D1 D2.
  assert (HD : data_ok s es (cut n x) (firstn n rsx) y rsy n i o (firstn n X) Y).
  { split; [eapply own_cut; [exact HX|lia]|]. split; [exact HY|]. split; [|exact D2]. intros z Hz. apply D1. eapply in_sub with (lo := 0%nat) (len := n). exact Hz. }
  assert (H := fit_trains s m es xs i o k (cut n x) (firstn n rsx) y rsy n (firstn n X) Y epochs bs xv yv HM Hbs H52 (proj1 Hn) HT HD).
  unfold returns in *. destruct H as (a & s' & HE & nn & H1 & H2 & _). exists a, s'. split; [|exists nn; auto].
  rewrite <- HE. apply fit_same_start; reflexivity.
Qed.

(** The array of rows ends with the matrix. *)
Definition tight s (x : matrix) (n : nat) : Prop := exists arr, out_at s (sl_loc (mdata x)) = Some arr /\ length arr = (sl_off (mdata x) + n)%nat.
Lemma tight_frame W s s' x n : tight s x n -> frame W s s' -> tight s' x n.
Proof. intros (arr & H & E) HF. exists arr. split; [|exact E]. apply HF, H. Qed.

(** Fewer samples than labels: Fit panics, after training on the whole batches before. *)
Lemma fit_few_samples s m es xs i o k x rsx y rsy nx n (X Y : pm K) epochs bs xv yv every :
  min_faithful K -> 0 <= bs -> Z.of_nat n + bs <= 2 ^ 52 -> (nx < n)%nat -> 1 <= epochs ->
  trainable s m es xs i o k -> own s x rsx nx i X -> tight s x nx -> own s y rsy n o Y -> disjoint rsx (prows es) -> disjoint rsy (prows es) ->
  exists s', Fit m x y epochs bs xv yv every s = (Panic PSlice, s').
Proof.
  intros HM Hbs H52 Hn He HT HX HC HY D1 D2.
  unfold Fit. cbv zeta. rewrite (own_rows _ _ _ _ _ _ HY).
  unfold for_ at 1, for_acc. destruct (Z.to_nat epochs) as [|ep] eqn:Eep; [lia|]. cbn [loop].
  assert (HB : exists st b, (1 <= b)%nat /\ Z.of_nat (n + b) <= 2 ^ 53 /\ (n <= st * b)%nat /\ (nx / b < st)%nat /\
    (if negb (bs =? 0) then (if Z.quot (Z.of_nat n) bs * bs <? Z.of_nat n then Z.quot (Z.of_nat n) bs + 1 else Z.quot (Z.of_nat n) bs) else 1) = Z.of_nat st /\
    (if negb (bs =? 0) then bs else Z.of_nat n) = Z.of_nat b).
  { destruct (Z.eqb_spec bs 0) as [->|N]; cbn [negb].
    - exists 1%nat, n. repeat split; try lia. apply Nat.div_lt_upper_bound; lia.
    - rewrite Z.quot_div_nonneg by lia.
      assert (0 <= Z.of_nat n / bs) by (apply Z.div_pos; lia).
      assert (HL : forall st, Z.of_nat n <= st * bs -> 0 <= st -> (nx / Z.to_nat bs < Z.to_nat st)%nat).
      { intros st H1 H2. apply Nat.div_lt_upper_bound; [lia|]. nia. }
      destruct (Z.ltb_spec (Z.of_nat n / bs * bs) (Z.of_nat n)).
      + assert (Z.of_nat n <= (Z.of_nat n / bs + 1) * bs).
        { pose proof (Z.mod_pos_bound (Z.of_nat n) bs ltac:(lia)). pose proof (Z.div_mod (Z.of_nat n) bs ltac:(lia)). lia. }
        exists (Z.to_nat (Z.of_nat n / bs + 1)), (Z.to_nat bs). repeat split; try lia. apply HL; lia.
      + exists (Z.to_nat (Z.of_nat n / bs)), (Z.to_nat bs). repeat split; try lia. apply HL; lia. }
  destruct HB as (st & b & Hb & H53 & Hst & Hj & -> & ->).
  enough (HE : exists s', for_ (Z.of_nat st) (fun batchStep => fit_batch m x y (Z.of_nat b) batchStep) s = (Panic PSlice, s')).
  { destruct HE as (s' & HE). exists s'. apply bind_panic, bind_panic, HE. }
  unfold for_, for_acc. rewrite Nat2Z.id. set (j := (nx / b)%nat) in *.
  replace st with (j + S (st - j - 1))%nat by lia. rewrite loop_app. cbn [Z.add].
  assert (Hjb : (j * b <= nx < (j + 1) * b)%nat).
  { unfold j. pose proof (Nat.div_mod nx b ltac:(lia)). pose proof (Nat.mod_upper_bound nx b ltac:(lia)). nia. }
  assert (HD : data_ok s es x rsx (cut nx y) (firstn nx rsy) nx i o X (firstn nx Y)).
  { split; [exact HX|]. split; [eapply own_cut; [exact HY|lia]|]. split; [exact D1|]. intros z Hz. apply D2. eapply in_sub with (lo := 0%nat) (len := nx). exact Hz. }
  assert (HW := wp_batches m i o k x rsx (cut nx y) (firstn nx rsy) nx X (firstn nx Y) b HM ltac:(lia) Hb j 0 s es xs HT HD ltac:(nia)).
  apply wp_ex in HW as ([] & s1 & HW & nn & _ & (es1 & xs1 & _ & _ & _ & _ & (HF & _))).
  exists s1. erewrite bind_eq.
  2:{ rewrite <- HW. change (Z.of_nat 0) with 0. apply loop_ext. intros a [] s2 Ha. unfold fit_batch. cbv zeta.
      rewrite (own_rows _ _ _ _ _ _ HY). cbn [mrows cut mdata].
      rewrite !HM by (unfold small_int; nia).
      replace (Z.min ((a + 1) * Z.of_nat b) (Z.of_nat n)) with ((a + 1) * Z.of_nat b) by nia.
      replace (Z.min ((a + 1) * Z.of_nat b) (Z.of_nat nx)) with ((a + 1) * Z.of_nat b) by nia. reflexivity. }
  cbn [loop]. apply bind_panic. unfold fit_batch. cbv zeta. apply bind_panic.
  rewrite (own_rows _ _ _ _ _ _ HY), HM by (unfold small_int; nia).
  destruct (tight_frame _ _ _ _ _ HC HF) as (arr & Ea & La).
  unfold reslice. rewrite Ea, La.
  replace (Z.min ((Z.of_nat j + 1) * Z.of_nat b) (Z.of_nat n) <=? Z.of_nat (sl_off (mdata x) + nx) - Z.of_nat (sl_off (mdata x))) with false by nia.
  now rewrite andb_false_r.
Qed.

(** No labels. *)
Lemma fit_empty m x y epochs bs xv yv s : mrows y = 0 -> bs <> 0 -> Fit (K := K) m x y epochs bs xv yv 0 s = (Ret tt, s).
Proof.
  intros Hy Hb. unfold Fit. cbv zeta. rewrite Hy. replace (bs =? 0) with false by lia. cbn [negb].
  rewrite Z.quot_0_l by auto. rewrite Z.mul_0_l. cbn [Z.ltb Z.compare].
  apply (loop_nothing m x y bs xv yv 0); [lia|reflexivity].
Qed.
End WithNum.
