(** * MiscProofs: row/column accessors, NewMatrixFromSlice, shuffling, arg-max. *)
From Coq Require Import String ZArith List Bool Arith Lia ZifyBool Permutation.
From Verif Require Import Num Heap Spec HeapLemmas LoopLemmas Matrix MatrixProofs Activation
  Misc ActivationProofs LayerProofs.
Import ListNotations.
Open Scope Z_scope.

Section WithNum.
Context {K : Num}.
Implicit Types s : state K.

(** ** NewMatrixFromSlice *)


Lemma slice_view_length s sl rs rows : slice_view s sl rs rows -> length rows = sl_len sl.
Proof.
  intros [(arr & Ha & Hl & ->) HF]. apply Forall2_length in HF. rewrite <- HF, firstn_length, skipn_length. lia.
Qed.

Lemma slice_view_idx s sl rs rows i : slice_view s sl rs rows -> (i < sl_len sl)%nat ->
  exists x, nth_error rs i = Some x /\ idx_out sl (Z.of_nat i) s = (Ret x, s) /\ row_at s x = Some (nth i rows []).
Proof.
  intros HV Hi. pose proof (slice_view_length _ _ _ _ HV) as HL.
  destruct HV as [(arr & Ha & Hl & E) HF].
  destruct (nth_error rs i) as [x|] eqn:Hx.
  2:{ apply nth_error_None in Hx. apply Forall2_length in HF. lia. }
  exists x. split; auto. split.
  - unfold idx_out. rewrite Ha. replace ((0 <=? Z.of_nat i) && (Z.of_nat i <? Z.of_nat (sl_len sl))) with true by lia.
    rewrite Nat2Z.id. assert (En : nth_error arr (sl_off sl + i) = Some x).
    { rewrite E in Hx. rewrite <- Hx. rewrite nth_error_firstn_lt by lia. now rewrite nth_error_skipn. }
    now rewrite En.
  - clear - HF Hx. revert i Hx. induction HF; intros i Hx; [destruct i; discriminate|].
    destruct i; simpl in *; [congruence|]. now apply IHHF.
Qed.

Theorem NewMatrixFromSlice_run s sl rs rows :
  slice_view s sl rs rows ->
  NewMatrixFromSlice sl s =
    (match rows with
     | [] => Fail (EMatDims 0 0)
     | row0 :: _ =>
        if (length row0 <? 1)%nat then Fail (EMatDims (Z.of_nat (length rows)) (Z.of_nat (length row0)))
        else Ret (MkMatrix (Z.of_nat (length rows)) (Z.of_nat (length row0)) sl)
     end, s).
Proof.
  intros HV. pose proof (slice_view_length _ _ _ _ HV) as HL. unfold NewMatrixFromSlice.
  destruct rows as [|row0 rows]; simpl in HL.
  - rewrite <- HL. reflexivity.
  - replace (Z.of_nat (sl_len sl) <? 1) with false by lia.
    destruct (slice_view_idx _ _ _ _ 0%nat HV) as (x & _ & Hi & Hr); [lia|]. simpl in Hi, Hr.
    erewrite bind_eq by exact Hi. erewrite bind_eq by (unfold row_len; rewrite Hr; reflexivity).
    replace (Z.of_nat (length row0) <? 1) with (length row0 <? 1)%nat by lia.
    replace (Z.of_nat (length (row0 :: rows))) with (Z.of_nat (sl_len sl)) by (simpl; lia).
    destruct (length row0 <? 1)%nat; reflexivity.
Qed.

(** On a rectangular slice the result is a well-formed matrix on the very same storage. *)
Lemma slice_view_own s sl rs rows r c : slice_view s sl rs rows -> shape r c rows ->
  own s (MkMatrix (Z.of_nat r) (Z.of_nat c) sl) rs r c rows.
Proof.
  intros HV HS. pose proof (slice_view_length _ _ _ _ HV). destruct HV, HS as [HL HF]. unfold own. simpl.
  repeat (split; [solve [auto; lia | split; auto]|]). auto.
Qed.
Lemma own_slice_view s m rs r c A : own s m rs r c A -> slice_view s (mdata m) rs A.
Proof. intros (_ & _ & _ & _ & H1 & H2). split; auto. Qed.

(** ** GetRow, GetColumn, SetRow, SetColumn *)
Theorem GetRow_run s m rs r c A i : own s m rs r c A -> (i < r)%nat ->
  GetRow m (Z.of_nat i) s = (Ret (nth i rs O), s) /\ row_at s (nth i rs O) = Some (nth i A []).
Proof.
  intros HO Hi. destruct (own_ref _ _ _ _ _ _ _ HO Hi) as (x & Hx & Hidx & Hrow & Hn).
  unfold GetRow. rewrite (own_rows _ _ _ _ _ _ HO). replace (Z.of_nat i >=? Z.of_nat r) with false by lia.
  rewrite Hn. auto.
Qed.
Lemma GetRow_err s m row : row >= mrows m -> GetRow m row s = (Fail (EMatIndex row (-1)), s).
Proof. intros. unfold GetRow. replace (row >=? mrows m) with true by lia. reflexivity. Qed.

(** Writing a row through its reference is visible in the matrix. *)
Lemma set_row_own s m rs r c A i j v :
  own s m rs r c A -> NoDup rs -> (i < r)%nat -> (j < c)%nat ->
  exists s', set_row (nth i rs O) (Z.of_nat j) v s = (Ret tt, s') /\ own s' m rs r c (pset A i j v) /\
     frame (fun x => x = nth i rs O) s s' /\ rest s s'.
Proof.
  intros HO HND Hi Hj. destruct (setc_own _ _ _ _ _ _ _ _ v HO HND Hi Hj) as (s' & E & HO' & HF & HR & _).
  destruct (own_ref _ _ _ _ _ _ _ HO Hi) as (x & Hx & Hidx & Hrow & Hn).
  unfold setc in E. rewrite (bind_eq _ _ _ _ _ Hidx) in E. rewrite Hn in *. eauto.
Qed.

Theorem GetColumn_run s m rs r c A j : own s m rs r c A -> (j < c)%nat ->
  exists x s', GetColumn m (Z.of_nat j) s = (Ret x, s') /\ (nrows s < x)%nat /\
    row_at s' x = Some (map (fun i => entry A i j) (seq 0 r)) /\ ext s s'.
Proof.
  intros HO Hj.
  assert (W : wp (GetColumn m (Z.of_nat j)) s (fun x s' => (nrows s < x)%nat /\
    row_at s' x = Some (map (fun i => entry A i j) (seq 0 r)) /\ ext s s')).
  { unfold GetColumn. rewrite (own_rows _ _ _ _ _ _ HO), (own_cols _ _ _ _ _ _ HO).
    replace (Z.of_nat j >=? Z.of_nat c) with false by lia. replace (Z.of_nat r <? 0) with false by lia.
    rewrite Nat2Z.id.
    apply wp_bind. eapply wp_eq; [reflexivity|].
    set (x := S (length (h_rows s))). set (s1 := with_rows s (h_rows s ++ [repeat f0 r])).
    assert (Hx : (nrows s < x)%nat) by (unfold nrows, x; lia).
    apply wp_bind.
    apply wp_for with (I := fun i st =>
      row_at st x = Some (map (fun i => entry A i j) (seq 0 i) ++ repeat f0 (r - i)) /\ ext s st).
    - split.
      + simpl. rewrite Nat.sub_0_r. rewrite nth_error_app2 by lia. rewrite Nat.sub_diag. reflexivity.
      + split; [|repeat split]. repeat split; eauto.
        * intros [|y] row Hy _; auto. simpl in *. rewrite nth_error_app1; auto. apply nth_error_Some. congruence.
        * intros [|y] row Hy; simpl in *; eauto. exists row. split; auto. rewrite nth_error_app1; auto. apply nth_error_Some. congruence.
        * unfold nrows. simpl. rewrite app_length. lia.
    - intros i st Hi (Hr & HE). apply wp_bind. eapply wp_eq; [eapply getc_ext; eauto|].
      unfold wp, set_row. unfold x in *. simpl in Hr. rewrite Hr.
      assert (HLen : length (map (fun i => entry A i j) (seq 0 i) ++ repeat f0 (r - i)) = r).
      { rewrite app_length, map_length, seq_length, repeat_length. lia. }
      rewrite HLen. replace ((0 <=? Z.of_nat i) && (Z.of_nat i <? Z.of_nat r)) with true by lia.
      rewrite Nat2Z.id.
      assert (Hk : (length (h_rows s) < length (h_rows st))%nat) by (apply nth_error_Some; congruence).
      assert (HU : upd i (entry A i j) (map (fun i => entry A i j) (seq 0 i) ++ repeat f0 (r - i))
                 = map (fun i => entry A i j) (seq 0 (S i)) ++ repeat f0 (r - S i)).
      { apply list_eq_nth with (d := f0).
        - rewrite upd_length, HLen, app_length, map_length, seq_length, repeat_length. lia.
        - intros k Hk2. rewrite upd_length, HLen in Hk2. rewrite nth_upd, HLen.
          replace (i <? r)%nat with true by lia. rewrite andb_true_r.
          destruct (Nat.eqb_spec i k) as [->|Hne].
          + rewrite app_nth1 by (rewrite map_length, seq_length; lia). now rewrite nth_map_seq by lia.
          + destruct (Nat.lt_ge_cases k i).
            * rewrite !app_nth1 by (rewrite map_length, seq_length; lia). now rewrite !nth_map_seq by lia.
            * rewrite !app_nth2 by (rewrite map_length, seq_length; lia). now rewrite !nth_repeat. }
      rewrite HU. split.
      + rewrite row_at_with_rows_upd by auto. now rewrite Nat.eqb_refl.
      + destruct HE as [(EA & EB & EC & ED) ER]. split; [|exact ER]. repeat split; auto.
        * intros y row Hy Hn. rewrite row_at_with_rows_upd by auto. pose proof (row_at_valid _ _ _ Hy) as Hv.
          unfold nrows in Hv. replace (y =? S (length (h_rows s)))%nat with false by lia. auto.
        * intros y row Hy. rewrite row_at_with_rows_upd by auto. pose proof (row_at_valid _ _ _ Hy) as Hv.
          unfold nrows in Hv. replace (y =? S (length (h_rows s)))%nat with false by lia. auto.
        * unfold nrows in *. simpl. rewrite upd_length. exact ED.
    - intros st (Hr & HE). apply wp_ret. rewrite Nat.sub_diag in Hr. simpl repeat in Hr. rewrite app_nil_r in Hr. auto. }
  apply wp_ex in W. destruct W as (x & s' & E & H). exists x, s'. tauto.
Qed.
Lemma GetColumn_err s m col : col >= mcols m -> GetColumn m col s = (Fail (EMatIndex (-1) col), s).
Proof. intros. unfold GetColumn. replace (col >=? mcols m) with true by lia. reflexivity. Qed.

(** SetRow stores the caller's slice: afterwards the i-th row reference IS [values]. *)
Theorem SetRow_run s m rs r c A i values row :
  own s m rs r c A -> (i < r)%nat -> row_at s values = Some row -> length row = c ->
  exists s', SetRow m (Z.of_nat i) values s = (Ret tt, s') /\
    own s' m (upd i values rs) r c (upd i row A) /\ h_rows s' = h_rows s /\ rest s s' /\
    (forall o arr, o <> sl_loc (mdata m) -> out_at s o = Some arr -> out_at s' o = Some arr).
Proof.
  intros HO Hi Hrow HL. destruct (set_out_own _ _ _ _ _ _ i values row HO Hi Hrow HL) as (s' & E & HO' & HR & HS & HF & _).
  exists s'. split; [|auto]. unfold SetRow. rewrite (own_rows _ _ _ _ _ _ HO), (own_cols _ _ _ _ _ _ HO).
  replace (Z.of_nat i >=? Z.of_nat r) with false by lia.
  erewrite bind_eq by (unfold row_len; rewrite Hrow; reflexivity). rewrite HL, Z.eqb_refl. exact E.
Qed.
Lemma SetRow_err_index s m row values : row >= mrows m -> SetRow m row values s = (Fail (EMatIndex row (-1)), s).
Proof. intros. unfold SetRow. replace (row >=? mrows m) with true by lia. reflexivity. Qed.
Lemma SetRow_err_len s m row values l : row < mrows m -> row_at s values = Some l -> Z.of_nat (length l) <> mcols m ->
  SetRow m row values s = (Fail (ESliceDims (Z.of_nat (length l))), s).
Proof.
  intros H1 H2 H3. unfold SetRow. replace (row >=? mrows m) with false by lia.
  erewrite bind_eq by (unfold row_len; rewrite H2; reflexivity).
  replace (Z.of_nat (length l) =? mcols m) with false by lia. reflexivity.
Qed.

Theorem SetColumn_run s m rs r c A j values col :
  own s m rs r c A -> NoDup rs -> (j < c)%nat -> row_at s values = Some col -> length col = r -> ~ In values rs ->
  exists s', SetColumn m (Z.of_nat j) values s = (Ret tt, s') /\
    own s' m rs r c (mk r c (fun a b => if (b =? j)%nat then nth a col f0 else entry A a b)) /\
    frame (among rs) s s' /\ rest s s'.
Proof.
  intros HO HND Hj Hcol HL Hnin.
  assert (W : wp (SetColumn m (Z.of_nat j) values) s (fun _ s' =>
    own s' m rs r c (mk r c (fun a b => if (b =? j)%nat then nth a col f0 else entry A a b)) /\
    frame (among rs) s s' /\ rest s s')).
  { unfold SetColumn. rewrite (own_rows _ _ _ _ _ _ HO), (own_cols _ _ _ _ _ _ HO).
    replace (Z.of_nat j >=? Z.of_nat c) with false by lia.
    apply wp_bind. eapply wp_eq; [unfold row_len; rewrite Hcol; reflexivity|].
    rewrite HL, Z.eqb_refl. cbn [negb].
    apply wp_for with (I := fun i st =>
      own st m rs r c (mk r c (fun a b => if ((b =? j) && (a <? i))%nat then nth a col f0 else entry A a b)) /\
      frame (among rs) s st /\ rest s st).
    - split; [|auto using frame_refl, rest_refl]. erewrite mk_ext; [rewrite (mk_entry r c A); eauto using own_shape|].
      intros a b _ _. simpl. now rewrite andb_false_r.
    - intros i st Hi (HO1 & HF1 & HR1).
      assert (Hv : row_at st values = Some col) by (destruct HF1 as (_ & FB & _); apply FB; auto).
      apply wp_bind. eapply wp_eq.
      { unfold idx_row. rewrite Hv, HL. replace ((0 <=? Z.of_nat i) && (Z.of_nat i <? Z.of_nat r)) with true by lia.
        rewrite Nat2Z.id, nth_error_nth' with (d := f0) by lia. reflexivity. }
      eapply wp_conseq; [eapply wp_setc; eauto|]. simpl. intros _ st2 (HO2 & HF2 & HR2). split; [|split].
      + rewrite pset_mk in HO2 by auto. erewrite mk_ext; [exact HO2|]. intros a b Ha Hb. simpl.
        destruct (Nat.eqb_spec i a), (Nat.eqb_spec j b); subst; simpl.
        * rewrite Nat.eqb_refl. replace (a <? S a)%nat with true by lia. reflexivity.
        * replace (b =? j)%nat with false by lia. reflexivity.
        * rewrite Nat.eqb_refl. simpl. replace (a <? S i)%nat with (a <? i)%nat by lia. reflexivity.
        * replace (b =? j)%nat with false by lia. reflexivity.
      + eapply frame_trans; eauto. tauto.
      + eapply rest_trans; eauto.
    - intros st (HO1 & HF1 & HR1). split; auto. erewrite mk_ext; [exact HO1|]. intros a b Ha Hb. simpl.
      replace (a <? r)%nat with true by lia. now rewrite andb_true_r. }
  apply wp_ex in W. destruct W as ([] & s' & E & H). exists s'. tauto.
Qed.
Lemma SetColumn_err_index s m col values : col >= mcols m -> SetColumn m col values s = (Fail (EMatIndex (-1) col), s).
Proof. intros. unfold SetColumn. replace (col >=? mcols m) with true by lia. reflexivity. Qed.
Lemma SetColumn_err_len s m col values l : col < mcols m -> row_at s values = Some l -> Z.of_nat (length l) <> mrows m ->
  SetColumn m col values s = (Fail (ESliceDims (Z.of_nat (length l))), s).
Proof.
  intros H1 H2 H3. unfold SetColumn. replace (col >=? mcols m) with false by lia.
  erewrite bind_eq by (unfold row_len; rewrite H2; reflexivity).
  replace (Z.of_nat (length l) =? mrows m) with false by lia. reflexivity.
Qed.

Definition lswap {T} (d : T) (i j : nat) (l : list T) : list T := upd j (nth i l d) (upd i (nth j l d) l).

Lemma lswap_length {T} (d : T) i j l : length (lswap d i j l) = length l.
Proof. unfold lswap. now rewrite !upd_length. Qed.

Lemma lswap_perm {T} (d : T) i j l : (i < length l)%nat -> (j < length l)%nat -> Permutation l (lswap d i j l).
Proof.
  intros Hi Hj. apply (Permutation_nth l (lswap d i j l) d).
  split; [apply lswap_length|].
  exists (fun x => if (x =? i)%nat then j else if (x =? j)%nat then i else x). split; [|split].
  - intros x Hx. destruct (x =? i)%nat; auto. destruct (x =? j)%nat; auto.
  - intros x y Hx Hy. destruct (Nat.eqb_spec x i), (Nat.eqb_spec x j), (Nat.eqb_spec y i), (Nat.eqb_spec y j); lia.
  - intros x Hx. unfold lswap. rewrite !nth_upd, upd_length.
    replace (j <? length l)%nat with true by lia. replace (i <? length l)%nat with true by lia. rewrite !andb_true_r.
    rewrite (Nat.eqb_sym i x), (Nat.eqb_sym j x).
    destruct (Nat.eqb_spec x i), (Nat.eqb_spec x j); subst; auto.
Qed.

Lemma upd_map {A B} (f : A -> B) k x l : map f (upd k x l) = upd k (f x) (map f l).
Proof. revert k. induction l; intros [|k]; simpl; auto. f_equal; auto. Qed.

Lemma pick_lswap {T} (d : T) i j p l : (i < length p)%nat -> (j < length p)%nat ->
  pick d (lswap O i j p) l = lswap d i j (pick d p l).
Proof.
  intros Hi Hj. unfold lswap, pick. rewrite !upd_map.
  assert (G : forall k, (k < length p)%nat -> nth k (map (fun k => nth k l d) p) d = nth (nth k p O) l d).
  { intros k Hk. rewrite nth_indep with (d' := nth O l d) by (rewrite map_length; auto).
    now rewrite (map_nth (fun k => nth k l d)). }
  now rewrite !G by auto.
Qed.

Lemma pick_id {T} (d : T) l : pick d (seq 0 (length l)) l = l.
Proof.
  unfold pick. apply list_eq_nth with (d := d).
  - now rewrite map_length, seq_length.
  - intros i Hi. rewrite map_length, seq_length in Hi. now rewrite nth_map_seq.
Qed.

Lemma own_lengths s m rs r c A : own s m rs r c A -> length rs = r /\ length A = r.
Proof. intros (_ & _ & _ & [HL _] & _ & HF). apply Forall2_length in HF. lia. Qed.

Lemma outs_frame_refl o1 o2 s : outs_frame o1 o2 s s.
Proof. repeat split; auto. Qed.
Lemma outs_frame_trans o1 o2 s1 s2 s3 : outs_frame o1 o2 s1 s2 -> outs_frame o1 o2 s2 s3 -> outs_frame o1 o2 s1 s3.
Proof.
  intros (A1&B1&C1&D1) (A2&B2&C2&D2). split; [congruence|]. split; [eapply rest2_trans; eauto|].
  split; [congruence|]. intros. eauto.
Qed.

Lemma own_outs s s' m rs r c A o1 o2 : own s m rs r c A -> outs_frame o1 o2 s s' ->
  sl_loc (mdata m) <> o1 -> sl_loc (mdata m) <> o2 -> own s' m rs r c A.
Proof.
  intros (H1&H2&H3&H4&(arr&Ha&Hl&E)&H6) (R&_&_&HO) N1 N2. unfold own. repeat (split; [assumption|]). split.
  - exists arr. split; [|auto]. now apply HO.
  - eapply Forall2_mono; [|exact H6]. intros [|x] row; simpl; auto. now rewrite R.
Qed.

Lemma outs_frame_weaken o1 o2 o s s' : o = o1 \/ o = o2 -> outs_frame o o s s' -> outs_frame o1 o2 s s'.
Proof. intros Ho (H1&H2&H3&H4). repeat (split; [assumption|]). intros o' arr N1 N2 Hx. apply H4; auto; intuition congruence. Qed.

Lemma wp_swap_rows s m rs r c A i j :
  own s m rs r c A -> (i < r)%nat -> (j < r)%nat ->
  wp (swap_rows m (Z.of_nat i) (Z.of_nat j)) s (fun _ s' =>
    own s' m (lswap O i j rs) r c (lswap [] i j A) /\
    outs_frame (sl_loc (mdata m)) (sl_loc (mdata m)) s s' /\ h_rng s' = h_rng s).
Proof.
  intros HO Hi Hj. unfold swap_rows.
  destruct (own_ref _ _ _ _ _ _ _ HO Hi) as (a & Ha & Ia & Ra & Na).
  destruct (own_ref _ _ _ _ _ _ _ HO Hj) as (b & Hb & Ib & Rb & Nb).
  assert (HSi : length (nth i A []) = c) by (eapply shape_row; eauto using own_shape).
  assert (HSj : length (nth j A []) = c) by (eapply shape_row; eauto using own_shape).
  apply wp_bind. eapply wp_eq; [exact Ib|]. apply wp_bind. eapply wp_eq; [exact Ia|].
  destruct (set_out_own _ _ _ _ _ _ i b _ HO Hi Rb HSj) as (s1 & E1 & HO1 & HR1 & HS1 & HF1 & _).
  apply wp_bind. eapply wp_eq; [exact E1|].
  assert (Ra1 : row_at s1 a = Some (nth i A [])) by (destruct a; simpl in *; [auto|now rewrite HR1]).
  destruct (set_out_own _ _ _ _ _ _ j a _ HO1 Hj Ra1 HSi) as (s2 & E2 & HO2 & HR2 & HS2 & HF2 & _).
  eapply wp_eq; [exact E2|].
  destruct HS1 as (Q1&Q2&Q3&Q4&Q5). destruct HS2 as (P1&P2&P3&P4&P5).
  split; [|split].
  - unfold lswap. rewrite Na, Nb. exact HO2.
  - split; [congruence|]. split; [unfold rest2; intuition congruence|]. split; [congruence|].
    intros o arr N1 N2 Ho. apply HF2; [intuition congruence|]. apply HF1; [intuition congruence|]. exact Ho.
  - congruence.
Qed.

Theorem wp_ShuffleDataset s X Y rsx rsy r c d A B :
  own s X rsx r c A -> own s Y rsy r d B -> sl_loc (mdata X) <> sl_loc (mdata Y) ->
  wp (ShuffleDataset X Y) s (fun XY s' =>
    XY = (X, Y) /\ outs_frame (sl_loc (mdata X)) (sl_loc (mdata Y)) s s' /\
    exists p, Permutation (seq 0 r) p /\
      own s' X (pick O p rsx) r c (pick [] p A) /\ own s' Y (pick O p rsy) r d (pick [] p B)).
Proof.
  intros HX HY Hne. unfold ShuffleDataset, rand_Shuffle.
  rewrite (own_rows _ _ _ _ _ _ HX). replace (Z.of_nat r <? 0) with false by lia.
  destruct (own_lengths _ _ _ _ _ _ HX) as [LX LA]. destruct (own_lengths _ _ _ _ _ _ HY) as [LY LB].
  set (P := fun s' => outs_frame (sl_loc (mdata X)) (sl_loc (mdata Y)) s s' /\
    exists p, Permutation (seq 0 r) p /\
      own s' X (pick O p rsx) r c (pick [] p A) /\ own s' Y (pick O p rsy) r d (pick [] p B)).
  assert (G : forall k s1, (k < r \/ k = 0)%nat -> P s1 ->
     wp (shuffle_down k (fun i j => bind (swap_rows X i j) (fun _ => swap_rows Y i j))) s1 (fun _ s' => P s')).
  { induction k as [|k IH]; intros s1 Hk HP.
    - apply wp_ret. exact HP.
    - assert (Hkr : (S k < r)%nat) by lia.
      cbn [shuffle_down]. apply wp_bind. eapply wp_eq; [reflexivity|].
      set (dr := r_int (h_rng s1) (r_ipos (h_rng s1))).
      set (s2 := with_rng s1 _).
      assert (Hj : exists j, dr mod (Z.of_nat (S k) + 1) = Z.of_nat j /\ (j <= S k)%nat).
      { exists (Z.to_nat (dr mod (Z.of_nat (S k) + 1))). pose proof (Z.mod_pos_bound dr (Z.of_nat (S k) + 1)). lia. }
      destruct Hj as (j & -> & Hj).
      destruct HP as (HF & p & HPm & HX1 & HY1).
      assert (Lp : length p = r) by (apply Permutation_length in HPm; rewrite seq_length in HPm; lia).
      apply wp_bind. apply wp_bind. eapply wp_conseq.
      { eapply (wp_swap_rows s2 X _ r c _ (S k) j); [exact HX1|lia|lia]. }
      simpl. intros _ s3 (HX3 & HF3 & _).
      assert (HY3 : own s3 Y (pick O p rsy) r d (pick [] p B)).
      { eapply own_outs; [exact HY1|exact HF3| |]; auto. }
      eapply wp_conseq.
      { eapply (wp_swap_rows s3 Y _ r d _ (S k) j); [exact HY3|lia|lia]. }
      simpl. intros _ s4 (HY4 & HF4 & _). apply IH; [lia|]. split.
      + eapply outs_frame_trans; [exact HF|].
        eapply outs_frame_trans with (s2 := s2); [unfold s2; repeat split; auto|].
        eapply outs_frame_trans; [eapply outs_frame_weaken; [|exact HF3]; auto|].
        eapply outs_frame_weaken; [|exact HF4]; auto.
      + exists (lswap O (S k) j p). split; [|split].
        * eapply perm_trans; [exact HPm|]. apply lswap_perm; lia.
        * rewrite !pick_lswap by lia. eapply own_outs; [exact HX3|exact HF4| |]; auto.
        * rewrite !pick_lswap by lia. exact HY4. }
  apply wp_bind. eapply wp_conseq.
  - apply (G (Z.to_nat (Z.of_nat r - 1)) s); [lia|]. split; [apply outs_frame_refl|].
    exists (seq 0 r). split; [reflexivity|].
    split; [replace (pick O (seq 0 r) rsx) with rsx by (rewrite <- LX at 1; now rewrite pick_id);
            replace (pick [] (seq 0 r) A) with A by (rewrite <- LA at 1; now rewrite pick_id); exact HX
           |replace (pick O (seq 0 r) rsy) with rsy by (rewrite <- LY at 1; now rewrite pick_id);
            replace (pick [] (seq 0 r) B) with B by (rewrite <- LB at 1; now rewrite pick_id); exact HY].
  - intros _ s' [H1 H2]. apply wp_ret. auto.
Qed.

(** ** RowMax as an arg-max *)


Lemma scan_max_argmax (P : K -> Prop) n (g : nat -> K) :
  weak_order P -> P f0 -> (forall j, (j < n)%nat -> P (g j)) ->
  (exists j, (j < n)%nat /\ flt f0 (g j) = true) ->
  let a := fst (scan_max n g) in
  (a < n)%nat /\ (forall j, (j < n)%nat -> flt (g a) (g j) = false) /\
  (forall j, (j < a)%nat -> flt (g j) (g a) = true).
Proof.
  intros (Irr & Tr & Neg) P0 Pg.
  (* after k steps: either nothing positive so far, or the state is the first maximum so far *)
  assert (G : forall k, (k <= n)%nat ->
     let b := scan_max k g in
     (b = (O, f0) /\ forall j, (j < k)%nat -> flt f0 (g j) = false) \/
     ((fst b < k)%nat /\ snd b = g (fst b) /\ flt f0 (snd b) = true /\
      (forall j, (j < k)%nat -> flt (snd b) (g j) = false) /\
      (forall j, (j < fst b)%nat -> flt (g j) (snd b) = true))).
  { induction k as [|k IH]; intros Hk.
    - left. split; auto. intros; lia.
    - unfold scan_max. rewrite seq_S, fold_left_app. simpl. fold (scan_max k g).
      destruct IH as [[E H0]|(H1 & H2 & H3 & H4 & H5)]; [lia| |].
      + rewrite E. simpl. destruct (flt f0 (g k)) eqn:Ek; simpl.
        * right. repeat split; auto.
          -- intros j Hj. destruct (Nat.eq_dec j k) as [->|]; [apply Irr, Pg; lia|].
             destruct (flt (g k) (g j)) eqn:Ej; auto.
             specialize (H0 j ltac:(lia)). rewrite (Tr f0 (g k) (g j)) in H0; auto; try discriminate; apply Pg; lia.
          -- intros j Hj. specialize (H0 j Hj). destruct (Neg f0 (g j) (g k)) as [C|C]; auto; try (apply Pg; lia). congruence.
        * left. split; auto. intros j Hj. destruct (Nat.eq_dec j k) as [->|]; auto. apply H0. lia.
      + right. destruct (scan_max k g) as [a v]. simpl in *. subst v.
        assert (Pa : P (g a)) by (apply Pg; lia).
        destruct (flt (g a) (g k)) eqn:Ek; simpl.
        * assert (Pk : P (g k)) by (apply Pg; lia). repeat split; auto.
          -- eapply Tr; [| | |exact H3|exact Ek]; auto.
          -- intros j Hj. destruct (Nat.eq_dec j k) as [->|]; [apply Irr; auto|].
             destruct (flt (g k) (g j)) eqn:Ej; auto. rewrite <- (H4 j) by lia. symmetry. eapply Tr; [| | |exact Ek|exact Ej]; auto. apply Pg; lia.
          -- intros j Hj. destruct (Neg (g a) (g j) (g k)) as [C|C]; auto; try (apply Pg; lia). rewrite H4 in C by lia. discriminate.
        * repeat split; auto. intros j Hj. destruct (Nat.eq_dec j k) as [->|]; auto. apply H4; lia. }
  intros (j & Hj & Hpos). destruct (G n (le_n _)) as [[E H0]|(H1 & H2 & H3 & H4 & H5)].
  - rewrite H0 in Hpos by auto. discriminate.
  - cbv zeta. rewrite <- H2. auto.
Qed.

(** Without a positive entry the answer is index 0, whatever the row. *)
Lemma scan_max_nonpos n (g : nat -> K) : (forall j, (j < n)%nat -> flt f0 (g j) = false) -> fst (scan_max n g) = O.
Proof.
  intros H. unfold scan_max.
  assert (G : forall l, (forall j, In j l -> flt f0 (g j) = false) ->
     fold_left (fun best j => if flt (snd best) (g j) then (j, g j) else best) l (O, f0 : K) = (O, f0)).
  { induction l as [|x l IH]; intros Hl; simpl; auto. rewrite Hl by (simpl; auto). apply IH. intros; apply Hl; simpl; auto. }
  rewrite G; auto. intros j Hj. apply in_seq in Hj. apply H. lia.
Qed.

End WithNum.
