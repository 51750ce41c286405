(** * ExamplesData: the data of the example programs. *)
From Coq Require Import String ZArith List Bool Arith Lia Permutation.
From Verif Require Import Num Heap Spec Matrix Misc PureSpec Repr HeapLemmas LoopLemmas MatrixProofs MatrixFacts MiscProofs OptFacts ModelSpec ModelProofs Session SessionProofs
  ExamplesGo ExamplesSpec.
Import ListNotations.
Open Scope Z_scope.
Open Scope go_scope.

Section AnyNum.
Context {K : Num}.
Implicit Types s : state K.

(** ** Single rows *)
Definition lst (n : nat) (g : nat -> K) : list K := map g (seq 0 n).
Lemma lst_length n g : length (lst n g) = n.
Proof. unfold lst. now rewrite map_length, seq_length. Qed.
Lemma lst_nth n g i : (i < n)%nat -> nth i (lst n g) f0 = g i.
Proof. intros H. unfold lst. now rewrite nth_map_seq. Qed.
Lemma lst_ext n g g' : (forall i, (i < n)%nat -> g i = g' i) -> lst n g = lst n g'.
Proof. intros H. unfold lst. apply map_ext_in. intros i Hi. apply in_seq in Hi. apply H. lia. Qed.
Lemma lst_upd n g i v : (i < n)%nat -> upd i v (lst n g) = lst n (fun a => if (a =? i)%nat then v else g a).
Proof.
  intros Hi. apply list_eq_nth with (d := f0).
  - rewrite upd_length, !lst_length. reflexivity.
  - intros k Hk. rewrite upd_length, lst_length in Hk. rewrite nth_upd, lst_length, !lst_nth by lia. rewrite (Nat.eqb_sym i k).
    replace (i <? n)%nat with true by lia. rewrite andb_true_r. reflexivity.
Qed.
Lemma repeat_lst n : repeat (f0 : K) n = lst n (fun _ => f0).
Proof.
  apply list_eq_nth with (d := f0); [now rewrite repeat_length, lst_length|]. intros i Hi. rewrite repeat_length in Hi. rewrite lst_nth by lia. apply nth_repeat.
Qed.
Lemma idx_row_run s x n g i : row_at s x = Some (lst n g) -> (i < n)%nat -> idx_row x (Z.of_nat i) s = (Ret (g i), s).
Proof.
  intros H Hi. unfold idx_row. rewrite H, lst_length. replace ((0 <=? Z.of_nat i) && (Z.of_nat i <? Z.of_nat n)) with true by lia.
  rewrite Nat2Z.id. rewrite (nth_error_nth' _ f0) by (rewrite lst_length; exact Hi). now rewrite lst_nth.
Qed.
Lemma wp_set_row s x n g i v : row_at s x = Some (lst n g) -> (i < n)%nat -> x <> O ->
  wp (set_row x (Z.of_nat i) v) s (fun _ s' => row_at s' x = Some (lst n (fun a => if (a =? i)%nat then v else g a)) /\ frame (among [x]) s s' /\ rest s s').
Proof.
  intros H Hi Hx. destruct x as [|k]; [congruence|]. unfold wp, set_row. assert (H0 := H). simpl in H0. rewrite H0, lst_length.
  replace ((0 <=? Z.of_nat i) && (Z.of_nat i <? Z.of_nat n)) with true by lia. rewrite Nat2Z.id, lst_upd by exact Hi.
  assert (Hk : (k < length (h_rows s))%nat) by (apply nth_error_Some; congruence).
  split; [rewrite row_at_with_rows_upd by auto; now rewrite Nat.eqb_refl|]. split; [|repeat split]. split; [auto|]. split; [|split].
  - intros r row Hr Hn. rewrite row_at_with_rows_upd by auto. destruct (Nat.eqb_spec r (S k)) as [->|]; [exfalso; apply Hn; now left|exact Hr].
  - intros r row Hr. rewrite row_at_with_rows_upd by auto. destruct (Nat.eqb_spec r (S k)) as [->|]; [|eauto].
    eexists. split; [reflexivity|]. rewrite H in Hr. injection Hr as <-. now rewrite !lst_length.
  - unfold nrows. simpl. rewrite upd_length. lia.
Qed.
Lemma alloc_row_ext s l : let x := S (length (h_rows s)) in let s' := with_rows s (h_rows s ++ [l]) in
  alloc_row l s = (Ret x, s') /\ row_at s' x = Some l /\ fresh s [x] /\ ext s s'.
Proof.
  split; [reflexivity|]. split; [simpl; rewrite nth_error_app2, Nat.sub_diag by lia; reflexivity|]. split; [repeat constructor|].
  split; [|repeat split]. repeat split; eauto.
  - intros [|y] row Hy _; auto. simpl in *. rewrite nth_error_app1; auto. apply nth_error_Some. congruence.
  - intros [|y] row Hy; simpl in *; eauto. exists row. split; auto. rewrite nth_error_app1; auto. apply nth_error_Some. congruence.
  - unfold nrows. simpl. rewrite app_length. lia.
Qed.
Lemma row_frame s s' W x l : row_at s x = Some l -> frame W s s' -> ~ W x -> row_at s' x = Some l.
Proof. intros H (_ & F & _) HW. exact (F _ _ H HW). Qed.

Lemma wp_linspace s (a b : K) n (Q : nat -> state K -> Prop) :
  (forall x s', row_at s' x = Some (lst n (spaced a b n)) -> fresh s [x] -> ext s s' -> Q x s') ->
  wp (linspace a b (Z.of_nat n)) s Q.
Proof.
  intros HQ. unfold linspace. replace (Z.of_nat n <? 0) with false by lia. rewrite Nat2Z.id, repeat_lst.
  destruct (alloc_row_ext s (lst n (fun _ => f0))) as (E & R & F & X). set (x := S (length (h_rows s))) in *. set (s1 := with_rows s _) in *.
  apply wp_bind. eapply wp_eq; [exact E|]. apply wp_bind.
  apply wp_for with (I := fun i st => row_at st x = Some (lst n (fun a0 => if (a0 <? i)%nat then spaced a b n a0 else f0)) /\ ext s st).
  - split; [exact R|exact X].
  - intros i st Hi (HR & HE). eapply wp_conseq; [apply (wp_set_row st x n _ i _ HR Hi); discriminate|]. cbv beta. intros _ s2 (R2 & F2 & X2). split.
    + rewrite R2. f_equal. apply lst_ext. intros c Hc. destruct (Nat.eqb_spec c i), (Nat.ltb_spec c i), (Nat.ltb_spec c (S i)); try lia; subst; reflexivity.
    + destruct HE as [H1 H2]. split; [|eapply rest_trans; eauto]. eapply frame_trans; [exact H1|exact F2|].
      intros r Hr [[]|[<-|[]]]. inversion F as [|? ? FF]; subst. lia.
  - intros st (HR & HE). apply wp_ret. apply HQ; auto. rewrite HR. f_equal. apply lst_ext. intros i Hi. destruct (Nat.ltb_spec i n); [reflexivity|lia].
Qed.

(** ** NewSpiralData *)
Lemma wp_cell s m rs r c (A : pm K) i j v : own s m rs r c A -> NoDup rs -> (i < r)%nat -> (j < c)%nat ->
  wp (setc m (Z.of_nat i) (Z.of_nat j) v) s (fun _ s' =>
    own s' m rs r c (mk r c (fun a b => if (a =? i)%nat && (b =? j)%nat then v else entry A a b)) /\ frame (among rs) s s' /\ rest s s').
Proof.
  intros HO HN Hi Hj. eapply wp_conseq; [apply (wp_setc s m rs r c A i j v HO HN Hi Hj)|]. cbv beta. intros _ s' (H1 & H2 & H3).
  split; [|auto]. rewrite (pset_as_mk r c) in H1 by (auto; apply (own_shape _ _ _ _ _ _ HO)). exact H1.
Qed.
Definition two (rx ry : list nat) : nat -> Prop := fun r => In r rx \/ In r ry.
Lemma divmod_at p c i : (i < p)%nat -> ((c * p + i) / p = c)%nat /\ ((c * p + i) mod p = i)%nat.
Proof.
  intros H. split.
  - rewrite Nat.add_comm, Nat.div_add by lia. now rewrite Nat.div_small.
  - rewrite Nat.add_comm, Nat.mod_add by lia. now apply Nat.mod_small.
Qed.

Lemma wp_spiral_data fsin fcos p c s : (1 <= p)%nat -> (1 <= c)%nat ->
  wp (NewSpiralData fsin fcos (Z.of_nat p) (Z.of_nat c)) s (fun xy s' =>
    exists rsx rsy, own s' (fst xy) rsx (p * c) 2 (spiral_X fsin fcos (normals s) p c) /\ own s' (snd xy) rsy (p * c) c (spiral_Y p c) /\
    fresh s rsx /\ fresh s rsy /\ NoDup rsx /\ NoDup rsy /\ disjoint rsx rsy /\ (nouts s < sl_loc (mdata (fst xy)) < sl_loc (mdata (snd xy)))%nat /\
    frame nothing s s' /\ rest2 s s' /\ h_layers s' = h_layers s /\ h_rng s' = adv_nrm (h_rng s) (p * c)).
Proof.
  intros Hp Hc. unfold NewSpiralData. replace (Z.of_nat p * Z.of_nat c) with (Z.of_nat (p * c)) by lia. set (n := (p * c)%nat).
  assert (Hn : (1 <= n)%nat) by (unfold n; nia).
  apply wp_bind. apply (wp_NewMatrix_ s n 2 _ Hn ltac:(lia)). intros x rsx s1 HX1 HE1.
  apply wp_bind. apply (wp_NewMatrix_ s1 n c _ Hn Hc). intros y rsy s2 HY2 HE2.
  assert (HX2 := own_ext _ _ _ _ _ _ _ (proj1 HX1) HE2). assert (HE := ext_trans _ _ _ HE1 HE2).
  assert (D : disjoint rsx rsy) by (eapply disjoint_old_fresh; [eapply own_old; apply HX1|apply HY2]).
  assert (FX : fresh s rsx) by apply HX1. assert (FY : fresh s rsy).
  { destruct HY2 as (_ & F & _). unfold fresh in *. eapply Forall_impl; [|exact F]. cbv beta. assert (N := frame_nrows _ _ _ (proj1 HE1)). intros; lia. }
  assert (NX : NoDup rsx) by apply HX1. assert (NY : NoDup rsy) by apply HY2.
  assert (Old2x : forall w, In w rsx -> (w <= nrows s2)%nat) by (intros w Hw; exact (own_old_in _ _ _ _ _ _ _ HX2 Hw)).
  assert (Old2y : forall w, In w rsy -> (w <= nrows s2)%nat) by (intros w Hw; exact (own_old_in _ _ _ _ _ _ _ (proj1 HY2) Hw)).
  assert (NL : (nouts s < sl_loc (mdata x) < sl_loc (mdata y))%nat).
  { split; [apply HX1|]. destruct HX1 as ((_ & _ & _ & _ & (arr & Ha & _) & _) & _). destruct HY2 as (_ & _ & _ & HY2). unfold nouts in HY2.
    destruct (sl_loc (mdata x)) as [|k]; [lia|]. simpl in Ha. assert (k < length (h_outs s1))%nat by (apply nth_error_Some; congruence). lia. }
  set (TX := fun a j => entry (spiral_X fsin fcos (normals s) p c) a j). set (TY := fun a j => entry (spiral_Y (K := K) p c) a j).
  set (XI := fun k => mk n 2 (fun a j => if (a <? k)%nat then TX a j else f0)).
  set (YI := fun k => mk n c (fun a j => if (a <? k)%nat then TY a j else f0)).
  set (Inv := fun k g (st : state K) => own st x rsx n 2 (XI k) /\ own st y rsy n c (YI k) /\ frame (two rsx rsy) s2 st /\ rest2 s2 st /\ h_layers st = h_layers s2 /\ h_rng st = adv_nrm (h_rng s) g).
  apply wp_bind. eapply (wp_for c _ _ (fun cl st => Inv (cl * p)%nat (cl * p)%nat st)).
  - simpl. split; [|split; [|split; [apply frame_refl|split; [split; auto|split; [reflexivity|]]]]].
    + assert (XI 0%nat = mk n 2 (fun _ _ => f0)) as -> by (apply mk_ext; reflexivity). exact HX2.
    + assert (YI 0%nat = mk n c (fun _ _ => f0)) as -> by (apply mk_ext; reflexivity). apply HY2.
    + destruct HE as (_ & _ & _ & -> & _). unfold adv_nrm. rewrite Nat.add_0_r. now destruct (h_rng s).
  - intros cl s3 Hcl (HX & HY & HF & HR & HL & HG).
    assert (N23 := frame_nrows _ _ _ HF).
    apply wp_bind. apply wp_linspace. intros rr s4 RR FR4 X4.
    apply wp_bind. apply wp_linspace. intros tt_ s5 RT FR5 X5.
    assert (N34 := frame_nrows _ _ _ (proj1 X4)). assert (N45 := frame_nrows _ _ _ (proj1 X5)).
    assert (Lr : (nrows s3 < rr)%nat) by (inversion FR4; assumption). assert (Lt : (nrows s4 < tt_)%nat) by (inversion FR5; assumption).
    assert (Lr4 : (rr <= nrows s4)%nat) by (eapply row_at_valid; eauto).
    assert (RR5 : row_at s5 rr = Some (lst p (spaced f0 f1 p))) by (eapply row_frame; [exact RR|apply X5|intros []]).
    assert (X35 := ext_trans _ _ _ X4 X5).
    assert (EG : Z.of_nat cl * 4 = Z.of_nat cl * 4) by reflexivity.
    set (lin := spaced (ofZ (Z.of_nat cl * 4)) (ofZ ((Z.of_nat cl + 1) * 4)) p) in *.
    set (noisy := fun i => fadd (lin i) (fmul lit_02 (normals s (cl * p + i)%nat))).
    apply wp_bind. eapply (wp_for p _ _ (fun i st => row_at st tt_ = Some (lst p (fun a => if (a <? i)%nat then noisy a else lin a)) /\
      frame (among [tt_]) s5 st /\ rest2 s5 st /\ h_layers st = h_layers s5 /\ h_rng st = adv_nrm (h_rng s) (cl * p + i))).
    + split; [|split; [apply frame_refl|split; [split; auto|split; [reflexivity|]]]].
      * rewrite RT. f_equal.
      * destruct X35 as (_ & _ & _ & -> & _). rewrite HG. f_equal. lia.
    + intros i st Hi (HT & HFt & (Q1 & Q2 & Q3) & HLt & HGt). apply wp_bind. eapply wp_eq; [apply (idx_row_run st tt_ p _ i HT Hi)|].
      apply wp_bind. eapply wp_eq; [reflexivity|]. set (st' := with_rng st _).
      assert (HT' : row_at st' tt_ = Some (lst p (fun a => if (a <? i)%nat then noisy a else lin a))) by exact HT.
      eapply wp_conseq; [apply (wp_set_row st' tt_ p _ i _ HT' Hi); lia|]. cbv beta. intros _ s6 (R6 & F6 & (P1 & P2 & P3 & P4 & P5)).
      split; [|split; [|split; [|split]]].
      * rewrite R6. f_equal. apply lst_ext. intros a Ha. destruct (Nat.eqb_spec a i), (Nat.ltb_spec a i), (Nat.ltb_spec a (S i)); try lia; subst; try reflexivity.
        destruct (Nat.ltb_spec i i); [lia|]. unfold noisy. f_equal. f_equal. rewrite HGt. reflexivity.
      * eapply frame_trans; [exact HFt|eapply (frame_trans (among [tt_])); [|exact F6|intros w _ [Hw|Hw]; exact Hw]|intros w _ [Hw|Hw]; exact Hw].
        eapply frame_weaken; [apply frame_rows; reflexivity|]. intros ? _ [].
      * split; [|split]; simpl in *; congruence.
      * simpl in *; congruence.
      * rewrite P3. unfold st'. simpl. rewrite HGt. unfold adv_nrm. simpl. f_equal. lia.
    + intros s6 (HT & HF6 & (Q1 & Q2 & Q3) & HL6 & HG6).
      assert (HT6 : row_at s6 tt_ = Some (lst p noisy)).
      { rewrite HT. f_equal. apply lst_ext. intros i Hi. destruct (Nat.ltb_spec i p); [reflexivity|lia]. }
      clear HT. assert (RR6 : row_at s6 rr = Some (lst p (spaced f0 f1 p))).
      { eapply row_frame; [exact RR5|exact HF6|]. intros [E|[]]. lia. }
      assert (HX6 : own s6 x rsx n 2 (XI (cl * p)%nat)).
      { eapply own_frame; [eapply own_frame; [exact HX|apply X35|intros ? ? []]|exact HF6|]. intros w Hw [<-|[]]. specialize (Old2x _ Hw). lia. }
      assert (HY6 : own s6 y rsy n c (YI (cl * p)%nat)).
      { eapply own_frame; [eapply own_frame; [exact HY|apply X35|intros ? ? []]|exact HF6|]. intros w Hw [<-|[]]. specialize (Old2y _ Hw). lia. }
      assert (HF26 : frame (two rsx rsy) s2 s6).
      { eapply frame_trans; [exact HF|eapply (frame_trans nothing (among [tt_]) (fun r => r = tt_)); [apply X35|exact HF6|]|].
        - intros w _ [[]|[->|[]]]; reflexivity.
        - intros w Hw [Hx| ->]; [exact Hx|]. lia. }
      assert (HInv0 : Inv (cl * p + 0)%nat (S cl * p)%nat s6).
      { rewrite Nat.add_0_r. split; [exact HX6|]. split; [exact HY6|]. split; [exact HF26|].
        destruct X35 as (_ & A1 & A2 & A3 & A4 & A5). destruct HR as (B1 & B2 & B3). split; [split; [|split]; congruence|]. split; [congruence|].
        rewrite HG6. f_equal. lia. }
      assert (Lt2 : (nrows s2 < tt_)%nat) by lia. assert (Lr2 : (nrows s2 < rr)%nat) by lia.
      clear HX HY HF HR HL HG HX6 HY6 HF26.
      eapply (wp_for p _ _ (fun i st => Inv (cl * p + i)%nat (S cl * p)%nat st /\ row_at st rr = Some (lst p (spaced f0 f1 p)) /\ row_at st tt_ = Some (lst p noisy))).
      * auto.
      * intros i st Hi ((HX & HY & HF & HR & HL & HG) & HRr & HRt).
        replace (Z.of_nat cl * Z.of_nat p + Z.of_nat i) with (Z.of_nat (cl * p + i)) by lia. set (a := (cl * p + i)%nat) in *.
        assert (Ha : (a < n)%nat) by (unfold a, n; nia). destruct (divmod_at p cl i Hi) as [DV MD]. fold a in DV, MD.
        apply wp_bind. eapply wp_eq; [apply (idx_row_run st rr p _ i HRr Hi)|]. apply wp_bind. eapply wp_eq; [apply (idx_row_run st tt_ p _ i HRt Hi)|].
        apply wp_bind. eapply wp_conseq; [apply (wp_cell st x rsx n 2 _ a 0 _ HX NX Ha ltac:(lia))|]. cbv beta. intros _ sa (HXa & HFa & HRa).
        assert (HRra : row_at sa rr = Some (lst p (spaced f0 f1 p))) by (eapply row_frame; [exact HRr|exact HFa|]; intros Hw; specialize (Old2x _ Hw); lia).
        assert (HRta : row_at sa tt_ = Some (lst p noisy)) by (eapply row_frame; [exact HRt|exact HFa|]; intros Hw; specialize (Old2x _ Hw); lia).
        apply wp_bind. eapply wp_eq; [apply (idx_row_run sa rr p _ i HRra Hi)|]. apply wp_bind. eapply wp_eq; [apply (idx_row_run sa tt_ p _ i HRta Hi)|].
        apply wp_bind. eapply wp_conseq; [apply (wp_cell sa x rsx n 2 _ a 1 _ HXa NX Ha ltac:(lia))|]. cbv beta. intros _ sb (HXb & HFb & HRb).
        assert (HFab : frame (among rsx) st sb) by (eapply frame_trans; [exact HFa|exact HFb|intros w _ [Hw|Hw]; exact Hw]).
        assert (HYb : own sb y rsy n c (YI a)) by (eapply own_frame; [exact HY|exact HFab|]; intros w Hw Hw'; exact (D w Hw' Hw)).
        eapply wp_conseq; [apply (wp_cell sb y rsy n c _ a cl f1 HYb NY Ha Hcl)|]. cbv beta. intros _ sc (HYc & HFc & HRc).
        assert (HFac : frame (two rsx rsy) st sc) by (eapply frame_trans; [exact HFab|exact HFc|intros w _ Hw; exact Hw]).
        assert (NT : forall w, (nrows s2 < w)%nat -> ~ two rsx rsy w) by (intros w Hw [Hw'|Hw']; [specialize (Old2x _ Hw')|specialize (Old2y _ Hw')]; lia).
        split; [|split; [exact (row_frame _ _ _ _ _ HRr HFac (NT _ Lr2))|exact (row_frame _ _ _ _ _ HRt HFac (NT _ Lt2))]].
        replace (cl * p + S i)%nat with (S a) by (unfold a; lia).
        assert (HRt' : rest st sc) by (eapply rest_trans; [exact HRa|eapply rest_trans; [exact HRb|exact HRc]]). destruct HRt' as (P1 & P2 & P3 & P4 & P5).
        split; [|split; [|split; [|split; [|split]]]].
        -- assert (HXc : own sc x rsx n 2 (mk n 2 (fun a0 b => if (a0 =? a)%nat && (b =? 1)%nat then fmul (spaced f0 f1 p i) (fcos (fmul (noisy i) lit_25)) else
              entry (mk n 2 (fun a1 b1 => if (a1 =? a)%nat && (b1 =? 0)%nat then fmul (spaced f0 f1 p i) (fsin (fmul (noisy i) lit_25)) else entry (XI a) a1 b1)) a0 b))).
           { eapply own_frame; [exact HXb|exact HFc|]. intros w Hw Hw'. exact (D w Hw Hw'). }
           assert (E : XI (S a) = mk n 2 (fun a0 b => if (a0 =? a)%nat && (b =? 1)%nat then fmul (spaced f0 f1 p i) (fcos (fmul (noisy i) lit_25)) else
              entry (mk n 2 (fun a1 b1 => if (a1 =? a)%nat && (b1 =? 0)%nat then fmul (spaced f0 f1 p i) (fsin (fmul (noisy i) lit_25)) else entry (XI a) a1 b1)) a0 b)); [|rewrite E; exact HXc].
           apply mk_ext. intros a0 b Ha0 Hb. rewrite entry_mk by lia. unfold XI at 1. rewrite entry_mk by lia.
           assert (ET : forall j, (j < 2)%nat -> TX a j = fmul (spaced f0 f1 p i) ((if (j =? 0)%nat then fsin else fcos) (fmul (noisy i) lit_25))).
           { intros j Hj. unfold TX, spiral_X. fold n. rewrite entry_mk by lia. rewrite DV, MD. reflexivity. }
           destruct (Nat.eqb_spec a0 a) as [E0|], (Nat.ltb_spec a0 (S a)), (Nat.ltb_spec a0 a); cbn [andb]; try lia; try reflexivity;
             rewrite E0; destruct b as [|[|b]]; try lia; cbn [Nat.eqb]; rewrite ET by lia; reflexivity.
        -- assert (E : YI (S a) = mk n c (fun a0 b => if (a0 =? a)%nat && (b =? cl)%nat then f1 else entry (YI a) a0 b)); [|rewrite E; exact HYc].
           apply mk_ext. intros a0 b Ha0 Hb. unfold YI at 1. rewrite entry_mk by lia.
           assert (ET : TY a b = if (b =? cl)%nat then f1 else f0).
           { unfold TY, spiral_Y. fold n. rewrite entry_mk by lia. rewrite DV, Nat.eqb_sym. reflexivity. }
           destruct (Nat.eqb_spec a0 a) as [E0|], (Nat.ltb_spec a0 (S a)), (Nat.ltb_spec a0 a); cbn [andb]; try lia; try reflexivity;
             rewrite E0, ET; destruct (b =? cl)%nat; reflexivity.
        -- eapply frame_trans; [exact HF|exact HFac|]. intros w _ [Hw|Hw]; exact Hw.
        -- destruct HR as (B1 & B2 & B3). split; [|split]; congruence.
        -- congruence.
        -- congruence.
      * intros st (HI & _). replace (S cl * p)%nat with (cl * p + p)%nat by lia. replace (S cl * p)%nat with (cl * p + p)%nat in HI by lia. exact HI.
  - intros s3 (HX & HY & HF & HR & HL & HG). replace (c * p)%nat with n in * by (unfold n; lia). apply wp_ret. cbn [fst snd]. exists rsx, rsy.
    assert (EX : XI n = spiral_X fsin fcos (normals s) p c).
    { transitivity (mk n 2 TX); [apply mk_ext; intros a b Ha Hb; destruct (Nat.ltb_spec a n); [reflexivity|lia]|]. apply mk_entry. apply shape_mk. }
    assert (EY : YI n = spiral_Y p c).
    { transitivity (mk n c TY); [apply mk_ext; intros a b Ha Hb; destruct (Nat.ltb_spec a n); [reflexivity|lia]|]. apply mk_entry. apply shape_mk. }
    rewrite EX in HX. rewrite EY in HY. repeat (split; [assumption|]).
    split; [|split; [|split]].
    + eapply frame_trans; [exact (proj1 HE)|exact HF|]. intros w Hw [[]|[Hw'|Hw']]; [pose proof (fresh_in _ _ _ FX Hw')|pose proof (fresh_in _ _ _ FY Hw')]; lia.
    + destruct HE as (_ & P1 & P2 & P3 & P4 & P5), HR as (B1 & B2 & B3). split; [|split]; congruence.
    + destruct HE as (_ & P1 & P2 & P3 & P4 & P5). congruence.
    + exact HG.
Qed.

(** ** The iris records *)
Lemma map_as_mk {A} (l : list A) (d : A) c (f : A -> nat -> K) : map (fun r => map (f r) (seq 0 c)) l = mk (length l) c (fun i j => f (nth i l d) j).
Proof.
  unfold mk. rewrite <- (map_map (fun i => nth i l d) (fun r => map (f r) (seq 0 c))). f_equal. symmetry.
  apply list_eq_nth with (d := d); [now rewrite map_length, seq_length|]. intros i Hi. rewrite map_length, seq_length in Hi. now rewrite nth_map_seq.
Qed.
Lemma field_run s r j : (j < length r)%nat -> field (K := K) r j s = (Ret (nth j r EmptyString), s).
Proof. intros H. unfold field. rewrite (nth_error_nth' _ EmptyString) by exact H. reflexivity. Qed.
Lemma wp_iris_data other records s : (1 <= length records)%nat -> Forall (fun r => (5 <= length r)%nat) records ->
  wp (iris_data other records) s (fun xy s' => let n := length records in
    exists rsx rsy, own s' (fst xy) rsx n 4 (iris_X other records) /\ own s' (snd xy) rsy n 3 (iris_Y records) /\
    fresh s rsx /\ fresh s rsy /\ NoDup rsx /\ NoDup rsy /\ disjoint rsx rsy /\ (nouts s < sl_loc (mdata (fst xy)) < sl_loc (mdata (snd xy)))%nat /\
    frame nothing s s' /\ rest s s').
Proof.
  intros Hn HW. unfold iris_data. cbv zeta. set (n := length records) in *.
  apply wp_bind. apply (wp_NewMatrix_ s n 4 _ Hn ltac:(lia)). intros x rsx s1 HX1 HE1.
  apply wp_bind. apply (wp_NewMatrix_ s1 n 3 _ Hn ltac:(lia)). intros y rsy s2 HY2 HE2.
  assert (HX2 := own_ext _ _ _ _ _ _ _ (proj1 HX1) HE2). assert (HE := ext_trans _ _ _ HE1 HE2).
  assert (D : disjoint rsx rsy) by (eapply disjoint_old_fresh; [eapply own_old; apply HX1|apply HY2]).
  assert (FX : fresh s rsx) by apply HX1. assert (FY : fresh s rsy).
  { destruct HY2 as (_ & F & _). unfold fresh in *. eapply Forall_impl; [|exact F]. cbv beta. assert (N := frame_nrows _ _ _ (proj1 HE1)). intros; lia. }
  assert (NX : NoDup rsx) by apply HX1. assert (NY : NoDup rsy) by apply HY2.
  assert (NL : (nouts s < sl_loc (mdata x) < sl_loc (mdata y))%nat).
  { split; [apply HX1|]. destruct HX1 as ((_ & _ & _ & _ & (arr & Ha & _) & _) & _). destruct HY2 as (_ & _ & _ & HY2). unfold nouts in HY2.
    destruct (sl_loc (mdata x)) as [|k]; [lia|]. simpl in Ha. assert (k < length (h_outs s1))%nat by (apply nth_error_Some; congruence). lia. }
  set (TX := fun i j => ParseFloat other (nth j (nth i records []) EmptyString)). set (TY := fun i j => if (iris_class (nth i records []) =? j)%nat then (f1 : K) else f0).
  set (XI := fun k => mk n 4 (fun a j => if (a <? k)%nat then TX a j else f0)).
  set (YI := fun k => mk n 3 (fun a j => if (a <? k)%nat then TY a j else f0)).
  apply wp_bind. eapply (wp_for n _ _ (fun i st => own st x rsx n 4 (XI i) /\ own st y rsy n 3 (YI i) /\ frame (two rsx rsy) s2 st /\ rest s2 st)).
  - split; [|split; [|split; [apply frame_refl|repeat split]]].
    + assert (XI 0%nat = mk n 4 (fun _ _ => f0)) as -> by (apply mk_ext; reflexivity). exact HX2.
    + assert (YI 0%nat = mk n 3 (fun _ _ => f0)) as -> by (apply mk_ext; reflexivity). apply HY2.
  - intros i st Hi (HX & HY & HF & HR). unfold iris_record. rewrite Nat2Z.id, (nth_error_nth' _ []) by exact Hi. set (r := nth i records []).
    assert (Hr : (5 <= length r)%nat) by (rewrite Forall_forall in HW; apply HW, nth_In; exact Hi).
    apply wp_bind. eapply wp_eq; [apply field_run; lia|]. apply wp_bind. eapply wp_conseq; [apply (wp_cell st x rsx n 4 _ i 0 _ HX NX Hi ltac:(lia))|]. cbv beta. intros _ sa (HXa & HFa & HRa).
    apply wp_bind. eapply wp_eq; [apply field_run; lia|]. apply wp_bind. eapply wp_conseq; [apply (wp_cell sa x rsx n 4 _ i 1 _ HXa NX Hi ltac:(lia))|]. cbv beta. intros _ sb (HXb & HFb & HRb).
    apply wp_bind. eapply wp_eq; [apply field_run; lia|]. apply wp_bind. eapply wp_conseq; [apply (wp_cell sb x rsx n 4 _ i 2 _ HXb NX Hi ltac:(lia))|]. cbv beta. intros _ sc (HXc & HFc & HRc).
    apply wp_bind. eapply wp_eq; [apply field_run; lia|]. apply wp_bind. eapply wp_conseq; [apply (wp_cell sc x rsx n 4 _ i 3 _ HXc NX Hi ltac:(lia))|]. cbv beta. intros _ sd (HXd & HFd & HRd).
    assert (HFX : frame (among rsx) st sd).
    { eapply frame_trans; [exact HFa|eapply (frame_trans (among rsx) (among rsx) (among rsx)); [exact HFb|eapply (frame_trans (among rsx) (among rsx) (among rsx)); [exact HFc|exact HFd|]|]|]; intros w _ [Hw|Hw]; exact Hw. }
    assert (HYd : own sd y rsy n 3 (YI i)) by (eapply own_frame; [exact HY|exact HFX|]; intros w Hw Hw'; exact (D w Hw' Hw)).
    assert (Hcl : (iris_class r < 3)%nat) by (unfold iris_class; destruct (String.eqb _ _); [lia|]; destruct (String.eqb _ _); lia).
    apply wp_bind. eapply wp_eq; [apply field_run; lia|].
    assert (WY : wp (setc y (Z.of_nat i) (Z.of_nat (iris_class r)) f1) sd (fun _ st' => own st' x rsx n 4 (XI (S i)) /\ own st' y rsy n 3 (YI (S i)) /\ frame (two rsx rsy) s2 st' /\ rest s2 st')).
    { eapply wp_conseq; [apply (wp_cell sd y rsy n 3 _ i (iris_class r) f1 HYd NY Hi Hcl)|]. cbv beta. intros _ se (HYe & HFe & HRe).
      split; [|split; [|split]].
      - match type of HXd with own _ _ _ _ _ ?M => assert (E : XI (S i) = M) end; [|rewrite E; eapply own_frame; [exact HXd|exact HFe|]; intros w Hw Hw'; exact (D w Hw Hw')].
        apply mk_ext. intros a b Ha Hb. repeat rewrite entry_mk by lia. unfold XI. repeat rewrite entry_mk by lia. unfold TX.
        destruct (Nat.eqb_spec a i) as [E0|], (Nat.ltb_spec a (S i)), (Nat.ltb_spec a i); cbn [andb]; try lia; try reflexivity.
        rewrite E0. fold r. destruct b as [|[|[|[|b]]]]; try lia; reflexivity.
      - assert (E : YI (S i) = mk n 3 (fun a b => if (a =? i)%nat && (b =? iris_class r)%nat then f1 else entry (YI i) a b)); [|rewrite E; exact HYe].
        apply mk_ext. intros a b Ha Hb. unfold YI at 1. rewrite entry_mk by lia. unfold TY.
        destruct (Nat.eqb_spec a i) as [E0|], (Nat.ltb_spec a (S i)), (Nat.ltb_spec a i); cbn [andb]; try lia; try reflexivity.
        rewrite E0. fold r. rewrite Nat.eqb_sym. reflexivity.
      - eapply frame_trans; [exact HF|eapply (frame_trans (among rsx) (among rsy) (two rsx rsy)); [exact HFX|exact HFe|intros w _ Hw; exact Hw]|intros w _ [Hw|Hw]; exact Hw].
      - eapply rest_trans; [exact HR|]. eapply rest_trans; [exact HRa|]. eapply rest_trans; [exact HRb|]. eapply rest_trans; [exact HRc|]. eapply rest_trans; [exact HRd|exact HRe]. }
    unfold iris_class in WY. destruct (String.eqb (nth 4 r EmptyString) "Iris-setosa") eqn:E1; [exact WY|].
    apply wp_bind. eapply wp_eq; [apply field_run; lia|]. destruct (String.eqb (nth 4 r EmptyString) "Iris-versicolor") eqn:E2; exact WY.
  - intros s3 (HX & HY & HF & HR). apply wp_ret. cbn [fst snd]. exists rsx, rsy.
    assert (EX : XI n = iris_X other records).
    { unfold iris_X. rewrite (map_as_mk records [] 4 (fun r j => ParseFloat other (nth j r EmptyString))). apply mk_ext. intros a b Ha Hb. destruct (Nat.ltb_spec a n); [reflexivity|lia]. }
    assert (EY : YI n = iris_Y records).
    { unfold iris_Y. rewrite (map_as_mk records [] 3 (fun r j => if (iris_class r =? j)%nat then f1 else f0)). apply mk_ext. intros a b Ha Hb. destruct (Nat.ltb_spec a n); [reflexivity|lia]. }
    rewrite EX in HX. rewrite EY in HY. repeat (split; [assumption|]). split; [|eapply rest_trans; [apply HE|exact HR]].
    eapply frame_trans; [exact (proj1 HE)|exact HF|]. intros w Hw [[]|[Hw'|Hw']]; [pose proof (fresh_in _ _ _ FX Hw')|pose proof (fresh_in _ _ _ FY Hw')]; lia.
Qed.

(** ** Shuffling draws integers only *)
Definition streams (g g' : rng K) : Prop := exists n, g' = MkRng (r_uni g) (r_nrm g) (r_int g) (r_upos g) (r_npos g) n.
Definition keeps {A} (m : M K A) : Prop := forall s, streams (h_rng s) (h_rng (snd (m s))).
Lemma streams_refl g : streams g g.
Proof. exists (r_ipos g). destruct g; reflexivity. Qed.
Lemma streams_trans g1 g2 g3 : streams g1 g2 -> streams g2 g3 -> streams g1 g3.
Proof. intros (n & ->) (k & ->). exists k. reflexivity. Qed.
Lemma keeps_bind {A C} (m : M K A) (f : A -> M K C) : keeps m -> (forall a, keeps (f a)) -> keeps (bind m f).
Proof.
  intros H1 H2 s. unfold bind. specialize (H1 s). destruct (m s) as [[a|e|p] s1]; cbn [snd] in *; auto. eapply streams_trans; [exact H1|]. apply H2.
Qed.
Lemma keeps_same {A} (m : M K A) : (forall s, h_rng (snd (m s)) = h_rng s) -> keeps m.
Proof. intros H s. rewrite H. apply streams_refl. Qed.
Lemma keeps_idx_out sl i : keeps (idx_out sl i).
Proof. apply keeps_same. intros s. unfold idx_out. repeat match goal with |- context [match ?e with _ => _ end] => destruct e end; reflexivity. Qed.
Lemma keeps_set_out sl i r : keeps (set_out sl i r).
Proof. apply keeps_same. intros s. unfold set_out. repeat match goal with |- context [match ?e with _ => _ end] => destruct e end; reflexivity. Qed.
Lemma keeps_shuffle (X Y : matrix) : keeps (ShuffleDataset X Y).
Proof.
  assert (HS : forall m i j, keeps (swap_rows m i j)) by (intros m i j; repeat (apply keeps_bind; intros); auto using keeps_idx_out, keeps_set_out).
  unfold ShuffleDataset, rand_Shuffle. apply keeps_bind; [|intros; apply keeps_same; reflexivity].
  destruct (mrows X <? 0); [apply keeps_same; reflexivity|]. induction (Z.to_nat (mrows X - 1)) as [|k IH]; cbn [shuffle_down]; [apply keeps_same; reflexivity|].
  apply keeps_bind; [intros s; eexists; reflexivity|]. intros d. apply keeps_bind; [apply keeps_bind; auto|auto].
Qed.
Lemma in_pick x p (l : list nat) : Permutation (seq 0 (length l)) p -> In x (pick O p l) -> In x l.
Proof.
  intros HP H. unfold pick in H. apply in_map_iff in H as (k & <- & Hk). apply nth_In. apply (Permutation_in _ (Permutation_sym HP)) in Hk. apply in_seq in Hk. lia.
Qed.
Lemma pick_perm {T} (d : T) p l : Permutation (seq 0 (length l)) p -> Permutation l (pick d p l).
Proof. intros HP. rewrite <- (pick_id d l) at 1. unfold pick. apply Permutation_map. exact HP. Qed.

Lemma wp_shuffle_fresh s s1 X Y rsx rsy r c d (A B : pm K) :
  own s1 X rsx r c A -> own s1 Y rsy r d B -> NoDup rsx -> NoDup rsy -> fresh s rsx -> fresh s rsy -> disjoint rsx rsy ->
  (nouts s < sl_loc (mdata X))%nat -> (nouts s < sl_loc (mdata Y))%nat -> sl_loc (mdata X) <> sl_loc (mdata Y) ->
  frame nothing s s1 ->
  wp (ShuffleDataset X Y) s1 (fun XY s' => XY = (X, Y) /\ exists p rsx' rsy', Permutation (seq 0 r) p /\
    own s' X rsx' r c (pick [] p A) /\ own s' Y rsy' r d (pick [] p B) /\
    fresh s rsx' /\ fresh s rsy' /\ NoDup rsx' /\ NoDup rsy' /\ disjoint rsx' rsy' /\
    frame nothing s s' /\ rest2 s1 s' /\ h_layers s' = h_layers s1 /\ streams (h_rng s1) (h_rng s')).
Proof.
  intros HX HY NX NY FX FY DXY LX LY LXY HF.
  pose proof (wp_ShuffleDataset s1 X Y rsx rsy r c d A B HX HY LXY) as W. apply wp_ex in W as (XY & s' & E & -> & (HR & HR2 & HL & HO) & p & HP & HX' & HY').
  pose proof (keeps_shuffle X Y s1) as HS. rewrite E in HS. cbn [snd] in HS. eapply wp_eq; [exact E|]. split; [reflexivity|].
  destruct (own_lengths _ _ _ _ _ _ HX) as [Lx _]. destruct (own_lengths _ _ _ _ _ _ HY) as [Ly _].
  assert (PX : Permutation rsx (pick O p rsx)) by (apply pick_perm; now rewrite Lx). assert (PY : Permutation rsy (pick O p rsy)) by (apply pick_perm; now rewrite Ly).
  exists p, (pick O p rsx), (pick O p rsy). split; [exact HP|]. split; [exact HX'|]. split; [exact HY'|].
  split; [apply Forall_forall; intros w Hw; apply (fresh_in _ _ _ FX); eapply Permutation_in; [apply Permutation_sym, PX|exact Hw]|].
  split; [apply Forall_forall; intros w Hw; apply (fresh_in _ _ _ FY); eapply Permutation_in; [apply Permutation_sym, PY|exact Hw]|].
  split; [eapply Permutation_NoDup; eauto|]. split; [eapply Permutation_NoDup; eauto|].
  split; [intros w Hw Hw'; apply (DXY w); eapply Permutation_in; [apply Permutation_sym, PX|exact Hw|apply Permutation_sym, PY|exact Hw']|].
  split; [|auto]. destruct HF as (F1 & F2 & F3 & F4). split; [|split; [|split]].
  - intros o arr Ho. assert (Hlt : (o <= nouts s)%nat) by (destruct o as [|k]; [lia|]; unfold nouts; simpl in Ho; assert (k < length (h_outs s))%nat by (apply nth_error_Some; congruence); lia).
    apply HO; [lia|lia|]. apply F1, Ho.
  - intros w row Hw Hn. specialize (F2 w row Hw Hn). destruct w; simpl in *; [auto|]. now rewrite HR.
  - intros w row Hw. specialize (F3 w row Hw). destruct w; simpl in *; [auto|]. now rewrite HR.
  - unfold nrows in *. now rewrite HR.
Qed.

(** ** The sine wave *)
Lemma Set_run s m rs r c (A : pm K) i j (v : K) : own s m rs r c A -> (i < r)%nat -> (j < c)%nat ->
  Set_ m (Z.of_nat i) (Z.of_nat j) v = setc (K := K) m (Z.of_nat i) (Z.of_nat j) v.
Proof. intros H Hi Hj. unfold Set_. rewrite (own_rows _ _ _ _ _ _ H), (own_cols _ _ _ _ _ _ H). replace ((Z.of_nat i >=? Z.of_nat r) || (Z.of_nat j >=? Z.of_nat c)) with false by lia. reflexivity. Qed.
Lemma wp_sine_data fsin n s : (1 <= n)%nat ->
  wp (sine_data fsin (Z.of_nat n)) s (fun xy s' => exists p rsx rsy, Permutation (seq 0 n) p /\
    own s' (fst xy) rsx n 1 (pick [] p (sine_X n)) /\ own s' (snd xy) rsy n 1 (pick [] p (sine_Y fsin n)) /\
    fresh s rsx /\ fresh s rsy /\ NoDup rsx /\ NoDup rsy /\ disjoint rsx rsy /\
    frame nothing s s' /\ rest2 s s' /\ h_layers s' = h_layers s /\ streams (h_rng s) (h_rng s')).
Proof.
  intros Hn. unfold sine_data.
  apply wp_bind. apply (wp_NewMatrix_ s n 1 _ Hn ltac:(lia)). intros x rsx s1 HX1 HE1.
  apply wp_bind. apply (wp_NewMatrix_ s1 n 1 _ Hn ltac:(lia)). intros y rsy s2 HY2 HE2.
  assert (HX2 := own_ext _ _ _ _ _ _ _ (proj1 HX1) HE2). assert (HE := ext_trans _ _ _ HE1 HE2).
  assert (D : disjoint rsx rsy) by (eapply disjoint_old_fresh; [eapply own_old; apply HX1|apply HY2]).
  assert (FX : fresh s rsx) by apply HX1. assert (FY : fresh s rsy).
  { destruct HY2 as (_ & F & _). unfold fresh in *. eapply Forall_impl; [|exact F]. cbv beta. assert (N := frame_nrows _ _ _ (proj1 HE1)). intros; lia. }
  assert (NX : NoDup rsx) by apply HX1. assert (NY : NoDup rsy) by apply HY2.
  assert (LX : (nouts s < sl_loc (mdata x))%nat) by apply HX1.
  assert (LXY : (sl_loc (mdata x) < sl_loc (mdata y))%nat).
  { destruct HX1 as ((_ & _ & _ & _ & (arr & Ha & _) & _) & _). destruct HY2 as (_ & _ & _ & HY2). unfold nouts in HY2.
    destruct (sl_loc (mdata x)) as [|k]; [lia|]. simpl in Ha. assert (k < length (h_outs s1))%nat by (apply nth_error_Some; congruence). lia. }
  set (gx := fun i : nat => fdiv (ofZ (Z.of_nat i)) (ofZ (Z.of_nat n)) : K).
  set (XI := fun k => mk n 1 (fun a _ => if (a <? k)%nat then gx a else f0)).
  set (YI := fun k => mk n 1 (fun a _ => if (a <? k)%nat then fsin (gx a) else f0)).
  apply wp_bind. eapply (wp_for n _ _ (fun i st => own st x rsx n 1 (XI i) /\ own st y rsy n 1 (YI i) /\ frame (two rsx rsy) s2 st /\ rest s2 st)).
  - split; [|split; [|split; [apply frame_refl|repeat split]]].
    + assert (XI 0%nat = mk n 1 (fun _ _ => f0)) as -> by (apply mk_ext; reflexivity). exact HX2.
    + assert (YI 0%nat = mk n 1 (fun _ _ => f0)) as -> by (apply mk_ext; reflexivity). apply HY2.
  - intros i st Hi (HX & HY & HF & HR). change 0 with (Z.of_nat 0).
    apply wp_bind. apply wp_ignore_err. rewrite (Set_run st x rsx n 1 _ i 0 _ HX Hi ltac:(lia)). eapply wp_conseq; [apply (wp_cell st x rsx n 1 _ i 0 _ HX NX Hi ltac:(lia))|].
    cbv beta. intros _ sa (HXa & HFa & HRa).
    assert (HYa : own sa y rsy n 1 (YI i)) by (eapply own_frame; [exact HY|exact HFa|]; intros w Hw Hw'; exact (D w Hw' Hw)).
    apply wp_ignore_err. rewrite (Set_run sa y rsy n 1 _ i 0 _ HYa Hi ltac:(lia)). eapply wp_conseq; [apply (wp_cell sa y rsy n 1 _ i 0 _ HYa NY Hi ltac:(lia))|].
    cbv beta. intros _ sb (HYb & HFb & HRb).
    split; [|split; [|split]].
    + match type of HXa with own _ _ _ _ _ ?M => assert (E : XI (S i) = M) end; [|rewrite E; eapply own_frame; [exact HXa|exact HFb|]; intros w Hw Hw'; exact (D w Hw Hw')].
      apply mk_ext. intros a b Ha Hb. unfold XI. rewrite entry_mk by lia. destruct (Nat.eqb_spec a i), (Nat.ltb_spec a (S i)), (Nat.ltb_spec a i), (Nat.eqb_spec b 0); try lia; subst; reflexivity.
    + match type of HYb with own _ _ _ _ _ ?M => assert (E : YI (S i) = M) end; [|rewrite E; exact HYb].
      apply mk_ext. intros a b Ha Hb. unfold YI. rewrite entry_mk by lia. destruct (Nat.eqb_spec a i), (Nat.ltb_spec a (S i)), (Nat.ltb_spec a i), (Nat.eqb_spec b 0); try lia; subst; reflexivity.
    + eapply frame_trans; [exact HF|eapply (frame_trans (among rsx) (among rsy) (two rsx rsy)); [exact HFa|exact HFb|intros w _ Hw; exact Hw]|intros w _ [Hw|Hw]; exact Hw].
    + eapply rest_trans; [exact HR|]. eapply rest_trans; [exact HRa|exact HRb].
  - intros s3 (HX & HY & HF & HR).
    assert (EX : XI n = sine_X n) by (apply mk_ext; intros a b Ha Hb; destruct (Nat.ltb_spec a n); [reflexivity|lia]).
    assert (EY : YI n = sine_Y fsin n) by (apply mk_ext; intros a b Ha Hb; destruct (Nat.ltb_spec a n); [reflexivity|lia]).
    rewrite EX in HX. rewrite EY in HY.
    assert (HF0 : frame nothing s s3).
    { eapply frame_trans; [exact (proj1 HE)|exact HF|]. intros w Hw [[]|[Hw'|Hw']]; [pose proof (fresh_in _ _ _ FX Hw')|pose proof (fresh_in _ _ _ FY Hw')]; lia. }
    assert (R3 : rest s s3) by (eapply rest_trans; [apply HE|exact HR]). destruct R3 as (Q1 & Q2 & Q3 & Q4 & Q5).
    eapply wp_conseq; [apply (wp_shuffle_fresh s s3 x y rsx rsy n 1 1 _ _ HX HY NX NY FX FY D LX ltac:(lia) ltac:(lia) HF0)|]. cbv beta.
    intros XY s4 (-> & p & rx & ry & HP & A1 & A2 & A3 & A4 & A5 & A6 & A7 & A8 & (B1 & B2 & B3) & B4 & B5). cbn [fst snd]. exists p, rx, ry.
    repeat (split; [assumption|]). split; [split; [|split]; congruence|]. split; [congruence|]. rewrite <- Q3. exact B5.
Qed.
End AnyNum.
