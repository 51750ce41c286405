(** * LossFacts: label matrices with too few rows; the losses over the reals. *)
From Coq Require Import String ZArith List Bool Arith Lia ZifyBool Reals Lra.
From Verif Require Import Num Heap Matrix Loss Spec PureSpec Repr HeapLemmas LoopLemmas MatrixProofs MatrixFacts MiscFacts LayerFacts LossProofs.
Import ListNotations.
Open Scope Z_scope.
Open Scope go_scope.

Section WithNum.
Context {K : Num}.
Implicit Types s : state K.

Lemma loop_acc_panic {A} (body : Z -> A -> M K A) (I : nat -> A -> state K -> Prop) p : forall b n k acc s,
  (b < n)%nat -> I k acc s ->
  (forall j a s1, (k <= j < k + b)%nat -> I j a s1 -> wp (body (Z.of_nat j) a) s1 (I (S j))) ->
  (forall a s1, I (k + b)%nat a s1 -> exists s', body (Z.of_nat (k + b)) a s1 = (Panic p, s')) ->
  exists s', loop n (Z.of_nat k) body acc s = (Panic p, s').
Proof.
  induction b as [|b IH]; intros n k acc s Hb H0 Hs Hp; destruct n as [|n]; try lia.
  - rewrite Nat.add_0_r in Hp. destruct (Hp _ _ H0) as (s' & E). exists s'. simpl. now apply bind_panic.
  - pose proof (Hs k acc s ltac:(lia) H0) as HW. apply wp_ex in HW as (a & s1 & E & H1).
    destruct (IH n (S k) a s1) as (s' & E'); try lia; auto.
    + intros j a' s2 Hj. apply Hs. lia.
    + intros a' s2. replace (S k + b)%nat with (k + S b)%nat by lia. apply Hp.
    + exists s'. simpl. rewrite (bind_eq _ _ _ _ _ E). replace (Z.of_nat k + 1) with (Z.of_nat (S k)) by lia. exact E'.
Qed.
Lemma for_acc_panic {A} (n b : nat) (body : Z -> A -> M K A) (I : nat -> A -> state K -> Prop) p acc s :
  (b < n)%nat -> I 0%nat acc s ->
  (forall j a s1, (j < b)%nat -> I j a s1 -> wp (body (Z.of_nat j) a) s1 (I (S j))) ->
  (forall a s1, I b a s1 -> exists s', body (Z.of_nat b) a s1 = (Panic p, s')) ->
  exists s', for_acc (Z.of_nat n) body acc s = (Panic p, s').
Proof.
  intros Hb H0 Hs Hp. unfold for_acc. rewrite Nat2Z.id. apply (loop_acc_panic body I p b n 0 acc s); auto.
  intros j a s1 Hj. apply Hs. lia.
Qed.
Lemma getc_bad_row s m rs r c (A : pm K) (i : nat) j : own s m rs r c A -> (r <= i)%nat -> getc m (Z.of_nat i) j s = (Panic PIndex, s).
Proof.
  intros (_ & _ & HL & _) Hi. unfold getc. apply bind_panic. unfold idx_out. rewrite HL.
  now replace ((0 <=? Z.of_nat i) && (Z.of_nat i <? Z.of_nat r)) with false by lia.
Qed.

Lemma clip_panic {X} s yhat y rs rsy r ry c (Yh Y : pm K) (k : matrix -> M K X) p :
  own s yhat rs r c Yh -> own s y rsy ry c Y -> NoDup rs -> disjoint rs rsy ->
  (forall s1, own s1 yhat rs r c (pmap r c clip1 Yh) -> own s1 y rsy ry c Y -> exists s', k yhat s1 = (Panic p, s')) ->
  exists s', (x <- Clip yhat ;; k x) s = (Panic p, s').
Proof.
  intros HA HB HND HD Hk. pose proof (wp_Clip _ _ _ _ _ _ HA HND) as HW. apply wp_ex in HW as (m & s1 & E & -> & HO & HF & HR).
  rewrite (bind_eq _ _ _ _ _ E). apply Hk; auto. eapply own_frame; eauto. intros x Hx Hin. exact (HD x Hin Hx).
Qed.
Lemma cells_panic (r ry c : nat) (body : Z -> Z -> M K unit) (I : state K -> Prop) p s : (ry < r)%nat -> (1 <= c)%nat -> I s ->
  (forall i j s1, (i < ry)%nat -> (j < c)%nat -> I s1 -> wp (body (Z.of_nat i) (Z.of_nat j)) s1 (fun _ => I)) ->
  (forall s1, I s1 -> exists s', body (Z.of_nat ry) 0 s1 = (Panic p, s')) ->
  exists s', each_cell (Z.of_nat r) (Z.of_nat c) body s = (Panic p, s').
Proof.
  intros Hry Hc H0 Hs Hp. unfold each_cell, for_.
  apply (for_acc_panic r ry _ (fun _ _ => I)); auto.
  - intros i a s1 Hi H1. apply (wp_for c (body (Z.of_nat i)) s1 (fun _ => I)); auto.
  - intros a s1 H1. unfold for_. apply (for_acc_panic c 0 _ (fun _ _ => I)); auto. intros; lia.
Qed.

Lemma few_labels_panic s k yhat y rs rsy r ry c (Yh Y : pm K) : k = CE \/ k = BCE ->
  own s yhat rs r c Yh -> own s y rsy ry c Y -> NoDup rs -> disjoint rs rsy -> (1 <= r)%nat -> (1 <= c)%nat -> (ry < r)%nat ->
  (exists s', Loss_Forward (MkLoss k (Z.of_nat c)) yhat y s = (Panic PIndex, s')) /\
  (exists s', Loss_Backward (MkLoss k (Z.of_nat c)) yhat y s = (Panic PIndex, s')).
Proof.
  intros Hk HA HB HND HD Hr Hc Hry.
  assert (Ec := check_cols_ok s _ _ _ (own_cols _ _ _ _ _ _ HA) (own_cols _ _ _ _ _ _ HB)).
  unfold Loss_Forward, Loss_Backward. destruct Hk as [-> | ->]; simpl; split.
  - unfold CE_Forward. rewrite (bind_eq _ _ _ _ _ Ec). apply (clip_panic s yhat y rs rsy r ry c Yh Y); auto. intros s1 HA1 HB1.
    rewrite (own_rows _ _ _ _ _ _ HA), (own_cols _ _ _ _ _ _ HA).
    rewrite (bind_eq _ _ _ _ _ (NewMatrix__run s1 r 1 Hr (le_n 1))). set (m := new_header s1 r 1). set (s2 := new_state s1 r 1).
    assert (HM : fresh_mat s1 s2 m (seq (S (nrows s1)) r) r 1 (mk r 1 (fun _ _ => f0))) by apply new_state_own.
    assert (HE : ext s1 s2) by apply new_state_ext.
    match goal with |- exists s', bind ?m1 ?k1 _ = _ => assert (HP : exists s', m1 s2 = (Panic PIndex, s')) end.
    { unfold for_. apply (for_acc_panic r ry _ (fun _ _ st => ext s1 st /\ exists B, fresh_mat s1 st m (seq (S (nrows s1)) r) r 1 B)); auto.
      - split; eauto.
      - intros i a st Hi (HEs & B & HMs).
        assert (E : exists v, for_acc (Z.of_nat c) (fun j sum => a0 <- getc yhat (Z.of_nat i) j ;; b <- getc y (Z.of_nat i) j ;; ret (fadd sum (fmul a0 b))) f0 st = (Ret v, st)).
        { eexists. refine (for_acc_read c _ (fun j a => fadd a (fmul (clip1 (entry Yh i j)) (entry Y i j))) st f0 _). intros j b Hj.
          rewrite (bind_eq _ _ _ _ _ (getc_own _ _ _ _ _ _ i j (own_ext _ _ _ _ _ _ _ HA1 HEs) (Nat.lt_trans _ _ _ Hi Hry) Hj)).
          rewrite (bind_eq _ _ _ _ _ (getc_own _ _ _ _ _ _ i j (own_ext _ _ _ _ _ _ _ HB1 HEs) Hi Hj)).
          unfold pmap. rewrite entry_mk by lia. reflexivity. }
        destruct E as (v & E). unfold wp. rewrite (bind_eq _ _ _ _ _ E).
        change 0 with (Z.of_nat 0).
        eapply wp_conseq; [eapply (wp_setc_ext s1 st m _ r 1 B i 0); eauto; lia|]. cbv beta. intros _ s3 (H3 & H4). eauto.
      - intros a st (HEs & B & HMs).
        assert (E : exists s', for_acc (Z.of_nat c) (fun j sum => a0 <- getc yhat (Z.of_nat ry) j ;; b <- getc y (Z.of_nat ry) j ;; ret (fadd sum (fmul a0 b))) f0 st = (Panic PIndex, s')).
        { apply (for_acc_panic c 0 _ (fun _ _ st' => st' = st)); auto; [intros; lia|]. intros b st' ->. eexists.
          rewrite (bind_eq _ _ _ _ _ (getc_own _ _ _ _ _ _ ry 0 (own_ext _ _ _ _ _ _ _ HA1 HEs) Hry Hc)).
          apply bind_panic. exact (getc_bad_row _ _ _ _ _ _ ry _ (own_ext _ _ _ _ _ _ _ HB1 HEs) (le_n ry)). }
        destruct E as (s' & E). exists s'. now apply bind_panic. }
    destruct HP as (s' & E). exists s'. now apply bind_panic.
  - unfold CE_Backward. rewrite (bind_eq _ _ _ _ _ Ec).
    rewrite (own_rows _ _ _ _ _ _ HA), (own_cols _ _ _ _ _ _ HA).
    rewrite (bind_eq _ _ _ _ _ (NewMatrix__run s r c Hr Hc)). set (m := new_header s r c). set (s2 := new_state s r c).
    assert (HM : fresh_mat s s2 m (seq (S (nrows s)) r) r c (mk r c (fun _ _ => f0))) by apply new_state_own.
    assert (HE : ext s s2) by apply new_state_ext.
    match goal with |- exists s', bind ?m1 ?k1 _ = _ => assert (HP : exists s', m1 s2 = (Panic PIndex, s')) end.
    { apply (cells_panic r ry c _ (fun st => ext s st /\ exists B, fresh_mat s st m (seq (S (nrows s)) r) r c B)); auto.
      - split; eauto.
      - intros i j st Hi Hj (HEs & B & HMs). unfold wp.
        rewrite (bind_eq _ _ _ _ _ (getc_own _ _ _ _ _ _ i j (own_ext _ _ _ _ _ _ _ HB HEs) Hi Hj)).
        rewrite (bind_eq _ _ _ _ _ (getc_own _ _ _ _ _ _ i j (own_ext _ _ _ _ _ _ _ HA HEs) (Nat.lt_trans _ _ _ Hi Hry) Hj)).
        eapply wp_conseq; [eapply (wp_setc_ext s st m _ r c B i j); eauto; lia|]. cbv beta. intros _ s3 (H3 & H4). eauto.
      - intros st (HEs & B & HMs). eexists. apply bind_panic. exact (getc_bad_row _ _ _ _ _ _ ry _ (own_ext _ _ _ _ _ _ _ HB HEs) (le_n ry)). }
    destruct HP as (s' & E). exists s'. now apply bind_panic.
  - unfold BCE_Forward. rewrite (bind_eq _ _ _ _ _ Ec). apply (clip_panic s yhat y rs rsy r ry c Yh Y); auto. intros s1 HA1 HB1.
    rewrite (own_rows _ _ _ _ _ _ HA), (own_cols _ _ _ _ _ _ HA).
    apply (for_acc_panic r ry _ (fun _ _ st => st = s1)); auto.
    + intros i a st Hi ->. unfold wp.
      match goal with |- context [for_acc ?n ?b ?a0 s1] => assert (E : exists v, for_acc n b a0 s1 = (Ret v, s1)) end.
      { eexists. refine (for_acc_read c _ (fun j a => fadd a (fdiv (fdiv (bce1 (entry Y i j) (clip1 (entry Yh i j))) (ofZ (Z.of_nat r))) (ofZ (Z.of_nat c)))) s1 a _).
        intros j b Hj.
        rewrite (bind_eq _ _ _ _ _ (getc_own _ _ _ _ _ _ i j HB1 Hi Hj)).
        rewrite (bind_eq _ _ _ _ _ (getc_own _ _ _ _ _ _ i j HA1 (Nat.lt_trans _ _ _ Hi Hry) Hj)). unfold pmap. rewrite entry_mk by lia. reflexivity. }
      destruct E as (v & ->). reflexivity.
    + intros a st ->. apply (for_acc_panic c 0 _ (fun _ _ st' => st' = s1)); auto; [intros; lia|]. intros b st' ->. eexists.
      apply bind_panic. exact (getc_bad_row _ _ _ _ _ _ ry _ HB1 (le_n ry)).
  - unfold BCE_Backward. rewrite (bind_eq _ _ _ _ _ Ec). apply (clip_panic s yhat y rs rsy r ry c Yh Y); auto. intros s1 HA1 HB1.
    rewrite (own_rows _ _ _ _ _ _ HA), (own_cols _ _ _ _ _ _ HA).
    rewrite (bind_eq _ _ _ _ _ (NewMatrix__run s1 r c Hr Hc)). set (m := new_header s1 r c). set (s2 := new_state s1 r c).
    assert (HM : fresh_mat s1 s2 m (seq (S (nrows s1)) r) r c (mk r c (fun _ _ => f0))) by apply new_state_own.
    assert (HE : ext s1 s2) by apply new_state_ext.
    match goal with |- exists s', bind ?m1 ?k1 _ = _ => assert (HP : exists s', m1 s2 = (Panic PIndex, s')) end.
    { apply (cells_panic r ry c _ (fun st => ext s1 st /\ exists B, fresh_mat s1 st m (seq (S (nrows s1)) r) r c B)); auto.
      - split; eauto.
      - intros i j st Hi Hj (HEs & B & HMs). unfold wp.
        rewrite (bind_eq _ _ _ _ _ (getc_own _ _ _ _ _ _ i j (own_ext _ _ _ _ _ _ _ HB1 HEs) Hi Hj)).
        rewrite (bind_eq _ _ _ _ _ (getc_own _ _ _ _ _ _ i j (own_ext _ _ _ _ _ _ _ HA1 HEs) (Nat.lt_trans _ _ _ Hi Hry) Hj)).
        eapply wp_conseq; [eapply (wp_setc_ext s1 st m _ r c B i j); eauto; lia|]. cbv beta. intros _ s3 (H3 & H4). eauto.
      - intros st (HEs & B & HMs). eexists. apply bind_panic. exact (getc_bad_row _ _ _ _ _ _ ry _ (own_ext _ _ _ _ _ _ _ HB1 HEs) (le_n ry)). }
    destruct HP as (s' & E). exists s'. now apply bind_panic.
Qed.
End WithNum.
