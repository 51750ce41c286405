(** * ShuffleUniform: every ordering of the rows arises from exactly one sequence of draws. *)
From Coq Require Import String ZArith List Bool Arith Lia Permutation.
From Verif Require Import Num Heap Spec PureSpec Repr Matrix Misc HeapLemmas LoopLemmas MatrixProofs MatrixFacts MiscProofs BinomialProofs.
Import ListNotations.
Open Scope Z_scope.

(** ** Fisher-Yates on plain lists *)
Fixpoint fy (k : nat) (ds p : list nat) : list nat :=
  match k with O => p | S k' => fy k' (tl ds) (lswap O k (hd O ds) p) end.
(** The possible draws for [r] rows: the t-th is below [r - t]. *)
Definition draws_ok (r : nat) (ds : list nat) : Prop :=
  length ds = (r - 1)%nat /\ forall t, (t < r - 1)%nat -> (nth t ds O < r - t)%nat.
(** What an integer stream amounts to for [r] rows. *)
Definition draws_of (r : nat) (I : nat -> Z) : list nat :=
  map (fun t => Z.to_nat (I t mod Z.of_nat (r - t))) (seq 0 (r - 1)).
Definition with_ints {K : Num} (s : state K) (I : nat -> Z) : state K :=
  with_rng s (MkRng (r_uni (h_rng s)) (r_nrm (h_rng s)) I (r_upos (h_rng s)) (r_npos (h_rng s)) 0).

Lemma nth_map_seq (f : nat -> nat) n t : (t < n)%nat -> nth t (map f (seq 0 n)) O = f t.
Proof.
  intros Ht. rewrite (nth_indep _ O (f O)) by (rewrite map_length, seq_length; exact Ht).
  rewrite (map_nth f), seq_nth by exact Ht. reflexivity.
Qed.
Lemma draws_of_ok r I : draws_ok r (draws_of r I).
Proof.
  unfold draws_ok, draws_of. rewrite map_length, seq_length. split; [reflexivity|]. intros t Ht.
  rewrite nth_map_seq by exact Ht. pose proof (Z.mod_pos_bound (I t) (Z.of_nat (r - t))). lia.
Qed.
Lemma draws_of_nat r ds : draws_ok r ds -> draws_of r (fun t => Z.of_nat (nth t ds O)) = ds.
Proof.
  intros (HL & HB). unfold draws_of. apply (nth_ext _ _ O O); rewrite map_length, seq_length; [symmetry; exact HL|].
  intros t Ht. rewrite nth_map_seq by exact Ht. specialize (HB t Ht). rewrite Z.mod_small by lia. lia.
Qed.
Lemma draws_ok_cons r d ds : draws_ok (S (S r)) (d :: ds) <-> (d < S (S r))%nat /\ draws_ok (S r) ds.
Proof.
  unfold draws_ok. cbn [length]. replace (S (S r) - 1)%nat with (S r) by lia. replace (S r - 1)%nat with r by lia. split.
  - intros (HL & HB). split; [apply (HB O); lia|]. split; [lia|]. intros t Ht. specialize (HB (S t)). cbn [nth] in HB. lia.
  - intros (Hd & HL & HB). split; [lia|]. intros [|t] Ht; cbn [nth]; [lia|]. specialize (HB t). lia.
Qed.

Lemma nth_lswap i j p x : (i < length p)%nat -> (j < length p)%nat ->
  nth x (lswap O i j p) O = if (x =? j)%nat then nth i p O else if (x =? i)%nat then nth j p O else nth x p O.
Proof.
  intros Hi Hj. unfold lswap. rewrite !nth_upd, upd_length. rewrite (Nat.eqb_sym j x), (Nat.eqb_sym i x).
  replace (j <? length p)%nat with true by (symmetry; apply Nat.ltb_lt; lia).
  replace (i <? length p)%nat with true by (symmetry; apply Nat.ltb_lt; lia). rewrite !andb_true_r. reflexivity.
Qed.
Lemma fy_length k : forall ds p, length (fy k ds p) = length p.
Proof. induction k as [|k IH]; intros ds p; [reflexivity|]. cbn [fy]. rewrite IH. apply lswap_length. Qed.
Lemma fy_above k : forall ds p x, (k < length p)%nat -> draws_ok (S k) ds -> (k < x)%nat -> nth x (fy k ds p) O = nth x p O.
Proof.
  induction k as [|k IH]; intros ds p x Hp Hd Hx; [reflexivity|]. cbn [fy].
  destruct ds as [|d ds]; [destruct Hd as (HL & _); cbn in HL; lia|]. apply draws_ok_cons in Hd. destruct Hd as (Hd & Hds). cbn [hd tl].
  rewrite IH by (rewrite ?lswap_length; auto; lia). rewrite nth_lswap by lia.
  replace (x =? d)%nat with false by (symmetry; apply Nat.eqb_neq; lia). replace (x =? S k)%nat with false by (symmetry; apply Nat.eqb_neq; lia). reflexivity.
Qed.
Lemma fy_perm k : forall ds p, (k < length p)%nat -> draws_ok (S k) ds -> Permutation p (fy k ds p).
Proof.
  induction k as [|k IH]; intros ds p Hp Hd; [reflexivity|]. cbn [fy].
  destruct ds as [|d ds]; [destruct Hd as (HL & _); cbn in HL; lia|]. apply draws_ok_cons in Hd. destruct Hd as (Hd & Hds). cbn [hd tl].
  eapply perm_trans; [apply (lswap_perm O (S k) d); lia|]. apply IH; rewrite ?lswap_length; auto; lia.
Qed.

Lemma fy_onto k : forall p q, (k < length p)%nat -> NoDup p -> Permutation p q -> (forall x, (k < x)%nat -> nth x p O = nth x q O) ->
  exists! ds, draws_ok (S k) ds /\ fy k ds p = q.
Proof.
  induction k as [|k IH]; intros p q Hp HN HP HA.
  - exists []. split.
    + split; [split; [reflexivity|intros t Ht; cbn in Ht; lia]|]. cbn [fy].
      pose proof (Permutation_length HP) as HL. apply (nth_ext _ _ O O HL). intros x Hx.
      destruct x as [|x]; [|apply HA; lia].
      assert (HQ : NoDup q) by (eapply Permutation_NoDup; eauto).
      assert (Hin : In (nth 0 p O) q) by (eapply Permutation_in; [exact HP|apply nth_In; exact Hp]).
      destruct (In_nth _ _ O Hin) as (y & Hy & E). destruct y as [|y]; [symmetry; exact E|].
      rewrite <- (HA (S y)) in E by lia. apply (proj1 (NoDup_nth p O) HN) in E; lia.
    + intros ds (( HL & _) & _). destruct ds; [reflexivity|cbn in HL; lia].
  - pose proof (Permutation_length HP) as HL. assert (HQ : NoDup q) by (eapply Permutation_NoDup; eauto).
    set (v := nth (S k) q O).
    assert (Hin : In v p) by (eapply Permutation_in; [symmetry; exact HP|apply nth_In; lia]).
    destruct (In_nth _ _ O Hin) as (d & Hd & E).
    assert (Hdk : (d < S (S k))%nat).
    { destruct (Nat.lt_ge_cases d (S (S k))) as [|Hge]; [assumption|]. rewrite (HA d) in E by lia. unfold v in E. apply (proj1 (NoDup_nth q O) HQ) in E; lia. }
    destruct (IH (lswap O (S k) d p) q) as (ds & (Hds & Hf) & Huniq).
    + rewrite lswap_length. lia.
    + eapply Permutation_NoDup; [apply (lswap_perm O (S k) d); lia|exact HN].
    + eapply perm_trans; [symmetry; apply (lswap_perm O (S k) d); lia|exact HP].
    + intros x Hx. rewrite nth_lswap by lia. destruct (Nat.eqb_spec x d) as [->|Hxd].
      * assert (d = S k) by lia. subst d. exact E.
      * destruct (Nat.eqb_spec x (S k)) as [->|Hxk]; [exact E|]. apply HA. lia.
    + exists (d :: ds). split; [split; [apply draws_ok_cons; auto|exact Hf]|].
      intros ds' (Hds' & Hf'). destruct ds' as [|d' ds']; [destruct Hds' as (HL' & _); cbn in HL'; lia|].
      apply draws_ok_cons in Hds'. destruct Hds' as (Hd' & Hds'). cbn [fy hd tl] in Hf'.
      assert (d' = d).
      { assert (E' : nth (S k) (fy k ds' (lswap O (S k) d' p)) O = v) by (rewrite Hf'; reflexivity).
        rewrite fy_above in E' by (rewrite ?lswap_length; auto; lia). rewrite nth_lswap in E' by lia.
        assert (E2 : nth d' p O = v). { destruct (Nat.eqb_spec (S k) d') as [<-|]; [exact E'|]. rewrite Nat.eqb_refl in E'. exact E'. }
        rewrite <- E in E2. apply (proj1 (NoDup_nth p O) HN) in E2; lia. }
      subst d'. f_equal. apply Huniq. split; assumption.
Qed.
Lemma fy_bijection r : forall q, Permutation (seq 0 r) q <-> exists! ds, draws_ok r ds /\ fy (r - 1) ds (seq 0 r) = q.
Proof.
  intros q. destruct r as [|k].
  - cbn. split.
    + intros HP. apply Permutation_nil in HP. subst. exists []. split; [split; [split; [reflexivity|intros t Ht; lia]|reflexivity]|].
      intros ds ((HL & _) & _). destruct ds; [reflexivity|cbn in HL; lia].
    + intros (ds & (_ & <-) & _). constructor.
  - replace (S k - 1)%nat with k by lia. split.
    + intros HP. apply fy_onto; [rewrite seq_length; lia|apply seq_NoDup|exact HP|].
      intros x Hx. rewrite !nth_overflow; [reflexivity| |]; [rewrite <- (Permutation_length HP)|]; rewrite seq_length; lia.
    + intros (ds & (Hd & <-) & _). apply fy_perm; [rewrite seq_length; lia|exact Hd].
Qed.

(** The number of possible draws. *)
Fixpoint all_draws (k : nat) : list (list nat) :=
  match k with O => [[]] | S k' => flat_map (fun d => map (cons d) (all_draws k')) (seq 0 (S k)) end.
Lemma flat_length {A B} (f : A -> list B) l n : (forall a, length (f a) = n) -> length (flat_map f l) = (length l * n)%nat.
Proof. intros H. induction l as [|a l IH]; [reflexivity|]. cbn [flat_map length]. rewrite app_length, H, IH. lia. Qed.
Lemma all_draws_length k : length (all_draws k) = fact (S k).
Proof.
  induction k as [|k IH]; [reflexivity|]. cbn [all_draws]. rewrite (flat_length _ _ (fact (S k))).
  - rewrite seq_length. reflexivity.
  - intros a. rewrite map_length. exact IH.
Qed.
Lemma in_all_draws k : forall ds, In ds (all_draws k) <-> draws_ok (S k) ds.
Proof.
  induction k as [|k IH]; intros ds.
  - cbn. split.
    + intros [<-|[]]. split; [reflexivity|intros t Ht; cbn in Ht; lia].
    + intros (HL & _). destruct ds; [auto|cbn in HL; lia].
  - cbn [all_draws]. rewrite in_flat_map. split.
    + intros (d & Hd & Hin). apply in_seq in Hd. apply in_map_iff in Hin. destruct Hin as (ds' & <- & Hin). apply draws_ok_cons. split; [lia|]. apply IH. exact Hin.
    + intros Hd. destruct ds as [|d ds]; [destruct Hd as (HL & _); cbn in HL; lia|]. apply draws_ok_cons in Hd. destruct Hd as (Hd & Hds).
      exists d. split; [apply in_seq; lia|]. apply in_map. apply IH. exact Hds.
Qed.
Lemma nodup_all_draws k : NoDup (all_draws k).
Proof.
  induction k as [|k IH]; [repeat constructor; intros []|]. cbn [all_draws]. apply nodup_flat.
  - apply seq_NoDup.
  - intros a _. apply FinFun.Injective_map_NoDup; [|exact IH]. intros x y H. injection H. auto.
  - intros a b x _ _ Ha Hb. apply in_map_iff in Ha, Hb. destruct Ha as (w & <- & _).
    destruct Hb as (w' & H & _). injection H. intros. congruence.
Qed.
Lemma draws_count r : exists L, NoDup L /\ (forall ds, In ds L <-> draws_ok r ds) /\ length L = fact r.
Proof.
  destruct r as [|k].
  - exists [[]]. split; [repeat constructor; intros []|]. split; [|reflexivity]. intros ds. split.
    + intros [<-|[]]. split; [reflexivity|intros t Ht; lia].
    + intros (HL & _). destruct ds; [left; reflexivity|cbn in HL; lia].
  - exists (all_draws k). split; [apply nodup_all_draws|]. split; [apply in_all_draws|apply all_draws_length].
Qed.

(** ** The code *)
Section WithNum.
Context {K : Num}.
Lemma shuffle_run (s : state K) X Y rsx rsy r c d A B I :
  own s X rsx r c A -> own s Y rsy r d B -> sl_loc (mdata X) <> sl_loc (mdata Y) ->
  let p := fy (r - 1) (draws_of r I) (seq 0 r) in
  wp (ShuffleDataset X Y) (with_ints s I) (fun XY s' => XY = (X, Y) /\
    own s' X (map (fun k => nth k rsx O) p) r c (map (fun k => nth k A []) p) /\
    own s' Y (map (fun k => nth k rsy O) p) r d (map (fun k => nth k B []) p) /\
    h_rows s' = h_rows s /\ r_ipos (h_rng s') = (r - 1)%nat).
Proof.
  intros HX0 HY0 Hne p. unfold ShuffleDataset, rand_Shuffle.
  assert (HX : own (with_ints s I) X rsx r c A) by exact HX0. assert (HY : own (with_ints s I) Y rsy r d B) by exact HY0. clear HX0 HY0.
  rewrite (own_rows _ _ _ _ _ _ HX). replace (Z.of_nat r <? 0) with false by lia.
  destruct (own_lengths _ _ _ _ _ _ HX) as [LX LA]. destruct (own_lengths _ _ _ _ _ _ HY) as [LY LB].
  set (Pk := fun (k : nat) (s1 : state K) => exists p0, length p0 = r /\
      own s1 X (pick O p0 rsx) r c (pick [] p0 A) /\ own s1 Y (pick O p0 rsy) r d (pick [] p0 B) /\ h_rows s1 = h_rows s /\
      r_int (h_rng s1) = I /\ r_ipos (h_rng s1) = (r - 1 - k)%nat /\
      fy k (map (fun t => Z.to_nat (I t mod Z.of_nat (r - t))) (seq (r - 1 - k) k)) p0 = p).
  assert (G : forall k s1, (k < r \/ k = 0)%nat -> Pk k s1 ->
     wp (shuffle_down k (fun i j => bind (swap_rows X i j) (fun _ => swap_rows Y i j))) s1 (fun _ s' => Pk O s')).
  { induction k as [|k IH]; intros s1 Hk HP.
    - apply wp_ret. exact HP.
    - assert (Hkr : (S k < r)%nat) by lia. destruct HP as (p0 & Lp & HX1 & HY1 & HR1 & HI1 & Hpos & Hfy).
      cbn [shuffle_down]. apply wp_bind. eapply wp_eq; [reflexivity|].
      rewrite HI1, Hpos. set (s2 := with_rng s1 _).
      set (j := Z.to_nat (I (r - 1 - S k)%nat mod (Z.of_nat (S k) + 1))).
      assert (Ej : I (r - 1 - S k)%nat mod (Z.of_nat (S k) + 1) = Z.of_nat j /\ (j <= S k)%nat).
      { unfold j. pose proof (Z.mod_pos_bound (I (r - 1 - S k)%nat) (Z.of_nat (S k) + 1)). lia. }
      destruct Ej as (-> & Hj).
      apply wp_bind. apply wp_bind. eapply wp_conseq.
      { eapply (wp_swap_rows s2 X _ r c _ (S k) j); [exact HX1|lia|lia]. }
      simpl. intros _ s3 (HX3 & HF3 & HG3).
      assert (HY3 : own s3 Y (pick O p0 rsy) r d (pick [] p0 B)).
      { eapply own_outs; [exact HY1|exact HF3| |]; auto. }
      eapply wp_conseq.
      { eapply (wp_swap_rows s3 Y _ r d _ (S k) j); [exact HY3|lia|lia]. }
      simpl. intros _ s4 (HY4 & HF4 & HG4). apply IH; [lia|]. exists (lswap O (S k) j p0).
      split; [rewrite lswap_length; exact Lp|]. split; [|split; [|split; [|split; [|split]]]].
      + rewrite !pick_lswap by lia. eapply own_outs; [exact HX3|exact HF4| |]; auto.
      + rewrite !pick_lswap by lia. exact HY4.
      + destruct HF4 as (-> & _). destruct HF3 as (-> & _). exact HR1.
      + rewrite HG4, HG3. reflexivity.
      + rewrite HG4, HG3. unfold s2. cbn. lia.
      + rewrite <- Hfy. cbn [seq map fy hd tl]. replace (S (r - 1 - S k)) with (r - 1 - k)%nat by lia.
        replace (Z.of_nat (r - (r - 1 - S k))) with (Z.of_nat (S k) + 1) by lia. reflexivity. }
  apply wp_bind. eapply wp_conseq.
  - apply (G (Z.to_nat (Z.of_nat r - 1)) (with_ints s I)); [lia|]. replace (Z.to_nat (Z.of_nat r - 1)) with (r - 1)%nat by lia. unfold Pk.
    exists (seq 0 r). split; [apply seq_length|].
    split; [replace (pick O (seq 0 r) rsx) with rsx by (rewrite <- LX at 1; now rewrite pick_id);
            replace (pick [] (seq 0 r) A) with A by (rewrite <- LA at 1; now rewrite pick_id); exact HX|].
    split; [replace (pick O (seq 0 r) rsy) with rsy by (rewrite <- LY at 1; now rewrite pick_id);
            replace (pick [] (seq 0 r) B) with B by (rewrite <- LB at 1; now rewrite pick_id); exact HY|].
    rewrite Nat.sub_diag. repeat (split; [reflexivity|]). reflexivity.
  - intros _ s' (p0 & _ & H1 & H2 & H3 & _ & H4 & H5). apply wp_ret. cbn [fy] in H5. subst p0.
    split; [reflexivity|]. split; [exact H1|]. split; [exact H2|]. split; [exact H3|]. lia.
Qed.

Lemma shuffle_uniform (s : state K) X Y rsx rsy r c d A B :
  own s X rsx r c A -> own s Y rsy r d B -> sl_loc (mdata X) <> sl_loc (mdata Y) ->
  exists P : list nat -> list nat,
    (forall I, returns (ShuffleDataset X Y) (with_ints s I) (fun XY s' => XY = (X, Y) /\
       own s' X (map (fun k => nth k rsx O) (P (draws_of r I))) r c (map (fun k => nth k A []) (P (draws_of r I))) /\
       own s' Y (map (fun k => nth k rsy O) (P (draws_of r I))) r d (map (fun k => nth k B []) (P (draws_of r I))) /\
       h_rows s' = h_rows s /\ r_ipos (h_rng s') = (r - 1)%nat)) /\
    (forall q, Permutation (seq 0 r) q <-> exists! ds, draws_ok r ds /\ P ds = q).
Proof.
  intros HX HY Hne. exists (fun ds => fy (r - 1) ds (seq 0 r)). split.
  - intros I. apply returns_wp. apply shuffle_run; assumption.
  - apply fy_bijection.
Qed.
End WithNum.
