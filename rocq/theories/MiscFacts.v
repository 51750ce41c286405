(** * MiscFacts: lemmas behind the properties of misc.go, accuracy.go and activation.go. *)
From Coq Require Import String ZArith List Bool Arith Lia Reals Lra.
From Verif Require Import Num NumR NumB64 Heap Spec PureSpec Repr Matrix Activation Misc Accuracy
  HeapLemmas LoopLemmas MatrixProofs ActivationProofs MiscProofs MatrixFacts B64Facts RSum.
Import ListNotations.
Open Scope Z_scope.
Open Scope go_scope.

Section WithNum.
Context {K : Num}.
Implicit Types s : state K.

(** A loop whose k-th iteration panics. *)
Lemma loop_panic {A} (body : Z -> A -> M K A) (I : nat -> A -> state K -> Prop) (Q : state K -> Prop) p :
  forall n k b acc s,
  (k <= b < k + n)%nat -> I k acc s ->
  (forall i a s1, (k <= i < b)%nat -> I i a s1 -> wp (body (Z.of_nat i) a) s1 (I (S i))) ->
  (forall a s1, I b a s1 -> exists s', body (Z.of_nat b) a s1 = (Panic p, s') /\ Q s') ->
  exists s', loop n (Z.of_nat k) body acc s = (Panic p, s') /\ Q s'.
Proof.
  induction n as [|n IH]; intros k b acc s Hb H0 Hstep Hbad; [lia|]. cbn [loop].
  destruct (Nat.eq_dec k b) as [->|Hne].
  - destruct (Hbad _ _ H0) as (s' & E & HQ). exists s'. split; auto. now apply bind_panic.
  - pose proof (Hstep k acc s ltac:(lia) H0) as H. apply wp_ex in H as (a & s1 & E & H1).
    rewrite (bind_eq _ _ _ _ _ E). replace (Z.of_nat k + 1) with (Z.of_nat (S k)) by lia.
    apply (IH (S k) b); auto; try lia. intros i a1 s2 Hi. apply Hstep. lia.
Qed.
Lemma for_panic (n b : nat) (body : Z -> M K unit) (I : nat -> state K -> Prop) (Q : state K -> Prop) p s :
  (b < n)%nat -> I 0%nat s ->
  (forall i s1, (i < b)%nat -> I i s1 -> wp (body (Z.of_nat i)) s1 (fun _ => I (S i))) ->
  (forall s1, I b s1 -> exists s', body (Z.of_nat b) s1 = (Panic p, s') /\ Q s') ->
  exists s', for_ (Z.of_nat n) body s = (Panic p, s') /\ Q s'.
Proof.
  intros Hb H0 Hstep Hbad. unfold for_, for_acc. rewrite Nat2Z.id.
  apply (loop_panic (fun i _ => body i) (fun i _ => I i) Q p n 0 b tt s); auto; try lia.
  intros i a s1 Hi. apply Hstep. lia.
Qed.

(** The least index with a property. *)
Lemma least_nat (p : nat -> bool) n : (exists i, (i < n)%nat /\ p i = true) ->
  exists i, (i < n)%nat /\ p i = true /\ forall j, (j < i)%nat -> p j = false.
Proof.
  intros (i & Hi & Hp). revert Hi Hp. induction i as [i IH] using lt_wf_ind. intros Hi Hp.
  destruct (existsb p (seq 0 i)) eqn:E.
  - apply existsb_exists in E as (j & Hj & Hpj). apply in_seq in Hj. apply (IH j); auto; lia.
  - exists i. repeat split; auto. intros j Hj. destruct (p j) eqn:Ej; auto.
    rewrite <- E. symmetry. apply existsb_exists. exists j. split; auto. apply in_seq. lia.
Qed.

Lemma set_row_panic s x row j v : row_at s x = Some row -> x <> O -> (j < 0 \/ Z.of_nat (length row) <= j) ->
  set_row x j v s = (Panic PIndex, s).
Proof.
  intros H Hx Hj. destruct x as [|k]; [congruence|]. simpl in *. rewrite H.
  destruct (Z.leb_spec 0 j), (Z.ltb_spec j (Z.of_nat (length row))); simpl; auto; lia.
Qed.
Lemma setc_bad_col s m rs r c A i j v : own s m rs r c A -> Forall (fun x => x <> O) rs -> (i < r)%nat ->
  (j < 0 \/ Z.of_nat c <= j) -> setc m (Z.of_nat i) j v s = (Panic PIndex, s).
Proof.
  intros HO HZ Hi Hj. destruct (own_ref _ _ _ _ _ _ _ HO Hi) as (x & Hx & Hidx & Hrow & _).
  unfold setc. rewrite (bind_eq _ _ _ _ _ Hidx). eapply set_row_panic; [exact Hrow| |].
  - apply nth_error_In in Hx. rewrite Forall_forall in HZ. auto.
  - rewrite (shape_row r c) by (auto; exact (own_shape _ _ _ _ _ _ HO)). exact Hj.
Qed.
Lemma fresh_nonnil s rs : fresh s rs -> Forall (fun x => x <> O) rs.
Proof. apply Forall_impl. intros; lia. Qed.

Lemma SparseToOneHot_panics s m rs r c A size :
  own s m rs r c A -> (1 <= c)%nat -> 0 < size ->
  (exists i, (i < r)%nat /\ ~ 0 <= toZ (entry A i 0) < size) ->
  exists s', SparseToOneHot m size s = (Panic PIndex, s') /\ ext s s'.
Proof.
  intros HO Hc Hs Hbad.
  destruct (least_nat (fun i => negb ((0 <=? toZ (entry A i 0)) && (toZ (entry A i 0) <? size))) r) as (b & Hb & Hpb & Hmin).
  { destruct Hbad as (i & Hi & Hx). exists i. split; auto. apply negb_true_iff, andb_false_iff.
    destruct (Z.leb_spec 0 (toZ (entry A i 0))), (Z.ltb_spec (toZ (entry A i 0)) size); auto; lia. }
  unfold SparseToOneHot. replace (size <=? 0) with false by lia. own_dims.
  assert (Er : size = Z.of_nat (Z.to_nat size)) by lia. rewrite Er.
  set (z := Z.to_nat size) in *.
  rewrite (bind_eq _ _ _ _ _ (NewMatrix__run s r z ltac:(lia) ltac:(lia))).
  destruct (for_panic r b (fun i => v <- getc m i 0 ;; setc (new_header s r z) i (toZ v) f1)
    (fun i s1 => exists rsa B, fresh_mat s s1 (new_header s r z) rsa r z B /\ ext s s1) (ext s) PIndex (new_state s r z)) as (s' & E & HQ); auto.
  - eexists _, _. split; [apply new_state_own|apply new_state_ext].
  - intros i s1 Hi (rsa & B & HM & HE). apply wp_bind. eapply wp_eq.
    { change 0 with (Z.of_nat 0). eapply (getc_ext s s1); eauto; lia. }
    specialize (Hmin i Hi). apply negb_false_iff, andb_true_iff in Hmin as [H1 H2].
    apply Z.leb_le in H1. apply Z.ltb_lt in H2.
    replace (toZ (entry A i 0)) with (Z.of_nat (Z.to_nat (toZ (entry A i 0)))) by lia.
    eapply wp_conseq; [eapply (wp_setc_ext s s1); eauto; lia|]. intros _ s2 (HM2 & HE2). eauto.
  - intros s1 (rsa & B & HM & HE). exists s1. split; auto.
    assert (Eg : getc m (Z.of_nat b) 0 s1 = (Ret (entry A b 0), s1)).
    { change 0 with (Z.of_nat 0) at 1. eapply (getc_ext s s1); eauto. }
    rewrite (bind_eq _ _ _ _ _ Eg). destruct HM as (HM & HF & _).
    eapply setc_bad_col; eauto using fresh_nonnil.
    apply negb_true_iff, andb_false_iff in Hpb as [H|H]; [left; apply Z.leb_gt in H; lia|right; apply Z.ltb_ge in H; lia].
  - exists s'. split; auto. now apply bind_panic.
Qed.

(** Contents facts *)
Lemma pmap_pmap r c (f g : K -> K) (A : pm K) : pmap r c f (pmap r c g A) = pmap r c (fun x => f (g x)) A.
Proof. apply mk_ext. intros i j Hi Hj. unfold pmap. now rewrite entry_mk. Qed.
Lemma pmap_ext r c (f g : K -> K) (A : pm K) :
  (forall i j, (i < r)%nat -> (j < c)%nat -> f (entry A i j) = g (entry A i j)) -> pmap r c f A = pmap r c g A.
Proof. intros H. apply mk_ext. auto. Qed.
Lemma entry_pmap r c (f : K -> K) (A : pm K) i j : (i < r)%nat -> (j < c)%nat -> entry (pmap r c f A) i j = f (entry A i j).
Proof. intros. unfold pmap. now rewrite entry_mk. Qed.
Lemma entry_pmap2 r c (f : K -> K -> K) (A B : pm K) i j : (i < r)%nat -> (j < c)%nat -> entry (pmap2 r c f A B) i j = f (entry A i j) (entry B i j).
Proof. intros. unfold pmap2. now rewrite entry_mk. Qed.
Lemma shape_pmap r c (f : K -> K) (A : pm K) : shape r c (pmap r c f A).
Proof. apply shape_mk. Qed.

Lemma count_all {X} (p : X -> bool) l : (forall x, In x l -> p x = true) -> length (filter p l) = length l.
Proof. induction l as [|x l IH]; intros H; simpl; auto. rewrite H by (simpl; auto). simpl. rewrite IH; auto. intros; apply H; simpl; auto. Qed.
Lemma count_cells_all r c p : (forall i j, (i < r)%nat -> (j < c)%nat -> p i j = true) -> count_cells r c p = (r * c)%nat.
Proof.
  intros H. unfold count_cells. rewrite count_all.
  - now rewrite prod_length, !seq_length.
  - intros [i j] Hin. apply in_prod_iff in Hin as [Hi Hj]. apply in_seq in Hi, Hj. apply H; simpl; lia.
Qed.
Lemma count_rows_all r p : (forall i, (i < r)%nat -> p i = true) -> count_rows r p = r.
Proof.
  intros H. unfold count_rows. rewrite count_all; [apply seq_length|]. intros i Hi. apply in_seq in Hi. apply H. lia.
Qed.
Lemma scan_max_onehot n (l : nat) : (l < n)%nat -> flt (n := K) f0 f1 = true -> flt (n := K) f0 f0 = false -> flt (n := K) f1 f0 = false ->
  fst (scan_max n (fun j => if (j =? l)%nat then f1 else f0 : K)) = l.
Proof.
  intros Hl H01 H00 H10. unfold scan_max.
  assert (G : forall n, fold_left (fun best j => if flt (snd best) (if (j =? l)%nat then f1 else f0 : K) then (j, if (j =? l)%nat then f1 else f0 : K) else best) (seq 0 n) (O, f0) =
     if (l <? n)%nat then (l, f1) else (O, f0)).
  { clear n Hl. induction n as [|n IH]; auto. rewrite seq_S, fold_left_app, IH. simpl.
    destruct (Nat.ltb_spec l n), (Nat.eqb_spec n l), (Nat.ltb_spec l (S n)); try lia; simpl; rewrite ?H01, ?H00, ?H10; auto.
    now subst. }
  rewrite G. destruct (Nat.ltb_spec l n); [reflexivity|lia].
Qed.

End WithNum.

(** ** Orders *)
Lemma RNum_weak_order : weak_order (K := RNum) (fun _ => True).
Proof.
  split; [|split]; simpl; intros.
  - apply r_ltb_false. lra.
  - rewrite r_ltb_true in *. lra.
  - rewrite !r_ltb_true in *. lra.
Qed.
Lemma R_lits : lit_half (K := RNum) = (1/2)%R /\ lit_1em7 (K := RNum) = (/ 10000000)%R /\ lit_1m1em7 (K := RNum) = (1 - / 10000000)%R.
Proof. unfold lit_half, lit_1em7, lit_1m1em7. simpl. repeat split; lra. Qed.

Lemma R_relu (x : R) : relu1 (K := RNum) x = Rmax x 0.
Proof. reflexivity. Qed.
Lemma R_clip (x : R) : (x < 0 -> clip1 (K := RNum) x = / 10000000)%R /\ (1 < x -> clip1 (K := RNum) x = 1 - / 10000000)%R /\
  (0 <= x <= 1 -> clip1 (K := RNum) x = x)%R.
Proof.
  destruct R_lits as (_ & E1 & E2). unfold clip1, f0, f1. rewrite E1, E2. simpl.
  repeat split; intros H.
  - replace (r_ltb x 0) with true; auto. symmetry. now apply r_ltb_true.
  - replace (r_ltb x 0) with false by (symmetry; apply r_ltb_false; lra). replace (r_ltb 1 x) with true; auto. symmetry. now apply r_ltb_true.
  - replace (r_ltb x 0) with false by (symmetry; apply r_ltb_false; lra). replace (r_ltb 1 x) with false by (symmetry; apply r_ltb_false; lra). auto.
Qed.

(** Clip never needs an order: it is idempotent as soon as the two limits lie in [0,1]. *)
Definition clip_lits_ok (K : Num) : Prop :=
  flt (n := K) lit_1em7 f0 = false /\ flt (n := K) f1 lit_1em7 = false /\
  flt (n := K) lit_1m1em7 f0 = false /\ flt (n := K) f1 lit_1m1em7 = false.
Lemma clip_clip (K : Num) (x : K) : clip_lits_ok K -> clip1 (clip1 x) = clip1 x.
Proof.
  intros (H1 & H2 & H3 & H4). unfold clip1 at 2 3. destruct (flt x f0) eqn:E1.
  - unfold clip1. now rewrite H1, H2.
  - destruct (flt f1 x) eqn:E2; unfold clip1; [now rewrite H3, H4|now rewrite E1, E2].
Qed.
Lemma RNum_clip_lits : clip_lits_ok RNum.
Proof.
  destruct R_lits as (_ & E1 & E2). unfold clip_lits_ok. rewrite E1, E2. unfold f0, f1. simpl.
  repeat split; apply r_ltb_false; lra.
Qed.
Lemma B64_clip_lits L : clip_lits_ok (B64 L).
Proof. repeat split; reflexivity. Qed.
Lemma B64_clip_range L (x : B64 L) : b64_nan x = false ->
  fle f0 (clip1 x) = true /\ fle (clip1 x) f1 = true.
Proof.
  intros Hx. unfold clip1. destruct (flt x f0) eqn:E1; [split; reflexivity|].
  destruct (flt f1 x) eqn:E2; [split; reflexivity|].
  split; [apply (b64_not_lt_le (b64_ofZ 0) x)|apply (b64_not_lt_le x (b64_ofZ 1))]; auto.
Qed.
Lemma binary_binary (K : Num) (x : K) : flt (n := K) f0 lit_half = true -> flt (n := K) f1 lit_half = false -> binary1 (binary1 x) = binary1 x.
Proof. intros H1 H2. unfold binary1 at 2 3. destruct (flt x lit_half); unfold binary1; now rewrite ?H1, ?H2. Qed.
Lemma RNum_half : flt (n := RNum) f0 lit_half = true /\ flt (n := RNum) f1 lit_half = false.
Proof. destruct R_lits as (E & _ & _). rewrite E. unfold f0, f1. simpl. split; [apply r_ltb_true|apply r_ltb_false]; lra. Qed.

(** ** Sigmoid and softmax in exact arithmetic *)
Open Scope R_scope.
Lemma R_sigmoid (x : R) : sigmoid1 (K := RNum) x = / (1 + exp (- x)).
Proof. unfold sigmoid1, f1. simpl. unfold Rdiv. ring. Qed.
Lemma R_sigmoid_range (x : R) : 0 < sigmoid1 (K := RNum) x < 1.
Proof.
  rewrite R_sigmoid. pose proof (exp_pos (- x)). split.
  - apply Rinv_0_lt_compat. lra.
  - replace 1 with (/ 1) at 2 by apply Rinv_1. apply Rinv_lt_contravar; lra.
Qed.
Lemma R_sigmoid_incr (x y : R) : x < y -> sigmoid1 (K := RNum) x < sigmoid1 (K := RNum) y.
Proof.
  intros H. rewrite !R_sigmoid. pose proof (exp_pos (- x)). pose proof (exp_pos (- y)).
  assert (exp (- y) < exp (- x)) by (apply exp_increasing; lra).
  apply Rinv_lt_contravar; [|lra]. apply Rmult_lt_0_compat; lra.
Qed.

Lemma R_softmax_entry r c (A : rpm) i j : (i < r)%nat -> (j < c)%nat ->
  entry (psoftmax r c A) i j = exp (entry A i j) / rsum c (fun k => exp (entry A i k)).
Proof. intros. unfold psoftmax. now rewrite entry_mk. Qed.
Lemma R_expsum_pos c (g : nat -> R) : (1 <= c)%nat -> 0 < rsum c (fun k => exp (g k)).
Proof. intros. apply rsum_pos; auto. intros. apply exp_pos. Qed.
Lemma R_softmax_pos r c (A : rpm) i j : (i < r)%nat -> (j < c)%nat -> 0 < entry (psoftmax r c A) i j.
Proof.
  intros Hi Hj. rewrite R_softmax_entry by auto. apply Rdiv_lt_0_compat; [apply exp_pos|apply R_expsum_pos; lia].
Qed.
Lemma R_softmax_sum r c (A : rpm) i : (i < r)%nat -> (1 <= c)%nat -> rsum c (fun j => entry (psoftmax r c A) i j) = 1.
Proof.
  intros Hi Hc. rewrite (rsum_ext _ _ (fun j => exp (entry A i j) / rsum c (fun k => exp (entry A i k)))).
  - rewrite rsum_div. apply Rinv_r. pose proof (R_expsum_pos c (entry A i) Hc). lra.
  - intros j Hj. now apply R_softmax_entry.
Qed.
Lemma R_softmax_order r c (A : rpm) i j k : (i < r)%nat -> (j < c)%nat -> (k < c)%nat ->
  entry A i j < entry A i k <-> entry (psoftmax r c A) i j < entry (psoftmax r c A) i k.
Proof.
  intros Hi Hj Hk. rewrite !R_softmax_entry by auto. pose proof (R_expsum_pos c (entry A i) ltac:(lia)) as HS.
  assert (HI : 0 < / rsum c (fun k => exp (entry A i k))) by (now apply Rinv_0_lt_compat).
  unfold Rdiv. split; intros H.
  - apply Rmult_lt_compat_r; auto. now apply exp_increasing.
  - apply exp_lt_inv. apply (Rmult_lt_reg_r (/ rsum c (fun k => exp (entry A i k)))); auto.
Qed.
Lemma R_softmax_shift r c (A B : rpm) (t : nat -> R) :
  (forall i j, (i < r)%nat -> (j < c)%nat -> entry B i j = entry A i j + t i) -> psoftmax r c B = psoftmax r c A.
Proof.
  intros H. apply mk_ext. intros i j Hi Hj. simpl. rewrite H by auto.
  assert (Hc : (1 <= c)%nat) by lia. pose proof (R_expsum_pos c (entry A i) Hc) as HS. pose proof (exp_pos (t i)) as HT.
  fold (rsum c (fun k => exp (entry B i k))). fold (rsum c (fun k => exp (entry A i k))).
  rewrite (rsum_ext c (fun k => exp (entry B i k)) (fun k => exp (entry A i k) * exp (t i))).
  - rewrite rsum_scal_r, exp_plus. field. split; lra.
  - intros k Hk. rewrite H by auto. apply exp_plus.
Qed.

Lemma IZR_le_frac (a b : Z) : (0 <= a <= b)%Z -> (1 <= b)%Z -> 0 <= IZR a / IZR b <= 1.
Proof.
  intros Ha Hb. assert (0 <= IZR a) by (apply IZR_le; lia). assert (IZR a <= IZR b) by (apply IZR_le; lia).
  assert (1 <= IZR b) by (apply IZR_le; lia). assert (0 < / IZR b) by (apply Rinv_0_lt_compat; lra). split.
  - apply Rmult_le_pos; lra.
  - apply (Rmult_le_reg_r (IZR b)); [lra|]. field_simplify; lra.
Qed.
Lemma RNum_01 : feq (n := RNum) f0 f0 = true /\ feq (n := RNum) f1 f1 = true /\
  flt (n := RNum) f0 f1 = true /\ flt (n := RNum) f1 f0 = false /\ flt (n := RNum) f0 f0 = false.
Proof. unfold f0, f1. simpl. repeat split; try (apply r_eqb_true; reflexivity); try (apply r_ltb_true; lra); apply r_ltb_false; lra. Qed.

Section Perfect.
Context {K : Num}.
Lemma perfect_rows r c (lab : nat -> nat) :
  feq (n := K) f1 f1 = true -> flt (n := K) f0 f1 = true -> flt (n := K) f1 f0 = false -> flt (n := K) f0 f0 = false ->
  (forall i, (i < r)%nat -> (lab i < c)%nat) ->
  count_rows r (fun i => feq (entry (onehot (K := K) r c lab) i (fst (scan_max c (entry (onehot (K := K) r c lab) i)))) f1) = r.
Proof.
  intros E11 L01 L10 L00 Hlab. apply count_rows_all. intros i Hi.
  assert (E : fst (scan_max c (entry (onehot (K := K) r c lab) i)) = lab i).
  { transitivity (fst (scan_max c (fun j => if (j =? lab i)%nat then f1 else f0 : K))).
    - f_equal. unfold scan_max.
      assert (G : forall l (b : nat * K), (forall j, In j l -> (j < c)%nat) ->
        fold_left (fun best j => if flt (snd best) (entry (onehot (K := K) r c lab) i j) then (j, entry (onehot (K := K) r c lab) i j) else best) l b =
        fold_left (fun best j => if flt (snd best) (if (j =? lab i)%nat then f1 else f0 : K) then (j, if (j =? lab i)%nat then f1 else f0 : K) else best) l b).
      { induction l as [|j l IH]; intros b Hl; cbn [fold_left]; auto.
        assert (Ee : entry (onehot (K := K) r c lab) i j = (if (j =? lab i)%nat then f1 else f0 : K)) by (unfold onehot; rewrite entry_mk; auto; apply Hl; simpl; auto).
        rewrite Ee. apply IH. intros; apply Hl; simpl; auto. }
      apply G. intros j Hj. apply in_seq in Hj. lia.
    - apply scan_max_onehot; auto. }
  rewrite E. unfold onehot. rewrite entry_mk by auto. now rewrite Nat.eqb_refl.
Qed.
Lemma perfect_cells r c (lab : nat -> nat) :
  feq (n := K) f1 f1 = true -> feq (n := K) f0 f0 = true -> flt (n := K) f0 lit_half = true -> flt (n := K) f1 lit_half = false ->
  count_cells r c (fun i j => feq (binary1 (entry (onehot (K := K) r c lab) i j)) (entry (onehot (K := K) r c lab) i j)) = (r * c)%nat.
Proof.
  intros E11 E00 H0 H1. apply count_cells_all. intros i j Hi Hj. unfold onehot. rewrite entry_mk by auto.
  destruct (j =? lab i)%nat; unfold binary1; now rewrite ?H0, ?H1.
Qed.
End Perfect.
