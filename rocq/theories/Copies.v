(** * Copies: training on several copies of the data. *)
From Coq Require Import String ZArith List Bool Arith Lia Reals Lra.
From Verif Require Import Num NumR Heap Spec Matrix Loss Network Optimizers ModelGo PureSpec Repr HeapLemmas MatrixFacts MiscFacts RSum LayerReal LossProofs OptSpec ModelSpec FitProofs FitFacts RowOrder MiniBatch CopiesSpec.
Import ListNotations.
Open Scope R_scope.

Lemma copies_length {T} c (A : list T) : length (copies c A) = (c * length A)%nat.
Proof. unfold copies. induction c as [|c IH]; [reflexivity|]. cbn [repeat concat]. rewrite app_length, IH. lia. Qed.
Lemma copies_nth {T} (d : T) c (A : list T) i : (i < c * length A)%nat -> nth i (copies c A) d = nth (i mod length A) A d.
Proof.
  unfold copies. revert i. induction c as [|c IH]; intros i Hi; [lia|]. cbn [repeat concat].
  destruct (Nat.lt_ge_cases i (length A)) as [H|H].
  - rewrite app_nth1, Nat.mod_small by exact H. reflexivity.
  - rewrite app_nth2 by exact H. rewrite IH by lia. f_equal. replace i with ((i - length A) + 1 * length A)%nat at 2 by lia.
    rewrite Nat.mod_add by lia. reflexivity.
Qed.
Lemma rsum_copies c n g : (1 <= n)%nat -> rsum (c * n) (fun i => g (i mod n)%nat) = INR c * rsum n g.
Proof.
  intros Hn. induction c as [|c IH]; [rewrite rsum_0; simpl; lra|]. replace (S c * n)%nat with (c * n + n)%nat by lia. rewrite rsum_app, IH, S_INR.
  rewrite (rsum_ext n (fun a => g ((c * n + a) mod n)%nat) g); [lra|]. intros a Ha. f_equal. rewrite Nat.add_comm, Nat.mod_add by lia. now apply Nat.mod_small.
Qed.

Section Copies.
Variables (n c : nat).
Hypothesis Hn : (1 <= n)%nat.
Hypothesis Hc : (1 <= c)%nat.
Notation N := (c * n)%nat.
Lemma md i : (i mod n < n)%nat. Proof. apply Nat.mod_upper_bound. lia. Qed.
(** The rows of [A'] are [t] times those of [A], again and again. *)
Definition again (t : R) (k : nat) (A A' : rpm) : Prop := forall i j, (i < N)%nat -> (j < k)%nat -> entry A' i j = t * entry A (i mod n) j.
Lemma copies_again k (A : rpm) : length A = n -> again 1 k A (copies c A).
Proof. intros HL i j Hi _. unfold entry. rewrite copies_nth by (rewrite HL; exact Hi). rewrite HL. change (nth j (nth (i mod n) A []) (f0 : RNum) = 1 * nth j (nth (i mod n) A []) (f0 : RNum)). lra. Qed.
Lemma again_mk t k (f f' : nat -> nat -> R) : (forall i j, (i < N)%nat -> (j < k)%nat -> f' i j = t * f (i mod n)%nat j) ->
  again t k (mk (K := RNum) n k f) (mk (K := RNum) N k f').
Proof. intros H i j Hi Hj. rewrite !entry_mk by (auto using md). now apply H. Qed.
Lemma one {k A A'} : again 1 k A A' -> forall i j, (i < N)%nat -> (j < k)%nat -> entry A' i j = entry A (i mod n) j.
Proof. intros H i j Hi Hj. rewrite H by assumption. lra. Qed.
Lemma again_mk1 k (f f' : nat -> nat -> R) : (forall i j, (i < N)%nat -> (j < k)%nat -> f' i j = f (i mod n)%nat j) ->
  again 1 k (mk (K := RNum) n k f) (mk (K := RNum) N k f').
Proof. intros H. apply again_mk. intros i j Hi Hj. rewrite H by assumption. lra. Qed.
Lemma ag_aff i k (X X' W B : rpm) : again 1 i X X' -> again 1 k (paff n i k X W B) (paff N i k X' W B).
Proof. intros H. apply again_mk1. intros a j Ha Hj. f_equal. apply fsum_ext. intros m Hm. now rewrite (one H). Qed.
Lemma ag_map k f (A A' : rpm) : again 1 k A A' -> again 1 k (pmap n k f A) (pmap N k f A').
Proof. intros H. apply again_mk1. intros i j Hi Hj. now rewrite (one H). Qed.
Lemma ag_softmax k (A A' : rpm) : again 1 k A A' -> again 1 k (psoftmax n k A) (psoftmax N k A').
Proof. intros H. apply again_mk1. intros i j Hi Hj. rewrite (one H) by auto. f_equal. apply fsum_ext. intros m Hm. now rewrite (one H). Qed.
Lemma ag_forward (l : player RNum) (X X' : rpm) : again 1 (p_in l) X X' -> again 1 (p_out l) (pforward l n X) (pforward l N X').
Proof.
  intros H. unfold pforward, pact. pose proof (ag_aff (p_in l) (p_out l) X X' (p_w l) (p_b l) H) as HA. fold (paffine l n X) (paffine l N X') in HA.
  destruct (p_kind l); first [exact HA|now apply ag_map|now apply ag_softmax].
Qed.
Lemma ag_train (l : player RNum) (X X' : rpm) u u' : p_kind l <> Dropout -> again 1 (p_in l) X X' -> again 1 (p_out l) (ptrain l n X u) (ptrain l N X' u').
Proof. intros HK H. unfold ptrain. destruct (p_kind l); try now apply ag_forward. congruence. Qed.
Lemma ag_clipped b k (A A' : rpm) : again 1 k A A' -> again 1 k (clipped b n k A) (clipped b N k A').
Proof. intros H. unfold clipped. destruct b; [now apply ag_map|exact H]. Qed.
Lemma ag_softmax_back t k (O O' G G' : rpm) : again 1 k O O' -> again t k G G' -> again t k (psoftmax_back n k O G) (psoftmax_back N k O' G').
Proof.
  intros H1 H2. apply again_mk. intros i j Hi Hj.
  change (rsum k (fun m => (( if (j =? m)%nat then entry O' i j else 0) - (0 + entry O' i j * entry O' i m)) * entry G' i m) =
    t * rsum k (fun m => (( if (j =? m)%nat then entry O (i mod n) j else 0) - (0 + entry O (i mod n) j * entry O (i mod n) m)) * entry G (i mod n) m)).
  rewrite <- rsum_scal. apply rsum_ext. intros m Hm. rewrite !(one H1), H2 by auto. ring.
Qed.
Lemma ag_back t (l : player RNum) (O O' G G' M M' : rpm) : p_kind l <> Dropout -> again 1 (p_out l) O O' -> again t (p_out l) G G' ->
  again t (p_out l) (pback l n O M G) (pback l N O' M' G').
Proof.
  intros HK H1 H2. unfold pback. destruct (p_kind l); try exact H2; try congruence; try (now apply ag_softmax_back); apply again_mk; intros i j Hi Hj; rewrite (one H1), H2 by auto.
  - unfold relu_prime1. destruct (fle _ _); [change (0 = t * 0); lra|reflexivity].
  - unfold leaky_prime1. destruct (flt _ _); [|reflexivity]. change ((t * entry G (i mod n) j) * p_slope l = t * (entry G (i mod n) j * p_slope l)). ring.
Qed.
(** What the losses do with the number of rows: the cross-entropies divide by it. *)
Definition share (k : losskind) : R := match k with MSE | MAE => 1 | _ => / INR c end.
Lemma INRc : 0 < INR c. Proof. apply lt_0_INR. lia. Qed.
Lemma INRn : 0 < INR n. Proof. apply lt_0_INR. lia. Qed.
Lemma rows_c : IZR (Z.of_nat N) = INR c * INR n.
Proof. now rewrite <- INR_IZR_INZ, mult_INR. Qed.
Lemma rows_n : IZR (Z.of_nat n) = INR n.
Proof. now rewrite <- INR_IZR_INZ. Qed.
Lemma div_rows (a : R) : a / IZR (Z.of_nat N) = / INR c * (a / IZR (Z.of_nat n)).
Proof. rewrite rows_c, rows_n. pose proof INRc. pose proof INRn. field. lra. Qed.
Lemma ag_loss_back k o (A A' Y Y' : rpm) : again 1 o A A' -> again 1 o Y Y' -> again (share k) o (ploss_back k n o A Y) (ploss_back k N o A' Y').
Proof.
  intros H1 H2. destruct k; apply again_mk; intros i j Hi Hj; rewrite (one H1), (one H2) by auto; cbn [share].
  - apply eq_sym, Rmult_1_l.
  - apply eq_sym, Rmult_1_l.
  - exact (div_rows _).
  - exact (div_rows _).
Qed.
Lemma ag_ce_back o (O O' Y Y' : rpm) : again 1 o O O' -> again 1 o Y Y' -> again (/ INR c) o (pce_back n o Y O) (pce_back N o Y' O').
Proof. intros H1 H2. apply again_mk; intros i j Hi Hj; rewrite (one H1), (one H2) by auto. exact (div_rows _). Qed.
Lemma ag_pre k (last : bool) (l : player RNum) o (Y Y' O O' G G' M M' : rpm) : p_kind l <> Dropout -> (last = true -> p_out l = o) ->
  again 1 o Y Y' -> again 1 (p_out l) O O' -> again (share k) (p_out l) G G' ->
  again (share k) (p_out l) (pre_grad k Y last l n O M G) (pre_grad k Y' last l N O' M' G').
Proof.
  intros HK HL HY HO HG. unfold pre_grad. destruct last; [|now apply ag_back]. rewrite <- (HL eq_refl) in HY.
  destruct (fused k l) eqn:E; [|apply ag_back; auto; now apply ag_clipped].
  destruct k; try discriminate E. now apply ag_ce_back.
Qed.
Lemma ag_dX t k o (G G' W : rpm) : again t o G G' -> again t k (pdX n k o G W) (pdX N k o G' W).
Proof.
  intros H. apply again_mk. intros i j Hi Hj.
  change (rsum o (fun m => entry G' i m * entry (ptrans k o W) m j) = t * rsum o (fun m => entry G (i mod n) m * entry (ptrans k o W) m j)).
  rewrite <- rsum_scal. apply rsum_ext. intros m Hm. rewrite H by auto. ring.
Qed.
(** A gradient [t] times another. *)
Definition times (t : R) (k o : nat) (g g' : rpm * rpm) : Prop :=
  fst g' = mk (K := RNum) k o (fun i j => t * entry (fst g) i j) /\ snd g' = mk (K := RNum) 1 o (fun i j => t * entry (snd g) i j).
Lemma dW_again t k o (X X' G G' : rpm) : again 1 k X X' -> again t o G G' ->
  pdW N k o X' G' = mk (K := RNum) k o (fun i j => INR c * t * entry (pdW n k o X G) i j).
Proof.
  intros H1 H2. unfold pdW, pdot. apply mk_ext. intros i j Hi Hj. rewrite entry_mk by assumption.
  change (rsum N (fun m => entry (ptrans N k X') i m * entry G' m j) = INR c * t * rsum n (fun m => entry (ptrans n k X) i m * entry G m j)).
  rewrite (rsum_ext N _ (fun m => t * (entry (ptrans n k X) i (m mod n) * entry G (m mod n) j))).
  - rewrite rsum_scal, (rsum_copies c n (fun m => entry (ptrans n k X) i m * entry G m j)) by assumption. ring.
  - intros m Hm. unfold ptrans. rewrite !entry_mk by (auto using md). rewrite (one H1), H2 by auto. ring.
Qed.
Lemma sum_again t o (G G' : rpm) : again t o G G' -> psum0 N o G' = mk (K := RNum) 1 o (fun i j => INR c * t * entry (psum0 n o G) i j).
Proof.
  intros H. unfold psum0. apply mk_ext. intros i j Hi Hj. rewrite entry_mk by assumption.
  change (rsum N (fun i => entry G' i j) = INR c * t * rsum n (fun i => entry G i j)).
  rewrite (rsum_ext N _ (fun m => t * entry G (m mod n) j)) by (intros m Hm; now apply H).
  rewrite rsum_scal, (rsum_copies c n (fun m => entry G m j)) by assumption. ring.
Qed.
Fixpoint all_times (t : R) (ps : list (player RNum)) (gs gs' : list (rpm * rpm)) : Prop :=
  match ps, gs, gs' with
  | [], [], [] => True
  | p :: ps, g :: gs, g' :: gs' => times t (p_in p) (p_out p) g g' /\ all_times t ps gs gs'
  | _, _, _ => False
  end.
Lemma ag_backprop k o (Y Y' : rpm) U U' : again 1 o Y Y' -> forall ps i q q' (X X' : rpm),
  chain i ps o -> List.Forall (fun l => p_kind l <> Dropout) ps -> again 1 i X X' ->
  again (share k) i (fst (pbackprop k Y o ps n X U q)) (fst (pbackprop k Y' o ps N X' U' q')) /\
  all_times (INR c * share k) ps (snd (pbackprop k Y o ps n X U q)) (snd (pbackprop k Y' o ps N X' U' q')).
Proof.
  intros HY. induction ps as [|l t IH]; intros i q q' X X' HC HF HX.
  - simpl in HC. subst i. split; [|exact I]. now apply ag_loss_back.
  - destruct HC as (Hi & HC). inversion HF as [|? ? Hl Ht]; subst. cbn [pbackprop].
    pose proof (ag_train l X X' (from (K := RNum) U q) (from (K := RNum) U' q') Hl HX) as HO.
    specialize (IH (p_out l) (q + pdraws l n)%nat (q' + pdraws l N)%nat _ _ HC Ht HO).
    destruct (pbackprop k Y o t n (ptrain l n X (from U q)) U (q + pdraws l n)) as (G & gs).
    destruct (pbackprop k Y' o t N (ptrain l N X' (from U' q')) U' (q' + pdraws l N)) as (G' & gs').
    cbn [fst snd] in *. destruct IH as (HG & Hgs).
    assert (HPre : again (share k) (p_out l)
      (pre_grad k Y (match t with [] => true | _ => false end) l n (ptrain l n X (from (K := RNum) U q)) (ptrain_mask l n (from (K := RNum) U q)) G)
      (pre_grad k Y' (match t with [] => true | _ => false end) l N (ptrain l N X' (from (K := RNum) U' q')) (ptrain_mask l N (from (K := RNum) U' q')) G')).
    { apply ag_pre with (o := o); auto. destruct t; [intros _; exact HC|discriminate]. }
    split; [now apply ag_dX|]. cbn [all_times]. split; [|exact Hgs]. split; cbn [fst snd]; [now apply dW_again|now apply sum_again].
Qed.
End Copies.

(** ** The updates *)
Lemma upd1_avg (po : popt RNum) r k (P dP dP' m ch : rpm) : dP' = mk (K := RNum) r k (fun i j => 1 * entry dP i j) -> pupd1 po r k P dP' m ch = pupd1 po r k P dP m ch.
Proof.
  intros ->. unfold pupd1. 
  assert (E : forall f (A : rpm), pmap2 r k f A (mk (K := RNum) r k (fun i j => 1 * entry dP i j)) = pmap2 r k f A dP).
  { intros f A. unfold pmap2. apply mk_ext. intros i j Hi Hj. rewrite entry_mk by assumption. f_equal. apply Rmult_1_l. }
  now rewrite !E.
Qed.
Lemma tstep_avg t g g' : times 1 (p_in (fst t)) (p_out (fst t)) g g' -> tstep (K := RNum) t g' = tstep t g.
Proof. intros (E1 & E2). unfold tstep, pupdate. now rewrite (upd1_avg _ _ _ _ _ _ _ _ E1), (upd1_avg _ _ _ _ _ _ _ _ E2). Qed.
Lemma next_faster t (po : popt RNum) : next_rate (faster t po) = t * next_rate po.
Proof. unfold next_rate. destruct po; simpl. destruct po_usedecay; [|reflexivity]. unfold rate_at. apply Rmult_assoc. Qed.
Lemma upd1_sum t (po : popt RNum) r k (P dP dP' m ch : rpm) : po_kind po = SGD -> dP' = mk (K := RNum) r k (fun i j => t * entry dP i j) ->
  pupd1 (faster t po) r k P dP m ch = pupd1 po r k P dP' m ch.
Proof.
  intros HK ->. unfold pupd1. rewrite next_faster. replace (po_kind (faster t po)) with (po_kind po) by reflexivity. rewrite HK.
  replace (po_usemom (faster t po)) with (po_usemom po) by reflexivity. replace (po_mom (faster t po)) with (po_mom po) by reflexivity.
  assert (E1 : pmap2 (K := RNum) r k (vel1 (po_mom po) (t * next_rate po)) m dP = pmap2 r k (vel1 (po_mom po) (next_rate po)) m (mk (K := RNum) r k (fun i j => t * entry dP i j))).
  { unfold pmap2. apply mk_ext. intros i j Hi Hj. rewrite entry_mk by assumption.
    change (entry m i j * po_mom po - entry dP i j * (t * next_rate po) = entry m i j * po_mom po - t * entry dP i j * next_rate po). ring. }
  assert (E2 : pmap2 (K := RNum) r k (sgd1 (t * next_rate po)) P dP = pmap2 r k (sgd1 (next_rate po)) P (mk (K := RNum) r k (fun i j => t * entry dP i j))).
  { unfold pmap2. apply mk_ext. intros i j Hi Hj. rewrite entry_mk by assumption.
    change (entry P i j - entry dP i j * (t * next_rate po) = entry P i j - t * entry dP i j * next_rate po). ring. }
  now rewrite E1, E2.
Qed.
Lemma tstep_sum t x g g' : po_kind (snd x) = SGD -> times t (p_in (fst x)) (p_out (fst x)) g g' -> tstep (K := RNum) (quicker t x) g = quicker t (tstep x g').
Proof.
  intros HK (E1 & E2). destruct x as (p & po). unfold tstep, pupdate, quicker. cbn [fst snd] in *.
  replace (po_wm (faster t po)) with (po_wm po) by reflexivity. replace (po_bm (faster t po)) with (po_bm po) by reflexivity.
  replace (po_wc (faster t po)) with (po_wc po) by reflexivity. replace (po_bc (faster t po)) with (po_bc po) by reflexivity.
  rewrite (upd1_sum t po _ _ _ _ _ _ _ HK E1), (upd1_sum t po _ _ _ _ _ _ _ HK E2).
  destruct (pupd1 po (p_in p) (p_out p) (p_w p) (fst g') (po_wm po) (po_wc po)) as ((W & wm) & wc).
  destruct (pupd1 po 1 (p_out p) (p_b p) (snd g') (po_bm po) (po_bc po)) as ((B & bm) & bc). cbn [fst snd]. f_equal.
  unfold po_after. rewrite next_faster. reflexivity.
Qed.
Lemma tstep_okind x g : po_kind (snd (tstep (K := RNum) x g)) = po_kind (snd x).
Proof. destruct x as (p & po). unfold tstep, pupdate. cbn [fst snd]. destruct (pupd1 po (p_in p) _ _ _ _ _) as ((W & wm) & wc). destruct (pupd1 po 1 _ _ _ _ _) as ((B & bm) & bc). reflexivity. Qed.
Lemma steps_avg gs gs' (ts : list (player RNum * popt RNum)) : all_times 1 (map fst ts) gs gs' ->
  map (fun tg => tstep (K := RNum) (fst tg) (snd tg)) (combine ts gs') = map (fun tg => tstep (fst tg) (snd tg)) (combine ts gs).
Proof.
  revert gs gs'. induction ts as [|x ts IH]; intros [|g gs] [|g' gs'] H; try (destruct H; fail); try reflexivity. destruct H as (H1 & H2).
  cbn [combine map fst snd]. now rewrite (tstep_avg x g g' H1), (IH gs gs' H2).
Qed.
Lemma steps_sum t gs gs' (ts : list (player RNum * popt RNum)) : List.Forall (fun x => po_kind (snd x) = SGD) ts -> all_times t (map fst ts) gs gs' ->
  map (fun tg => tstep (K := RNum) (fst tg) (snd tg)) (combine (map (quicker t) ts) gs) = map (quicker t) (map (fun tg => tstep (fst tg) (snd tg)) (combine ts gs')).
Proof.
  revert gs gs'. induction ts as [|x ts IH]; intros [|g gs] [|g' gs'] HF H; try (destruct H; fail); try reflexivity. destruct H as (H1 & H2). inversion HF; subst.
  cbn [combine map fst snd]. rewrite (tstep_sum t x g g') by assumption. now rewrite (IH gs gs').
Qed.
Lemma steps_okind gs (ts : list (player RNum * popt RNum)) : List.Forall (fun x => po_kind (snd x) = SGD) ts ->
  List.Forall (fun x => po_kind (snd x) = SGD) (map (fun tg => tstep (K := RNum) (fst tg) (snd tg)) (combine ts gs)).
Proof.
  intros H. revert gs. induction H as [|x ts Hx Ht IH]; intros [|g gs]; try constructor; cbn [fst snd]; [now rewrite tstep_okind|apply IH].
Qed.
Lemma map_fst_quicker t ts : map fst (map (quicker t) ts) = map fst ts.
Proof. rewrite map_map. apply map_ext. reflexivity. Qed.

(** ** Training *)
Section Train.
Variables (n c : nat) (X Y : rpm) (i o : nat).
Hypothesis Hn : (1 <= n)%nat.
Hypothesis Hc : (1 <= c)%nat.
Hypothesis HX : length X = n.
Hypothesis HY : length Y = n.
Lemma batch_times k (ts : list (player RNum * popt RNum)) U q U' q' : chain i (map fst ts) o -> List.Forall (fun l => p_kind l <> Dropout) (map fst ts) ->
  all_times (INR c * share c k) (map fst ts) (snd (pbackprop (K := RNum) k Y o (map fst ts) (length X) X U q))
    (snd (pbackprop (K := RNum) k (copies c Y) o (map fst ts) (length (copies c X)) (copies c X) U' q')).
Proof.
  intros HC HF. rewrite copies_length, HX.
  apply (ag_backprop n c Hn Hc k o Y (copies c Y) U U' (copies_again n c o Y HY) (map fst ts) i q q' X (copies c X) HC HF (copies_again n c i X HX)).
Qed.
Lemma train_avg k e : k = CE \/ k = BCE -> forall (ts : list (player RNum * popt RNum)) U q U' q', chain i (map fst ts) o -> List.Forall (fun l => p_kind l <> Dropout) (map fst ts) ->
  fst (ptrain_on (K := RNum) k o ts U' q' (repeat (copies c X, copies c Y) e)) = fst (ptrain_on (K := RNum) k o ts U q (repeat (X, Y) e)).
Proof.
  intros Hk. induction e as [|e IH]; intros ts U q U' q' HC HF; [reflexivity|]. cbn [repeat ptrain_on].
  assert (E : pbatch (K := RNum) k o ts (copies c X) (copies c Y) U' q' = pbatch (K := RNum) k o ts X Y U q).
  { unfold pbatch. apply steps_avg. pose proof (batch_times k ts U q U' q' HC HF) as HB.
    replace (INR c * share c k) with 1 in HB; [exact HB|]. pose proof (INRc n c Hn Hc). destruct Hk as [-> | ->]; simpl; field; lra. }
  rewrite E. destruct (batch_kept k o ts X Y U q i HC HF). now apply IH.
Qed.
Lemma train_sum k e : k = MSE \/ k = MAE -> forall (ts : list (player RNum * popt RNum)) U q U' q', chain i (map fst ts) o -> List.Forall (fun l => p_kind l <> Dropout) (map fst ts) ->
  List.Forall (fun x => po_kind (snd x) = SGD) ts ->
  fst (ptrain_on (K := RNum) k o (map (quicker (INR c)) ts) U q (repeat (X, Y) e)) =
  map (quicker (INR c)) (fst (ptrain_on (K := RNum) k o ts U' q' (repeat (copies c X, copies c Y) e))).
Proof.
  intros Hk. induction e as [|e IH]; intros ts U q U' q' HC HF HS; [reflexivity|]. cbn [repeat ptrain_on].
  assert (E : pbatch (K := RNum) k o (map (quicker (INR c)) ts) X Y U q = map (quicker (INR c)) (pbatch (K := RNum) k o ts (copies c X) (copies c Y) U' q')).
  { unfold pbatch. rewrite map_fst_quicker. apply steps_sum; [exact HS|]. pose proof (batch_times k ts U q U' q' HC HF) as HB.
    replace (INR c * share c k) with (INR c) in HB; [exact HB|]. destruct Hk as [-> | ->]; simpl; ring. }
  rewrite E. destruct (batch_kept k o ts (copies c X) (copies c Y) U' q' i HC HF). apply IH; try assumption. now apply steps_okind.
Qed.
End Train.

Lemma whole_epochs e n bs (X Y : rpm) : (1 <= n)%nat -> length X = n -> length Y = n -> (bs = 0 \/ Z.of_nat n <= bs)%Z -> epochs_of e (batch_rows n bs) X Y = repeat (X, Y) e.
Proof.
  intros Hn HX HY Hb. unfold epochs_of.
  assert (HW : forall (A : rpm), length A = n -> chunks (batch_rows n bs) A = [A]).
  { intros A HA. apply chunks_whole; [destruct A; simpl in *; [lia|discriminate]|]. unfold batch_rows. destruct (Z.eqb_spec bs 0); lia. }
  rewrite !HW by assumption. cbn [combine].
  assert (HR : forall A (x : A) m, concat (repeat [x] m) = repeat x m) by (intros A x0 m0; induction m0; simpl; congruence). apply HR.
Qed.

Section Fit.
Variables (s1 : state RNum) (m1 : model RNum) (es1 : list (lent RNum)) (xs1 : list (oent RNum)) (x1 : matrix) (rsx1 : list nat) (y1 : matrix) (rsy1 : list nat) (xv1 yv1 : matrix).
Variables (s2 : state RNum) (m2 : model RNum) (es2 : list (lent RNum)) (xs2 : list (oent RNum)) (x2 : matrix) (rsx2 : list nat) (y2 : matrix) (rsy2 : list nat) (xv2 yv2 : matrix).
Variables (i o : nat) (k : losskind) (n c : nat) (X Y : rpm) (epochs bs1 bs2 : Z).
Hypothesis Hb1 : (bs1 = 0 \/ Z.of_nat n <= bs1)%Z.
Hypothesis H1 : (Z.of_nat n + bs1 <= 2 ^ 52)%Z.
Hypothesis Hb2 : (bs2 = 0 \/ Z.of_nat (c * n) <= bs2)%Z.
Hypothesis H2 : (Z.of_nat (c * n) + bs2 <= 2 ^ 52)%Z.
Hypothesis Hn : (1 <= n)%nat.
Hypothesis Hc : (1 <= c)%nat.
Hypothesis HT1 : trainable s1 m1 es1 xs1 i o k.
Hypothesis HD1 : data_ok s1 es1 x1 rsx1 y1 rsy1 n i o X Y.
Hypothesis HT2 : trainable s2 m2 es2 xs2 i o k.
Hypothesis HD2 : data_ok s2 es2 x2 rsx2 y2 rsy2 (c * n) i o (copies c X) (copies c Y).
Hypothesis HND : List.Forall (fun e => p_kind (e_p e) <> Dropout) es2.
Lemma both_fit : exists s1' s2' es1' xs1' es2' xs2',
    Fit m1 x1 y1 epochs bs1 xv1 yv1 0 s1 = (Ret tt, s1') /\ Fit m2 x2 y2 epochs bs2 xv2 yv2 0 s2 = (Ret tt, s2') /\
    trainable s1' m1 es1' xs1' i o k /\ Forall2 same_place es1 es1' /\
    trainable s2' m2 es2' xs2' i o k /\ Forall2 same_place es2 es2' /\
    trainer es1' xs1' = fst (ptrain_on (K := RNum) k o (trainer es1 xs1) (r_uni (h_rng s1)) (r_upos (h_rng s1)) (repeat (X, Y) (Z.to_nat epochs))) /\
    trainer es2' xs2' = fst (ptrain_on (K := RNum) k o (trainer es2 xs2) (r_uni (h_rng s2)) (r_upos (h_rng s2)) (repeat (copies c X, copies c Y) (Z.to_nat epochs))).
Proof.
  destruct (fit_trains s1 m1 es1 xs1 i o k x1 rsx1 y1 rsy1 n X Y epochs bs1 xv1 yv1 RNum_min_faithful ltac:(lia) H1 Hn HT1 HD1)
    as ([] & s1' & E1 & nn1 & _ & (es1' & xs1' & HT1' & HPl1 & _ & Htr1 & _) & _).
  destruct (fit_trains s2 m2 es2 xs2 i o k x2 rsx2 y2 rsy2 (c * n) _ _ epochs bs2 xv2 yv2 RNum_min_faithful ltac:(lia) H2 ltac:(nia) HT2 HD2)
    as ([] & s2' & E2 & nn2 & _ & (es2' & xs2' & HT2' & HPl2 & _ & Htr2 & _) & _).
  exists s1', s2', es1', xs1', es2', xs2'. do 6 (split; [assumption|]).
  destruct HD1 as (HX & HY & _ & _). pose proof (own_shape _ _ _ _ _ _ HX) as (HXl & _). pose proof (own_shape _ _ _ _ _ _ HY) as (HYl & _).
  rewrite whole_epochs in Htr1 by assumption. rewrite whole_epochs in Htr2; [split; assumption|nia| | |exact Hb2]; rewrite copies_length; congruence.
Qed.
Lemma net2 : chain i (map fst (trainer es2 xs2)) o /\ List.Forall (fun l => p_kind l <> Dropout) (map fst (trainer es2 xs2)).
Proof.
  assert (HLx : length xs2 = length es2). { destruct HT2 as (_ & _ & _ & _ & _ & HO & _). symmetry. eapply Forall2_length; eauto. }
  rewrite (trainer_net es2 xs2 HLx). split; [apply HT2|]. unfold net. now rewrite List.Forall_map.
Qed.
Lemma lens : length X = n /\ length Y = n.
Proof. destruct HD1 as (HX & HY & _ & _). pose proof (own_shape _ _ _ _ _ _ HX) as (HXl & _). pose proof (own_shape _ _ _ _ _ _ HY) as (HYl & _). auto. Qed.
(** The cross-entropies average over the samples: training on several copies of the data ends where
    training on the data does. *)
Lemma fit_average : k = CE \/ k = BCE -> trainer es1 xs1 = trainer es2 xs2 -> exists s1' s2' es1' xs1' es2' xs2',
    Fit m1 x1 y1 epochs bs1 xv1 yv1 0 s1 = (Ret tt, s1') /\ Fit m2 x2 y2 epochs bs2 xv2 yv2 0 s2 = (Ret tt, s2') /\
    trainable s1' m1 es1' xs1' i o k /\ Forall2 same_place es1 es1' /\
    trainable s2' m2 es2' xs2' i o k /\ Forall2 same_place es2 es2' /\
    trainer es1' xs1' = trainer es2' xs2'.
Proof.
  intros Hk HE. destruct both_fit as (s1' & s2' & es1' & xs1' & es2' & xs2' & A1 & A2 & A3 & A4 & A5 & A6 & A7 & A8).
  exists s1', s2', es1', xs1', es2', xs2'. do 6 (split; [assumption|]). rewrite A7, A8, HE. destruct net2. destruct lens. symmetry. now apply train_avg with (n := n) (i := i).
Qed.
(** The squared and absolute errors add up over the samples: with gradient descent, training on [c] copies of
    the data ends where training on the data with [c] times the learning rate does. *)
Lemma fit_sum : k = MSE \/ k = MAE -> trainer es1 xs1 = map (quicker (INR c)) (trainer es2 xs2) ->
  List.Forall (fun x => po_kind (snd x) = SGD) (trainer es2 xs2) -> exists s1' s2' es1' xs1' es2' xs2',
    Fit m1 x1 y1 epochs bs1 xv1 yv1 0 s1 = (Ret tt, s1') /\ Fit m2 x2 y2 epochs bs2 xv2 yv2 0 s2 = (Ret tt, s2') /\
    trainable s1' m1 es1' xs1' i o k /\ Forall2 same_place es1 es1' /\
    trainable s2' m2 es2' xs2' i o k /\ Forall2 same_place es2 es2' /\
    trainer es1' xs1' = map (quicker (INR c)) (trainer es2' xs2').
Proof.
  intros Hk HE HS. destruct both_fit as (s1' & s2' & es1' & xs1' & es2' & xs2' & A1 & A2 & A3 & A4 & A5 & A6 & A7 & A8).
  exists s1', s2', es1', xs1', es2', xs2'. do 6 (split; [assumption|]). rewrite A7, A8, HE. destruct net2. destruct lens. now apply train_sum with (n := n) (i := i).
Qed.
End Fit.
