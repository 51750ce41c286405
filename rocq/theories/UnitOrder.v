(** * UnitOrder: in exact arithmetic the order of features, hidden units and outputs does not matter. *)
From Coq Require Import String ZArith List Bool Arith Lia Reals Lra Permutation.
From Verif Require Import Num NumR Heap Spec Matrix Loss Network Optimizers ModelGo PureSpec Repr HeapLemmas MatrixFacts MiscFacts RSum LayerReal LossProofs OptSpec ModelSpec FitProofs FitFacts RowOrder MiniBatch MiniFit EvalProofs ModelRefute UnitSpec.
Import ListNotations.
Open Scope R_scope.

Lemma ord_lt n p j : order n p -> (j < n)%nat -> (ord p j < n)%nat.
Proof. intros H. exact (sg_lt n p H j). Qed.
Lemma ord_inj n p j k : order n p -> (j < n)%nat -> (k < n)%nat -> ord p j = ord p k -> j = k.
Proof.
  intros H Hj Hk E. assert (HN : NoDup p) by (apply (Permutation_NoDup (Permutation_sym H)), seq_NoDup).
  assert (HL : length p = n) by (rewrite (Permutation_length H); apply seq_length).
  apply (proj1 (NoDup_nth p 0%nat) HN); try lia. exact E.
Qed.
Lemma ord_eqb n p j k : order n p -> (j < n)%nat -> (k < n)%nat -> (ord p j =? ord p k)%nat = (j =? k)%nat.
Proof.
  intros H Hj Hk. destruct (Nat.eqb_spec j k) as [->|Hne]; [apply Nat.eqb_refl|]. apply Nat.eqb_neq. intros E. apply Hne. now apply (ord_inj n p).
Qed.
Lemma rsum_ord n p g : order n p -> rsum n (fun i => g (ord p i)) = rsum n g.
Proof. exact (rsum_perm n p g). Qed.
Lemma order_length n p : order n p -> length p = n.
Proof. intros H. rewrite (Permutation_length H). apply seq_length. Qed.

Section Rows.
Variable n : nat.
(** The columns of [A'] are those of [A] in the order [p]. *)
Definition recol (c : nat) (p : list nat) (A A' : rpm) : Prop := forall i j, (i < n)%nat -> (j < c)%nat -> entry A' i j = entry A i (ord p j).
Lemma cols_recol c p (A : rpm) : order c p -> length A = n -> recol c p A (cols_by p A).
Proof.
  intros HP HL i j Hi Hj. unfold entry, cols_by.
  rewrite (nth_indep _ [] (pick (f0 : RNum) p [])) by (rewrite map_length; lia). rewrite (map_nth (pick (f0 : RNum) p)). unfold pick.
  rewrite (nth_indep _ _ (nth 0 (nth i A []) (f0 : RNum))) by (rewrite map_length, (order_length _ _ HP); lia).
  now rewrite (map_nth (fun k => nth k (nth i A []) (f0 : RNum))).
Qed.
Lemma recol_mk c p (f f' : nat -> nat -> R) : order c p -> (forall i j, (i < n)%nat -> (j < c)%nat -> f' i j = f i (ord p j)) -> recol c p (mk (K := RNum) n c f) (mk (K := RNum) n c f').
Proof. intros HP H i j Hi Hj. rewrite !entry_mk by (eauto using ord_lt). now apply H. Qed.
Lemma un_aff k c p q (X X' W B : rpm) : order k p -> order c q -> recol k p X X' -> recol c q (paff n k c X W B) (paff n k c X' (mat_by k c p q W) (mat_by 1 c [0%nat] q B)).
Proof.
  intros HP HQ H. apply recol_mk; [exact HQ|]. intros i j Hi Hj. unfold mat_by at 2. rewrite entry_mk by lia. cbn [ord nth]. f_equal.
  change (rsum k (fun m => entry X' i m * entry (mat_by k c p q W) m j) = rsum k (fun m => entry X i m * entry W m (ord q j))).
  rewrite <- (rsum_ord k p (fun m => entry X i m * entry W m (ord q j)) HP). apply rsum_ext. intros m Hm. unfold mat_by. rewrite entry_mk, H by assumption. reflexivity.
Qed.
Lemma un_map c q f (A A' : rpm) : order c q -> recol c q A A' -> recol c q (pmap n c f A) (pmap n c f A').
Proof. intros HQ H. apply recol_mk; [exact HQ|]. intros i j Hi Hj. now rewrite H. Qed.
Lemma un_map2 c q f (A A' B B' : rpm) : order c q -> recol c q A A' -> recol c q B B' -> recol c q (pmap2 n c f A B) (pmap2 n c f A' B').
Proof. intros HQ H1 H2. apply recol_mk; [exact HQ|]. intros i j Hi Hj. now rewrite H1, H2. Qed.
Lemma un_softmax c q (A A' : rpm) : order c q -> recol c q A A' -> recol c q (psoftmax n c A) (psoftmax n c A').
Proof.
  intros HQ H. apply recol_mk; [exact HQ|]. intros i j Hi Hj. rewrite H by auto. f_equal.
  change (rsum c (fun m => exp (entry A' i m)) = rsum c (fun m => exp (entry A i m))).
  rewrite <- (rsum_ord c q (fun m => exp (entry A i m)) HQ). apply rsum_ext. intros m Hm. now rewrite H.
Qed.
Lemma un_forward p q (l : player RNum) (X X' : rpm) : order (p_in l) p -> order (p_out l) q -> recol (p_in l) p X X' ->
  recol (p_out l) q (pforward l n X) (pforward (layer_by p q l) n X').
Proof.
  intros HP HQ H. unfold pforward, pact. pose proof (un_aff (p_in l) (p_out l) p q X X' (p_w l) (p_b l) HP HQ H) as HA.
  change (recol (p_out l) q (paffine l n X) (paffine (layer_by p q l) n X')) in HA.
  unfold act1. change (p_kind (layer_by p q l)) with (p_kind l). change (p_out (layer_by p q l)) with (p_out l). change (p_slope (layer_by p q l)) with (p_slope l).
  destruct (p_kind l); first [exact HA|now apply un_map|now apply un_softmax].
Qed.
Lemma un_train p q (l : player RNum) (X X' : rpm) u u' : p_kind l <> Dropout -> order (p_in l) p -> order (p_out l) q -> recol (p_in l) p X X' ->
  recol (p_out l) q (ptrain l n X u) (ptrain (layer_by p q l) n X' u').
Proof. intros HK HP HQ H. pose proof (un_forward p q l X X' HP HQ H) as HF. unfold ptrain. change (p_kind (layer_by p q l)) with (p_kind l). destruct (p_kind l); try exact HF. congruence. Qed.
Lemma un_softmax_back c q (O O' G G' : rpm) : order c q -> recol c q O O' -> recol c q G G' -> recol c q (psoftmax_back n c O G) (psoftmax_back n c O' G').
Proof.
  intros HQ H1 H2. apply recol_mk; [exact HQ|]. intros i j Hi Hj.
  change (rsum c (fun m => ((if (j =? m)%nat then entry O' i j else 0) - (0 + entry O' i j * entry O' i m)) * entry G' i m) =
    rsum c (fun m => ((if (ord q j =? m)%nat then entry O i (ord q j) else 0) - (0 + entry O i (ord q j) * entry O i m)) * entry G i m)).
  rewrite <- (rsum_ord c q (fun m => ((if (ord q j =? m)%nat then entry O i (ord q j) else 0) - (0 + entry O i (ord q j) * entry O i m)) * entry G i m) HQ).
  apply rsum_ext. intros m Hm. rewrite !H1, H2 by auto. rewrite (ord_eqb c q) by assumption. reflexivity.
Qed.
Lemma un_back p q (l : player RNum) (O O' G G' M M' : rpm) : p_kind l <> Dropout -> order (p_out l) q -> recol (p_out l) q O O' -> recol (p_out l) q G G' ->
  recol (p_out l) q (pback l n O M G) (pback (layer_by p q l) n O' M' G').
Proof.
  intros HK HQ H1 H2. unfold pback. change (p_kind (layer_by p q l)) with (p_kind l). change (p_out (layer_by p q l)) with (p_out l). change (p_slope (layer_by p q l)) with (p_slope l).
  destruct (p_kind l); try exact H2; first [now apply un_map2|now apply un_softmax_back|congruence].
Qed.
Lemma un_clipped b c q (A A' : rpm) : order c q -> recol c q A A' -> recol c q (clipped b n c A) (clipped b n c A').
Proof. intros HQ H. unfold clipped. destruct b; [now apply un_map|exact H]. Qed.
Lemma un_loss_back k c q (A A' Y Y' : rpm) : order c q -> recol c q A A' -> recol c q Y Y' -> recol c q (ploss_back k n c A Y) (ploss_back k n c A' Y').
Proof. intros HQ H1 H2. destruct k; apply recol_mk; try exact HQ; intros i j Hi Hj; now rewrite H1, H2. Qed.
Lemma un_ce_back c q (O O' Y Y' : rpm) : order c q -> recol c q O O' -> recol c q Y Y' -> recol c q (pce_back n c Y O) (pce_back n c Y' O').
Proof. intros HQ H1 H2. apply recol_mk; [exact HQ|]. intros i j Hi Hj; now rewrite H1, H2. Qed.
Lemma un_pre k (last : bool) p q (l : player RNum) o (Y Y' O O' G G' M M' : rpm) : p_kind l <> Dropout -> order (p_out l) q ->
  (last = true -> p_out l = o /\ recol o q Y Y') -> recol (p_out l) q O O' -> recol (p_out l) q G G' ->
  recol (p_out l) q (pre_grad k Y last l n O M G) (pre_grad k Y' last (layer_by p q l) n O' M' G').
Proof.
  intros HK HQ HL HO HG. unfold pre_grad. destruct last; [|now apply un_back]. destruct (HL eq_refl) as (HO1 & HY). rewrite <- HO1 in HY.
  change (fused k (layer_by p q l)) with (fused k l). change (p_out (layer_by p q l)) with (p_out l).
  destruct (fused k l); [now apply un_ce_back|apply un_back; auto; now apply un_clipped].
Qed.
Lemma un_dX k c p q (G G' W : rpm) : order k p -> order c q -> recol c q G G' -> recol k p (pdX n k c G W) (pdX n k c G' (mat_by k c p q W)).
Proof.
  intros HP HQ H. apply recol_mk; [exact HP|]. intros i j Hi Hj.
  change (rsum c (fun m => entry G' i m * entry (ptrans k c (mat_by k c p q W)) m j) = rsum c (fun m => entry G i m * entry (ptrans k c W) m (ord p j))).
  rewrite <- (rsum_ord c q (fun m => entry G i m * entry (ptrans k c W) m (ord p j)) HQ). apply rsum_ext. intros m Hm.
  unfold ptrans, mat_by. rewrite !entry_mk by (eauto using ord_lt). now rewrite H.
Qed.
Lemma un_dW k c p q (X X' G G' : rpm) : order k p -> order c q -> recol k p X X' -> recol c q G G' -> pdW n k c X' G' = mat_by k c p q (pdW n k c X G).
Proof.
  intros HP HQ H1 H2. unfold pdW, pdot. apply mk_ext. intros i j Hi Hj. rewrite entry_mk by (eauto using ord_lt). apply fsum_ext. intros m Hm.
  unfold ptrans. rewrite !entry_mk by (eauto using ord_lt). now rewrite H1, H2.
Qed.
Lemma un_sum c q (G G' : rpm) : order c q -> recol c q G G' -> psum0 n c G' = mat_by 1 c [0%nat] q (psum0 n c G).
Proof.
  intros HQ H. unfold psum0. apply mk_ext. intros i j Hi Hj. rewrite entry_mk; [|replace i with 0%nat by lia; cbn; lia|eauto using ord_lt].
  apply fsum_ext. intros m Hm. now apply H.
Qed.
End Rows.

(** ** Backpropagation *)
Definition grad_by (p q : list nat) (l : player RNum) (g : rpm * rpm) : rpm * rpm :=
  (mat_by (p_in l) (p_out l) p q (fst g), mat_by 1 (p_out l) [0%nat] q (snd g)).
Fixpoint grads_by (p : list nat) (qs : list (list nat)) (ps : list (player RNum)) (gs : list (rpm * rpm)) : list (rpm * rpm) :=
  match ps, qs, gs with
  | l :: ps', q :: qs', g :: gs' => grad_by p q l g :: grads_by q qs' ps' gs'
  | _, _, _ => []
  end.
Lemma net_by_fst ts : forall p qs, map fst (net_by (K := RNum) p qs ts) = layers_by p qs (map fst ts).
Proof. induction ts as [|t ts IH]; intros p [|q qs]; [reflexivity..|]. cbn [net_by map layers_by fst unit_by]. now rewrite IH. Qed.
Lemma last_cons {A} (x y : A) (l : list A) (d : A) : last (x :: y :: l) d = last (y :: l) d. Proof. reflexivity. Qed.
Lemma last_default {A} (l : list A) d d' : l <> [] -> last l d = last l d'.
Proof. induction l as [|x [|y l] IH]; intros H; [congruence|reflexivity|]. rewrite !last_cons. apply IH. discriminate. Qed.
Lemma last_step {A} (q p : A) (qs : list A) : last (q :: qs) p = last qs q.
Proof. destruct qs as [|r qs]; [reflexivity|]. rewrite last_cons. apply last_default. discriminate. Qed.
Lemma by_backprop n k o (Y Y' : rpm) U U' : forall ps i q q' p qs (X X' : rpm),
  chain i ps o -> List.Forall (fun l => p_kind l <> Dropout) ps -> orders ps qs -> order i p -> recol n i p X X' -> recol n o (last qs p) Y Y' ->
  recol n i p (fst (pbackprop k Y o ps n X U q)) (fst (pbackprop k Y' o (layers_by p qs ps) n X' U' q')) /\
  snd (pbackprop k Y' o (layers_by p qs ps) n X' U' q') = grads_by p qs ps (snd (pbackprop k Y o ps n X U q)).
Proof.
  induction ps as [|l t IH]; intros i w w' p qs X X' HC HF HO HP HX HY.
  - simpl in HC. subst i. inversion HO; subst. split; [|reflexivity]. now apply un_loss_back.
  - inversion HO as [|? q ? qs' Hq Hqs]; subst. destruct HC as (Hi & HC). inversion HF as [|? ? Hl Ht]; subst. cbn [pbackprop layers_by].
    pose proof (un_train n p q l X X' (from (K := RNum) U w) (from (K := RNum) U' w') Hl HP Hq HX) as HT.
    rewrite last_step in HY.
    specialize (IH (p_out l) (w + pdraws l n)%nat (w' + pdraws (layer_by p q l) n)%nat q qs' _ _ HC Ht Hqs Hq HT HY).
    destruct (pbackprop k Y o t n (ptrain l n X (from U w)) U (w + pdraws l n)) as (G & gs).
    destruct (pbackprop k Y' o (layers_by q qs' t) n (ptrain (layer_by p q l) n X' (from U' w')) U' (w' + pdraws (layer_by p q l) n)) as (G' & gs').
    cbn [fst snd] in *. destruct IH as (HG & ->).
    assert (EM : match layers_by q qs' t with [] => true | _ => false end = match t with [] => true | _ => false end) by (inversion Hqs; reflexivity).
    rewrite EM.
    assert (HPre : recol n (p_out l) q
      (pre_grad k Y (match t with [] => true | _ => false end) l n (ptrain l n X (from (K := RNum) U w)) (ptrain_mask l n (from (K := RNum) U w)) G)
      (pre_grad k Y' (match t with [] => true | _ => false end) (layer_by p q l) n (ptrain (layer_by p q l) n X' (from (K := RNum) U' w')) (ptrain_mask (layer_by p q l) n (from (K := RNum) U' w')) G')).
    { apply un_pre with (o := o); auto. destruct t; [|discriminate]. intros _. inversion Hqs; subst. simpl in HC. split; [exact HC|exact HY]. }
    split; [now apply un_dX|]. cbn [grads_by]. f_equal. unfold grad_by. cbn [fst snd]. f_equal; [now apply un_dW|now apply un_sum].
Qed.

(** ** Updates *)
Lemma by_map2 r c p q f (A B : rpm) : order r p -> order c q -> pmap2 r c f (mat_by r c p q A) (mat_by r c p q B) = mat_by r c p q (pmap2 r c f A B).
Proof. intros HP HQ. unfold pmap2, mat_by. apply mk_ext. intros i j Hi Hj. rewrite !entry_mk by (eauto using ord_lt). reflexivity. Qed.
Lemma by_upd1 a b r c p q (po : popt RNum) (P dP m ch : rpm) x y : order r p -> order c q ->
  pupd1 (opt_by x y a b po) r c (mat_by r c p q P) (mat_by r c p q dP) (mat_by r c p q m) (mat_by r c p q ch) =
  (let '(P', m', ch') := pupd1 po r c P dP m ch in (mat_by r c p q P', mat_by r c p q m', mat_by r c p q ch')).
Proof.
  intros HP HQ. unfold pupd1. change (next_rate (opt_by x y a b po)) with (next_rate po).
  change (po_kind (opt_by x y a b po)) with (po_kind po). change (po_usemom (opt_by x y a b po)) with (po_usemom po).
  change (po_mom (opt_by x y a b po)) with (po_mom po). change (po_b1 (opt_by x y a b po)) with (po_b1 po). change (po_b2 (opt_by x y a b po)) with (po_b2 po).
  change (po_iter (opt_by x y a b po)) with (po_iter po). change (po_eps (opt_by x y a b po)) with (po_eps po).
  destruct (po_kind po); [destruct (po_usemom po)|]; rewrite ?by_map2 by assumption; try reflexivity. f_equal. f_equal.
  unfold mat_by at 1 2 3 4. apply mk_ext. intros i j Hi Hj. rewrite !entry_mk by (eauto using ord_lt). reflexivity.
Qed.
Lemma order_1 : order 1 [0%nat]. Proof. apply Permutation_refl. Qed.
Lemma by_tstep p q (t : player RNum * popt RNum) g : order (p_in (fst t)) p -> order (p_out (fst t)) q ->
  tstep (K := RNum) (unit_by p q t) (grad_by p q (fst t) g) = unit_by p q (tstep t g).
Proof.
  intros HP HQ. destruct t as (l & po). unfold tstep, pupdate, unit_by, grad_by. cbn [fst snd] in *.
  change (p_in (layer_by p q l)) with (p_in l). change (p_out (layer_by p q l)) with (p_out l).
  change (p_w (layer_by p q l)) with (mat_by (p_in l) (p_out l) p q (p_w l)). change (p_b (layer_by p q l)) with (mat_by 1 (p_out l) [0%nat] q (p_b l)).
  change (po_wm (opt_by p q (p_in l) (p_out l) po)) with (mat_by (p_in l) (p_out l) p q (po_wm po)).
  change (po_wc (opt_by p q (p_in l) (p_out l) po)) with (mat_by (p_in l) (p_out l) p q (po_wc po)).
  change (po_bm (opt_by p q (p_in l) (p_out l) po)) with (mat_by 1 (p_out l) [0%nat] q (po_bm po)).
  change (po_bc (opt_by p q (p_in l) (p_out l) po)) with (mat_by 1 (p_out l) [0%nat] q (po_bc po)).
  rewrite by_upd1 by assumption. rewrite by_upd1 by (auto using order_1).
  destruct (pupd1 po (p_in l) (p_out l) (p_w l) (fst g) (po_wm po) (po_wc po)) as ((W & wm) & wc).
  destruct (pupd1 po 1 (p_out l) (p_b l) (snd g) (po_bm po) (po_bc po)) as ((B & bm) & bc). reflexivity.
Qed.
Lemma by_steps : forall ts i p qs gs o, chain i (map fst ts) o -> orders (map fst ts) qs -> order i p -> length gs = length ts ->
  map (fun tg => tstep (K := RNum) (fst tg) (snd tg)) (combine (net_by p qs ts) (grads_by p qs (map fst ts) gs)) =
  net_by p qs (map (fun tg => tstep (fst tg) (snd tg)) (combine ts gs)).
Proof.
  induction ts as [|t ts IH]; intros i p qs gs o HC HO HP HL; [inversion HO; reflexivity|]. destruct gs as [|g gs]; [discriminate|].
  inversion HO as [|? q ? qs' Hq Hqs]; subst. destruct HC as (Hi & HC). subst i. cbn [net_by map fst snd grads_by combine]. rewrite by_tstep by assumption. f_equal.
  apply (IH (p_out (fst t)) q qs' gs o); auto.
Qed.
Lemma backprop_len k (Y : rpm) o n U : forall ps q (X : rpm), length (snd (pbackprop (K := RNum) k Y o ps n X U q)) = length ps.
Proof. induction ps as [|l t IH]; intros q X; [reflexivity|]. cbn [pbackprop]. specialize (IH (q + pdraws l n)%nat (ptrain l n X (from U q))). destruct (pbackprop _ _ _ t _ _ _ _) as (G & gs). simpl in *. congruence. Qed.
Lemma by_batch k o i ts p qs (X Y : rpm) U q U' q' : chain i (map fst ts) o -> List.Forall (fun l => p_kind l <> Dropout) (map fst ts) ->
  orders (map fst ts) qs -> order i p -> order o (last qs p) -> length X = length Y ->
  pbatch (K := RNum) k o (net_by p qs ts) (cols_by p X) (cols_by (last qs p) Y) U' q' = net_by p qs (pbatch (K := RNum) k o ts X Y U q).
Proof.
  intros HC HF HO HP HOo HL. unfold pbatch. rewrite net_by_fst. replace (length (cols_by p X)) with (length X) by (unfold cols_by; now rewrite map_length).
  destruct (by_backprop (length X) k o Y (cols_by (last qs p) Y) U U' (map fst ts) i q q' p qs X (cols_by p X) HC HF HO HP (cols_recol _ i p X HP eq_refl) (cols_recol _ o (last qs p) Y HOo (eq_sym HL))) as (_ & E).
  rewrite E. apply by_steps with (i := i) (o := o); auto. now rewrite backprop_len, map_length.
Qed.
Lemma last_order : forall ps i o qs p, chain i ps o -> orders (K := RNum) ps qs -> order i p -> order o (last qs p).
Proof.
  induction ps as [|l ps IH]; intros i o qs p HC HO HP; inversion HO as [|? q ? qs' Hq Hqs]; subst.
  - simpl in *. now subst.
  - destruct HC as (Hi & HC). rewrite last_step. now apply (IH (p_out l)).
Qed.
Lemma orders_batch k o ts (X Y : rpm) U q qs : orders (map fst ts) qs -> orders (map fst (pbatch (K := RNum) k o ts X Y U q)) qs.
Proof.
  unfold pbatch. assert (HL : length (snd (pbackprop (K := RNum) k Y o (map fst ts) (length X) X U q)) = length ts) by now rewrite backprop_len, map_length.
  revert HL. generalize (snd (pbackprop (K := RNum) k Y o (map fst ts) (length X) X U q)) as gs. revert qs.
  induction ts as [|t ts IH]; intros qs [|g gs] HL H; try discriminate; [exact H|]. cbn [map combine fst snd]. inversion H as [|? w ? ws Hw Hws]; subst. constructor.
  - destruct (tstep_kind t g) as (_ & _ & E). now rewrite E.
  - apply IH; auto.
Qed.
Lemma by_train k o i p qs U U' : order i p -> forall bs ts q q', chain i (map fst ts) o -> List.Forall (fun l => p_kind l <> Dropout) (map fst ts) -> orders (map fst ts) qs ->
  List.Forall (fun b => length (fst b) = length (snd b)) bs ->
  fst (ptrain_on (K := RNum) k o (net_by p qs ts) U' q' (map (fun b => (cols_by p (fst b), cols_by (last qs p) (snd b))) bs)) = net_by p qs (fst (ptrain_on (K := RNum) k o ts U q bs)).
Proof.
  intros HP. induction bs as [|(X & Y) bs IH]; intros ts q q' HC HF HO HB; [reflexivity|]. inversion HB as [|? ? HXY HB']; subst. cbn [map ptrain_on fst snd] in *.
  rewrite (by_batch k o i ts p qs X Y U q U' q') by (auto; eapply last_order; eauto).
  destruct (batch_kept k o ts X Y U q i HC HF). apply IH; auto. now apply orders_batch.
Qed.
(** Predictions. *)
Lemma by_pnet r : forall ps i o p qs (X X' : rpm), chain i ps o -> orders ps qs -> order i p -> recol r i p X X' -> recol r o (last qs p) (pnet ps r X) (pnet (layers_by p qs ps) r X').
Proof.
  induction ps as [|l ps IH]; intros i o p qs X X' HC HO HP HX; inversion HO as [|? q ? qs' Hq Hqs]; subst.
  - simpl in *. now subst.
  - destruct HC as (Hi & HC). subst i. rewrite last_step. cbn [layers_by]. unfold pnet. cbn [fold_left]. apply (IH (p_out l)); auto. now apply un_forward.
Qed.
Lemma cols_mk r c q (f : nat -> nat -> R) : order c q -> cols_by q (mk (K := RNum) r c f) = mk (K := RNum) r c (fun i j => f i (ord q j)).
Proof.
  intros HQ. unfold cols_by, mk. rewrite map_map. apply map_ext. intros i. unfold pick.
  rewrite (map_ext_in _ (f i)); [|intros k Hk; apply (Permutation_in _ HQ), in_seq in Hk; rewrite nth_map_seq by lia; reflexivity].
  apply nth_ext with (d := f i 0%nat) (d' := f i (ord q 0%nat)); [now rewrite !map_length, seq_length, (order_length _ _ HQ)|].
  intros j Hj. rewrite map_length, (order_length _ _ HQ) in Hj. rewrite (map_nth (f i)).
  rewrite (nth_indep _ _ (f i (ord q c))) by (rewrite map_length, seq_length; exact Hj). rewrite (nth_map_seq (fun j => f i (ord q j))) by exact Hj. reflexivity.
Qed.
Lemma shape_eq r c (A B : rpm) : shape r c A -> shape r c B -> (forall i j, (i < r)%nat -> (j < c)%nat -> entry A i j = entry B i j) -> A = B.
Proof. intros HA HB H. now apply (shape_ext r c). Qed.

(** ** Fit *)
Lemma chunks_map {A B} (f : A -> B) b : forall n l, chunks_fuel n b (map f l) = map (map f) (chunks_fuel n b l).
Proof. induction n as [|n IH]; intros [|a l]; try reflexivity. cbn [map chunks_fuel]. rewrite <- (map_cons f a l), firstn_map, skipn_map, IH. reflexivity. Qed.
Lemma epochs_by e b p q (X Y : rpm) : epochs_of (K := RNum) e b (cols_by p X) (cols_by q Y) = map (fun c => (cols_by p (fst c), cols_by q (snd c))) (epochs_of (K := RNum) e b X Y).
Proof.
  unfold epochs_of, chunks, cols_by. rewrite !map_length, !chunks_map.
  assert (HCm : forall (l l' : list rpm), combine (map (map (pick (f0 : RNum) p)) l) (map (map (pick (f0 : RNum) q)) l') = map (fun c => (map (pick (f0 : RNum) p) (fst c), map (pick (f0 : RNum) q) (snd c))) (combine l l')).
  { induction l as [|a l IH]; intros [|a' l']; try reflexivity. cbn [map combine fst snd]. now rewrite IH. }
  rewrite HCm. induction e as [|e IH]; [reflexivity|]. cbn [repeat concat]. rewrite map_app, IH. reflexivity.
Qed.
Lemma epochs_paired e b (X Y : rpm) : (1 <= b)%nat -> length X = length Y -> List.Forall (fun c => length (fst c) = length (snd c)) (epochs_of (K := RNum) e b X Y).
Proof.
  intros Hb HL. apply List.Forall_forall. intros c HI. unfold epochs_of in HI. apply in_concat in HI as (cs & HI1 & HI2). apply repeat_spec in HI1. subst cs.
  destruct (MiniFit.joined_chunks b X Y Hb HL) as (_ & HP). unfold MiniFit.paired in HP. rewrite List.Forall_forall in HP. destruct c as (x & y). exact (eq_sym (HP _ HI2)).
Qed.
Lemma fit_unit_order s1 m1 es1 xs1 x1 rsx1 y1 rsy1 xv1 yv1 s2 m2 es2 xs2 x2 rsx2 y2 rsy2 xv2 yv2 i o k n p qs (X Y : rpm) epochs bs :
  (0 <= bs)%Z -> (Z.of_nat n + bs <= 2 ^ 52)%Z -> (1 <= n)%nat -> order i p -> orders (net es1) qs ->
  trainable s1 m1 es1 xs1 i o k -> data_ok s1 es1 x1 rsx1 y1 rsy1 n i o X Y ->
  trainable s2 m2 es2 xs2 i o k -> data_ok s2 es2 x2 rsx2 y2 rsy2 n i o (cols_by p X) (cols_by (last qs p) Y) ->
  List.Forall (fun e => p_kind (e_p e) <> Dropout) es1 -> trainer es2 xs2 = net_by p qs (trainer es1 xs1) ->
  exists s1' s2' es1' xs1' es2' xs2',
    Fit m1 x1 y1 epochs bs xv1 yv1 0 s1 = (Ret tt, s1') /\ Fit m2 x2 y2 epochs bs xv2 yv2 0 s2 = (Ret tt, s2') /\
    trainable s1' m1 es1' xs1' i o k /\ Forall2 same_place es1 es1' /\
    trainable s2' m2 es2' xs2' i o k /\ Forall2 same_place es2 es2' /\
    trainer es2' xs2' = net_by p qs (trainer es1' xs1').
Proof.
  intros Hb1 H1 Hn HP HO HT1 HD1 HT2 HD2 HND HE.
  destruct (fit_trains s1 m1 es1 xs1 i o k x1 rsx1 y1 rsy1 n X Y epochs bs xv1 yv1 RNum_min_faithful Hb1 H1 Hn HT1 HD1)
    as ([] & s1' & E1 & nn1 & _ & (es1' & xs1' & HT1' & HPl1 & _ & Htr1 & _) & _).
  destruct (fit_trains s2 m2 es2 xs2 i o k x2 rsx2 y2 rsy2 n _ _ epochs bs xv2 yv2 RNum_min_faithful Hb1 H1 Hn HT2 HD2)
    as ([] & s2' & E2 & nn2 & _ & (es2' & xs2' & HT2' & HPl2 & _ & Htr2 & _) & _).
  exists s1', s2', es1', xs1', es2', xs2'. do 6 (split; [assumption|]).
  destruct HD1 as (HX & HY & _ & _). pose proof (own_shape _ _ _ _ _ _ HX) as (HXl & _). pose proof (own_shape _ _ _ _ _ _ HY) as (HYl & _).
  assert (HLx : length xs1 = length es1). { destruct HT1 as (_ & _ & _ & _ & _ & HOo & _). symmetry. eapply Forall2_length; eauto. }
  rewrite Htr1, Htr2, HE, epochs_by. apply by_train with (i := i).
  - exact HP.
  - rewrite (trainer_net es1 xs1 HLx). apply HT1.
  - rewrite (trainer_net es1 xs1 HLx). unfold net. now rewrite List.Forall_map.
  - rewrite (trainer_net es1 xs1 HLx). exact HO.
  - apply epochs_paired; [unfold batch_rows; destruct (Z.eqb_spec bs 0); lia|congruence].
Qed.

(** ** Predictions and losses *)
Lemma pnet_shape r : forall ps i o (X : rpm), chain i ps o -> shape r i X -> shape r o (pnet (K := RNum) ps r X).
Proof.
  induction ps as [|l ps IH]; intros i o X HC HX; [simpl in *; now subst|]. destruct HC as (Hi & HC). subst i. unfold pnet. cbn [fold_left]. apply (IH (p_out l)); [exact HC|]. apply LayerProofs.shape_pforward.
Qed.
Lemma cols_shape r c p (A : rpm) : order c p -> length A = r -> shape r c (cols_by p A).
Proof. intros HP HL. split; [unfold cols_by; now rewrite map_length|]. apply List.Forall_forall. intros row HI. unfold cols_by in HI. apply in_map_iff in HI as (row0 & <- & _). unfold pick. now rewrite map_length, (order_length _ _ HP). Qed.
Lemma pnet_by r ps i o p qs (X : rpm) : chain i ps o -> orders ps qs -> order i p -> shape r i X -> chain i (layers_by p qs ps) o ->
  pnet (layers_by p qs ps) r (cols_by p X) = cols_by (last qs p) (pnet ps r X).
Proof.
  intros HC HO HP HX HC2. destruct (pnet_shape r ps i o X HC HX) as (HL & HR). pose proof (last_order ps i o qs p HC HO HP) as HOo. apply (shape_ext r o).
  - apply pnet_shape with (i := i); [exact HC2|]. apply cols_shape; [exact HP|apply HX].
  - apply cols_shape; assumption.
  - intros a j Ha Hj. rewrite (cols_recol r o (last qs p) _ HOo HL a j Ha Hj). apply (by_pnet r ps i o p qs X (cols_by p X) HC HO HP); auto. apply cols_recol; [exact HP|apply HX].
Qed.
Lemma ploss_by k r c q (A A' Y Y' : rpm) : (1 <= r)%nat -> order c q -> recol r c q A A' -> recol r c q Y Y' -> ploss (K := RNum) k r c A' Y' = ploss k r c A Y.
Proof.
  intros Hr HQ H1 H2.
  assert (HS : forall g g' : nat -> R, (forall j, (j < c)%nat -> g' j = g (ord q j)) -> fsum (K := RNum) c g' = fsum (K := RNum) c g).
  { intros g g' Hg. change (rsum c g' = rsum c g). rewrite <- (rsum_ord c q g HQ). now apply rsum_ext. }
  destruct k; unfold ploss.
  - unfold pmse. f_equal. apply HS. intros j Hj. now rewrite H1, H2.
  - unfold pmae. f_equal. apply HS. intros j Hj. now rewrite H1, H2.
  - unfold pce. apply fsum_ext. intros a Ha. f_equal. f_equal. f_equal. apply HS. intros j Hj. now rewrite H1, H2.
  - unfold pbce, csum.
    assert (HF : forall (g : nat -> R) l (z : R), fold_left (fun (s : RNum) j => fadd s (g j : RNum)) l z = z + fold_left (fun (s : RNum) j => fadd s (g j : RNum)) l (0 : R)).
    { intros g. induction l as [|a l IH]; intros z; cbn [fold_left]; [change (z = z + 0); lra|]. rewrite IH, (IH (fadd (n := RNum) 0%R (g a))).
      change (z + g a + fold_left (fun (s : RNum) j => fadd s (g j : RNum)) l 0 = z + (0 + g a + fold_left (fun (s : RNum) j => fadd s (g j : RNum)) l 0)). lra. }
    assert (HG : forall (f f' : nat -> nat -> R), (forall a j, (a < r)%nat -> (j < c)%nat -> f' a j = f a (ord q j)) -> forall l (z : R), (forall a, In a l -> (a < r)%nat) ->
      fold_left (fun (s : RNum) a => fold_left (fun (s : RNum) j => fadd s (f' a j : RNum)) (seq 0 c) s) l z = fold_left (fun (s : RNum) a => fold_left (fun (s : RNum) j => fadd s (f a j : RNum)) (seq 0 c) s) l z).
    { intros f f' Hf. induction l as [|a l IH]; intros z Hl; [reflexivity|]. cbn [fold_left].
      replace (fold_left (fun (s : RNum) j => fadd s (f' a j : RNum)) (seq 0 c) z) with (fold_left (fun (s : RNum) j => fadd s (f a j : RNum)) (seq 0 c) z); [apply IH; intros; apply Hl; now right|].
      rewrite (HF (f a)), (HF (f' a)). f_equal. symmetry. apply (HS (f a) (f' a)). intros j Hj. apply Hf; [apply Hl; now left|exact Hj]. }
    apply HG; [|intros a Ha; apply in_seq in Ha; lia]. intros a j Ha Hj. now rewrite H1, H2.
Qed.
Lemma predict_by s1 m1 es1 x1 rsx1 s2 m2 es2 x2 rsx2 i o p qs r (X : rpm) :
  consistent s1 m1 es1 i o -> consistent s2 m2 es2 i o -> (1 <= length es1)%nat -> order i p -> orders (net es1) qs -> net es2 = layers_by p qs (net es1) ->
  m_acctype m1 = 0%Z -> m_acctype m2 = 0%Z -> (1 <= r)%nat -> own s1 x1 rsx1 r i X -> own s2 x2 rsx2 r i (cols_by p X) ->
  exists P1 P2 s1' s2' rs1 rs2 P, Predict m1 x1 s1 = (Ret P1, s1') /\ Predict m2 x2 s2 = (Ret P2, s2') /\
    own s1' P1 rs1 r o P /\ own s2' P2 rs2 r o (cols_by (last qs p) P).
Proof.
  intros HC1 HC2 HL HP HO HN A1 A2 Hr HX1 HX2.
  assert (HL2 : (1 <= length es2)%nat). { apply (f_equal (@length _)) in HN. unfold net in HN. rewrite map_length in HN. destruct es1 as [|e es1]; [simpl in HL; lia|]. inversion HO; subst. cbn in HN. lia. }
  destruct (ModelRefute.predict_spec s1 m1 es1 i o x1 rsx1 r X o (pnet (net es1) r X) HC1 HL ltac:(now rewrite A1) HX1 Hr) as (P1 & s1' & E1 & rs1 & O1 & _).
  destruct (ModelRefute.predict_spec s2 m2 es2 i o x2 rsx2 r _ o (pnet (net es2) r (cols_by p X)) HC2 HL2 ltac:(now rewrite A2) HX2 Hr) as (P2 & s2' & E2 & rs2 & O2 & _).
  exists P1, P2, s1', s2', rs1, rs2, (pnet (net es1) r X). do 3 (split; [assumption|]).
  assert (HCh : chain i (layers_by p qs (net es1)) o) by (rewrite <- HN; apply HC2). rewrite HN in O2. rewrite (pnet_by r (net es1) i o p qs X) in O2; auto; [apply HC1|]. eapply own_shape; eauto.
Qed.
Lemma loss_by s1 m1 es1 x1 rsx1 y1 rsy1 s2 m2 es2 x2 rsx2 y2 rsy2 i o k p qs r (X Y : rpm) :
  consistent s1 m1 es1 i o -> consistent s2 m2 es2 i o -> (1 <= length es1)%nat -> order i p -> orders (net es1) qs -> net es2 = layers_by p qs (net es1) ->
  m_loss m1 = Some (MkLoss k (Z.of_nat o)) -> m_loss m2 = Some (MkLoss k (Z.of_nat o)) -> (1 <= r)%nat -> own s1 x1 rsx1 r i X -> own s2 x2 rsx2 r i (cols_by p X) ->
  own s1 y1 rsy1 r o Y -> own s2 y2 rsy2 r o (cols_by (last qs p) Y) ->
  exists v s1' s2', CalculateLoss m1 x1 y1 s1 = (Ret v, s1') /\ CalculateLoss m2 x2 y2 s2 = (Ret v, s2').
Proof.
  intros HC1 HC2 HL HP HO HN A1 A2 Hr HX1 HX2 HY1 HY2.
  assert (HL2 : (1 <= length es2)%nat). { apply (f_equal (@length _)) in HN. unfold net in HN. rewrite map_length in HN. destruct es1 as [|e es1]; [simpl in HL; lia|]. inversion HO; subst. cbn in HN. lia. }
  pose proof (EvalProofs.wp_CalculateLoss s1 m1 es1 i o k x1 rsx1 y1 rsy1 r X Y HC1 HL A1 HX1 HY1 Hr) as W1. apply returns_wp in W1. destruct W1 as (v1 & s1' & E1 & -> & _).
  pose proof (EvalProofs.wp_CalculateLoss s2 m2 es2 i o k x2 rsx2 y2 rsy2 r _ _ HC2 HL2 A2 HX2 HY2 Hr) as W2. apply returns_wp in W2. destruct W2 as (v2 & s2' & E2 & -> & _).
  do 3 eexists. split; [exact E1|]. rewrite E2. f_equal. f_equal. rewrite HN. pose proof (own_shape _ _ _ _ _ _ HX1) as SX. pose proof (own_shape _ _ _ _ _ _ HY1) as SY.
  assert (HOo : order o (last qs p)) by (apply (last_order (net es1) i); auto; apply HC1).
  apply (ploss_by k r o (last qs p)); auto; [|apply cols_recol; [exact HOo|apply SY]].
  apply (by_pnet r (net es1) i o p qs); auto; [apply HC1|]. apply cols_recol; [exact HP|apply SX].
Qed.
