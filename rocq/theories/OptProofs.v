(** * OptProofs: Optimizer.Update refines the plain recurrences. *)
From Coq Require Import String ZArith List Bool Arith Lia.
From Verif Require Import Num Heap Spec Matrix Network Optimizers PureSpec Repr OptSpec
  HeapLemmas LoopLemmas MatrixProofs LayerProofs MatrixFacts LossProofs LossCode.
Import ListNotations.
Open Scope Z_scope.
Open Scope go_scope.

Section WithNum.
Context {K : Num}.
Implicit Types s : state K.

(** Nothing that existed changed, except that optimizer [oref] is now [o']. *)
Definition oext oref s s' (o' : optimizer K) : Prop :=
  frame nothing s s' /\ rest3 s s' /\ h_opts s' = upd oref o' (h_opts s).

Lemma upd_upd {A} k (x y : A) l : upd k x (upd k y l) = upd k x l.
Proof.
  revert k. induction l as [|a l IH]; intros [|k]; simpl; auto. now rewrite IH.
Qed.
Lemma upd_self {A} k (x : A) l : nth_error l k = Some x -> upd k x l = l.
Proof. revert k. induction l as [|a l IH]; intros [|k]; simpl; intros H; try discriminate; [now injection H as ->|]. now rewrite IH. Qed.
Lemma nth_upd_eq {A} k (x y : A) l : nth_error l k = Some y -> nth_error (upd k x l) k = Some x.
Proof. revert k. induction l as [|a l IH]; intros [|k]; simpl; intros H; try discriminate; auto. Qed.

Lemma oext_refl oref s o : nth_error (h_opts s) oref = Some o -> oext oref s s o.
Proof. intros H. split; [apply frame_refl|]. split; [repeat split|]. now rewrite upd_self. Qed.
Lemma oext_ext oref s s1 s2 o : oext oref s s1 o -> ext s1 s2 -> oext oref s s2 o.
Proof.
  intros (HF & (R1&R2&R3&R4) & HO) (HF2 & (Q1&Q2&Q3&Q4&Q5)). split; [|split].
  - eapply frame_trans; [exact HF|exact HF2|]. intros ? _ [[]|[]].
  - repeat split; congruence.
  - congruence.
Qed.
Lemma oext_get oref s s1 o o1 : nth_error (h_opts s) oref = Some o -> oext oref s s1 o1 -> get_opt oref s1 = (Ret o1, s1).
Proof. intros H (_ & _ & HO). unfold get_opt. rewrite HO. erewrite nth_upd_eq by eauto. reflexivity. Qed.
Lemma oext_put oref s s1 o1 o2 : oext oref s s1 o1 ->
  oext oref s (with_opts s1 (upd oref o2 (h_opts s1))) o2.
Proof.
  intros (HF & (R1&R2&R3&R4) & HO). split; [exact HF|]. split; [repeat split; assumption|].
  simpl. rewrite HO. apply upd_upd.
Qed.
Lemma own_oext oref s s1 o1 m rs r c A : own s m rs r c A -> oext oref s s1 o1 -> own s1 m rs r c A.
Proof. intros H (HF & _). eapply own_frame; [exact H|exact HF|]. intros ? _ []. Qed.
Lemma fresh_oext oref s s1 o1 s2 m rs r c A : oext oref s s1 o1 -> fresh_mat s1 s2 m rs r c A -> fresh_mat s s2 m rs r c A.
Proof. intros (HF & _). apply fresh_mat_mono'  with (W := nothing). exact HF. Qed.
Lemma fresh_mat_own s s1 m rs r c A : fresh_mat s s1 m rs r c A -> own s1 m rs r c A. Proof. intros H; apply H. Qed.

(** One matrix operation producing a fresh result. *)
Lemma oext_fresh {B} oref s s1 o1 (m : M K matrix) r c A (k : matrix -> M K B) (Q : B -> state K -> Prop) :
  oext oref s s1 o1 -> wp m s1 (fresh_result s1 r c A) ->
  (forall x rs s2, fresh_mat s s2 x rs r c A -> own s2 x rs r c A -> ext s1 s2 -> oext oref s s2 o1 -> wp (k x) s2 Q) ->
  wp (bind m k) s1 Q.
Proof.
  intros HO Hm Hk. apply wp_bind. eapply wp_conseq; [exact Hm|]. cbv beta. intros x s2 (rs & HM & HE).
  eapply Hk; eauto using fresh_oext, oext_ext. apply HM.
Qed.
Lemma oext_getopt {B} oref s s1 o o1 (k : optimizer K -> M K B) Q :
  nth_error (h_opts s) oref = Some o -> oext oref s s1 o1 -> wp (k o1) s1 Q -> wp (bind (get_opt oref) k) s1 Q.
Proof. intros H HO Hk. apply wp_bind. eapply wp_eq; [eapply oext_get; eauto|exact Hk]. Qed.
Lemma oext_putopt {B} oref s s1 o1 o2 (k : unit -> M K B) Q :
  oext oref s s1 o1 ->
  (forall s2, oext oref s s2 o2 -> (forall m rs r c A, own s1 m rs r c A -> own s2 m rs r c A) ->
     (forall m rs r c A, fresh_mat s s1 m rs r c A -> fresh_mat s s2 m rs r c A) -> wp (k tt) s2 Q) ->
  wp (bind (put_opt oref o2) k) s1 Q.
Proof.
  intros HO Hk. apply wp_bind. unfold put_opt, wp. apply Hk; [eapply oext_put; eauto| |]; intros m rs r c A H; exact H.
Qed.
Lemma oext_assign {B} oref s s1 o o1 set (e : M K matrix) r c A (k : unit -> M K B) Q :
  nth_error (h_opts s) oref = Some o -> oext oref s s1 o1 -> wp e s1 (fresh_result s1 r c A) ->
  (forall x rs s2, fresh_mat s s2 x rs r c A -> own s2 x rs r c A ->
     (forall m rs r c A, own s1 m rs r c A -> own s2 m rs r c A) ->
     (forall m rs r c A, fresh_mat s s1 m rs r c A -> fresh_mat s s2 m rs r c A) ->
     oext oref s s2 (set x o1) -> wp (k tt) s2 Q) ->
  wp (bind (assign_or_fail oref set e) k) s1 Q.
Proof.
  intros Hl HO He Hk. apply wp_bind. unfold assign_or_fail. apply wp_bind, wp_catch.
  eapply wp_conseq; [exact He|]. cbv beta. intros x s2 (rs & HM & HE).
  eapply oext_getopt; [exact Hl|eapply oext_ext; eauto|]. unfold put_opt, wp.
  eapply (Hk x rs).
  - exact (fresh_oext _ _ _ _ _ _ _ _ _ _ HO HM).
  - exact (proj1 HM).
  - intros m0 rs0 r0 c0 A0 H0. exact (own_ext _ _ _ _ _ _ _ H0 HE).
  - intros m0 rs0 r0 c0 A0 H0. exact (fresh_mat_keep _ _ _ _ _ _ _ _ H0 (proj1 HE)).
  - eapply oext_put. eapply oext_ext; eauto.
Qed.

(** ** The in-place parameter update *)
(** After the parameter rows started to change. *)
Definition mext (W : nat -> Prop) oref s s' (o' : optimizer K) : Prop :=
  frame W s s' /\ rest3 s s' /\ h_opts s' = upd oref o' (h_opts s).
Lemma wp_param_update (r c : nat) m rs A (f : nat -> nat -> K) (body : Z -> Z -> M K unit) s :
  own s m rs r c A -> NoDup rs ->
  (forall i j s1 A1, (i < r)%nat -> (j < c)%nat ->
     own s1 m rs r c A1 -> frame (among rs) s s1 -> entry A1 i j = entry A i j ->
     body (Z.of_nat i) (Z.of_nat j) s1 = setc m (Z.of_nat i) (Z.of_nat j) (f i j) s1) ->
  wp (each_cell (mrows m) (mcols m) body) s (fun _ s' =>
    own s' m rs r c (mk r c f) /\ frame (among rs) s s' /\ rest s s').
Proof.
  intros HO HN Hb. apply wp_inplace with (A := A); auto. intros i j s1 A1 Hi Hj HO1 HF HR E.
  unfold wp. rewrite (Hb i j s1 A1) by auto. apply wp_setc; auto.
Qed.

(** The memory effect of one update. *)
Definition upd_effect oref s s' (rw rb : list nat) (o' : optimizer K) : Prop :=
  frame (among (rw ++ rb)) s s' /\ rest3 s s' /\ h_opts s' = upd oref o' (h_opts s).

Lemma decay_step {B} oref s o po (k : unit -> M K B) Q : nth_error (h_opts s) oref = Some o -> oscal o po ->
  (forall s1, oext oref s s1 (set_rate o (next_rate po)) -> wp (k tt) s1 Q) ->
  wp (bind (decay_rate oref) k) s Q.
Proof.
  intros Hl HS Hk. apply wp_bind. unfold decay_rate. pose proof (oext_refl _ _ _ Hl) as H0.
  eapply oext_getopt; [exact Hl|exact H0|]. destruct HS as (S1&S2&S3&S4&S5&S6&S7&S8&S9&S10&S11).
  unfold next_rate in Hk. rewrite S10. destruct (po_usedecay po).
  - unfold put_opt, wp. apply Hk. unfold rate_at. rewrite <- S2, <- S3, <- S9. eapply oext_put; eauto.
  - apply wp_ret. apply Hk. rewrite <- S8. replace (set_rate o (o_rate o)) with o by now destruct o. exact H0.
Qed.

(** The two loops over weights and biases, then the counter. *)
Lemma final_steps oref s s1 o o1 (w b : matrix) rw rb k c (W B : pm K) (fw fb : nat -> nat -> K) bodyw bodyb :
  nth_error (h_opts s) oref = Some o -> oext oref s s1 o1 ->
  own s w rw k c W -> own s b rb 1 c B -> NoDup rw -> NoDup rb -> disjoint rw rb ->
  (forall i j s2 A2, (i < k)%nat -> (j < c)%nat -> own s2 w rw k c A2 -> frame (among rw) s1 s2 -> entry A2 i j = entry W i j ->
     bodyw (Z.of_nat i) (Z.of_nat j) s2 = setc w (Z.of_nat i) (Z.of_nat j) (fw i j) s2) ->
  (forall i j s2 A2, (i < 1)%nat -> (j < c)%nat -> own s2 b rb 1 c A2 -> frame (among (rw ++ rb)) s1 s2 -> entry A2 i j = entry B i j ->
     bodyb (Z.of_nat i) (Z.of_nat j) s2 = setc b (Z.of_nat i) (Z.of_nat j) (fb i j) s2) ->
  wp (each_cell (mrows w) (mcols w) bodyw ;; each_cell (mrows b) (mcols b) bodyb ;;
      o <- get_opt oref ;; put_opt oref (set_iter o (o_iter o + 1))) s1
    (fun _ s' => own s' w rw k c (mk k c fw) /\ own s' b rb 1 c (mk 1 c fb) /\
       upd_effect oref s s' rw rb (set_iter o1 (o_iter o1 + 1)) /\ frame (among (rw ++ rb)) s1 s').
Proof.
  intros Hl HO Hw Hb HNw HNb HD Bw Bb. assert (Hw1 := own_oext _ _ _ _ _ _ _ _ _ Hw HO). assert (Hb1 := own_oext _ _ _ _ _ _ _ _ _ Hb HO).
  apply wp_bind. eapply wp_conseq; [eapply (wp_param_update k c w rw W fw); eauto|]. cbv beta. intros _ s2 (Hw2 & HF2 & HR2).
  assert (Hb2 : own s2 b rb 1 c B). { eapply own_frame; [exact Hb1|exact HF2|]. intros x Hx Hx'. exact (HD x Hx' Hx). }
  apply wp_bind. eapply wp_conseq.
  { eapply (wp_param_update 1 c b rb B fb); eauto. intros i j s3 A3 Hi Hj HO3 HF3 E3. eapply Bb; eauto.
    eapply frame_trans; [exact HF2|exact HF3|]. intros x _ [H|H]; apply in_or_app; auto. }
  cbv beta. intros _ s3 (Hb3 & HF3 & HR3).
  assert (HF13 : frame (among (rw ++ rb)) s1 s3). { eapply frame_trans; [exact HF2|exact HF3|]. intros x _ [H|H]; apply in_or_app; auto. }
  assert (HFs : frame (among (rw ++ rb)) s s3). { eapply frame_trans; [exact (proj1 HO)|exact HF13|]. intros x _ [[]|H]; exact H. }
  assert (Hw3 : own s3 w rw k c (mk k c fw)). { eapply own_frame; [exact Hw2|exact HF3|]. intros x Hx Hx'. exact (HD x Hx Hx'). }
  destruct HO as (_ & (R1&R2&R3&R4) & HOo). destruct HR2 as (A1&A2&A3&A4&A5). destruct HR3 as (B1&B2&B3&B4&B5).
  assert (EO : h_opts s3 = upd oref o1 (h_opts s)) by congruence.
  apply wp_bind. eapply wp_eq. { unfold get_opt. rewrite EO. erewrite nth_upd_eq by eauto. reflexivity. }
  unfold put_opt, wp. split; [exact Hw3|]. split; [exact Hb3|]. split; [|exact HF13].
  split; [exact HFs|]. split; [repeat split; simpl; congruence|]. simpl. rewrite EO. apply upd_upd.
Qed.

(** What one update leaves behind. *)
Definition updated oref s (w b : matrix) rw rb (k c : nat) (po' : popt K) (W' B' : pm K) s' : Prop :=
  own s' w rw k c W' /\ own s' b rb 1 c B' /\
  exists o' ro', upd_effect oref s s' rw rb o' /\ oown s' o' ro' k c po' /\ fresh s ro'.
(** The arguments of an update. *)
Definition upd_args s (w b dw db : matrix) rw rb rdw rdb (k c : nat) (W B dW dB : pm K) : Prop :=
  own s w rw k c W /\ own s b rb 1 c B /\ own s dw rdw k c dW /\ own s db rdb 1 c dB /\
  NoDup rw /\ NoDup rb /\ disjoint rw rb /\ (1 <= k)%nat /\ (1 <= c)%nat.

Lemma fresh_not_params s s1 s2 m rs r c A rw rb kk cc (W B : pm K) w b :
  fresh_mat s s1 m rs r c A -> own s w rw kk cc W -> own s b rb 1 cc B -> frame (among (rw ++ rb)) s1 s2 ->
  own s2 m rs r c A.
Proof.
  intros HM Hw Hb HF. eapply own_frame; [apply HM|exact HF|]. intros x Hx Hin.
  destruct HM as (_ & Hfr & _). apply in_app_or in Hin. destruct Hin as [Hin|Hin].
  - exact (disjoint_old_fresh s rw rs (own_old _ _ _ _ _ _ Hw) Hfr x Hin Hx).
  - exact (disjoint_old_fresh s rb rs (own_old _ _ _ _ _ _ Hb) Hfr x Hin Hx).
Qed.
Lemma fresh_app s r1 r2 : fresh s r1 -> fresh s r2 -> fresh s (r1 ++ r2).
Proof. intros. unfold fresh. now apply Forall_app. Qed.
Lemma fresh_mat_fresh s s1 m rs r c A : fresh_mat s s1 m rs r c A -> fresh s rs. Proof. intros H; apply H. Qed.

(** Reading a matrix that the parameter loops do not touch. *)
Lemma getc_frame W s s1 m rs r c A i j : own s m rs r c A -> frame W s s1 -> (forall x, In x rs -> ~ W x) ->
  (i < r)%nat -> (j < c)%nat -> getc m (Z.of_nat i) (Z.of_nat j) s1 = (Ret (entry A i j), s1).
Proof. intros. eapply getc_own; eauto. eapply own_frame; eauto. Qed.

Lemma wp_SGD_plain s oref o ro po w b dw db rw rb rdw rdb k c W B dW dB :
  nth_error (h_opts s) oref = Some o -> oown s o ro k c po -> po_kind po = SGD -> po_usemom po = false ->
  upd_args s w b dw db rw rb rdw rdb k c W B dW dB ->
  let '(po', W', B') := pupdate po k c W B dW dB in
  wp (SGD_Update oref w b dw db) s (fun _ => updated oref s w b rw rb k c po' W' B').
Proof.
  intros Hl HO Hk Hu (Hw & Hb & Hdw & Hdb & HNw & HNb & HD & Hk1 & Hc1).
  unfold pupdate, pupd1. rewrite Hk, Hu. destruct HO as (HS & Hst). rewrite Hk, Hu in Hst.
  unfold SGD_Update. eapply decay_step; [exact Hl|exact HS|]. intros s1 E1.
  eapply oext_getopt; [exact Hl|exact E1|].
  assert (HS' := HS). destruct HS' as (S1&S2&S3&S4&S5&S6&S7&S8&S9&S10&S11).
  replace (o_usemom (set_rate o (next_rate po))) with false by (simpl; congruence).
  assert (Hdw1 := own_oext _ _ _ _ _ _ _ _ _ Hdw E1). assert (Hdb1 := own_oext _ _ _ _ _ _ _ _ _ Hdb E1).
  match goal with |- wp (bind (bind ?a ?f) ?g) ?st ?Q => enough (HH : wp (bind a (fun x => bind (f x) g)) st Q) end.
  { revert HH. unfold wp, bind. destruct (MulScalar dw _ s1) as [[]]; auto. }
  eapply oext_fresh; [exact E1|eapply wp_MulScalar; eauto|]. intros wu rwu s2 Mwu Owu X2 E2.
  match goal with |- wp (bind (bind ?a ?f) ?g) ?st ?Q => enough (HH : wp (bind a (fun x => bind (f x) g)) st Q) end.
  { revert HH. unfold wp, bind. destruct (MulScalar db _ s2) as [[]]; auto. }
  eapply oext_fresh; [exact E2|eapply wp_MulScalar; [exact (own_ext _ _ _ _ _ _ _ Hdb1 X2)|lia|lia]|]. intros bu rbu s3 Mbu Obu X3 E3.
  match goal with |- wp (bind (bind ?a ?f) ?g) ?st ?Q => enough (HH : wp (bind a (fun x => bind (f x) g)) st Q) end.
  { revert HH. unfold wp, bind. destruct (each_cell (mrows w) (mcols w) _ s3) as [[]]; auto. }
  assert (Mwu3 := fresh_mat_keep _ _ _ _ _ _ _ _ Mwu (proj1 X3)).
  eapply wp_conseq.
  { eapply (final_steps oref s s3 o _ w b rw rb k c W B
      (fun i j => sgd1 (next_rate po) (entry W i j) (entry dW i j)) (fun i j => sgd1 (next_rate po) (entry B i j) (entry dB i j))); eauto.
    - intros i j s4 A4 Hi Hj H4 HF4 EA. rewrite (bind_eq _ _ _ _ _ (getc_own _ _ _ _ _ _ i j H4 Hi Hj)).
      rewrite (bind_eq _ _ _ _ _ (getc_own _ _ _ _ _ _ i j (fresh_not_params _ _ _ _ _ _ _ _ _ _ _ _ _ _ _ _ Mwu3 Hw Hb
         (frame_weaken _ _ _ _ HF4 (fun x _ H => in_or_app _ _ _ (or_introl H)))) Hi Hj)).
      unfold pmap. rewrite entry_mk by auto. rewrite EA. reflexivity.
    - intros i j s4 A4 Hi Hj H4 HF4 EA. rewrite (bind_eq _ _ _ _ _ (getc_own _ _ _ _ _ _ i j H4 Hi Hj)).
      rewrite (bind_eq _ _ _ _ _ (getc_own _ _ _ _ _ _ i j (fresh_not_params _ _ _ _ _ _ _ _ _ _ _ _ _ _ _ _ Mbu Hw Hb HF4) Hi Hj)).
      unfold pmap. rewrite entry_mk by auto. rewrite EA. reflexivity. }
  cbv beta. intros _ s' (HW' & HB' & HU & HF'). split; [exact HW'|]. split; [exact HB'|].
  exists (set_iter (set_rate o (next_rate po)) (o_iter (set_rate o (next_rate po)) + 1)), (@nil nat).
  split; [exact HU|]. split; [|constructor]. split; [|simpl; now rewrite Hk, Hu].
  unfold oscal, set_iter, set_rate, po_after. simpl. repeat (split; [congruence|]). congruence.
Qed.

Lemma wp_assoc {A B C} (a : M K A) (f : A -> M K B) (g : B -> M K C) s Q :
  wp (bind a (fun x => bind (f x) g)) s Q -> wp (bind (bind a f) g) s Q.
Proof. unfold wp, bind. destruct (a s) as [[]]; auto. Qed.
Lemma wp_if_assoc {A B} (t : bool) (a a' : M K A) (g : A -> M K B) s Q :
  (t = true -> wp (bind a g) s Q) -> (t = false -> wp (bind a' g) s Q) -> wp (bind (if t then a else a') g) s Q.
Proof. destruct t; auto. Qed.

(** The lazily allocated moment matrices. *)
Lemma mom_init {X} s oref o o1 s1 po w b k c ro (W B : pm K) rw rb (kk : unit -> M K X) Q :
  nth_error (h_opts s) oref = Some o -> oext oref s s1 o1 ->
  own s w rw k c W -> own s b rb 1 c B -> (1 <= k)%nat -> (1 <= c)%nat ->
  (mrows (o_wm o1) = 0 /\ ro = [] /\ po_wm po = zmat k c /\ po_bm po = zmat 1 c) \/
  (exists r1 r2, ro = r1 ++ r2 /\ own s (o_wm o1) r1 k c (po_wm po) /\ own s (o_bm o1) r2 1 c (po_bm po)) ->
  (forall s2 wm bm r1 r2, oext oref s s2 (set_bm bm (set_wm wm o1)) ->
     own s2 wm r1 k c (po_wm po) -> own s2 bm r2 1 c (po_bm po) -> wp (kk tt) s2 Q) ->
  wp (bind (if mrows (o_wm o1) =? 0 then
       wm <- NewMatrix_ (mrows w) (mcols w) ;;
       bm <- NewMatrix_ (mrows b) (mcols b) ;;
       put_opt oref (set_bm bm (set_wm wm o1))
     else ret tt) kk) s1 Q.
Proof.
  intros Hl E1 Hw Hb Hk Hc Hst Hkk. destruct Hst as [(E0 & _ & Ewm & Ebm)|(r1 & r2 & _ & O1 & O2)].
  - rewrite E0. simpl (0 =? 0). cbv iota. apply wp_assoc. rewrite (own_rows _ _ _ _ _ _ Hw), (own_cols _ _ _ _ _ _ Hw).
    rewrite (own_rows _ _ _ _ _ _ Hb), (own_cols _ _ _ _ _ _ Hb).
    eapply oext_fresh; [exact E1|eapply wp_NewMatrix_; [exact Hk|exact Hc|intros m rs s' H1 H2; exists rs; split; [exact H1|exact H2]]|].
    intros wm r1 s2 M2 O2 X2 E2. apply wp_assoc.
    eapply oext_fresh; [exact E2|eapply wp_NewMatrix_; [lia|exact Hc|intros m rs s' H1 H2; exists rs; split; [exact H1|exact H2]]|].
    intros bm r2 s3 M3 O3 X3 E3. eapply oext_putopt; [exact E3|]. intros s4 E4 K4 _.
    eapply Hkk; [exact E4|apply K4|apply K4].
    + rewrite Ewm. exact (own_ext _ _ _ _ _ _ _ O2 X3).
    + rewrite Ebm. exact O3.
  - rewrite (own_rows _ _ _ _ _ _ O1). replace (Z.of_nat k =? 0) with false by lia. unfold wp, bind, ret.
    eapply (Hkk s1 (o_wm o1) (o_bm o1)); [|eapply own_oext; eauto|eapply own_oext; eauto].
    replace (set_bm (o_bm o1) (set_wm (o_wm o1) o1)) with o1 by now destruct o1. exact E1.
Qed.

Lemma wp_SGD_momentum s oref o ro po w b dw db rw rb rdw rdb k c W B dW dB :
  nth_error (h_opts s) oref = Some o -> oown s o ro k c po -> po_kind po = SGD -> po_usemom po = true ->
  upd_args s w b dw db rw rb rdw rdb k c W B dW dB ->
  let '(po', W', B') := pupdate po k c W B dW dB in
  wp (SGD_Update oref w b dw db) s (fun _ => updated oref s w b rw rb k c po' W' B').
Proof.
  intros Hl HO Hk Hu (Hw & Hb & Hdw & Hdb & HNw & HNb & HD & Hk1 & Hc1).
  unfold pupdate, pupd1. rewrite Hk, Hu. destruct HO as (HS & Hst). rewrite Hk, Hu in Hst.
  unfold SGD_Update. eapply decay_step; [exact Hl|exact HS|]. intros s1 E1.
  eapply oext_getopt; [exact Hl|exact E1|].
  assert (HS' := HS). destruct HS' as (S1&S2&S3&S4&S5&S6&S7&S8&S9&S10&S11).
  replace (o_usemom (set_rate o (next_rate po))) with true by (simpl; congruence).
  apply wp_assoc. eapply (mom_init s oref o _ s1 po w b k c ro W B rw rb); [exact Hl|exact E1|exact Hw|exact Hb|exact Hk1|exact Hc1|exact Hst|].
  intros s2 wm bm r1 r2 E2 Owm Obm.
  apply wp_assoc. eapply oext_getopt; [exact Hl|exact E2|]. cbn [o_wm o_bm o_momentum o_rate set_bm set_wm set_rate]. rewrite S4.
  apply wp_assoc. eapply oext_fresh; [exact E2|eapply wp_MulScalar; [exact Owm|lia|lia]|]. intros smw q1 s3 M3 O3 X3 E3.
  apply wp_assoc. eapply oext_fresh; [exact E3|eapply wp_MulScalar; [exact (own_oext _ _ _ _ _ _ _ _ _ Hdw E3)|lia|lia]|]. intros sgw q2 s4 M4 O4 X4 E4.
  apply wp_assoc. eapply oext_assign; [exact Hl|exact E4|eapply wp_Sub; [exact (own_ext _ _ _ _ _ _ _ O3 X4)|exact O4|lia|lia]|].
  intros wm' q3 s5 M5 O5 K5 _ E5.
  apply wp_assoc. eapply oext_fresh; [exact E5|eapply wp_MulScalar; [apply K5; exact (own_ext _ _ _ _ _ _ _ (own_ext _ _ _ _ _ _ _ Obm X3) X4)|lia|lia]|].
  intros smb q4 s6 M6 O6 X6 E6.
  apply wp_assoc. eapply oext_fresh; [exact E6|eapply wp_MulScalar; [exact (own_oext _ _ _ _ _ _ _ _ _ Hdb E6)|lia|lia]|]. intros sgb q5 s7 M7 O7 X7 E7.
  apply wp_assoc. eapply oext_assign; [exact Hl|exact E7|eapply wp_Sub; [exact (own_ext _ _ _ _ _ _ _ O6 X7)|exact O7|lia|lia]|].
  intros bm' q6 s8 M8 O8 K8 F8 E8.
  assert (M5' := F8 _ _ _ _ _ (fresh_mat_keep _ _ _ _ _ _ _ _ (fresh_mat_keep _ _ _ _ _ _ _ _ M5 (proj1 X6)) (proj1 X7))).
  apply wp_assoc. eapply oext_getopt; [exact Hl|exact E8|]. cbn [o_wm o_bm set_bm set_wm set_rate].
  apply wp_assoc.
  set (V := vel1 (po_mom po) (next_rate po)).
  eapply wp_conseq.
  { eapply (final_steps oref s s8 o _ w b rw rb k c W B
      (fun i j => fadd (entry W i j) (V (entry (po_wm po) i j) (entry dW i j)))
      (fun i j => fadd (entry B i j) (V (entry (po_bm po) i j) (entry dB i j)))); eauto.
    - intros i j s9 A9 Hi Hj H9 HF9 EA. rewrite (bind_eq _ _ _ _ _ (getc_own _ _ _ _ _ _ i j H9 Hi Hj)).
      rewrite (bind_eq _ _ _ _ _ (getc_own _ _ _ _ _ _ i j (fresh_not_params _ _ _ _ _ _ _ _ _ _ _ _ _ _ _ _ M5' Hw Hb
         (frame_weaken _ _ _ _ HF9 (fun x _ H => in_or_app _ _ _ (or_introl H)))) Hi Hj)).
      unfold pmap2, pmap. rewrite !entry_mk by auto. rewrite EA. reflexivity.
    - intros i j s9 A9 Hi Hj H9 HF9 EA. rewrite (bind_eq _ _ _ _ _ (getc_own _ _ _ _ _ _ i j H9 Hi Hj)).
      rewrite (bind_eq _ _ _ _ _ (getc_own _ _ _ _ _ _ i j (fresh_not_params _ _ _ _ _ _ _ _ _ _ _ _ _ _ _ _ M8 Hw Hb HF9) Hi Hj)).
      unfold pmap2, pmap. rewrite !entry_mk by auto. rewrite EA. reflexivity. }
  cbv beta. intros _ s' (HW' & HB' & HU & HF').
  assert (Ex : forall r (P m dP : pm K), mk r c (fun i j => fadd (entry P i j) (V (entry m i j) (entry dP i j))) =
             pmap2 r c fadd P (pmap2 r c V m dP)).
  { intros. unfold pmap2. apply mk_ext. intros. now rewrite entry_mk by auto. }
  rewrite Ex in HW', HB'. split; [exact HW'|]. split; [exact HB'|].
  do 2 eexists. split; [exact HU|]. split; [split|].
  - unfold oscal, po_after. simpl. repeat (split; [congruence|]). congruence.
  - simpl. rewrite Hk, Hu. right. exists q3, q6. split; [reflexivity|]. cbn [o_wm o_bm set_bm set_wm set_iter set_rate].
    assert (Es : forall r (m dP : pm K), pmap2 r c fsub (pmap r c (fun x => fmul x (po_mom po)) m) (pmap r c (fun x => fmul x (next_rate po)) dP) = pmap2 r c V m dP).
    { intros. unfold pmap2, pmap. apply mk_ext. intros. now rewrite !entry_mk by auto. }
    rewrite <- !Es. split; [exact (fresh_not_params _ _ _ _ _ _ _ _ _ _ _ _ _ _ _ _ M5' Hw Hb HF')|exact (fresh_not_params _ _ _ _ _ _ _ _ _ _ _ _ _ _ _ _ M8 Hw Hb HF')].
  - apply fresh_app; eapply fresh_mat_fresh; [exact M5'|exact M8].
Qed.

Lemma adam_init {X} s oref o o1 s1 po w b k c ro (W B : pm K) rw rb (kk : unit -> M K X) Q :
  nth_error (h_opts s) oref = Some o -> oext oref s s1 o1 ->
  own s w rw k c W -> own s b rb 1 c B -> (1 <= k)%nat -> (1 <= c)%nat ->
  (mrows (o_wm o1) = 0 /\ ro = [] /\ po_wm po = zmat k c /\ po_bm po = zmat 1 c /\ po_wc po = zmat k c /\ po_bc po = zmat 1 c) \/
  (exists r1 r2 r3 r4, ro = r1 ++ r2 ++ r3 ++ r4 /\ own s (o_wm o1) r1 k c (po_wm po) /\ own s (o_bm o1) r2 1 c (po_bm po) /\
     own s (o_wc o1) r3 k c (po_wc po) /\ own s (o_bc o1) r4 1 c (po_bc po)) ->
  (forall s2 wm bm wc bc r1 r2 r3 r4, oext oref s s2 (set_bc bc (set_wc wc (set_bm bm (set_wm wm o1)))) ->
     own s2 wm r1 k c (po_wm po) -> own s2 bm r2 1 c (po_bm po) ->
     own s2 wc r3 k c (po_wc po) -> own s2 bc r4 1 c (po_bc po) -> wp (kk tt) s2 Q) ->
  wp (bind (if mrows (o_wm o1) =? 0 then
       wm <- NewMatrix_ (mrows w) (mcols w) ;;
       bm <- NewMatrix_ (mrows b) (mcols b) ;;
       wc <- NewMatrix_ (mrows w) (mcols w) ;;
       bc <- NewMatrix_ (mrows b) (mcols b) ;;
       put_opt oref (set_bc bc (set_wc wc (set_bm bm (set_wm wm o1))))
     else ret tt) kk) s1 Q.
Proof.
  intros Hl E1 Hw Hb Hk Hc Hst Hkk. destruct Hst as [(E0 & _ & Ewm & Ebm & Ewc & Ebc)|(r1 & r2 & r3 & r4 & _ & O1 & O2 & O3 & O4)].
  - rewrite E0. simpl (0 =? 0). cbv iota. apply wp_assoc. rewrite (own_rows _ _ _ _ _ _ Hw), (own_cols _ _ _ _ _ _ Hw).
    rewrite (own_rows _ _ _ _ _ _ Hb), (own_cols _ _ _ _ _ _ Hb).
    eapply oext_fresh; [exact E1|eapply wp_NewMatrix_; [exact Hk|exact Hc|intros m rs s' H1 H2; exists rs; split; [exact H1|exact H2]]|].
    intros wm r1 s2 M2 O2 X2 E2. apply wp_assoc.
    eapply oext_fresh; [exact E2|eapply wp_NewMatrix_; [lia|exact Hc|intros m rs s' H1 H2; exists rs; split; [exact H1|exact H2]]|].
    intros bm r2 s3 M3 O3 X3 E3. apply wp_assoc.
    eapply oext_fresh; [exact E3|eapply wp_NewMatrix_; [exact Hk|exact Hc|intros m rs s' H1 H2; exists rs; split; [exact H1|exact H2]]|].
    intros wc r3 s4 M4 O4 X4 E4. apply wp_assoc.
    eapply oext_fresh; [exact E4|eapply wp_NewMatrix_; [lia|exact Hc|intros m rs s' H1 H2; exists rs; split; [exact H1|exact H2]]|].
    intros bc r4 s5 M5 O5 X5 E5. eapply oext_putopt; [exact E5|]. intros s6 E6 K6 _.
    assert (X45 := ext_trans _ _ _ X4 X5).
    eapply Hkk; [exact E6|apply K6|apply K6|apply K6|apply K6].
    + rewrite Ewm. exact (own_ext _ _ _ _ _ _ _ (own_ext _ _ _ _ _ _ _ O2 X3) X45).
    + rewrite Ebm. exact (own_ext _ _ _ _ _ _ _ O3 X45).
    + rewrite Ewc. exact (own_ext _ _ _ _ _ _ _ O4 X5).
    + rewrite Ebc. exact O5.
  - rewrite (own_rows _ _ _ _ _ _ O1). replace (Z.of_nat k =? 0) with false by lia. unfold wp, bind, ret.
    eapply (Hkk s1 (o_wm o1) (o_bm o1) (o_wc o1) (o_bc o1)); [|eapply own_oext; eauto|eapply own_oext; eauto|eapply own_oext; eauto|eapply own_oext; eauto].
    match goal with |- oext _ _ _ ?x => replace x with o1 by now destruct o1 end. exact E1.
Qed.

Lemma wp_Adam s oref o ro po w b dw db rw rb rdw rdb k c W B dW dB :
  nth_error (h_opts s) oref = Some o -> oown s o ro k c po -> po_kind po = Adam ->
  upd_args s w b dw db rw rb rdw rdb k c W B dW dB ->
  let '(po', W', B') := pupdate po k c W B dW dB in
  wp (Adam_Update oref w b dw db) s (fun _ => updated oref s w b rw rb k c po' W' B').
Proof.
  intros Hl HO Hk (Hw & Hb & Hdw & Hdb & HNw & HNb & HD & Hk1 & Hc1).
  unfold pupdate, pupd1. rewrite Hk. destruct HO as (HS & Hst). rewrite Hk in Hst.
  unfold Adam_Update. eapply decay_step; [exact Hl|exact HS|]. intros s1 E1.
  eapply oext_getopt; [exact Hl|exact E1|].
  assert (HS' := HS). destruct HS' as (S1&S2&S3&S4&S5&S6&S7&S8&S9&S10&S11).
  eapply (adam_init s oref o _ s1 po w b k c ro W B rw rb); [exact Hl|exact E1|exact Hw|exact Hb|exact Hk1|exact Hc1|exact Hst|].
  intros s2 wm bm wc bc r1 r2 r3 r4 E2 Owm Obm Owc Obc.
  eapply oext_getopt; [exact Hl|exact E2|]. cbn [o_wm o_bm o_beta1 o_rate set_bm set_wm set_wc set_bc set_rate]. rewrite S6.
  eapply oext_fresh; [exact E2|eapply wp_MulScalar; [exact Owm|lia|lia]|]. intros swm q1 s3 M3 O3 X3 E3.
  eapply oext_fresh; [exact E3|eapply wp_MulScalar; [exact (own_oext _ _ _ _ _ _ _ _ _ Hdw E3)|lia|lia]|]. intros swg q2 s4 M4 O4 X4 E4.
  eapply oext_assign; [exact Hl|exact E4|eapply wp_Add; [exact (own_ext _ _ _ _ _ _ _ O3 X4)|exact O4|lia|lia]|].
  intros wm' q3 s5 M5 O5 K5 _ E5. assert (X24 := ext_trans _ _ _ X3 X4).
  assert (Obm5 := K5 _ _ _ _ _ (own_ext _ _ _ _ _ _ _ Obm X24)).
  assert (Owc5 := K5 _ _ _ _ _ (own_ext _ _ _ _ _ _ _ Owc X24)).
  assert (Obc5 := K5 _ _ _ _ _ (own_ext _ _ _ _ _ _ _ Obc X24)).
  eapply oext_fresh; [exact E5|eapply wp_MulScalar; [exact Obm5|lia|lia]|]. intros sbm q4 s6 M6 O6 X6 E6.
  eapply oext_fresh; [exact E6|eapply wp_MulScalar; [exact (own_oext _ _ _ _ _ _ _ _ _ Hdb E6)|lia|lia]|]. intros sbg q5 s7 M7 O7 X7 E7.
  eapply oext_assign; [exact Hl|exact E7|eapply wp_Add; [exact (own_ext _ _ _ _ _ _ _ O6 X7)|exact O7|lia|lia]|].
  intros bm' q6 s8 M8 O8 K8 F8 E8. assert (X57 := ext_trans _ _ _ X6 X7).
  assert (Owc8 := K8 _ _ _ _ _ (own_ext _ _ _ _ _ _ _ Owc5 X57)).
  assert (Obc8 := K8 _ _ _ _ _ (own_ext _ _ _ _ _ _ _ Obc5 X57)).
  assert (M5' := F8 _ _ _ _ _ (fresh_mat_keep _ _ _ _ _ _ _ _ M5 (proj1 X57))).
  eapply oext_getopt; [exact Hl|exact E8|]. cbn [o_wm o_bm o_wc o_bc o_iter o_beta1 o_beta2 o_rate set_bm set_wm set_wc set_bc set_rate]. rewrite S6, S7, S9.
  change (correction (po_b1 po) (po_iter po)) with (adam_corr (po_b1 po) (po_iter po)).
  eapply oext_fresh; [exact E8|eapply wp_MulScalar; [exact (proj1 M5')|lia|lia]|]. intros cwm q7 s9 M9 O9 X9 E9.
  eapply oext_fresh; [exact E9|eapply wp_MulScalar; [exact (own_ext _ _ _ _ _ _ _ O8 X9)|lia|lia]|]. intros cbm q8 s10 M10 O10 X10 E10.
  assert (X8_10 := ext_trans _ _ _ X9 X10).
  eapply oext_fresh; [exact E10|eapply wp_MulScalar; [exact (own_ext _ _ _ _ _ _ _ Owc8 X8_10)|lia|lia]|]. intros twm q9 s11 M11 O11 X11 E11.
  eapply oext_fresh; [exact E11|eapply wp_PowScalar; [exact (own_oext _ _ _ _ _ _ _ _ _ Hdw E11)|lia|lia]|]. intros tw2 q10 s12 M12 O12 X12 E12.
  eapply oext_fresh; [exact E12|eapply wp_MulScalar; [exact O12|lia|lia]|]. intros twg q11 s13 M13 O13 X13 E13.
  assert (X11_13 := ext_trans _ _ _ X12 X13).
  eapply oext_assign; [exact Hl|exact E13|eapply wp_Add; [exact (own_ext _ _ _ _ _ _ _ O11 X11_13)|exact O13|lia|lia]|].
  intros wc' q12 s14 M14 O14 K14 F14 E14. assert (X10_13 := ext_trans _ _ _ X11 X11_13).
  assert (Obc14 := K14 _ _ _ _ _ (own_ext _ _ _ _ _ _ _ (own_ext _ _ _ _ _ _ _ Obc8 X8_10) X10_13)).
  assert (M5'' := F14 _ _ _ _ _ (fresh_mat_keep _ _ _ _ _ _ _ _ (fresh_mat_keep _ _ _ _ _ _ _ _ M5' (proj1 X8_10)) (proj1 X10_13))).
  assert (M8'' := F14 _ _ _ _ _ (fresh_mat_keep _ _ _ _ _ _ _ _ (fresh_mat_keep _ _ _ _ _ _ _ _ M8 (proj1 X8_10)) (proj1 X10_13))).
  assert (M9'' := F14 _ _ _ _ _ (fresh_mat_keep _ _ _ _ _ _ _ _ (fresh_mat_keep _ _ _ _ _ _ _ _ M9 (proj1 X10)) (proj1 X10_13))).
  assert (M10'' := F14 _ _ _ _ _ (fresh_mat_keep _ _ _ _ _ _ _ _ M10 (proj1 X10_13))).
  eapply oext_fresh; [exact E14|eapply wp_MulScalar; [exact Obc14|lia|lia]|]. intros tbm q13 s15 M15 O15 X15 E15.
  eapply oext_fresh; [exact E15|eapply wp_PowScalar; [exact (own_oext _ _ _ _ _ _ _ _ _ Hdb E15)|lia|lia]|]. intros tb2 q14 s16 M16 O16 X16 E16.
  eapply oext_fresh; [exact E16|eapply wp_MulScalar; [exact O16|lia|lia]|]. intros tbg q15 s17 M17 O17 X17 E17.
  assert (X15_17 := ext_trans _ _ _ X16 X17).
  eapply oext_assign; [exact Hl|exact E17|eapply wp_Add; [exact (own_ext _ _ _ _ _ _ _ O15 X15_17)|exact O17|lia|lia]|].
  intros bc' q16 s18 M18 O18 K18 F18 E18. assert (X14_17 := ext_trans _ _ _ X15 X15_17).
  assert (N5 := F18 _ _ _ _ _ (fresh_mat_keep _ _ _ _ _ _ _ _ M5'' (proj1 X14_17))).
  assert (N8 := F18 _ _ _ _ _ (fresh_mat_keep _ _ _ _ _ _ _ _ M8'' (proj1 X14_17))).
  assert (N9 := F18 _ _ _ _ _ (fresh_mat_keep _ _ _ _ _ _ _ _ M9'' (proj1 X14_17))).
  assert (N10 := F18 _ _ _ _ _ (fresh_mat_keep _ _ _ _ _ _ _ _ M10'' (proj1 X14_17))).
  assert (N14 := F18 _ _ _ _ _ (fresh_mat_keep _ _ _ _ _ _ _ _ M14 (proj1 X14_17))).
  clear M5' M5'' M8'' M9'' M10''.
  eapply oext_getopt; [exact Hl|exact E18|]. cbn [o_wm o_bm o_wc o_bc o_iter o_beta1 o_beta2 o_rate o_eps set_bm set_wm set_wc set_bc set_rate]. rewrite S6, S9, S5.
  change (correction (po_b1 po) (po_iter po)) with (adam_corr (po_b1 po) (po_iter po)).
  eapply oext_fresh; [exact E18|eapply wp_MulScalar; [exact (proj1 N14)|lia|lia]|]. intros cwc q17 s19 M19 O19 X19 E19.
  eapply oext_fresh; [exact E19|eapply wp_MulScalar; [exact (own_ext _ _ _ _ _ _ _ O18 X19)|lia|lia]|]. intros cbc q18 s20 M20 O20 X20 E20.
  assert (X18_20 := ext_trans _ _ _ X19 X20).
  assert (P5 := fresh_mat_keep _ _ _ _ _ _ _ _ N5 (proj1 X18_20)).
  assert (P8 := fresh_mat_keep _ _ _ _ _ _ _ _ N8 (proj1 X18_20)).
  assert (P9 := fresh_mat_keep _ _ _ _ _ _ _ _ N9 (proj1 X18_20)).
  assert (P10 := fresh_mat_keep _ _ _ _ _ _ _ _ N10 (proj1 X18_20)).
  assert (P14 := fresh_mat_keep _ _ _ _ _ _ _ _ N14 (proj1 X18_20)).
  assert (P18 := fresh_mat_keep _ _ _ _ _ _ _ _ M18 (proj1 X18_20)).
  assert (P19 := fresh_mat_keep _ _ _ _ _ _ _ _ M19 (proj1 X20)).
  set (r' := next_rate po) in *. set (cr := adam_corr (po_b1 po) (po_iter po)) in *.
  set (MM := adam_m1 (po_b1 po)). set (CC := adam_c1 (po_b2 po)).
  assert (Em : forall r (m dP : pm K), pmap2 r c fadd (pmap r c (fun x => fmul x (po_b1 po)) m) (pmap r c (fun x => fmul x (fsub f1 (po_b1 po))) dP) = pmap2 r c MM m dP).
  { intros. unfold pmap2, pmap. apply mk_ext. intros. now rewrite !entry_mk by auto. }
  assert (Ec : forall r (m dP : pm K), pmap2 r c fadd (pmap r c (fun x => fmul x (po_b2 po)) m) (pmap r c (fun x => fmul x (fsub f1 (po_b2 po))) (pmap r c (fun x => fpow x (ofZ 2)) dP)) = pmap2 r c CC m dP).
  { intros. unfold pmap2, pmap. apply mk_ext. intros. now rewrite !entry_mk by auto. }
  rewrite Em in P5, P8, P9, P10. rewrite Ec in P14, P18, P19, M20.
  eapply wp_conseq.
  { eapply (final_steps oref s s20 o _ w b rw rb k c W B
      (fun i j => adam_p1 r' (po_eps po) cr (entry W i j) (entry (pmap2 k c MM (po_wm po) dW) i j) (entry (pmap2 k c CC (po_wc po) dW) i j))
      (fun i j => adam_p1 r' (po_eps po) cr (entry B i j) (entry (pmap2 1 c MM (po_bm po) dB) i j) (entry (pmap2 1 c CC (po_bc po) dB) i j))); eauto.
    - intros i j s9' A9 Hi Hj H9 HF9 EA. rewrite (bind_eq _ _ _ _ _ (getc_own _ _ _ _ _ _ i j H9 Hi Hj)).
      assert (HF9' : frame (among (rw ++ rb)) s20 s9') by exact (frame_weaken _ _ _ _ HF9 (fun x _ H => in_or_app _ _ _ (or_introl H))).
      rewrite (bind_eq _ _ _ _ _ (getc_own _ _ _ _ _ _ i j (fresh_not_params _ _ _ _ _ _ _ _ _ _ _ _ _ _ _ _ P9 Hw Hb HF9') Hi Hj)).
      rewrite (bind_eq _ _ _ _ _ (getc_own _ _ _ _ _ _ i j (fresh_not_params _ _ _ _ _ _ _ _ _ _ _ _ _ _ _ _ P19 Hw Hb HF9') Hi Hj)).
      unfold pmap at 1 2. rewrite !(entry_mk k c) by auto. rewrite EA. reflexivity.
    - intros i j s9' A9 Hi Hj H9 HF9 EA. rewrite (bind_eq _ _ _ _ _ (getc_own _ _ _ _ _ _ i j H9 Hi Hj)).
      rewrite (bind_eq _ _ _ _ _ (getc_own _ _ _ _ _ _ i j (fresh_not_params _ _ _ _ _ _ _ _ _ _ _ _ _ _ _ _ P10 Hw Hb HF9) Hi Hj)).
      rewrite (bind_eq _ _ _ _ _ (getc_own _ _ _ _ _ _ i j (fresh_not_params _ _ _ _ _ _ _ _ _ _ _ _ _ _ _ _ M20 Hw Hb HF9) Hi Hj)).
      unfold pmap at 1 2. rewrite !(entry_mk 1 c) by auto. rewrite EA. reflexivity. }
  cbv beta. intros _ s' (HW' & HB' & HU & HF').
  split; [exact HW'|]. split; [exact HB'|].
  do 2 eexists. split; [exact HU|]. split; [split|].
  - subst r' cr MM CC. unfold oscal, po_after. simpl. repeat (split; [congruence|]). congruence.
  - simpl. rewrite Hk. right. exists q3, q6, q12, q16. split; [reflexivity|].
    cbn [o_wm o_bm o_wc o_bc set_bm set_wm set_wc set_bc set_iter set_rate].
    split; [exact (fresh_not_params _ _ _ _ _ _ _ _ _ _ _ _ _ _ _ _ P5 Hw Hb HF')|].
    split; [exact (fresh_not_params _ _ _ _ _ _ _ _ _ _ _ _ _ _ _ _ P8 Hw Hb HF')|].
    split; [exact (fresh_not_params _ _ _ _ _ _ _ _ _ _ _ _ _ _ _ _ P14 Hw Hb HF')|].
    exact (fresh_not_params _ _ _ _ _ _ _ _ _ _ _ _ _ _ _ _ P18 Hw Hb HF').
  - apply fresh_app; [exact (fresh_mat_fresh _ _ _ _ _ _ _ P5)|]. apply fresh_app; [exact (fresh_mat_fresh _ _ _ _ _ _ _ P8)|].
    apply fresh_app; [exact (fresh_mat_fresh _ _ _ _ _ _ _ P14)|exact (fresh_mat_fresh _ _ _ _ _ _ _ P18)].
Qed.

Theorem wp_Opt_Update s oref o ro po w b dw db rw rb rdw rdb k c W B dW dB :
  nth_error (h_opts s) oref = Some o -> oown s o ro k c po ->
  upd_args s w b dw db rw rb rdw rdb k c W B dW dB ->
  let '(po', W', B') := pupdate po k c W B dW dB in
  wp (Opt_Update oref w b dw db) s (fun _ => updated oref s w b rw rb k c po' W' B').
Proof.
  intros Hl HO HA. destruct (pupdate po k c W B dW dB) as [[po' W'] B'] eqn:EP.
  unfold Opt_Update. eapply oext_getopt; [exact Hl|exact (oext_refl oref s o Hl)|].
  assert (HO' := HO). destruct HO' as ((S1&_) & _). rewrite S1. destruct (po_kind po) eqn:Ek.
  - destruct (po_usemom po) eqn:Eu.
    + pose proof (wp_SGD_momentum _ _ _ _ _ _ _ _ _ _ _ _ _ _ _ _ _ _ _ Hl HO Ek Eu HA) as H. now rewrite EP in H.
    + pose proof (wp_SGD_plain _ _ _ _ _ _ _ _ _ _ _ _ _ _ _ _ _ _ _ Hl HO Ek Eu HA) as H. now rewrite EP in H.
  - pose proof (wp_Adam _ _ _ _ _ _ _ _ _ _ _ _ _ _ _ _ _ _ _ Hl HO Ek HA) as H. now rewrite EP in H.
Qed.
End WithNum.
