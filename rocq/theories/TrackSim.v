(** * TrackSim: plain training in two arithmetics, number by number. *)
From Coq Require Import ZArith QArith List Bool Arith Lia.
From Verif Require Import Num NumQ Heap Spec Loss Network Optimizers PureSpec LossProofs OptSpec ModelSpec TrackSpec.
Import ListNotations.

Section Sim.
Context {K : Num} (rho : K -> tracked -> Prop).
Hypothesis Hadd : forall x y a b, rho x a -> rho y b -> rho (fadd x y) (t_add a b).
Hypothesis Hsub : forall x y a b, rho x a -> rho y b -> rho (fsub x y) (t_sub a b).
Hypothesis Hmul : forall x y a b, rho x a -> rho y b -> rho (fmul x y) (t_mul a b).
Hypothesis Hdiv : forall x y a b, rho x a -> rho y b -> rho (fdiv x y) (t_div a b).
Hypothesis Hneg : forall x a, rho x a -> rho (fneg x) (t_neg a).
Hypothesis Hmax : forall x y a b, rho x a -> rho y b -> rho (fmax x y) (t_max a b).
Hypothesis HofZ : forall z, rho (ofZ z) (t_ofZ z).
Hypothesis Hunk : forall x, rho x unknown.
Hypothesis Hle : forall x a, rho x a -> decided a = true -> fle x f0 = fle (n := TNum) a f0.
Hypothesis Hlt : forall x a, rho x a -> decided a = true -> flt x f0 = flt (n := TNum) a f0.

Definition mrel (A : pm K) (B : pm TNum) : Prop := Forall2 (Forall2 rho) A B.
Lemma rel_length {A B} (R : A -> B -> Prop) l l' : Forall2 R l l' -> length l = length l'.
Proof. induction 1; simpl; congruence. Qed.
Lemma nth_rel {A B} (R : A -> B -> Prop) l l' : Forall2 R l l' -> forall n d d', R d d' -> R (nth n l d) (nth n l' d').
Proof. induction 1; intros [|n] d d' HD; simpl; auto. Qed.
Lemma entry_rel A B i j : mrel A B -> rho (entry A i j) (entry B i j).
Proof. intros H. unfold entry. apply nth_rel; [|apply HofZ]. apply (nth_rel (Forall2 rho)); [exact H|constructor]. Qed.
Lemma map_rel {A B C} (R : B -> C -> Prop) (f : A -> B) (g : A -> C) l : (forall a, In a l -> R (f a) (g a)) -> Forall2 R (map f l) (map g l).
Proof. induction l as [|a l IH]; intros H; simpl; constructor; [apply H; now left|apply IH; intros; apply H; now right]. Qed.
Lemma mk_rel r c f g : (forall i j, (i < r)%nat -> (j < c)%nat -> rho (f i j) (g i j)) -> mrel (mk r c f) (mk (K := TNum) r c g).
Proof. intros H. apply map_rel. intros i Hi. apply map_rel. intros j Hj. apply in_seq in Hi, Hj. apply H; lia. Qed.
Lemma fsum_rel n f g : (forall k, (k < n)%nat -> rho (f k) (g k)) -> rho (fsum n f) (fsum (K := TNum) n g).
Proof. induction n as [|n IH]; intros H; [apply HofZ|]. rewrite !fsum_S. apply Hadd; [apply IH; intros; apply H; lia|apply H; lia]. Qed.
Lemma pdot_rel r k c A B A' B' : mrel A A' -> mrel B B' -> mrel (pdot r k c A B) (pdot r k c A' B').
Proof. intros HA HB. apply mk_rel. intros. apply fsum_rel. intros. apply Hmul; apply entry_rel; assumption. Qed.
Lemma ptrans_rel r c A A' : mrel A A' -> mrel (ptrans r c A) (ptrans r c A').
Proof. intros HA. apply mk_rel. intros. apply entry_rel; assumption. Qed.
Lemma psum0_rel r c A A' : mrel A A' -> mrel (psum0 r c A) (psum0 r c A').
Proof. intros HA. apply mk_rel. intros. apply fsum_rel. intros. apply entry_rel; assumption. Qed.

Definition prel (p : player K) (q : player TNum) : Prop :=
  p_kind p = p_kind q /\ p_in p = p_in q /\ p_out p = p_out q /\ mrel (p_w p) (p_w q) /\ mrel (p_b p) (p_b q) /\ rho (p_slope p) (p_slope q).
Definition orel (p : popt K) (q : popt TNum) : Prop :=
  po_kind p = po_kind q /\ rho (po_lr p) (po_lr q) /\ rho (po_decay p) (po_decay q) /\ rho (po_mom p) (po_mom q) /\ rho (po_b1 p) (po_b1 q) /\ rho (po_b2 p) (po_b2 q) /\
  rho (po_eps p) (po_eps q) /\ rho (po_rate p) (po_rate q) /\ po_iter p = po_iter q /\ po_usedecay p = po_usedecay q /\ po_usemom p = po_usemom q /\
  mrel (po_wm p) (po_wm q) /\ mrel (po_bm p) (po_bm q) /\ mrel (po_wc p) (po_wc q) /\ mrel (po_bc p) (po_bc q).
Definition trel (t : player K * popt K) (u : player TNum * popt TNum) : Prop := prel (fst t) (fst u) /\ orel (snd t) (snd u).
Definition grel (g : pm K * pm K) (h : pm TNum * pm TNum) : Prop := mrel (fst g) (fst h) /\ mrel (snd g) (snd h).

Lemma paffine_rel p q r X X' : prel p q -> mrel X X' -> mrel (paffine p r X) (paffine q r X').
Proof.
  intros (_ & Ei & Eo & HW & HB & _) HX. unfold paffine, paff. rewrite Ei, Eo. apply mk_rel. intros. apply Hadd; [|apply entry_rel, HB].
  apply fsum_rel. intros. apply Hmul; apply entry_rel; assumption.
Qed.
Lemma decided_at r c A i j : all_decided r c A = true -> (i < r)%nat -> (j < c)%nat -> decided (entry A i j) = true.
Proof.
  intros H Hi Hj. unfold all_decided in H. rewrite forallb_forall in H. specialize (H i ltac:(apply in_seq; lia)). cbv beta in H. rewrite forallb_forall in H.
  apply (H j). apply in_seq. lia.
Qed.
Lemma pforward_rel p q r X X' : prel p q -> mrel X X' -> sure_layer q r X' = true -> mrel (pforward p r X) (pforward q r X').
Proof.
  intros HP HX HS. pose proof (paffine_rel p q r X X' HP HX) as HA. destruct HP as (Ek & Ei & Eo & HW & HB & Hs). unfold pforward, pact, act1. unfold sure_layer in HS. rewrite Ek, Eo.
  destruct (p_kind q) eqn:E; try discriminate HS.
  - apply mk_rel. intros. apply Hmax; [apply entry_rel, HA|apply HofZ].
  - exact HA.
  - apply andb_prop in HS. destruct HS as (HS & _). apply mk_rel. intros i j Hi Hj. pose proof (entry_rel _ _ i j HA) as HE. unfold leaky1. rewrite (Hlt _ _ HE) by (eapply decided_at; eauto).
    destruct (flt (n := TNum) _ _); [apply Hmul; assumption|exact HE].
Qed.
Lemma sure_kind q r X : sure_layer q r X = true -> p_kind q = Linear \/ p_kind q = Hidden \/ p_kind q = Leaky.
Proof. unfold sure_layer. destruct (p_kind q); intros H; try discriminate H; auto. Qed.
Lemma ptrain_plain {K' : Num} (p : player K') r X u : p_kind p <> Dropout -> ptrain p r X u = pforward p r X.
Proof. unfold ptrain. destruct (p_kind p); congruence. Qed.
Lemma pback_rel p q r X X' Mask Mask' G G' : prel p q -> mrel X X' -> sure_layer q r X' = true -> mrel G G' ->
  mrel (pback p r (pforward p r X) Mask G) (pback q r (pforward q r X') Mask' G').
Proof.
  intros HP HX HS HG. pose proof (pforward_rel p q r X X' HP HX HS) as HO. destruct HP as (Ek & Ei & Eo & HW & HB & Hs).
  pose proof (sure_kind q r X' HS) as HK. unfold sure_layer in HS. unfold pback. rewrite Ek, Eo.
  destruct HK as [E|[E|E]]; rewrite E in HS |- *.
  - exact HG.
  - apply mk_rel. intros i j Hi Hj. pose proof (entry_rel _ _ i j HO) as HE. unfold relu_prime1. rewrite (Hle _ _ HE) by (eapply decided_at; eauto).
    destruct (fle (n := TNum) _ _); [apply HofZ|apply entry_rel, HG].
  - apply andb_prop in HS. destruct HS as (_ & HS). apply mk_rel. intros i j Hi Hj. pose proof (entry_rel _ _ i j HO) as HE. unfold leaky_prime1. rewrite (Hlt _ _ HE) by (eapply decided_at; eauto).
    destruct (flt (n := TNum) _ _); [apply Hmul; [apply entry_rel, HG|exact Hs]|apply entry_rel, HG].
Qed.
Lemma pbackprop_rel Y Y' o r : mrel Y Y' -> forall ps qs, Forall2 prel ps qs -> forall X X' U q U' q', mrel X X' -> sure_net qs r X' = true ->
  mrel (fst (pbackprop MSE Y o ps r X U q)) (fst (pbackprop MSE Y' o qs r X' U' q')) /\
  Forall2 grel (snd (pbackprop MSE Y o ps r X U q)) (snd (pbackprop MSE Y' o qs r X' U' q')).
Proof.
  intros HY ps qs HF. induction HF as [|p q0 ps qs HP HF IH]; intros X X' U q U' q' HX HS.
  - simpl. split; [|constructor]. apply mk_rel. intros. apply Hmul; [apply Hsub; apply entry_rel; assumption|]. apply Hdiv; apply HofZ.
  - cbn [sure_net] in HS. apply andb_prop in HS. destruct HS as (HS & HN). pose proof (sure_kind _ _ _ HS) as HK.
    assert (D1 : p_kind q0 <> Dropout) by (destruct HK as [E|[E|E]]; rewrite E; discriminate).
    assert (D2 : p_kind p <> Dropout) by (destruct HP as (E & _); rewrite E; exact D1).
    cbn [pbackprop]. rewrite !ptrain_plain by assumption.
    specialize (IH (pforward p r X) (pforward q0 r X') U (q + pdraws p r)%nat U' (q' + pdraws q0 r)%nat (pforward_rel p q0 r X X' HP HX HS) HN).
    destruct (pbackprop MSE Y o ps r (pforward p r X) U (q + pdraws p r)) as (G & gs). destruct (pbackprop MSE Y' o qs r (pforward q0 r X') U' (q' + pdraws q0 r)) as (G' & gs').
    simpl in IH. destruct IH as (HG & HGs). cbn [fst snd].
    assert (HB : mrel (pre_grad MSE Y (match ps with [] => true | _ => false end) p r (pforward p r X) (ptrain_mask p r (from U q)) G)
                      (pre_grad MSE Y' (match qs with [] => true | _ => false end) q0 r (pforward q0 r X') (ptrain_mask q0 r (from U' q')) G')).
    { unfold pre_grad, fused, clipped, bwd_clips. destruct HF; apply pback_rel; assumption. }
    destruct HP as (Ek & Ei & Eo & HW & HBb & Hsl). unfold pdX, pdW. rewrite Ei, Eo. split; [|constructor; [|exact HGs]].
    + apply pdot_rel; [exact HB|apply ptrans_rel, HW].
    + split; cbn [fst snd]; [apply pdot_rel; [apply ptrans_rel, HX|exact HB]|apply psum0_rel, HB].
Qed.
Lemma next_rate_rel p q : orel p q -> rho (next_rate p) (next_rate q).
Proof.
  intros (E1 & H1 & H2 & H3 & H4 & H5 & H6 & H7 & E2 & E3 & E4 & _). unfold next_rate. rewrite E3. destruct (po_usedecay q); [|exact H7].
  unfold rate_at. rewrite E2. apply Hmul; [exact H1|]. apply Hdiv; [apply HofZ|]. apply Hadd; [apply HofZ|]. apply Hmul; [exact H2|apply HofZ].
Qed.
Lemma unknown_mul_r a : t_ok (t_mul a unknown) = false.
Proof. unfold t_mul, rounded, unknown. cbn. now rewrite andb_false_r. Qed.
Lemma pupd1_rel p q r c P dP m ch P' dP' m' ch' : orel p q -> mrel P P' -> mrel dP dP' -> mrel m m' -> mrel ch ch' ->
  let x := pupd1 p r c P dP m ch in let y := pupd1 q r c P' dP' m' ch' in
  mrel (fst (fst x)) (fst (fst y)) /\ mrel (snd (fst x)) (snd (fst y)) /\ mrel (snd x) (snd y).
Proof.
  intros HO HP HD HM HC x y. subst x y. pose proof (next_rate_rel p q HO) as HR. destruct HO as (E1 & H1 & H2 & H3 & H4 & H5 & H6 & H7 & E2 & E3 & E4 & _). unfold pupd1. rewrite E1, E4.
  destruct (po_kind q).
  - destruct (po_usemom q); cbn [fst snd].
    + assert (HV : mrel (pmap2 r c (vel1 (po_mom p) (next_rate p)) m dP) (pmap2 r c (vel1 (po_mom q) (next_rate q)) m' dP')).
      { apply mk_rel. intros. apply Hsub; apply Hmul; try apply entry_rel; assumption. }
      split; [|split; assumption]. apply mk_rel. intros. apply Hadd; apply entry_rel; assumption.
    + split; [|split; assumption]. apply mk_rel. intros. apply Hsub; [apply entry_rel, HP|]. apply Hmul; [apply entry_rel, HD|exact HR].
  - cbn [fst snd].
    assert (HV : mrel (pmap2 r c (adam_m1 (po_b1 p)) m dP) (pmap2 r c (adam_m1 (po_b1 q)) m' dP')).
    { apply mk_rel. intros. apply Hadd; apply Hmul; try apply entry_rel; try assumption. apply Hsub; [apply HofZ|assumption]. }
    assert (HW : mrel (pmap2 r c (adam_c1 (po_b2 p)) ch dP) (pmap2 r c (adam_c1 (po_b2 q)) ch' dP')).
    { apply mk_rel. intros. apply Hadd; apply Hmul; try apply entry_rel; try assumption; [apply Hunk|]. apply Hsub; [apply HofZ|assumption]. }
    split; [|split; assumption]. apply mk_rel. intros. unfold adam_p1. apply Hadd; [apply entry_rel, HP|]. apply Hdiv.
    + apply Hmul; [apply Hneg, HR|]. apply Hmul; [apply entry_rel, HV|]. unfold adam_corr. apply Hdiv; [apply HofZ|]. apply Hsub; [apply HofZ|apply Hunk].
    + apply Hadd; [apply Hunk|assumption].
Qed.
Lemma tstep_rel t u g h : trel t u -> grel g h -> trel (tstep t g) (tstep u h).
Proof.
  intros (HP & HO) (HG1 & HG2). unfold tstep, pupdate. destruct HP as (Ek & Ei & Eo & HW & HB & Hs). rewrite Ei, Eo.
  pose proof HO as (E1 & H1 & H2 & H3 & H4 & H5 & H6 & H7 & E2 & E3 & E4 & M1 & M2 & M3 & M4). pose proof (next_rate_rel _ _ HO) as HR.
  pose proof (pupd1_rel (snd t) (snd u) (p_in (fst u)) (p_out (fst u)) _ _ _ _ _ _ _ _ HO HW HG1 M1 M3) as A. pose proof (pupd1_rel (snd t) (snd u) 1 (p_out (fst u)) _ _ _ _ _ _ _ _ HO HB HG2 M2 M4) as B.
  cbv zeta in A, B. destruct (pupd1 (snd t) _ _ (p_w _) _ _ _) as ((W1 & wm1) & wc1). destruct (pupd1 (snd u) _ _ (p_w _) _ _ _) as ((W2 & wm2) & wc2).
  destruct (pupd1 (snd t) _ _ (p_b _) _ _ _) as ((B1 & bm1) & bc1). destruct (pupd1 (snd u) _ _ (p_b _) _ _ _) as ((B2 & bm2) & bc2). cbn [fst snd] in A, B.
  destruct A as (A1 & A2 & A3). destruct B as (B1' & B2' & B3'). split; cbn [fst snd].
  - unfold reparam. repeat split; cbn; auto.
  - unfold po_after. repeat split; cbn; auto. now rewrite E2.
Qed.
Lemma pbatch_rel o ts us X X' Y Y' U q : Forall2 trel ts us -> mrel X X' -> mrel Y Y' -> sure_net (map fst us) (length X') X' = true ->
  Forall2 trel (pbatch MSE o ts X Y U q) (pbatch MSE o us X' Y' (fun _ => f0) 0).
Proof.
  intros HT HX HY HS. unfold pbatch.
  assert (HPS : Forall2 prel (map fst ts) (map fst us)) by (clear -HT; induction HT; simpl; constructor; [apply H|assumption]).
  assert (EL : length X = length X') by (eapply rel_length; exact HX).
  destruct (pbackprop_rel Y Y' o (length X') HY (map fst ts) (map fst us) HPS X X' U q (fun _ => f0) O HX HS) as (_ & HG). rewrite EL.
  revert HG. generalize (snd (pbackprop MSE Y o (map fst ts) (length X') X U q)) as gs. generalize (snd (pbackprop MSE Y' o (map fst us) (length X') X' (fun _ => f0) 0)) as hs.
  clear -HT Hadd Hsub Hmul Hdiv Hneg Hmax HofZ Hunk. induction HT as [|t u ts us H HT IH]; intros hs gs HG; [constructor|]. destruct HG as [|g h gs hs Hg HG]; [constructor|].
  simpl. constructor; [apply tstep_rel; assumption|apply IH; assumption].
Qed.
Definition brel (b : pm K * pm K) (c : pm TNum * pm TNum) : Prop := mrel (fst b) (fst c) /\ mrel (snd b) (snd c).
Lemma ptrain_rel o U bs cs : Forall2 brel bs cs -> forall ts us q q', Forall2 trel ts us -> sure_train o us cs = true ->
  Forall2 trel (fst (ptrain_on MSE o ts U q bs)) (fst (ptrain_on MSE o us (fun _ => f0) q' cs)).
Proof.
  induction 1 as [|(X, Y) (X', Y') bs cs (HX & HY) HB IH]; intros ts us q q' HT HS; [exact HT|].
  cbn [sure_train ptrain_on] in HS |- *. apply andb_prop in HS. destruct HS as (HS & HR).
  assert (HQ : forall q1 q2, pbatch MSE o us X' Y' (fun _ => f0) q1 = pbatch MSE o us X' Y' (fun _ => f0) q2).
  { intros q1 q2. unfold pbatch. f_equal. f_equal. f_equal.
    assert (G : forall ps A u1 u2, sure_net ps (length X') A = true -> pbackprop MSE Y' o ps (length X') A (fun _ => f0) u1 = pbackprop MSE Y' o ps (length X') A (fun _ => f0) u2).
    { induction ps as [|p ps IHp]; intros A u1 u2 HN; [reflexivity|]. cbn [sure_net] in HN. apply andb_prop in HN. destruct HN as (HK & HN). apply sure_kind in HK.
      assert (D : p_kind p <> Dropout) by (destruct HK as [E|[E|E]]; rewrite E; discriminate). cbn [pbackprop]. rewrite !ptrain_plain by assumption.
      rewrite (IHp (pforward p (length X') A) (u1 + pdraws p (length X'))%nat (u2 + pdraws p (length X'))%nat HN). reflexivity. }
    apply G, HS. }
  rewrite (HQ q' O). apply IH; [|exact HR]. apply pbatch_rel; assumption.
Qed.
Lemma firstn_rel {A B} (R : A -> B -> Prop) l l' : Forall2 R l l' -> forall n, Forall2 R (firstn n l) (firstn n l').
Proof. induction 1; intros [|n]; simpl; constructor; auto. Qed.
Lemma skipn_rel {A B} (R : A -> B -> Prop) l l' : Forall2 R l l' -> forall n, Forall2 R (skipn n l) (skipn n l').
Proof. induction 1; intros [|n]; simpl; auto. Qed.
Lemma chunks_rel {A B} (R : A -> B -> Prop) b l l' : Forall2 R l l' -> Forall2 (Forall2 R) (chunks b l) (chunks b l').
Proof.
  intros H. unfold chunks. rewrite <- (rel_length _ _ _ H). generalize (length l) as n. intros n. revert l l' H. induction n as [|n IH]; intros l l' H.
  - destruct H; constructor.
  - destruct H; [constructor|]. cbn [chunks_fuel]. constructor; [apply firstn_rel; now constructor|]. apply IH, skipn_rel. now constructor.
Qed.
Lemma combine_rel {A B C D} (R : A -> B -> Prop) (S : C -> D -> Prop) l l' : Forall2 R l l' -> forall m m', Forall2 S m m' ->
  Forall2 (fun p q => R (fst p) (fst q) /\ S (snd p) (snd q)) (combine l m) (combine l' m').
Proof. induction 1; intros m m' HM; [constructor|]. destruct HM; simpl; constructor; auto. Qed.
Lemma epochs_rel e b X Y X' Y' : mrel X X' -> mrel Y Y' -> Forall2 brel (epochs_of e b X Y) (epochs_of e b X' Y').
Proof.
  intros HX HY. unfold epochs_of. induction e as [|e IH]; [constructor|]. cbn [repeat concat]. apply Forall2_app; [|exact IH].
  apply (combine_rel mrel mrel); apply chunks_rel; assumption.
Qed.
Lemma pnet_rel r ps qs : Forall2 prel ps qs -> forall X X', mrel X X' -> sure_net qs r X' = true -> mrel (pnet ps r X) (pnet qs r X').
Proof.
  unfold pnet. induction 1 as [|p q ps qs HP HF IH]; intros X X' HX HS; [exact HX|]. cbn [sure_net] in HS. apply andb_prop in HS. destruct HS as (HS & HN).
  cbn [fold_left]. apply IH; [apply pforward_rel; assumption|exact HN].
Qed.
Lemma carry_rel {K0 : Num} (f : K0 -> K) (g : K0 -> TNum) : (forall x, rho (f x) (g x)) -> (forall A, mrel (carry_mat f A) (carry_mat g A)) /\ (forall t, trel (carry f t) (carry g t)).
Proof.
  intros H. assert (HM : forall A, mrel (carry_mat f A) (carry_mat g A)) by (intros A; apply map_rel; intros; apply map_rel; intros; apply H).
  split; [exact HM|]. intros (p, po). split; repeat split; cbn; auto.
Qed.
End Sim.
