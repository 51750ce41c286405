(** * Pieces: networks are piecewise linear, with few pieces if they are shallow. *)
From Coq Require Import ZArith List Bool Arith Lia Reals Lra.
From Verif Require Import Num NumR Heap Spec Matrix Loss Network Optimizers ModelGo PureSpec Repr HeapLemmas MatrixFacts MiscFacts RSum OptSpec ModelSpec ModelProofs ModelFacts FitProofs FitFacts ModelRefute Params CapacitySpec Capacity CapacityFit DeepSpec Deep PiecesSpec.
Import ListNotations.
Open Scope R_scope.

(** ** Functions that are affine away from finitely many points *)
Definition affine_on (u v : R) (f : R -> R) : Prop := exists a b, forall x, u <= x <= v -> f x = a * x + b.
Definition clear_of (L : list R) (u v : R) : Prop := forall b, In b L -> ~ (u < b < v).
Definition affine_off (L : list R) (f : R -> R) : Prop := forall u v, u < v -> clear_of L u v -> affine_on u v f.
Lemma clear_incl L L' u v : incl L L' -> clear_of L' u v -> clear_of L u v.
Proof. intros H H' b Hb. apply H'. now apply H. Qed.
Lemma affine_off_incl L L' f : incl L L' -> affine_off L f -> affine_off L' f.
Proof. intros H H' u v Huv HC. apply H'; [exact Huv|]. now apply (clear_incl L L'). Qed.
Lemma affine_off_ext L f g : (forall x, f x = g x) -> affine_off L f -> affine_off L g.
Proof. intros H H' u v Huv HC. destruct (H' u v Huv HC) as (a & b & HE). exists a, b. intros x Hx. rewrite <- H. now apply HE. Qed.
Lemma affine_off_sum L n (f : nat -> R -> R) (w : nat -> R) c : (forall l, (l < n)%nat -> affine_off L (f l)) -> affine_off L (fun x => rsum n (fun l => f l x * w l) + c).
Proof.
  intros H u v Huv HC. induction n as [|n IH].
  - exists 0, c. intros x Hx. rewrite rsum_0. ring.
  - destruct IH as (a & b & E); [intros l Hl; apply H; lia|]. destruct (H n ltac:(lia) u v Huv HC) as (a' & b' & E').
    exists (a + a' * w n), (b + b' * w n). intros x Hx. rewrite rsum_S. specialize (E x Hx). rewrite (E' x Hx). lra.
Qed.
(** ** One kink *)
Definition kink (s x : R) : R := if Rlt_dec x 0 then s * x else x.
Lemma kink_pos s x : 0 <= x -> kink s x = x.
Proof. intros H. unfold kink. destruct (Rlt_dec x 0); [lra|reflexivity]. Qed.
Lemma kink_neg s x : x <= 0 -> kink s x = s * x.
Proof. intros H. unfold kink. destruct (Rlt_dec x 0); [reflexivity|]. replace x with 0 by lra. ring. Qed.
Lemma affine_kink s u v f : affine_on u v f -> (forall x, u <= x <= v -> 0 <= f x) \/ (forall x, u <= x <= v -> f x <= 0) -> affine_on u v (fun x => kink s (f x)).
Proof.
  intros (a & b & E) [H|H].
  - exists a, b. intros x Hx. rewrite kink_pos by now apply H. now apply E.
  - exists (s * a), (s * b). intros x Hx. rewrite kink_neg by now apply H. rewrite (E x Hx). ring.
Qed.
(** A function that is affine on all parts of an interval [G] changes its sign at most once there. *)
Lemma one_zero (G : R -> Prop) s f : (forall x y z, G x -> G z -> x <= y <= z -> G y) -> (forall u v, u < v -> G u -> G v -> affine_on u v f) ->
  exists z, forall u v, u < v -> G u -> G v -> ~ (u < z < v) -> affine_on u v (fun x => kink s (f x)).
Proof.
  intros HG HA. destruct (Classical_Prop.classic (exists x y, x < y /\ G x /\ G y /\ f x * f y < 0)) as [(x & y & Hxy & Gx & Gy & Hf)|HN].
  - destruct (HA x y Hxy Gx Gy) as (a & b & E). rewrite (E x), (E y) in Hf by lra. assert (Ha : a <> 0) by (intros ->; nra). exists (- b / a). intros u v Huv Gu Gv Hz.
    set (u' := Rmin u x). set (v' := Rmax v y).
    assert (Gu' : G u') by (unfold u', Rmin; destruct (Rle_dec u x); assumption). assert (Gv' : G v') by (unfold v', Rmax; destruct (Rle_dec v y); assumption).
    pose proof (Rmin_l u x) as M1. pose proof (Rmin_r u x) as M2. pose proof (Rmax_l v y) as M3. pose proof (Rmax_r v y) as M4. fold u' in M1, M2. fold v' in M3, M4.
    destruct (HA u' v' ltac:(lra) Gu' Gv') as (a' & b' & E'). pose proof (E x ltac:(lra)) as Q1. rewrite E' in Q1 by lra. pose proof (E y ltac:(lra)) as Q2. rewrite E' in Q2 by lra.
    assert (a' = a) by nra. subst a'. assert (b' = b) by lra. subst b'.
    apply affine_kink; [exists a, b; intros t Ht; apply E'; lra|].
    assert (EF : forall t, u <= t <= v -> f t = a * (t - - b / a)) by (intros t Ht; rewrite E' by lra; field; exact Ha).
    destruct (Rle_dec (- b / a) u) as [Hl|Hl].
    + destruct (Rlt_dec 0 a); [left|right]; intros t Ht; rewrite EF by lra; nra.
    + assert (v <= - b / a) by lra. destruct (Rlt_dec 0 a); [right|left]; intros t Ht; rewrite EF by lra; nra.
  - exists 0. intros u v Huv Gu Gv _. apply affine_kink; [now apply HA|].
    destruct (Classical_Prop.classic (exists t, u <= t <= v /\ f t < 0)) as [(t & Ht & Hf)|HN'].
    + right. intros x Hx. apply Rnot_lt_le. intros Hpos. apply HN. assert (Gx : G x) by (apply (HG u x v); assumption). assert (Gt : G t) by (apply (HG u t v); assumption).
      destruct (Rtotal_order x t) as [H|[H|H]]; [exists x, t|subst; lra|exists t, x]; repeat split; try assumption; nra.
    + left. intros x Hx. apply Rnot_lt_le. intros Hneg. apply HN'. exists x. now split.
Qed.
(** ** The gaps between the points of a list *)
Lemma last_below (L : list R) u : (exists c, In c L /\ c <= u /\ forall b, In b L -> b <= u -> b <= c) \/ (forall b, In b L -> u < b).
Proof.
  induction L as [|b L IH]; [right; intros b []|]. destruct (Rle_dec b u) as [H|H].
  - left. destruct IH as [(c & C1 & C2 & C3)|IH].
    + destruct (Rle_dec b c) as [Hbc|Hbc].
      * exists c. split; [now right|]. split; [exact C2|]. intros d [<-|Hd] Hdu; [exact Hbc|now apply C3].
      * exists b. split; [now left|]. split; [exact H|]. intros d [<-|Hd] Hdu; [lra|]. specialize (C3 d Hd Hdu). lra.
    + exists b. split; [now left|]. split; [exact H|]. intros d [<-|Hd] Hdu; [lra|]. specialize (IH d Hd). lra.
  - destruct IH as [(c & C1 & C2 & C3)|IH].
    + left. exists c. split; [now right|]. split; [exact C2|]. intros d [<-|Hd] Hdu; [lra|now apply C3].
    + right. intros d [<-|Hd]; [lra|now apply IH].
Qed.
Lemma kink_off L s f : affine_off L f -> exists Z, (length Z <= length L + 1)%nat /\ affine_off (L ++ Z) (fun x => kink s (f x)).
Proof.
  intros HA.
  assert (HR : forall c, exists z, forall u v, u < v -> c <= u -> clear_of L c v -> ~ (u < z < v) -> affine_on u v (fun x => kink s (f x))).
  { intros c. destruct (one_zero (fun t => c <= t /\ clear_of L c t) s f) as (z & Hz).
    - intros x y t (X1 & X2) (T1 & T2) Hy. split; [lra|]. intros b Hb Hc. apply (T2 b Hb). lra.
    - intros u v Huv (U1 & U2) (V1 & V2). apply HA; [exact Huv|]. intros b Hb Hc. apply (V2 b Hb). lra.
    - exists z. intros u v Huv Hcu HC Hn. apply Hz; [exact Huv| | |exact Hn]; (split; [lra|]); [|exact HC]. intros b Hb Hc. apply (HC b Hb). lra. }
  assert (HL : exists z, forall u v, u < v -> (forall b, In b L -> v <= b) -> ~ (u < z < v) -> affine_on u v (fun x => kink s (f x))).
  { destruct (one_zero (fun t => forall b, In b L -> t <= b) s f) as (z & Hz).
    - intros x y t Gx Gt Hy b Hb. specialize (Gt b Hb). lra.
    - intros u v Huv Gu Gv. apply HA; [exact Huv|]. intros b Hb Hc. specialize (Gv b Hb). lra.
    - exists z. intros u v Huv HC Hn. apply Hz; [exact Huv| |exact HC|exact Hn]. intros b Hb. specialize (HC b Hb). lra. }
  destruct HL as (z0 & HL).
  assert (HZ : forall L', exists Z, length Z = length L' /\ forall c, In c L' -> exists z, In z Z /\ forall u v, u < v -> c <= u -> clear_of L c v -> ~ (u < z < v) -> affine_on u v (fun x => kink s (f x))).
  { induction L' as [|c L' (Z & Z1 & Z2)]; [exists []; split; [reflexivity|intros c []]|]. destruct (HR c) as (z & Hz). exists (z :: Z). split; [simpl; now rewrite Z1|].
    intros c' [<-|Hc]; [exists z; split; [now left|exact Hz]|]. destruct (Z2 c' Hc) as (z' & Q1 & Q2). exists z'. split; [now right|exact Q2]. }
  destruct (HZ L) as (Z & Z1 & Z2). exists (z0 :: Z). split; [simpl; lia|]. intros u v Huv HC.
  assert (HCL : clear_of L u v) by (intros b Hb; apply HC; apply in_or_app; now left).
  destruct (last_below L u) as [(c & C1 & C2 & C3)|H0].
  - destruct (Z2 c C1) as (z & Q1 & Q2). apply Q2; [exact Huv|exact C2| |apply HC; apply in_or_app; right; now right].
    intros b Hb Hc. destruct (Rle_dec b u) as [Hbu|Hbu]; [specialize (C3 b Hb Hbu); lra|]. apply (HCL b Hb). lra.
  - apply HL; [exact Huv| |apply HC; apply in_or_app; right; now left]. intros b Hb. specialize (H0 b Hb). apply Rnot_lt_le. intros Hbv. apply (HCL b Hb). lra.
Qed.
Lemma kinks_off L n (s : nat -> R) (f : nat -> R -> R) : (forall j, (j < n)%nat -> affine_off L (f j)) ->
  exists L', incl L L' /\ (length L' + 1 <= (length L + 1) * (n + 1))%nat /\ forall j, (j < n)%nat -> affine_off L' (fun x => kink (s j) (f j x)).
Proof.
  intros H. assert (HG : forall k, (k <= n)%nat -> exists Z, (length Z <= (length L + 1) * k)%nat /\ forall j, (j < k)%nat -> affine_off (L ++ Z) (fun x => kink (s j) (f j x))).
  { induction k as [|k IH]; intros Hk; [exists []; split; [simpl; lia|intros; lia]|]. destruct (IH ltac:(lia)) as (Z & Z1 & Z2). destruct (kink_off L (s k) (f k) (H k ltac:(lia))) as (Z' & Z1' & Z2').
    exists (Z ++ Z'). split; [rewrite app_length; lia|]. intros j Hj. destruct (Nat.eq_dec j k) as [->|N].
    - apply (affine_off_incl (L ++ Z')); [|exact Z2']. intros b Hb. apply in_app_or in Hb. apply in_or_app. destruct Hb; [now left|right; apply in_or_app; now right].
    - apply (affine_off_incl (L ++ Z)); [|apply Z2; lia]. intros b Hb. apply in_app_or in Hb. apply in_or_app. destruct Hb; [now left|right; apply in_or_app; now left]. }
  destruct (HG n (le_n n)) as (Z & Z1 & Z2). exists (L ++ Z). split; [intros b Hb; apply in_or_app; now left|]. split; [rewrite app_length; lia|exact Z2].
Qed.
(** ** Layers *)
Lemma layer_bends (p : player RNum) (M : R -> rpm) L : p_kind p <> SigmoidK -> p_kind p <> SoftmaxK -> (forall l, (l < p_in p)%nat -> affine_off L (fun x => entry (M x) 0 l)) ->
  exists L', (length L' + 1 <= (length L + 1) * (match p_kind p with Linear => 1 | _ => p_out p + 1 end))%nat /\ forall j, (j < p_out p)%nat -> affine_off L' (fun x => entry (pforward p 1 (M x)) 0 j).
Proof.
  intros K1 K2 H. set (f := fun (j : nat) (x : R) => rsum (p_in p) (fun l => entry (M x) 0 l * entry (p_w p) l j) + entry (p_b p) 0 j).
  assert (Hf : forall j, (j < p_out p)%nat -> affine_off L (f j)). { intros j Hj. apply (affine_off_sum L (p_in p) (fun l x => entry (M x) 0 l) (fun l => entry (p_w p) l j)). exact H. }
  assert (EA : forall x j, (j < p_out p)%nat -> entry (paffine p 1 (M x)) 0 j = f j x). { intros x j Hj. unfold paffine, paff. rewrite entry_mk by lia. reflexivity. }
  destruct (Classical_Prop.classic (p_kind p = Linear)) as [EK|NK].
  - exists L. rewrite EK. split; [lia|]. intros j Hj. apply (affine_off_ext L (f j)); [|now apply Hf]. intros x. unfold pforward, pact. rewrite EK. symmetry. now apply EA.
  - set (s := match p_kind p with Leaky => p_slope p | _ => 0 end). destruct (kinks_off L (p_out p) (fun _ => s) f Hf) as (L' & _ & L1 & L2). exists L'. split; [destruct (p_kind p); try congruence; exact L1|].
    intros j Hj. apply (affine_off_ext L' (fun x => kink s (f j x))); [|now apply L2]. intros x. unfold pforward, pact.
    assert (EP : forall Zm, entry (pmap 1 (p_out p) (act1 p) Zm) 0 j = act1 p (entry Zm 0 j)) by (intros Zm; apply entry_pmap; lia).
    destruct (p_kind p) eqn:EK; try congruence; rewrite EP, EA by exact Hj; unfold act1, s; rewrite EK.
    + rewrite R_relu. unfold kink, Rmax. destruct (Rlt_dec (f j x) 0), (Rle_dec (f j x) 0); lra.
    + unfold leaky1, kink. destruct (Rlt_dec (f j x) 0) as [Hl|Hl].
      * replace (flt (n := RNum) (f j x) f0) with true by (symmetry; apply r_ltb_true; exact Hl). reflexivity || (cbn [fmul RNum]; ring).
      * replace (flt (n := RNum) (f j x) f0) with false by (symmetry; apply r_ltb_false; change (f0 (K := RNum)) with 0; lra). reflexivity.
    + rewrite R_relu. unfold kink, Rmax. destruct (Rlt_dec (f j x) 0), (Rle_dec (f j x) 0); lra.
Qed.
Lemma net_bends : forall (ps : list (player RNum)) i o (M : R -> rpm) L, chain i ps o -> List.Forall (fun p => p_kind p <> SigmoidK /\ p_kind p <> SoftmaxK) ps -> (forall l, (l < i)%nat -> affine_off L (fun x => entry (M x) 0 l)) ->
  exists L', (length L' + 1 <= (length L + 1) * pieces ps)%nat /\ forall j, (j < o)%nat -> affine_off L' (fun x => entry (pnet ps 1 (M x)) 0 j).
Proof.
  induction ps as [|p ps IH]; intros i o M L HC HK H.
  - exists L. split; [simpl; lia|]. cbn in HC. subst. exact H.
  - destruct HC as (E & HC). inversion HK as [|? ? (K1 & K2) HK']; subst. destruct (layer_bends p M L K1 K2 H) as (L1 & B1 & H1). destruct (IH (p_out p) o (fun x => pforward p 1 (M x)) L1 HC HK' H1) as (L' & B2 & H2).
    exists L'. split; [|exact H2]. cbn [pieces]. nia.
Qed.
(** ** Data that changes direction too often *)
Lemma free_interval : forall (L : list R) k, (length L < k)%nat -> exists t, (t < k)%nat /\ clear_of L (INR (2 * t)) (INR (2 * t + 2)).
Proof.
  intros L k Hk. set (hit := fun (l t : nat) => match nth_error L l with Some b => if Rlt_dec (INR (2 * t)) b then if Rlt_dec b (INR (2 * t + 2)) then true else false else false | None => false end).
  destruct (missed hit) with (n := length L) (T := seq 0 k) as (t & Ht & HM).
  - intros l t t' H1 H2. unfold hit in *. destruct (nth_error L l) as [b|]; [|discriminate].
    destruct (Rlt_dec (INR (2 * t)) b) as [A1|]; [|discriminate]. destruct (Rlt_dec b (INR (2 * t + 2))) as [A2|]; [|discriminate].
    destruct (Rlt_dec (INR (2 * t')) b) as [A3|]; [|discriminate]. destruct (Rlt_dec b (INR (2 * t' + 2))) as [A4|]; [|discriminate].
    assert (Q1 : (2 * t < 2 * t' + 2)%nat) by (apply INR_lt; lra). assert (Q2 : (2 * t' < 2 * t + 2)%nat) by (apply INR_lt; lra). lia.
  - apply seq_NoDup.
  - now rewrite seq_length.
  - apply in_seq in Ht. exists t. split; [lia|]. intros b Hb (B1 & B2). apply In_nth_error in Hb. destruct Hb as (l & Hl). pose proof (HM l) as HM'. unfold hit in HM'. rewrite Hl in HM'.
    assert (Hll : (l < length L)%nat) by (apply nth_error_Some; congruence). specialize (HM' Hll). destruct (Rlt_dec (INR (2 * t)) b); [|lra]. destruct (Rlt_dec b (INR (2 * t + 2))); [discriminate|lra].
Qed.
Lemma bends_miss (ps : list (player RNum)) r : chain 1 ps 1 -> List.Forall (fun p => p_kind p <> SigmoidK /\ p_kind p <> SoftmaxK) ps -> (2 * pieces ps + 1 <= r)%nat ->
  exists a, (a < r)%nat /\ 1 / 2 <= Rabs (entry (pnet ps r (zigX r)) a 0 - entry (zigY r) a 0).
Proof.
  intros HC HK Hr. destruct (net_bends ps 1 1 (fun x => [[x]]) [] HC HK) as (L & HL & H).
  { intros l Hl u v Huv _. exists 1, 0. intros x Hx. replace l with O by lia. unfold entry. cbn [nth]. change (F RNum) with R. ring. }
  specialize (H O ltac:(lia)). destruct (free_interval L (pieces ps)) as (t & Ht & HF); [simpl in HL; lia|].
  assert (Hlt : INR (2 * t) < INR (2 * t + 2)) by (apply lt_INR; lia). destruct (H _ _ Hlt HF) as (a & b & E).
  assert (EP : forall c, (c < r)%nat -> entry (pnet ps r (zigX r)) c 0 = entry (pnet ps 1 [[INR c]]) 0 0).
  { intros c Hc. assert (EQ := pnet_row ps r (zigX r) c Hc). assert (EX : nth c (zigX r) [] = [INR c]) by (unfold zigX; rewrite nth_mk by exact Hc; reflexivity).
    rewrite EX in EQ. unfold entry. change (F RNum) with R in *. rewrite EQ. reflexivity. }
  assert (I1 : INR (2 * t + 1) = INR (2 * t) + 1) by (rewrite plus_INR; reflexivity). assert (I2 : INR (2 * t + 2) = INR (2 * t) + 2) by (rewrite plus_INR; cbn; ring).
  pose proof (E (INR (2 * t)) ltac:(lra)) as E0. pose proof (E (INR (2 * t + 1)) ltac:(lra)) as E1. pose proof (E (INR (2 * t + 2)) ltac:(lra)) as E2. rewrite I1 in E1 at 2. rewrite I2 in E2 at 2. cbv beta in E0, E1, E2.
  pose proof (EP (2 * t)%nat ltac:(lia)) as Q0. pose proof (EP (2 * t + 1)%nat ltac:(lia)) as Q1. pose proof (EP (2 * t + 2)%nat ltac:(lia)) as Q2.
  assert (Z0 : entry (zigY r) (2 * t) 0 = 0) by (unfold zigY; rewrite entry_mk by lia; now rewrite Nat.even_mul).
  assert (Z1 : entry (zigY r) (2 * t + 1) 0 = 1) by (unfold zigY; rewrite entry_mk by lia; now rewrite Nat.even_add, Nat.even_mul).
  assert (Z2 : entry (zigY r) (2 * t + 2) 0 = 0) by (unfold zigY; rewrite entry_mk by lia; now rewrite Nat.even_add, Nat.even_mul).
  change (F RNum) with R in *. rewrite E0 in Q0. rewrite E1 in Q1. rewrite E2 in Q2. clear E0 E1 E2.
  destruct (Rle_dec (1 / 2) (Rabs (entry (pnet ps r (zigX r)) (2 * t) 0 - entry (zigY r) (2 * t) 0))) as [A|A]; [exists (2 * t)%nat; split; [lia|exact A]|].
  destruct (Rle_dec (1 / 2) (Rabs (entry (pnet ps r (zigX r)) (2 * t + 1) 0 - entry (zigY r) (2 * t + 1) 0))) as [B|B]; [exists (2 * t + 1)%nat; split; [lia|exact B]|].
  destruct (Rle_dec (1 / 2) (Rabs (entry (pnet ps r (zigX r)) (2 * t + 2) 0 - entry (zigY r) (2 * t + 2) 0))) as [D|D]; [exists (2 * t + 2)%nat; split; [lia|exact D]|].
  exfalso. rewrite Q0, Z0 in A. rewrite Q1, Z1 in B. rewrite Q2, Z2 in D. apply Rnot_le_lt in A. apply Rnot_le_lt in B. apply Rnot_le_lt in D.
  apply Rabs_def2 in A. apply Rabs_def2 in B. apply Rabs_def2 in D. lra.
Qed.
(** ** Models *)
Lemma net_bent es : bent es -> List.Forall (fun p => p_kind p <> SigmoidK /\ p_kind p <> SoftmaxK) (net es).
Proof. intros H. apply List.Forall_map. exact H. Qed.
Lemma bent_fails s m es r x rsx : consistent s m es 1 1 -> (1 <= length es)%nat -> bent es -> (2 * pieces (net es) + 1 <= r)%nat -> m_acctype m = 0%Z -> own s x rsx r 1 (zigX r) ->
  returns (Predict m x) s (fun out s' => exists rs P, own s' out rs r 1 P /\ exists a, (a < r)%nat /\ 1 / 2 <= Rabs (entry P a 0 - entry (zigY r) a 0)).
Proof.
  intros HC HL HB Hr HM HX. pose proof HC as (_ & _ & _ & _ & HCh & _).
  destruct (predict_spec s m es 1 1 x rsx r (zigX r) 1 (pnet (net es) r (zigX r)) HC HL ltac:(unfold ppredict; now rewrite HM) HX ltac:(lia)) as (out & s' & E & rs & Q & _).
  exists out, s'. split; [exact E|]. exists rs, (pnet (net es) r (zigX r)). split; [exact Q|]. apply bends_miss; [exact HCh|now apply net_bent|exact Hr].
Qed.
Lemma bent_kept es es' : Forall2 same_place es es' -> bent es -> bent es' /\ pieces (net es') = pieces (net es).
Proof.
  unfold bent. induction 1 as [|e e' es es' HSP H IH]; intros HB; [split; [constructor|reflexivity]|]. inversion HB as [|? ? B1 B2]; subst. destruct (IH B2) as (I1 & I2).
  destruct HSP as (_ & _ & _ & A1 & _ & A2 & _). split; [constructor; [rewrite A1; exact B1|exact I1]|]. cbn [net map pieces]. fold (net es) (net es'). now rewrite I2, A1, A2.
Qed.
Lemma bent_trained s m es xs k r x rsx y rsy epochs bs xv yv : (0 <= bs)%Z -> (Z.of_nat r + bs <= 2 ^ 52)%Z ->
  trainable s m es xs 1 1 k -> bent es -> (2 * pieces (net es) + 1 <= r)%nat -> m_acctype m = 0%Z -> data_ok s es x rsx y rsy r 1 1 (zigX r) (zigY r) ->
  exists s' out s'' rs P, Fit m x y epochs bs xv yv 0 s = (Ret tt, s') /\ Predict m x s' = (Ret out, s'') /\ own s'' out rs r 1 P /\
    exists a, (a < r)%nat /\ 1 / 2 <= Rabs (entry P a 0 - entry (zigY r) a 0).
Proof.
  intros Hb H52 HT H1 Hr HM HD.
  destruct (fit_trains s m es xs 1 1 k x rsx y rsy r (zigX r) (zigY r) epochs bs xv yv RNum_min_faithful Hb H52 ltac:(lia) HT HD) as ([] & s' & E & nn & _ & (es' & xs' & HT' & HPl & _) & HX & HY).
  destruct (bent_kept _ _ HPl H1) as (K1 & K2).
  destruct (bent_fails s' m es' r x rsx (proj1 HT') (shapes _ _ _ _ _ _ _ HT') K1 ltac:(rewrite K2; exact Hr) HM HX) as (out & s'' & E2 & rs & P & Q & H).
  exists s', out, s'', rs, P. auto.
Qed.
(** ** The tent map *)
Definition tent (y : R) : R := Rmax (2 * y) 0 - Rmax (4 * y - 2) 0.
Fixpoint tents (k : nat) (y : R) : R := match k with O => y | S k' => tents k' (tent y) end.
Lemma tent_low y : 0 <= y <= 1 / 2 -> tent y = 2 * y.
Proof. intros H. unfold tent. rewrite Rmax_left, Rmax_right by lra. ring. Qed.
Lemma tent_high y : 1 / 2 <= y -> tent y = 2 - 2 * y.
Proof. intros H. unfold tent. rewrite !Rmax_left by lra. ring. Qed.
Lemma tents_zig : forall k a, (a <= 2 ^ k)%nat -> tents k (INR a / 2 ^ k) = if Nat.even a then 0 else 1.
Proof.
  induction k as [|k IH]; intros a Ha.
  - cbn in Ha. destruct a as [|[|a]]; [| |lia]; cbn; field.
  - cbn [tents]. assert (HP : 0 < 2 ^ k) by (apply pow_lt; lra). assert (EP : INR (2 ^ k) = 2 ^ k) by (rewrite pow_INR; reflexivity).
    assert (EQ : INR a / 2 ^ S k = INR a / 2 ^ k / 2) by (simpl; field; lra). rewrite EQ.
    destruct (le_lt_dec a (2 ^ k)) as [H|H].
    + rewrite tent_low; [|].
      * rewrite <- (IH a H). f_equal. field. lra.
      * apply le_INR in H. rewrite EP in H. pose proof (pos_INR a) as H0. assert (0 <= INR a / 2 ^ k) by (apply Rmult_le_pos; [exact H0|]; left; now apply Rinv_0_lt_compat).
        assert (INR a / 2 ^ k <= 1) by (apply Rmult_le_reg_r with (2 ^ k); [exact HP|]; unfold Rdiv; rewrite Rmult_assoc, Rinv_l by lra; lra). lra.
    + rewrite tent_high; [|].
      * assert (E2 : (2 ^ S k = 2 * 2 ^ k)%nat) by reflexivity. specialize (IH (2 ^ S k - a)%nat ltac:(lia)).
        assert (EV : Nat.even (2 ^ S k - a) = Nat.even a) by (rewrite Nat.even_sub, E2, Nat.even_mul by lia; now destruct (Nat.even a)). rewrite EV in IH. rewrite <- IH. f_equal.
        rewrite minus_INR, E2, mult_INR, EP by lia. cbn [INR]. field. lra.
      * apply lt_INR in H. rewrite EP in H. assert (1 <= INR a / 2 ^ k) by (apply Rmult_le_reg_r with (2 ^ k); [exact HP|]; unfold Rdiv; rewrite Rmult_assoc, Rinv_l by lra; lra). lra.
Qed.
Definition tjob0 (k : nat) : job := ((Hidden, 1, 2)%nat, (mk (K := RNum) 1 2 (fun _ j => (if (j =? 0)%nat then 2 else 4) / 2 ^ k), mk (K := RNum) 1 2 (fun _ j => if (j =? 0)%nat then 0 else - 2))).
Definition tjob : job := ((Hidden, 2, 2)%nat, (mk (K := RNum) 2 2 (fun i j => (if (j =? 0)%nat then 2 else 4) * (if (i =? 0)%nat then 1 else - 1)), mk (K := RNum) 1 2 (fun _ j => if (j =? 0)%nat then 0 else - 2))).
Definition tjobZ : job := ((Linear, 2, 1)%nat, (mk (K := RNum) 2 1 (fun i _ => if (i =? 0)%nat then 1 else - 1), mk (K := RNum) 1 1 (fun _ _ => 0))).
Lemma tents_net r a : (a < r)%nat -> forall n ps (X : rpm), Forall2 looks ps (repeat tjob n ++ [tjobZ]) -> entry (pnet ps r X) a 0 = tents n (entry X a 0 - entry X a 1).
Proof.
  intros Ha. induction n as [|n IH]; intros ps X H.
  - inversion H as [|p ? ps' ? H1 H2]; subst. inversion H2; subst. cbn [pnet fold_left tents]. etransitivity; [exact (lin_entry p _ _ _ _ r X a 0%nat H1 Ha ltac:(lia))|].
    rewrite !rsum_S, rsum_0, !entry_mk by lia. cbn [Nat.eqb]. change (F RNum) with R in *. ring.
  - inversion H as [|p ? ps' ? H1 H2]; subst. cbn [tents]. change (pnet (p :: ps') r X) with (pnet ps' r (pforward p r X)). etransitivity; [exact (IH ps' _ H2)|]. f_equal. unfold tent.
    f_equal; (etransitivity; [refine (hid_entry p _ _ _ _ r X a _ H1 Ha _); lia|]); f_equal; rewrite !rsum_S, rsum_0, !entry_mk by lia; cbn [Nat.eqb]; change (F RNum) with R in *; ring.
Qed.
Lemma thin_zig n ps r : (r <= 2 ^ (n + 1) + 1)%nat -> Forall2 looks ps (tjob0 (n + 1) :: repeat tjob n ++ [tjobZ]) -> forall a, (a < r)%nat -> entry (pnet ps r (zigX r)) a 0 = entry (zigY r) a 0.
Proof.
  intros Hr H a Ha. inversion H as [|p ? ps' ? H1 H2]; subst. change (pnet (p :: ps') r (zigX r)) with (pnet ps' r (pforward p r (zigX r))). etransitivity; [exact (tents_net r a Ha n ps' _ H2)|].
  assert (EY : entry (zigY r) a 0 = if Nat.even a then 0 else 1) by (unfold zigY; now rewrite entry_mk by lia).
  etransitivity; [|symmetry; exact EY]. etransitivity; [|exact (tents_zig (n + 1) a ltac:(lia))].
  assert (ET : forall z, tents (n + 1) z = tents n (tent z)) by (intros z; now rewrite Nat.add_1_r). etransitivity; [|symmetry; apply ET]. apply (f_equal (tents n)). unfold tent.
  f_equal; (etransitivity; [refine (hid_entry p _ _ _ _ r (zigX r) a _ H1 Ha _); lia|]); f_equal; rewrite !rsum_S, rsum_0; unfold zigX; rewrite !entry_mk by lia; cbn [Nat.eqb]; change (F RNum) with R in *; unfold Rdiv; ring.
Qed.
Lemma thin_fits s m es xs k n : trainable s m es xs 1 1 k -> thin_net es n -> m_acctype m = 0%Z ->
  exists s' es', Forall2 same_place es es' /\ frame (among (prows es)) s s' /\ rest s s' /\ trainable s' m es' xs 1 1 k /\
    forall s2 x rsx r, (1 <= r <= 2 ^ (n + 1) + 1)%nat -> consistent s2 m es' 1 1 -> own s2 x rsx r 1 (zigX r) ->
      returns (Predict m x) s2 (fun out s3 => exists rs P, own s3 out rs r 1 P /\ forall a, (a < r)%nat -> entry P a 0 = entry (zigY r) a 0).
Proof.
  intros HT HD HA. set (js := tjob0 (n + 1) :: repeat tjob n ++ [tjobZ]).
  assert (EJ : map fst js = thin n). { clear. unfold js, thin. cbn [map]. f_equal. clear js. rewrite map_app. f_equal. induction n as [|n IH]; [reflexivity|]. cbn [repeat map]. now rewrite IH. }
  assert (SJ : List.Forall jshape js).
  { unfold js. constructor; [split; apply shape_mk|]. apply List.Forall_app. split; [|constructor; [split; apply shape_mk|constructor]]. apply List.Forall_forall. intros j Hj. apply repeat_spec in Hj. subst j. split; apply shape_mk. }
  unfold thin_net in HD. rewrite <- EJ in HD. destruct (place_jobs es js HD SJ) as (ps & P1 & P2).
  destruct (set_params s m es xs 1 1 k ps HT P1) as (s' & F1 & F2 & F3). pose proof (f2len _ _ _ P1) as EL.
  exists s', (refits es ps). split; [now apply refits_places|]. do 3 (split; [assumption|]). intros s2 x rsx r Hr HC2 HX.
  destruct (predict_spec s2 m (refits es ps) 1 1 x rsx r (zigX r) 1 (pnet ps r (zigX r)) HC2 (shapes _ _ _ _ _ _ _ F3) ltac:(unfold ppredict; rewrite HA, refits_net by exact EL; reflexivity) HX ltac:(lia)) as (out & s3 & E & rs & Q & _).
  exists out, s3. split; [exact E|]. exists rs, (pnet ps r (zigX r)). split; [exact Q|]. apply (thin_zig n ps r); [lia|exact P2].
Qed.
(** Layers of at most [w] units. *)
Lemma pieces_bound w : forall ps : list (player RNum), List.Forall (fun p => (p_out p <= w)%nat) ps -> (pieces ps <= (w + 1) ^ length ps)%nat.
Proof.
  induction 1 as [|p ps Hp H IH]; [simpl; lia|]. cbn [pieces length Nat.pow]. apply Nat.mul_le_mono; [|exact IH]. destruct (p_kind p); lia.
Qed.
Lemma shallow_fails s m es n w r x rsx : consistent s m es 1 1 -> (1 <= length es)%nat -> bent es -> List.Forall (fun e => (p_out (e_p e) <= w)%nat) es -> ((w + 1) ^ length es <= 2 ^ n)%nat -> r = (2 ^ (n + 1) + 1)%nat -> m_acctype m = 0%Z ->
  own s x rsx r 1 (zigX r) ->
  returns (Predict m x) s (fun out s' => exists rs P, own s' out rs r 1 P /\ exists a, (a < r)%nat /\ 1 / 2 <= Rabs (entry P a 0 - entry (zigY r) a 0)).
Proof.
  intros HC HL HB HW HN HR HM HX. apply (bent_fails s m es r x rsx HC HL HB); [|exact HM|exact HX].
  assert (HP : (pieces (net es) <= (w + 1) ^ length (net es))%nat) by (apply pieces_bound; apply List.Forall_map; exact HW). unfold net in HP at 2. rewrite map_length in HP.
  assert (E2 : (2 ^ (n + 1) = 2 * 2 ^ n)%nat) by (rewrite Nat.add_1_r; reflexivity). lia.
Qed.
