(** * FlipNum: arithmetic up to sign, for real numbers and for float64. *)
From Coq Require Import ZArith List Bool Arith Lia Reals Lra.
From Flocq Require Import Core.Core IEEE754.BinarySingleNaN IEEE754.Binary IEEE754.Bits.
From Verif Require Import Num NumR NumB64 Heap Spec Network PureSpec Repr OptSpec ModelSpec LossProofs LayerReal B64Facts Mono FlipSpec.
From Verif Require NanProofs.
Import ListNotations.
Open Scope R_scope.

Record flip_laws (K : Num) : Prop := {
  fl_refl : forall x : K, turned false x x;
  fl_zero : forall s, turned (K := K) s f0 f0;
  fl_one : turned (K := K) true f1 (ofZ (-1)) /\ turned (K := K) true (ofZ (-1)) f1;
  fl_add : forall s (x x' y y' : K), turned s x x' -> turned s y y' -> turned s (fadd x y) (fadd x' y');
  fl_sub : forall s (x x' y y' : K), turned s x x' -> turned s y y' -> turned s (fsub x y) (fsub x' y');
  fl_mul : forall s t (x x' y y' : K), turned s x x' -> turned t y y' -> turned (xorb s t) (fmul x y) (fmul x' y');
  fl_relu : forall x x' : K, turned false x x' -> turned false (relu1 x) (relu1 x');
  fl_le : forall x x' : K, turned false x x' -> fle x' f0 = fle x f0;
  fl_lt : forall x x' : K, turned false x x' -> flt x' f0 = flt x f0;
  fl_gt : forall x x' : K, turned false x x' -> flt f0 x' = flt f0 x;
  fl_cross : forall x x' : K, turned true x x' -> flt f0 x' = flt x f0 /\ flt x' f0 = flt f0 x;
  fl_anti : forall x : K, flt f0 x = true -> flt x f0 = false;
  fl_div : forall s (x x' d d' : K), turned s x x' -> same d d' -> turned s (fdiv x d) (fdiv x' d');
  fl_same_add : forall x x' y y' : K, same x x' -> same y y' -> same (fadd x y) (fadd x' y');
  fl_same_mul : forall x x' y y' : K, same x x' -> same y y' -> same (fmul x y) (fmul x' y');
  fl_same_sqrt : forall x x' : K, same x x' -> same (fsqrt x) (fsqrt x');
  fl_less : forall x x' y y' : K, turned false x x' -> turned false y y' -> flt x' y' = flt x y }.

(** ** Real numbers *)
Lemma turned_R s (x y : R) : turned (K := RNum) s x y <-> y = if s then - x else x.
Proof.
  unfold turned. cbn [feq fneg RNum F]. unfold r_eqb. split.
  - intros [(H & _)|H]; [destruct (Req_EM_T x x); [discriminate|tauto]|]. destruct s; destruct (Req_EM_T y _) as [E|E]; try discriminate; exact E.
  - intros ->. right. destruct s; destruct (Req_EM_T _ _); tauto.
Qed.
Lemma same_R (x y : R) : same (K := RNum) x y <-> y = x.
Proof. unfold same. cbn [feq RNum F]. unfold r_eqb. split; [intros [H|(H & _)]; [exact H|destruct (Req_EM_T x x); [discriminate|tauto]]|auto]. Qed.
Lemma RNum_even : even_square (K := RNum).
Proof.
  intros s x y. rewrite turned_R. intros ->. apply same_R. cbn [fpow ofZ RNum F]. rewrite !r_pow_Z. unfold powerRZ. change (Pos.to_nat 2) with 2%nat. destruct s; cbn [pow]; ring.
Qed.
Lemma RNum_flip : flip_laws RNum.
Proof.
  split.
  - intros x. now apply turned_R.
  - intros s. apply turned_R. unfold f0. cbn. destruct s; lra.
  - split; apply turned_R; unfold f1; cbn; lra.
  - intros s x x' y y'. rewrite !turned_R. intros -> ->. cbn [fadd RNum]. destruct s; change (F RNum) with R; ring.
  - intros s x x' y y'. rewrite !turned_R. intros -> ->. cbn [fsub RNum]. destruct s; change (F RNum) with R; ring.
  - intros s t x x' y y'. rewrite !turned_R. intros -> ->. cbn [fmul RNum]. destruct s, t; cbn [xorb]; change (F RNum) with R; ring.
  - intros x x'. rewrite turned_R. intros ->. now apply turned_R.
  - intros x x'. rewrite turned_R. now intros ->.
  - intros x x'. rewrite turned_R. now intros ->.
  - intros x x'. rewrite turned_R. now intros ->.
  - intros x x'. rewrite turned_R. intros ->. change (r_ltb 0 (- x) = r_ltb x 0 /\ r_ltb (- x) 0 = r_ltb 0 x). unfold r_ltb. split; destruct (Rlt_dec _ _), (Rlt_dec _ _); try reflexivity; exfalso; change (F RNum) with R in *; lra.
  - intros x. change (r_ltb 0 x = true -> r_ltb x 0 = false). unfold r_ltb. destruct (Rlt_dec 0 x), (Rlt_dec x 0); try reflexivity; try discriminate. exfalso. change (F RNum) with R in *. lra.
  - intros s x x' d d'. rewrite !turned_R, same_R. intros -> ->. cbn [fdiv RNum]. change (F RNum) with R. unfold Rdiv. destruct s; ring.
  - intros x x' y y'. rewrite !same_R. now intros -> ->.
  - intros x x' y y'. rewrite !same_R. now intros -> ->.
  - intros x x'. rewrite !same_R. now intros ->.
  - intros x x' y y'. rewrite !turned_R. now intros -> ->.
Qed.

(** ** float64 *)
Definition sg (s : bool) (v : R) : R := if s then - v else v.
Definition tk (s : bool) (x y : binary64) : Prop := (b64_nan x = true /\ b64_nan y = true) \/ (b64_nan x = false /\ b64_nan y = false /\ ek y = sg s (ek x)).
Lemma eq_ek x y : b64_nan x = false -> b64_nan y = false -> (b64_eq x y = true <-> ek x = ek y).
Proof.
  intros Nx Ny. pose proof (b64_compare_spec x y Nx Ny) as C. pose proof (lt_ek x y Nx Ny) as L1. pose proof (lt_ek y x Ny Nx) as L2.
  rewrite (b64_lt_spec x y Nx Ny) in L1. rewrite (b64_lt_spec y x Ny Nx) in L2. unfold b64_eq. destruct (b64_compare x y) as [[| |]|]; [| | |destruct C].
  - split; [intros _|reflexivity]. destruct (Rtotal_order (ek x) (ek y)) as [H|[H|H]]; [exfalso; apply L1 in H; exact (xlt_not_xeq _ _ H C)|exact H|exfalso; apply L2 in H; apply (xlt_not_xeq _ _ H); destruct C; split; congruence].
  - split; [discriminate|]. intros E. apply L1 in C. lra.
  - split; [discriminate|]. intros E. apply L2 in C. lra.
Qed.
Lemma eq_nan x y : b64_eq x y = true -> b64_nan x = false /\ b64_nan y = false.
Proof. destruct x as [|[|]| |], y as [|[|]| |]; cbn; try discriminate; auto. Qed.
Lemma eq_self x : b64_eq x x = negb (b64_nan x).
Proof.
  destruct (b64_nan x) eqn:N; cbn [negb]; [|now apply (eq_ek x x N N)]. destruct (b64_eq x x) eqn:E; [|reflexivity]. apply eq_nan in E as (E & _). rewrite E in N. discriminate.
Qed.
Lemma turned_tk L s (x y : B64 L) : turned s x y <-> tk s x y.
Proof.
  unfold turned, tk. cbn [feq fneg B64]. rewrite !eq_self. destruct (neg_ek x) as (NN & EN). split.
  - intros [(H1 & H2)|H]; [left; split; now apply negb_false_iff|]. right. pose proof (eq_nan _ _ H) as (N1 & N2). destruct s; cbn [sg].
    + rewrite NN in N2. split; [exact N2|]. split; [exact N1|]. rewrite <- (EN N2). apply eq_ek; [exact N1|rewrite NN; exact N2|exact H].
    + split; [exact N2|]. split; [exact N1|]. now apply eq_ek.
  - intros [(H1 & H2)|(N1 & N2 & E)]; [left; rewrite H1, H2; auto|]. right. destruct s; cbn [sg] in E; apply eq_ek; auto; [rewrite NN; exact N1|rewrite (EN N1); exact E].
Qed.
Lemma rnd_sg s v : rnd (sg s v) = sg s (rnd v).
Proof. destruct s; [apply round_NE_opp|reflexivity]. Qed.
Lemma clamp_sg s v : clamp (sg s v) = sg s (clamp v).
Proof.
  destruct s; [|reflexivity]. cbn [sg]. unfold clamp. pose proof top_pos.
  unfold Rmax, Rmin. repeat destruct (Rle_dec _ _); lra.
Qed.
Lemma fin_ek x y s : b64_nan y = false -> b64_finite x = true -> ek y = sg s (ek x) -> b64_finite y = true /\ b64_R y = sg s (b64_R x).
Proof.
  intros Ny Fx E. destruct (ek_fin x Fx) as (Ex & Bx). rewrite Ex in *.
  destruct (shape_of y Ny) as [Fy|[-> | ->]].
  - split; [exact Fy|]. rewrite <- E. symmetry. apply (ek_fin y Fy).
  - rewrite ek_minf in E. apply Rabs_lt_inv in Bx. destruct s; cbn [sg] in E; lra.
  - rewrite ek_pinf in E. apply Rabs_lt_inv in Bx. destruct s; cbn [sg] in E; lra.
Qed.
Lemma inf_ek y s b : b64_nan y = false -> ek y = sg s (ek (b64_inf b)) -> y = b64_inf (xorb s b).
Proof. intros Ny E. pose proof top_pos. destruct s, b; cbn [sg xorb] in *; rewrite ?ek_minf, ?ek_pinf in E; (apply ek_top; [exact Ny|lra]) || (apply ek_bot; [exact Ny|lra]). Qed.
Lemma plus_fin_inf x b : b64_finite x = true -> b64_plus mode_NE x (b64_inf b) = b64_inf b /\ b64_plus mode_NE (b64_inf b) x = b64_inf b.
Proof. destruct x as [|[|]| |]; try discriminate; intros _; destruct b; split; reflexivity. Qed.
Lemma inf_shape x : b64_nan x = false -> b64_finite x = true \/ exists b, x = b64_inf b.
Proof. intros H. destruct (shape_of x H) as [F|[-> | ->]]; eauto. Qed.
Lemma ek_inf_sg s b : ek (b64_inf (xorb s b)) = sg s (ek (b64_inf b)).
Proof. destruct s, b; cbn [xorb sg]; rewrite ?ek_minf, ?ek_pinf; ring. Qed.
Lemma add_tk s x x' y y' : tk s x x' -> tk s y y' -> tk s (b64_plus mode_NE x y) (b64_plus mode_NE x' y').
Proof.
  intros [(N1 & N2)|(N1 & N2 & Ex)]; [intros _; left; split; now apply plus_nan_l|]. intros [(M1 & M2)|(M1 & M2 & Ey)]; [left; split; now apply plus_nan_r|].
  destruct (inf_shape x N1) as [Fx|(b & ->)].
  - destruct (fin_ek _ _ _ N2 Fx Ex) as (Fx' & Rx). destruct (inf_shape y M1) as [Fy|(c & ->)].
    + destruct (fin_ek _ _ _ M2 Fy Ey) as (Fy' & Ry). right. destruct (plus_ek x y Fx Fy) as (A1 & A2), (plus_ek x' y' Fx' Fy') as (B1 & B2). split; [exact A1|]. split; [exact B1|].
      rewrite A2, B2, Rx, Ry. replace (sg s (b64_R x) + sg s (b64_R y)) with (sg s (b64_R x + b64_R y)) by (destruct s; cbn [sg]; ring). now rewrite rnd_sg, clamp_sg.
    + apply (inf_ek _ _ _ M2) in Ey. subst y'. right. rewrite (proj1 (plus_fin_inf x c Fx)), (proj1 (plus_fin_inf x' _ Fx')). split; [reflexivity|]. split; [reflexivity|]. apply ek_inf_sg.
  - apply (inf_ek _ _ _ N2) in Ex. subst x'. destruct (inf_shape y M1) as [Fy|(c & ->)].
    + destruct (fin_ek _ _ _ M2 Fy Ey) as (Fy' & Ry). right. rewrite (proj2 (plus_fin_inf y b Fy)), (proj2 (plus_fin_inf y' _ Fy')). split; [reflexivity|]. split; [reflexivity|]. apply ek_inf_sg.
    + apply (inf_ek _ _ _ M2) in Ey. subst y'. destruct s, b, c; cbn [xorb]; (left; split; reflexivity) || (right; split; [reflexivity|split; [reflexivity|]]).
      all: match goal with |- ek ?u = sg ?s (ek ?v) => first [change u with (b64_inf true)|change u with (b64_inf false)]; first [change v with (b64_inf true)|change v with (b64_inf false)] end; cbn [sg]; rewrite ?ek_minf, ?ek_pinf; ring.
Qed.
Lemma opp_tk s x y : tk s x y -> tk s (b64_opp x) (b64_opp y).
Proof.
  destruct (neg_ek x) as (NX & EX), (neg_ek y) as (NY & EY). unfold tk. rewrite NX, NY. intros [H|(N1 & N2 & E)]; [left; exact H|]. right. split; [exact N1|]. split; [exact N2|]. rewrite (EX N1), (EY N2), E. destruct s; cbn [sg]; ring.
Qed.
Lemma minus_as_plus x y : b64_nan (b64_minus mode_NE x y) = b64_nan (b64_plus mode_NE x (b64_opp y)) /\ (b64_nan (b64_minus mode_NE x y) = false -> ek (b64_minus mode_NE x y) = ek (b64_plus mode_NE x (b64_opp y))).
Proof.
  destruct (b64_nan x) eqn:Nx; [rewrite (plus_nan_l _ _ Nx); replace (b64_nan (b64_minus mode_NE x y)) with true by (destruct x; try discriminate; destruct y; reflexivity); split; [reflexivity|discriminate]|].
  destruct (b64_nan y) eqn:Ny; [rewrite (plus_nan_r x (b64_opp y)) by (rewrite (proj1 (neg_ek y)); exact Ny); replace (b64_nan (b64_minus mode_NE x y)) with true by (destruct y; try discriminate; destruct x; reflexivity); split; [reflexivity|discriminate]|].
  destruct (inf_shape x Nx) as [Fx|(b & ->)], (inf_shape y Ny) as [Fy|(c & ->)].
  - assert (E : b64_finite (b64_opp y) = true) by (destruct y; try discriminate; reflexivity).
    destruct (plus_ek x _ Fx E) as (A1 & A2). rewrite A1, A2. replace (b64_R (b64_opp y)) with (- b64_R y) by (symmetry; apply B2R_Bopp).
    pose proof (Bminus_correct 53 1024 (eq_refl Lt) (eq_refl Lt) binop_nan_pl64 mode_NE x y Fx Fy) as C.
    change (Bminus 53 1024 (eq_refl Lt) (eq_refl Lt) binop_nan_pl64 mode_NE x y) with (b64_minus mode_NE x y) in C. fold (b64_R x) (b64_R y) in C.
    change (round radix2 (SpecFloat.fexp 53 1024) (round_mode mode_NE) (b64_R x - b64_R y)) with (rnd (b64_R x - b64_R y)) in C. fold top in C. change (b64_R x + - b64_R y) with (b64_R x - b64_R y).
    destruct (Rlt_bool (Rabs (rnd (b64_R x - b64_R y))) top) eqn:HB.
    + destruct C as (C1 & C2 & _). split; [now apply fin_not_nan|]. intros _. destruct (ek_fin _ C2) as [E' _]. rewrite E'. unfold b64_R at 1. rewrite C1. symmetry. apply clamp_in. destruct (Rlt_bool_spec (Rabs (rnd (b64_R x - b64_R y))) top) as [H|H]; [exact H|discriminate].
    + destruct C as (C1 & C2). pose proof (sign_R x Fx) as Sx. pose proof (sign_R y Fy) as Sy.
      destruct (over_ek _ _ (b64_R x - b64_R y) C1 HB) as (D1 & D2); [|split; [exact D1|intros _; exact D2]]. rewrite C2 in *. destruct (Bsign 53 1024 y); cbn [negb] in *; lra.
  - destruct x as [|[|]| |]; try discriminate; destruct c; split; reflexivity.
  - destruct y as [|[|]| |]; try discriminate; destruct b; split; reflexivity.
  - destruct b, c; split; try reflexivity; discriminate.
Qed.
Lemma sub_tk s x x' y y' : tk s x x' -> tk s y y' -> tk s (b64_minus mode_NE x y) (b64_minus mode_NE x' y').
Proof.
  intros HX HY. pose proof (add_tk s _ _ _ _ HX (opp_tk _ _ _ HY)) as H. destruct (minus_as_plus x y) as (N1 & E1), (minus_as_plus x' y') as (N2 & E2). unfold tk in *. rewrite N1, N2.
  destruct H as [H|(A & B & E)]; [left; exact H|]. right. split; [exact A|]. split; [exact B|]. rewrite E1, E2 by congruence. exact E.
Qed.
Lemma sg_xorb s t v : sg (xorb s t) v = sg s (sg t v).
Proof. destruct s, t; cbn [xorb sg]; ring. Qed.
Lemma nz_sign y : b64_finite y = true -> b64_R y <> 0 -> Bsign 53 1024 y = Rlt_bool (b64_R y) 0.
Proof. intros F H. pose proof (sign_R y F) as S. destruct (Bsign 53 1024 y); symmetry; [apply Rlt_bool_true|apply Rlt_bool_false]; lra. Qed.
Lemma mult_inf_nz b y : b64_finite y = true -> b64_R y <> 0 -> b64_mult mode_NE (b64_inf b) y = b64_inf (xorb b (Rlt_bool (b64_R y) 0)) /\ b64_mult mode_NE y (b64_inf b) = b64_inf (xorb b (Rlt_bool (b64_R y) 0)).
Proof.
  intros F H. rewrite <- (nz_sign y F H). destruct y as [s|s|s pl h|s m e h]; try discriminate F; [exfalso; apply H; reflexivity|]. cbn [Bsign]. destruct b, s; split; reflexivity.
Qed.
Lemma mult_inf_z b y : b64_finite y = true -> b64_R y = 0 -> b64_nan (b64_mult mode_NE (b64_inf b) y) = true /\ b64_nan (b64_mult mode_NE y (b64_inf b)) = true.
Proof.
  intros F H. destruct y as [s|s|s pl h|s m e h]; try discriminate F; [split; reflexivity|]. exfalso. unfold b64_R in H. cbn [B2R] in H. apply eq_0_F2R in H. cbn in H. destruct s; discriminate H.
Qed.
Lemma neg_bool s v : v <> 0 -> Rlt_bool (sg s v) 0 = xorb s (Rlt_bool v 0).
Proof. intros H. destruct s; cbn [sg]; [|destruct (Rlt_bool v 0); reflexivity]. destruct (Rlt_bool_spec v 0) as [G|G]; cbn [xorb]; [apply Rlt_bool_false; lra|apply Rlt_bool_true; lra]. Qed.
Lemma inf_mul s t b y y' : b64_finite y = true -> b64_finite y' = true -> b64_R y' = sg t (b64_R y) ->
  tk (xorb s t) (b64_mult mode_NE (b64_inf b) y) (b64_mult mode_NE (b64_inf (xorb s b)) y') /\ tk (xorb s t) (b64_mult mode_NE y (b64_inf b)) (b64_mult mode_NE y' (b64_inf (xorb s b))).
Proof.
  intros F F' E. destruct (Req_dec (b64_R y) 0) as [Z|Z].
  - assert (Z' : b64_R y' = 0) by (rewrite E, Z; destruct t; cbn [sg]; ring). destruct (mult_inf_z b y F Z), (mult_inf_z (xorb s b) y' F' Z'). split; left; split; assumption.
  - assert (Z' : b64_R y' <> 0) by (rewrite E; destruct t; cbn [sg]; lra). destruct (mult_inf_nz b y F Z) as (-> & ->), (mult_inf_nz (xorb s b) y' F' Z') as (-> & ->). rewrite E, (neg_bool t _ Z).
    replace (xorb (xorb s b) (xorb t (Rlt_bool (b64_R y) 0))) with (xorb (xorb s t) (xorb b (Rlt_bool (b64_R y) 0))) by (destruct s, b, t, (Rlt_bool (b64_R y) 0); reflexivity).
    split; right; (split; [reflexivity|]); (split; [reflexivity|]); apply ek_inf_sg.
Qed.
Lemma mul_tk s t x x' y y' : tk s x x' -> tk t y y' -> tk (xorb s t) (b64_mult mode_NE x y) (b64_mult mode_NE x' y').
Proof.
  intros [(N1 & N2)|(N1 & N2 & Ex)]; [intros _; left; split; now apply mult_nan_l|]. intros [(M1 & M2)|(M1 & M2 & Ey)]; [left; split; now apply mult_nan_r|].
  destruct (inf_shape x N1) as [Fx|(b & ->)].
  - destruct (fin_ek _ _ _ N2 Fx Ex) as (Fx' & Rx). destruct (inf_shape y M1) as [Fy|(c & ->)].
    + destruct (fin_ek _ _ _ M2 Fy Ey) as (Fy' & Ry). right. destruct (mult_ek x y Fx Fy) as (A1 & A2), (mult_ek x' y' Fx' Fy') as (B1 & B2). split; [exact A1|]. split; [exact B1|].
      rewrite A2, B2, Rx, Ry. replace (sg s (b64_R x) * sg t (b64_R y)) with (sg (xorb s t) (b64_R x * b64_R y)) by (destruct s, t; cbn [sg xorb]; ring). now rewrite rnd_sg, clamp_sg.
    + apply (inf_ek _ _ _ M2) in Ey. subst y'. rewrite xorb_comm. exact (proj2 (inf_mul t s c x x' Fx Fx' Rx)).
  - apply (inf_ek _ _ _ N2) in Ex. subst x'. destruct (inf_shape y M1) as [Fy|(c & ->)].
    + destruct (fin_ek _ _ _ M2 Fy Ey) as (Fy' & Ry). exact (proj1 (inf_mul s t b y y' Fy Fy' Ry)).
    + apply (inf_ek _ _ _ M2) in Ey. subst y'. right.
      assert (I : forall u v, b64_mult mode_NE (b64_inf u) (b64_inf v) = b64_inf (xorb u v)) by (intros [] []; reflexivity). rewrite !I. split; [reflexivity|]. split; [reflexivity|].
      replace (xorb (xorb s b) (xorb t c)) with (xorb (xorb s t) (xorb b c)) by (destruct s, t, b, c; reflexivity). apply ek_inf_sg.
Qed.
Lemma le_ek x y : b64_nan x = false -> b64_nan y = false -> (b64_le x y = true <-> ek x <= ek y).
Proof. intros Nx Ny. rewrite (b64_le_spec x y Nx Ny), <- (b64_lt_spec y x Ny Nx), (lt_ek y x Ny Nx). split; intros H; lra. Qed.
Lemma same_bool (b c : bool) : (b = true <-> c = true) -> b = c.
Proof. destruct b, c; intros H; try reflexivity; [symmetry; now apply H|now apply H]. Qed.
Lemma le_nan x y : b64_nan x = true -> b64_le x y = false. Proof. destruct x as [|[|]| |], y as [|[|]| |]; try discriminate; reflexivity. Qed.
Lemma z_ek : b64_nan (b64_ofZ 0) = false /\ ek (b64_ofZ 0) = 0. Proof. split; reflexivity. Qed.
Lemma relu_nan x : b64_nan x = true -> b64_nan (b64_max x (b64_ofZ 0)) = true.
Proof. destruct x as [|[|]| |]; try discriminate; reflexivity. Qed.
Lemma unit_ek : b64_nan (b64_ofZ 1) = false /\ b64_nan (b64_ofZ (-1)) = false /\ ek (b64_ofZ (-1)) = - ek (b64_ofZ 1).
Proof.
  split; [reflexivity|]. split; [reflexivity|]. rewrite (proj1 (ek_fin (b64_ofZ (-1)) eq_refl)), (proj1 (ek_fin (b64_ofZ 1) eq_refl)). unfold b64_R. vm_compute. lra.
Qed.
Lemma div_ek x y : b64_finite x = true -> b64_finite y = true -> b64_R y <> 0 -> b64_nan (b64_div mode_NE x y) = false /\ ek (b64_div mode_NE x y) = clamp (rnd (b64_R x / b64_R y)).
Proof.
  intros Fx Fy Hy. pose proof (Bdiv_correct 53 1024 (eq_refl Lt) (eq_refl Lt) binop_nan_pl64 mode_NE x y Hy) as C.
  change (Bdiv 53 1024 (eq_refl Lt) (eq_refl Lt) binop_nan_pl64 mode_NE x y) with (b64_div mode_NE x y) in C. fold (b64_R x) (b64_R y) in C.
  change (round radix2 (SpecFloat.fexp 53 1024) (round_mode mode_NE) (b64_R x / b64_R y)) with (rnd (b64_R x / b64_R y)) in C. fold top in C.
  destruct (Rlt_bool (Rabs (rnd (b64_R x / b64_R y))) top) eqn:HB.
  - destruct C as (C1 & C2 & _). fold (b64_finite x) in C2. rewrite Fx in C2. split; [now apply fin_not_nan|]. destruct (ek_fin _ C2) as [E _]. rewrite E. unfold b64_R at 1. rewrite C1. symmetry. apply clamp_in. destruct (Rlt_bool_spec (Rabs (rnd (b64_R x / b64_R y))) top) as [H|H]; [exact H|discriminate].
  - pose proof (sign_R x Fx) as Sx. pose proof (sign_R y Fy) as Sy. apply (over_ek _ _ _ C HB). unfold Rdiv.
    destruct (Bsign 53 1024 y); [assert (/ b64_R y < 0) by (apply Rinv_lt_0_compat; lra)|assert (0 < / b64_R y) by (apply Rinv_0_lt_compat; lra)]; destruct (Bsign 53 1024 x); cbn [xorb]; nra.
Qed.
Lemma zero_of x : b64_finite x = true -> b64_R x = 0 -> exists a, x = B754_zero 53 1024 a.
Proof. destruct x as [a|a|a pl h|a m e h]; try discriminate; intros _ H; [eauto|]. exfalso. unfold b64_R in H. cbn [B2R] in H. apply eq_0_F2R in H. cbn in H. destruct a; discriminate H. Qed.
Lemma strict_of x : b64_finite x = true -> b64_R x <> 0 -> is_finite_strict 53 1024 x = true.
Proof. destruct x as [a|a|a pl h|a m e h]; try discriminate; intros _ H; [exfalso; apply H; reflexivity|reflexivity]. Qed.
Lemma tk_shape s x x' : tk s x x' -> (b64_nan x = true /\ b64_nan x' = true) \/ (exists a b, x = B754_zero 53 1024 a /\ x' = B754_zero 53 1024 b) \/ x' = if s then b64_opp x else x.
Proof.
  intros [H|(N1 & N2 & E)]; [left; exact H|right]. destruct (inf_shape x N1) as [Fx|(b & ->)].
  - destruct (fin_ek _ _ _ N2 Fx E) as (Fx' & Rx). destruct (Req_dec (b64_R x) 0) as [Z|Z].
    + left. destruct (zero_of x Fx Z) as (a & Ea). destruct (zero_of x' Fx') as (b & Eb); [rewrite Rx, Z; destruct s; cbn [sg]; ring|]. eauto.
    + right. assert (Z' : b64_R x' <> 0) by (rewrite Rx; destruct s; cbn [sg]; lra). destruct s; cbn [sg] in Rx.
      * apply B2R_inj; [now apply strict_of| |].
        -- apply strict_of; [destruct x; try discriminate; reflexivity|]. unfold b64_R, b64_opp. rewrite B2R_Bopp. fold (b64_R x). lra.
        -- unfold b64_opp. rewrite B2R_Bopp. exact Rx.
      * apply B2R_inj; [now apply strict_of|now apply strict_of|exact Rx].
  - right. apply (inf_ek _ _ _ N2) in E. subst x'. destruct s, b; reflexivity.
Qed.
Lemma ek_zero a : ek (B754_zero 53 1024 a) = 0.
Proof. exact (proj1 (ek_fin (B754_zero 53 1024 a) eq_refl)). Qed.
Lemma opp_div x d : tk true (b64_div mode_NE x d) (b64_div mode_NE (b64_opp x) d).
Proof.
  assert (HN : forall y z, b64_nan y = true -> b64_nan z = true -> tk true y z) by (intros; left; auto).
  destruct (b64_nan x) eqn:Nx; [apply HN; apply NanProofs.nan_div_l; [exact Nx|]; rewrite (proj1 (neg_ek x)); exact Nx|]. destruct (b64_nan d) eqn:Nd; [apply HN; now apply NanProofs.nan_div_r|].
  assert (HI : forall b, tk true (b64_inf b) (b64_inf (negb b))) by (intros b; right; split; [reflexivity|split; [reflexivity|exact (ek_inf_sg true b)]]).
  assert (HZ : forall a b, tk true (B754_zero 53 1024 a) (B754_zero 53 1024 b)).
  { intros a b. right. split; [reflexivity|split; [reflexivity|]]. rewrite !ek_zero. cbn [sg]. ring. }
  destruct x as [a|a|a pl h|a m e h]; try discriminate Nx; destruct d as [b|b|b pl' h'|b m' e' h']; try discriminate Nd;
    try (apply HN; destruct a, b; reflexivity); try (destruct a, b; exact (HZ _ _)); try (destruct a, b; first [exact (HI true)|exact (HI false)]).
  assert (Hd : b64_R (B754_finite 53 1024 b m' e' h') <> 0) by (intros H; destruct (zero_of (B754_finite 53 1024 b m' e' h') eq_refl H); discriminate).
  destruct (div_ek (B754_finite 53 1024 a m e h) (B754_finite 53 1024 b m' e' h') eq_refl eq_refl Hd) as (A1 & A2).
  destruct (div_ek (b64_opp (B754_finite 53 1024 a m e h)) (B754_finite 53 1024 b m' e' h') eq_refl eq_refl Hd) as (B1 & B2).
  right. split; [exact A1|]. split; [exact B1|]. rewrite A2, B2. replace (b64_R (b64_opp (B754_finite 53 1024 a m e h))) with (- b64_R (B754_finite 53 1024 a m e h)) by (symmetry; apply B2R_Bopp).
  rewrite <- clamp_sg, <- rnd_sg. cbn [sg]. f_equal. f_equal. unfold Rdiv. ring.
Qed.
Lemma zero_div s a b d : tk s (b64_div mode_NE (B754_zero 53 1024 a) d) (b64_div mode_NE (B754_zero 53 1024 b) d).
Proof.
  destruct d as [c|c|c pl h|c m e h]; try (left; split; reflexivity); right; (split; [reflexivity|split; [reflexivity|]]);
    match goal with |- ek ?u = sg _ (ek ?v) => change u with (B754_zero 53 1024 (xorb b c)); change v with (B754_zero 53 1024 (xorb a c)) end;
    rewrite !ek_zero; destruct s; cbn [sg]; ring.
Qed.
Lemma div_tk s x x' d : tk s x x' -> tk s (b64_div mode_NE x d) (b64_div mode_NE x' d).
Proof.
  intros H. destruct (tk_shape s x x' H) as [(N1 & N2)|[(a & b & -> & ->)| ->]]; [left; split; now apply NanProofs.nan_div_l|apply zero_div|].
  destruct s; [apply opp_div|]. unfold tk. destruct (b64_nan (b64_div mode_NE x d)); auto.
Qed.
Lemma same_b L (x y : B64 L) : same x y <-> y = x \/ (b64_nan x = true /\ b64_nan y = true).
Proof. unfold same. cbn [feq B64]. rewrite !eq_self. rewrite !negb_false_iff. reflexivity. Qed.
Lemma B64_flip L : flip_laws (B64 L).
Proof.
  destruct z_ek as (NZ & EZ). destruct unit_ek as (NU & NV & EU). split.
  - intros x. apply turned_tk. unfold tk. destruct (b64_nan x); auto.
  - intros s. apply turned_tk. right. split; [exact NZ|]. split; [exact NZ|]. change (@f0 (B64 L)) with (b64_ofZ 0). rewrite EZ. destruct s; cbn [sg]; ring.
  - split; apply turned_tk; right; (split; [reflexivity|]); (split; [reflexivity|]); change (@f1 (B64 L)) with (b64_ofZ 1); change (@ofZ (B64 L) (-1)) with (b64_ofZ (-1)); cbn [sg]; rewrite EU; ring.
  - intros s x x' y y'. rewrite !turned_tk. apply add_tk.
  - intros s x x' y y'. rewrite !turned_tk. apply sub_tk.
  - intros s t x x' y y'. rewrite !turned_tk. apply mul_tk.
  - intros x x'. rewrite !turned_tk. unfold relu1. cbn [fmax B64]. change (@f0 (B64 L)) with (b64_ofZ 0). intros [(A & B)|(A & B & E)]; [left; split; now apply relu_nan|].
    destruct (relu_ek x A) as (A1 & A2), (relu_ek x' B) as (B1 & B2). right. split; [exact A1|]. split; [exact B1|]. rewrite A2, B2, E. reflexivity.
  - intros x x'. rewrite turned_tk. cbn [fle B64]. change (@f0 (B64 L)) with (b64_ofZ 0). intros [(A & B)|(A & B & E)]; [now rewrite !le_nan|]. apply same_bool. rewrite !le_ek by assumption. rewrite E. reflexivity.
  - intros x x'. rewrite turned_tk. cbn [flt B64]. change (@f0 (B64 L)) with (b64_ofZ 0). intros [(A & B)|(A & B & E)]; [now rewrite !b64_lt_nan_l|]. apply same_bool. rewrite !lt_ek by assumption. rewrite E. reflexivity.
  - intros x x'. rewrite turned_tk. cbn [flt B64]. change (@f0 (B64 L)) with (b64_ofZ 0). intros [(A & B)|(A & B & E)]; [now rewrite !b64_lt_nan_r|]. apply same_bool. rewrite !lt_ek by assumption. rewrite E. reflexivity.
  - intros x x'. rewrite turned_tk. cbn [flt B64]. change (@f0 (B64 L)) with (b64_ofZ 0). intros [(A & B)|(A & B & E)]; [split; [rewrite (b64_lt_nan_r _ _ B), (b64_lt_nan_l _ _ A)|rewrite (b64_lt_nan_l _ _ B), (b64_lt_nan_r _ _ A)]; reflexivity|].
    split; apply same_bool; rewrite !lt_ek by assumption; rewrite E, EZ; cbn [sg]; split; intros; lra.
  - intros x. cbn [flt B64]. change (@f0 (B64 L)) with (b64_ofZ 0). destruct (b64_nan x) eqn:N; [intros _; now apply b64_lt_nan_l|]. rewrite (lt_ek _ _ NZ N), EZ. intros H.
    destruct (b64_lt x (b64_ofZ 0)) eqn:E; [|reflexivity]. apply (lt_ek _ _ N NZ) in E. lra.
  - intros s x x' d d'. rewrite !turned_tk, same_b. intros H [-> | (D1 & D2)]; [now apply div_tk|]. left. split; now apply NanProofs.nan_div_r.
  - intros x x' y y'. rewrite !same_b. cbn [fadd B64]. intros [-> | (A & B)] [-> | (C & D)]; [left; reflexivity| | |]; right; split; first [now apply plus_nan_l|now apply plus_nan_r].
  - intros x x' y y'. rewrite !same_b. cbn [fmul B64]. intros [-> | (A & B)] [-> | (C & D)]; [left; reflexivity| | |]; right; split; first [now apply mult_nan_l|now apply mult_nan_r].
  - intros x x'. rewrite !same_b. cbn [fsqrt B64]. intros [-> | (A & B)]; [left; reflexivity|]. right. split; [destruct x; try discriminate A|destruct x'; try discriminate B]; reflexivity.
  - intros x x' y y'. rewrite !turned_tk. cbn [flt B64]. intros [(A & B)|(A & B & E)]; [intros _; now rewrite !b64_lt_nan_l|]. intros [(C & D)|(C & D & G)]; [now rewrite !b64_lt_nan_r|].
    apply same_bool. rewrite !lt_ek by assumption. rewrite E, G. reflexivity.
Qed.
