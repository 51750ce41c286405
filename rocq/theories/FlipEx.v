(** * FlipEx: a float64 network and its turned copy. *)
From Coq Require Import String ZArith List Bool Arith Lia Reals.
From Flocq Require Import IEEE754.BinarySingleNaN IEEE754.Binary IEEE754.Bits.
From Verif Require Import Num NumB64 Heap Spec Matrix Loss Network Optimizers ModelGo LayerData PureSpec Repr HeapLemmas OptSpec ModelSpec ModelFacts FitLoop FitFacts CodecSpec CodecEx Ex ModelEx DeadEx BinomialProofs Mono FlipSpec FlipNum.
Import ListNotations.
Open Scope Z_scope.
Open Scope go_scope.

Section FlipEx.
Context (L : libm).
Notation BN := (B64 L).
(** ReLU 2 -> 2, linear 2 -> 1 with weights [u], [v] and bias [b]; two samples with targets [y0] and [y1]; learning rate 1/2. *)
Definition fl_state (u v b y0 y1 : Z) : state BN :=
  MkState (K := BN) [[bz 1; bz (-2)]; [bz 3; bz 1]; [bz 0; bz 1]; [bz u]; [bz v]; [bz b]; [bz 1; bz 2]; [bz (-1); bz 3]; [bz y0]; [bz y1]] [[1;2]; [3]; [4;5]; [6]; [7;8]; [9;10]]%nat
    [MkLayer (K := BN) Hidden 2 2 (MkMatrix 2 2 (MkSlice 1 0 2)) (MkMatrix 1 2 (MkSlice 2 0 1)) f0 f0 matrix0 matrix0;
     MkLayer (K := BN) Linear 2 1 (MkMatrix 2 1 (MkSlice 3 0 2)) (MkMatrix 1 1 (MkSlice 4 0 1)) f0 f0 matrix0 matrix0] [cO L f0; cO L f0] (c_rng L) true [].
Definition fl_m : model BN := MkModel (K := BN) 2 2 1 0 (Some (MkLoss MSE 1)) 0 (bhalf : BN) 0 [("learningRate", (bhalf : BN)); ("decay", f0); ("momentum", f0)]%string [0;1]%nat [0;1]%nat.
Definition fl_es (u v b : Z) : list (lent BN) :=
  [LE (K := BN) 0 [1;2]%nat [3]%nat (PL (K := BN) Hidden 2 2 [[bz 1; bz (-2)]; [bz 3; bz 1]] [[bz 0; bz 1]] f0 f0); LE (K := BN) 1 [4;5]%nat [6]%nat (PL (K := BN) Linear 2 1 [[bz u];[bz v]] [[bz b]] f0 f0)].
Definition fl_xs : list (oent BN) := [OE 0 [] (df_po L 2 2); OE 1 [] (df_po L 2 1)].
Definition fl_x := MkMatrix 2 2 (MkSlice 5 0 2). Definition fl_y := MkMatrix 2 1 (MkSlice 6 0 2).
Definition flX : pm BN := [[bz 1; bz 2]; [bz (-1); bz 3]]. Definition flY (y0 y1 : Z) : pm BN := [[bz y0]; [bz y1]].
Lemma fl_trainable u v b y0 y1 : trainable (fl_state u v b y0 y1) fl_m (fl_es u v b) fl_xs 2 1 MSE.
Proof.
  split; [|split; [|split; [|split; [|split; [|split; [|split; [|split; [|split]]]]]]]].
  - repeat (split; [reflexivity|]). split; [simpl; auto|]. repeat (constructor; [eexists; split; [reflexivity|lown_tac]|]). constructor.
  - split; nodup_tac.
  - simpl; lia.
  - reflexivity.
  - nodup_tac.
  - repeat (constructor; [eexists; split; [reflexivity|]; split; [repeat split|]; simpl; reflexivity|]). constructor.
  - intros z _ [].
  - reflexivity.
  - reflexivity.
  - repeat constructor; discriminate.
Qed.
Lemma fl_data u v b y0 y1 : data_ok (fl_state u v b y0 y1) (fl_es u v b) fl_x [7;8]%nat fl_y [9;10]%nat 2 2 1 flX (flY y0 y1).
Proof. split; [own_tac|]. split; [own_tac|]. split; disj_tac. Qed.
Ltac turn := let n := fresh "n" in let j := fresh "j" in intros n j ? ?; cbn [p_in p_out fst snd] in *; destruct n as [|[|n]]; try lia; destruct j as [|[|j]]; try lia; right; vm_compute; reflexivity.
Lemma fl_all : trainable (fl_state 2 (-1) 3 5 0) fl_m (fl_es 2 (-1) 3) fl_xs 2 1 MSE /\ data_ok (fl_state 2 (-1) 3 5 0) (fl_es 2 (-1) 3) fl_x [7;8]%nat fl_y [9;10]%nat 2 2 1 flX (flY 5 0) /\
  trainable (fl_state (-2) 1 (-3) (-5) 0) fl_m (fl_es (-2) 1 (-3)) fl_xs 2 1 MSE /\ data_ok (fl_state (-2) 1 (-3) (-5) 0) (fl_es (-2) 1 (-3)) fl_x [7;8]%nat fl_y [9;10]%nat 2 2 1 flX (flY (-5) 0) /\
  mturned true 2 1 (flY 5 0) (flY (-5) 0) /\ flipped (trainer (fl_es 2 (-1) 3) fl_xs) (trainer (fl_es (-2) 1 (-3)) fl_xs).
Proof.
  do 2 (split; [apply fl_trainable|split; [apply fl_data|]]). split; [turn|].
  change (flipped (trainer (fl_es 2 (-1) 3) fl_xs) (trainer (fl_es (-2) 1 (-3)) fl_xs)) with
    (flipped [(e_p (nth 0 (fl_es 2 (-1) 3) (LE (K := BN) 0 [] [] (PL (K := BN) Linear 0 0 [] [] f0 f0))), df_po L 2 2); (PL (K := BN) Linear 2 1 [[bz 2];[bz (-1)]] [[bz 3]] f0 f0, df_po L 2 1)]
      [(e_p (nth 0 (fl_es 2 (-1) 3) (LE (K := BN) 0 [] [] (PL (K := BN) Linear 0 0 [] [] f0 f0))), df_po L 2 2); (PL (K := BN) Linear 2 1 [[bz (-2)];[bz 1]] [[bz (-3)]] f0 f0, df_po L 2 1)]).
  cbn [flipped fst p_kind]. split; [left; reflexivity|]. split; [|split; [reflexivity|]];
    (split; [unfold lturned; cbn [fst snd p_kind p_in p_out p_slope p_drop p_w p_b nth e_p fl_es]; do 5 (split; [reflexivity|]); split; turn|]);
    unfold oturned; cbn [fst snd p_kind p_in p_out df_po po_kind po_lr po_decay po_mom po_rate po_iter po_usedecay po_usemom po_eps po_b1 po_b2 po_wm po_bm po_wc po_bc nth e_p fl_es]; (split; [left; reflexivity|]); do 11 (split; [reflexivity|]); (split; [turn|]); (split; [turn|]); split; intros ? ? _ _; left; reflexivity.
Qed.
End FlipEx.
(** A library whose math.Pow(x, 2) is x*x. *)
Definition sq_lib : libm := MkLibm (fun x => x) (fun x => x) (fun x _ => b64_mult mode_NE x x).
Lemma opp_sq x : b64_nan x = false -> b64_mult mode_NE (b64_opp x) (b64_opp x) = b64_mult mode_NE x x.
Proof.
  destruct x as [a|a|a pl h|a m e h]; intros N; try discriminate N; [destruct a; reflexivity|destruct a; reflexivity|].
  set (x := B754_finite 53 1024 a m e h) in *. pose proof (Bmult_correct 53 1024 (eq_refl Lt) (eq_refl Lt) binop_nan_pl64 mode_NE x x) as C. pose proof (Bmult_correct 53 1024 (eq_refl Lt) (eq_refl Lt) binop_nan_pl64 mode_NE (b64_opp x) (b64_opp x)) as D.
  unfold b64_opp in D. rewrite !B2R_Bopp in D. fold (b64_opp x) in D. replace (- B2R 53 1024 x * - B2R 53 1024 x)%R with (B2R 53 1024 x * B2R 53 1024 x)%R in D by ring.
  change (Bmult 53 1024 (eq_refl Lt) (eq_refl Lt) binop_nan_pl64 mode_NE x x) with (b64_mult mode_NE x x) in C. change (Bmult 53 1024 (eq_refl Lt) (eq_refl Lt) binop_nan_pl64 mode_NE (b64_opp x) (b64_opp x)) with (b64_mult mode_NE (b64_opp x) (b64_opp x)) in D.
  match type of C with if ?b then _ else _ => destruct b end.
  - destruct C as (C1 & C2 & C3), D as (D1 & D2 & D3). change (is_finite 53 1024 (b64_mult mode_NE x x) = true) in C2. change (is_finite 53 1024 (b64_mult mode_NE (b64_opp x) (b64_opp x)) = true) in D2.
    assert (NN : forall z, is_finite 53 1024 z = true -> is_nan 53 1024 z = false) by (intros []; try discriminate; reflexivity).
    apply B2R_Bsign_inj; [exact D2|exact C2|now rewrite C1, D1|]. rewrite (C3 (NN _ C2)), (D3 (NN _ D2)). cbn. destruct a; reflexivity.
  - apply B2FF_inj. rewrite C, D. cbn. destruct a; reflexivity.
Qed.
Lemma sq_even : even_square (K := B64 sq_lib).
Proof.
  intros s x y H. apply turned_tk in H. apply same_b. cbn [fpow B64 l_pow sq_lib]. destruct (tk_shape s x y H) as [(N1 & N2)|[(a & b & -> & ->)| ->]].
  - right. split; now apply mult_nan_l.
  - left. destruct a, b; reflexivity.
  - destruct s; [|left; reflexivity]. destruct (b64_nan x) eqn:N; [right; split; apply mult_nan_l; [exact N|rewrite (proj1 (neg_ek x)); exact N]|]. left. now apply opp_sq.
Qed.
