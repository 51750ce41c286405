(** * TrackEx: a run whose error bounds are computed, and one where rounding decides what is learnt. *)
From Coq Require Import String ZArith QArith Qreals List Bool Arith Lia Reals Lra.
From Flocq Require Import IEEE754.BinarySingleNaN IEEE754.Binary IEEE754.Bits.
From Verif Require Import Num NumR NumQ NumB64 Heap Spec Matrix Loss Network Optimizers ModelGo PureSpec Repr OptSpec ModelSpec HeapLemmas Ex ModelEx CodecEx DeadEx TrackSpec TrackNum.
Import ListNotations.
Open Scope Z_scope.
Open Scope go_scope.

Section Ex.
Context (L : libm).
Notation BN := (B64 L).
(** 0.1 and 0.3 *)
Definition tenth : binary64 := b64_div mode_NE (bz 1) (bz 10).
Definition tenth3 : binary64 := b64_div mode_NE (bz 3) (bz 10).
(** ReLU 2 -> 2, linear 2 -> 1, SGD at rate 0.1 with momentum 1/2; two samples. *)
Definition tk_rows : list (list BN) := [[bz 1; bz (-1)]; [bz 1; bz 2]; [bz 0; tenth]; [bz 1]; [bz (-1)]; [bz 0]; [bz 2; bz 1]; [bz 1; bz 3]; [tenth3]; [bz 1]].
Definition tk_opt : optimizer BN := MkOpt (K := BN) SGD (tenth : BN) f0 (bhalf : BN) f0 f0 f0 (tenth : BN) 0 matrix0 matrix0 matrix0 matrix0 false true.
Definition tk_state : state BN := MkState tk_rows df_outs
  [MkLayer (K := BN) Hidden 2 2 (MkMatrix 2 2 (MkSlice 1 0 2)) (MkMatrix 1 2 (MkSlice 2 0 1)) f0 f0 matrix0 matrix0;
   MkLayer (K := BN) Linear 2 1 (MkMatrix 2 1 (MkSlice 3 0 2)) (MkMatrix 1 1 (MkSlice 4 0 1)) f0 f0 matrix0 matrix0]
  [tk_opt; tk_opt] (c_rng L) true [].
Definition tk_m : model BN := MkModel (K := BN) 2 2 1 0 (Some (MkLoss MSE 1)) 0 (bhalf : BN) 0 [] [0;1]%nat [0;1]%nat.
Definition tk_es : list (lent BN) :=
  [LE (K := BN) 0 [1;2]%nat [3]%nat (PL (K := BN) Hidden 2 2 [[bz 1; bz (-1)];[bz 1; bz 2]] [[bz 0; tenth]] f0 f0);
   LE (K := BN) 1 [4;5]%nat [6]%nat (PL (K := BN) Linear 2 1 [[bz 1];[bz (-1)]] [[bz 0]] f0 f0)].
Definition tk_po (r c : nat) : popt BN := PO (K := BN) SGD (tenth : BN) f0 (bhalf : BN) f0 f0 f0 (tenth : BN) 0 false true (zmat r c) (zmat 1 c) (zmat r c) (zmat 1 c).
Definition tk_xs : list (oent BN) := [OE (K := BN) 0 [] (tk_po 2 2); OE (K := BN) 1 [] (tk_po 2 1)].
Definition tkX : pm BN := [[bz 2; bz 1];[bz 1; bz 3]].
Definition tkY : pm BN := [[tenth3];[bz 1]].
Definition tk_x := MkMatrix 2 2 (MkSlice 5 0 2). Definition tk_y := MkMatrix 2 1 (MkSlice 6 0 2).
Lemma tk_trainable : trainable tk_state tk_m tk_es tk_xs 2 1 MSE.
Proof.
  split; [|split; [|split; [|split; [|split; [|split; [|split; [|split; [|split]]]]]]]].
  - repeat (split; [reflexivity|]). split; [simpl; auto|]. repeat (constructor; [eexists; split; [reflexivity|lown_tac]|]). constructor.
  - split; nodup_tac.
  - simpl; lia.
  - reflexivity.
  - nodup_tac.
  - repeat (constructor; [eexists; split; [reflexivity|]; split; [repeat split|]; left; repeat split; reflexivity|]). constructor.
  - intros z _ [].
  - reflexivity.
  - reflexivity.
  - repeat constructor; discriminate.
Qed.
Lemma tk_data : data_ok tk_state tk_es tk_x [7;8]%nat tk_y [9;10]%nat 2 2 1 tkX tkY.
Proof. split; [own_tac|]. split; [own_tac|]. split; disj_tac. Qed.
(** Every bound is guaranteed and at most [d]. *)
Definition bounded (d : Q) (A : pm TNum) : bool := forallb (forallb (fun a => t_ok a && Qle_bool (t_err a) d)) A.
Definition tk_ts := map (carry (K1 := BN) exactly) (trainer tk_es tk_xs).
Definition tk_X := carry_mat (K1 := BN) exactly tkX.
Definition tk_bs := epochs_of (Z.to_nat 1) (batch_rows 2 0) tk_X (carry_mat (K1 := BN) exactly tkY).
Definition tk_T := fst (ptrain_on (K := TNum) MSE 1 tk_ts (fun _ => f0) 0 tk_bs).
Definition all4 (a b c d : bool) : bool := if a then if b then if c then d else false else false else false.
Lemma tk_checked :
  all4 (sure_train 1 tk_ts tk_bs) (sure_net (map fst tk_T) 2 tk_X)
    (forallb (fun t => bounded (1 # 2 ^ 46) (p_w (fst t)) && bounded (1 # 2 ^ 46) (p_b (fst t))) tk_T) (bounded (1 # 2 ^ 42) (pnet (map fst tk_T) 2 tk_X)) = true.
Proof. vm_compute. reflexivity. Qed.
Lemma all4_spec a b c d : all4 a b c d = true -> a = true /\ b = true /\ c = true /\ d = true.
Proof. destruct a, b, c, d; cbn; auto; discriminate. Qed.

(** ** A unit that only rounding switches off: ReLU 2 -> 1 with weights 1, 1 and bias -1 on the input (1, 2^-60), linear 1 -> 1, label 8. *)
Definition tiny : binary64 := b64_div mode_NE (bz 1) (bz (2 ^ 60)).
Definition us_rows : list (list BN) := [[bz 1]; [bz 1]; [bz (-1)]; [bz 1]; [bz 0]; [bz 1; tiny]; [bz 8]].
Definition us_outs : list (list nat) := [[1;2]; [3]; [4]; [5]; [6]; [7]]%nat.
Definition us_state : state BN := MkState us_rows us_outs
  [MkLayer (K := BN) Hidden 2 1 (MkMatrix 2 1 (MkSlice 1 0 2)) (MkMatrix 1 1 (MkSlice 2 0 1)) f0 f0 matrix0 matrix0;
   MkLayer (K := BN) Linear 1 1 (MkMatrix 1 1 (MkSlice 3 0 1)) (MkMatrix 1 1 (MkSlice 4 0 1)) f0 f0 matrix0 matrix0]
  [cO L f0; cO L f0] (c_rng L) true [].
Definition us_es : list (lent BN) :=
  [LE (K := BN) 0 [1;2]%nat [3]%nat (PL (K := BN) Hidden 2 1 [[bz 1];[bz 1]] [[bz (-1)]] f0 f0);
   LE (K := BN) 1 [4]%nat [5]%nat (PL (K := BN) Linear 1 1 [[bz 1]] [[bz 0]] f0 f0)].
Definition us_xs : list (oent BN) := [OE (K := BN) 0 [] (df_po L 2 1); OE (K := BN) 1 [] (df_po L 1 1)].
Definition us_x := MkMatrix 1 2 (MkSlice 5 0 1). Definition us_y := MkMatrix 1 1 (MkSlice 6 0 1).
Definition usX : pm BN := [[bz 1; tiny]]. Definition usY : pm BN := [[bz 8]].
Lemma us_trainable : trainable us_state (df_m L) us_es us_xs 2 1 MSE.
Proof.
  split; [|split; [|split; [|split; [|split; [|split; [|split; [|split; [|split]]]]]]]].
  - repeat (split; [reflexivity|]). split; [simpl; auto|]. repeat (constructor; [eexists; split; [reflexivity|lown_tac]|]). constructor.
  - split; nodup_tac.
  - simpl; lia.
  - reflexivity.
  - nodup_tac.
  - repeat (constructor; [eexists; split; [reflexivity|]; split; [repeat split|]; simpl; reflexivity|]). constructor.
  - intros z _ [].
  - reflexivity.
  - reflexivity.
  - repeat constructor; discriminate.
Qed.
Lemma us_data : data_ok us_state us_es us_x [6]%nat us_y [7]%nat 1 2 1 usX usY.
Proof. split; [own_tac|]. split; [own_tac|]. split; disj_tac. Qed.
Lemma us_float : match (Fit (df_m L) us_x us_y 1 0 matrix0 matrix0 0 ;; l <- get_layer 0 ;; getc (l_w l) 0 0) us_state with (Ret v, _) => b64_R v = 1%R | _ => False end.
Proof.
  assert (H : match (Fit (df_m L) us_x us_y 1 0 matrix0 matrix0 0 ;; l <- get_layer 0 ;; getc (l_w l) 0 0) us_state with (Ret v, _) => b64_nan v = false /\ b64_eq v (bz 1) = true | _ => False end) by (vm_compute; split; reflexivity).
  destruct ((Fit (df_m L) us_x us_y 1 0 matrix0 matrix0 0 ;; l <- get_layer 0 ;; getc (l_w l) 0 0) us_state) as ([v|e|e], s'); try exact H.
  destruct H as (N & H). apply b64_eq_spec in H; [|exact N|vm_compute; reflexivity]. destruct H as (_ & H). rewrite H, b64_Q_R. vm_compute b64_Q. unfold Q2R. simpl. lra.
Qed.
Lemma us_exact U q : match fst (ptrain_on (K := RNum) MSE 1 (map (carry (K1 := BN) (K2 := RNum) b64_R) (trainer us_es us_xs)) U q (epochs_of 1 1 (carry_mat (K1 := BN) (K2 := RNum) b64_R usX) (carry_mat (K1 := BN) (K2 := RNum) b64_R usY))) with
  | (p, _) :: _ => (8 <= entry (p_w p) 0 0)%R | _ => False end.
Proof.
  assert (E1 : b64_R (bz 1) = 1%R) by (rewrite b64_Q_R; vm_compute b64_Q; unfold Q2R; simpl; lra).
  assert (E2 : b64_R (bz (-1)) = (-1)%R) by (rewrite b64_Q_R; vm_compute b64_Q; unfold Q2R; simpl; lra).
  assert (E3 : b64_R (bz 8) = 8%R) by (rewrite b64_Q_R; vm_compute b64_Q; unfold Q2R; simpl; lra).
  assert (E4 : b64_R (bz 0) = 0%R) by (rewrite b64_Q_R; vm_compute b64_Q; unfold Q2R; simpl; lra).
  assert (E5 : b64_R bhalf = (/2)%R) by (rewrite b64_Q_R; vm_compute b64_Q; unfold Q2R; simpl; lra).
  assert (E6 : (0 < b64_R tiny < 1)%R) by (rewrite b64_Q_R; vm_compute b64_Q; unfold Q2R; cbn [Qnum Qden]; lra).
  assert (E7 : b64_R (f0 : BN) = 0%R) by exact E4.
  unfold trainer, us_es, us_xs, net, usX, usY, df_po. cbn [map combine e_p x_po].
  cbn -[b64_R bz bhalf tiny Rmax r_leb Rplus Rmult Rdiv Rminus IZR]. rewrite E1, E2, E3, E4, E5. set (t := b64_R tiny) in *.
  replace (Rmax (0 + 1 * 1 + t * 1 + -1) 0)%R with t by (rewrite Rmax_left; lra). unfold relu_prime1. cbn [fle RNum]. rewrite (proj2 (r_leb_false t f0)) by (change (f0 : RNum) with 0%R; lra). lra.
Qed.
Lemma us_all : exists (s : state BN) m es xs i o x rsx y rsy (X Y : pm BN), trainable s m es xs i o MSE /\ data_ok s es x rsx y rsy 1 i o X Y /\ m_acctype m = 0 /\
  List.Forall (List.Forall (fun v => b64_finite v = true)) (h_rows s) /\
  match (Fit m x y 1 0 matrix0 matrix0 0 ;; l <- get_layer 0 ;; getc (l_w l) 0 0) s with (Ret v, _) => b64_R v = 1%R | _ => False end /\
  forall U q, match fst (ptrain_on (K := RNum) MSE o (map (carry (K1 := BN) (K2 := RNum) b64_R) (trainer es xs)) U q (epochs_of 1 1 (carry_mat (K1 := BN) (K2 := RNum) b64_R X) (carry_mat (K1 := BN) (K2 := RNum) b64_R Y))) with
    | (p, _) :: _ => (8 <= entry (p_w p) 0 0)%R | _ => False end.
Proof.
  exists us_state, (df_m L), us_es, us_xs, 2%nat, 1%nat, us_x, [6]%nat, us_y, [7]%nat, usX, usY.
  split; [exact us_trainable|]. split; [exact us_data|]. split; [reflexivity|]. split; [repeat constructor; vm_compute; reflexivity|]. split; [exact us_float|exact us_exact].
Qed.
Lemma tk_all : trainable tk_state tk_m tk_es tk_xs 2 1 MSE /\ data_ok tk_state tk_es tk_x [7;8]%nat tk_y [9;10]%nat 2 2 1 tkX tkY /\ m_acctype tk_m = 0 /\
  sure_train 1 tk_ts tk_bs = true /\ sure_net (map fst tk_T) 2 tk_X = true /\
  forallb (fun t => bounded (1 # 2 ^ 46) (p_w (fst t)) && bounded (1 # 2 ^ 46) (p_b (fst t))) tk_T = true /\ bounded (1 # 2 ^ 42) (pnet (map fst tk_T) 2 tk_X) = true.
Proof.
  split; [exact tk_trainable|]. split; [exact tk_data|]. split; [reflexivity|]. apply all4_spec. exact tk_checked.
Qed.
End Ex.
