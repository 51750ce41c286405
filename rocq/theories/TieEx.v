(** * TieEx: a network with tied layers, and one layer object used twice. *)
From Coq Require Import String ZArith List Bool Arith Lia Reals Lra QArith.
From Verif Require Import Num NumR NumQ Heap Spec Matrix Loss Network Optimizers ModelGo PureSpec Repr HeapLemmas RSum MatrixFacts LayerReal OptSpec OptFacts ModelSpec FitProofs LossRefute GradSpec Grad NetGradSpec NetGrad NetGradCode Ex ModelEx TieSpec Tie TieGrad.
Import ListNotations.

(** ** ReLU 1 -> 1, leaky 1 -> 1, and a linear layer with the weights of the first *)
Section Reals.
Open Scope R_scope.
Definition ti_o : optimizer RNum := nr_o (1/10).
Definition ti_po : popt RNum := PO (K := RNum) SGD (1/10) 0 0 0 0 0 (1/10) 0 false false (zmat 1 1) (zmat 1 1) (zmat 1 1) (zmat 1 1).
Definition ti_layer (kd : lkind) (a b : nat) : layer RNum :=
  MkLayer (K := RNum) kd 1 1 (MkMatrix 1 1 (MkSlice a 0 1)) (MkMatrix 1 1 (MkSlice b 0 1)) (1/2) 0 matrix0 matrix0.
Definition ti_state : state RNum :=
  MkState (K := RNum) [[2]; [1]; [3]; [-1]; [1]; [-2]; [0]; [4]] [[1]; [2]; [3]; [4]; [5;6]; [7;8]]%nat
    [ti_layer Hidden 1 2; ti_layer Leaky 3 4; ti_layer Linear 1 2] [ti_o; ti_o; ti_o] nr_rng true [].
Definition ti_m : model RNum := MkModel (K := RNum) 3 1 1 0 (Some (MkLoss MSE 1)) 0 0 0 [] [0;1;2]%nat [0;1;2]%nat.
Definition ti_es : list (lent RNum) :=
  [LE (K := RNum) 0 [1]%nat [2]%nat (PL (K := RNum) Hidden 1 1 [[2]] [[1]] (1/2) 0);
   LE (K := RNum) 1 [3]%nat [4]%nat (PL (K := RNum) Leaky 1 1 [[3]] [[-1]] (1/2) 0);
   LE (K := RNum) 2 [1]%nat [2]%nat (PL (K := RNum) Linear 1 1 [[2]] [[1]] (1/2) 0)].
Definition ti_xs : list (oent RNum) := [OE (K := RNum) 0 [] ti_po; OE (K := RNum) 1 [] ti_po; OE (K := RNum) 2 [] ti_po].
Definition ti_x : matrix := MkMatrix 2 1 (MkSlice 5 0 2).
Definition ti_y : matrix := MkMatrix 2 1 (MkSlice 6 0 2).
Definition tiX : rpm := [[1];[-2]].
Definition tiY : rpm := [[0];[4]].
Lemma ti_tied : tied [7;9;7]%nat ti_es.
Proof.
  split; [reflexivity|]. split; [repeat constructor; simpl; lia|].
  intros a e b e' H H'. cbn in H, H'. destruct H as [H|[H|[H|[]]]], H' as [H'|[H'|[H'|[]]]]; injection H as <- <-; injection H' as <- <-; cbn [Nat.eqb];
    first [repeat split; reflexivity|unfold apart, disjoint; simpl; lia].
Qed.
Lemma ti_trainable : tied_trainable ti_state ti_m [7;9;7]%nat ti_es ti_xs 1 1 MSE.
Proof.
  unfold tied_trainable. split; [|split; [|split; [|split; [|split; [|split; [|split; [|split; [|split; [|split]]]]]]]]].
  - unfold consistent. do 4 (split; [reflexivity|]). split; [simpl; auto|].
    repeat constructor; eexists; (split; [reflexivity|]); unfold lown; simpl; repeat (split; [first [reflexivity|lia]|]); split; own_tac'.
  - nd.
  - exact ti_tied.
  - simpl; lia.
  - reflexivity.
  - nd.
  - repeat constructor; eexists; (split; [reflexivity|]); unfold oown, oscal; simpl; auto 20.
  - dj.
  - reflexivity.
  - reflexivity.
  - repeat constructor; discriminate.
Qed.
Lemma ti_data : data_ok ti_state ti_es ti_x [5;6]%nat ti_y [7;8]%nat 2 1 1 tiX tiY.
Proof. split; [own_tac'|]. split; [own_tac'|]. split; dj. Qed.
Lemma ti_smooth : smooth_net MSE tiY 1 (net ti_es) 2 tiX (r_uni (h_rng ti_state)) (r_upos (h_rng ti_state)).
Proof.
  simpl. split; [discriminate|]. split; [discriminate|]. split; [|split; [discriminate|split; [discriminate|split; [|split; [discriminate|split; [discriminate|split; exact I]]]]]].
  - intros i j Hi Hj. unfold paffine. simpl p_in. simpl p_out in *. rewrite paff_entry by lia. rewrite rsum_1.
    destruct i as [|[|]]; [| |lia]; (destruct j as [|]; [|lia]); unfold entry; simpl; lra.
  - split; [simpl; lra|]. intros i j Hi Hj. unfold paffine. simpl p_in. simpl p_out in *. rewrite paff_entry by lia. rewrite rsum_1.
    destruct i as [|[|]]; [| |lia]; (destruct j as [|]; [|lia]); unfold entry; cbv -[Rplus Rmult Rminus Rdiv Ropp Rinv IZR Rlt_dec Rle_dec Rmax Rlt Rle R0 R1 exp sqrt]; simpl.
    + rewrite Rmax_left; lra.
    + rewrite Rmax_right; lra.
Qed.
Lemma ti_ok : no_dropout (net ti_es) /\ (forall z, 0 <= r_uni (h_rng ti_state) z) /\ List.Forall (fun x => plain_sgd (1/10) (x_po x)) ti_xs /\ 1/10 <> 0.
Proof.
  split; [intros p [<-|[<-|[<-|[]]]]; discriminate|]. split; [intros z; simpl; lra|]. split; [repeat constructor|lra].
Qed.
End Reals.

(** ** One ReLU layer object used twice *)
Section Rationals.
Open Scope Z_scope.
Open Scope go_scope.
Definition tj_o : optimizer QNum := MkOpt SGD (1#10)%Q 0%Q 0%Q 0%Q 0%Q 0%Q (1#10)%Q 0 matrix0 matrix0 matrix0 matrix0 false false.
Definition tj_po : popt QNum := PO SGD (1#10)%Q 0%Q 0%Q 0%Q 0%Q 0%Q (1#10)%Q 0 false false (zmat 1 1) (zmat 1 1) (zmat 1 1) (zmat 1 1).
Definition tj_layer : layer QNum := MkLayer Hidden 1 1 (MkMatrix 1 1 (MkSlice 1 0 1)) (MkMatrix 1 1 (MkSlice 2 0 1)) 0%Q 0%Q matrix0 matrix0.
Definition tj_state : state QNum := MkState [[q (-1)]; [q 1]; [q 2]; [q 0]] [[1]; [2]; [3]; [4]]%nat [tj_layer; tj_layer] [tj_o; tj_o] ex_rng true [].
(** [ls] are the two layers of the model. *)
Definition tj_m (ls : list nat) : model QNum := MkModel 2 1 1 0 (Some (MkLoss MSE 1)) 0 0%Q 0 [] ls [0; 1]%nat.
Definition tj_p : player QNum := PL Hidden 1 1 [[q (-1)]] [[q 1]] 0%Q 0%Q.
Definition tj_es : list (lent QNum) := [LE 0 [1]%nat [2]%nat tj_p; LE 1 [1]%nat [2]%nat tj_p].
Definition tj_xs : list (oent QNum) := [OE 0 [] tj_po; OE 1 [] tj_po].
Definition tj_x : matrix := MkMatrix 1 1 (MkSlice 3 0 1).
Definition tj_y : matrix := MkMatrix 1 1 (MkSlice 4 0 1).
Lemma tj_trainable : tied_trainable tj_state (tj_m [0;1]%nat) [0;0]%nat tj_es tj_xs 1 1 MSE.
Proof.
  split; [|split; [|split; [|split; [|split; [|split; [|split; [|split; [|split; [|split]]]]]]]]].
  - repeat (split; [reflexivity|]). split; [simpl; auto|]. repeat (constructor; [eexists; split; [reflexivity|lown_tac]|]). constructor.
  - nodup_tac.
  - split; [reflexivity|]. split; [repeat constructor; simpl; lia|].
    intros a e b e' H H'. cbn in H, H'. destruct H as [H|[H|[]]], H' as [H'|[H'|[]]]; injection H as <- <-; injection H' as <- <-; cbn [Nat.eqb]; repeat split; reflexivity.
  - simpl; lia.
  - reflexivity.
  - nodup_tac.
  - repeat (constructor; [eexists; split; [reflexivity|]; split; [repeat split|]; reflexivity|]). constructor.
  - intros z _ [].
  - reflexivity.
  - reflexivity.
  - repeat constructor; discriminate.
Qed.
Lemma tj_data : data_ok tj_state tj_es tj_x [3]%nat tj_y [4]%nat 1 1 1 [[q 2]] [[q 0]].
Proof. split; [own_tac|]. split; [own_tac|]. split; disj_tac. Qed.
(** Two layer objects with common weights, and one of them used twice: the same predictions,
    but other weights after one epoch. *)
Lemma object_twice : exists (s : state QNum) m es xs x rsx y rsy X Y m' s1 s2 w1 w2,
  tied_trainable s m [0;0]%nat es xs 1 1 MSE /\ data_ok s es x rsx y rsy 1 1 1 X Y /\
  (exists l, h_layers s = [l; l] /\ m_layers m = [0;1]%nat /\ m_layers m' = [0;0]%nat) /\ m_opts m' = m_opts m /\ m_loss m' = m_loss m /\
  fst ((p <- Predict m x ;; getc p 0 0) s) = fst ((p <- Predict m' x ;; getc p 0 0) s) /\
  Fit m x y 1 0 matrix0 matrix0 0 s = (Ret tt, s1) /\ Fit m' x y 1 0 matrix0 matrix0 0 s = (Ret tt, s2) /\
  fst ((l <- get_layer 0 ;; getc (l_w l) 0 0) s1) = Ret w1 /\ fst ((l <- get_layer 0 ;; getc (l_w l) 0 0) s2) = Ret w2 /\ ~ (w1 == w2)%Q.
Proof.
  exists tj_state, (tj_m [0;1]%nat), tj_es, tj_xs, tj_x, [3]%nat, tj_y, [4]%nat, [[q 2]], [[q 0]], (tj_m [0;0]%nat).
  destruct (Fit (tj_m [0;1]%nat) tj_x tj_y 1 0 matrix0 matrix0 0 tj_state) as [out1 s1] eqn:E1.
  destruct (Fit (tj_m [0;0]%nat) tj_x tj_y 1 0 matrix0 matrix0 0 tj_state) as [out2 s2] eqn:E2.
  assert (HO1 : match out1 with Ret tt => True | _ => False end) by (change out1 with (fst (out1, s1)); rewrite <- E1; vm_compute; exact I).
  assert (HO2 : match out2 with Ret tt => True | _ => False end) by (change out2 with (fst (out2, s2)); rewrite <- E2; vm_compute; exact I).
  assert (HW : match fst ((l <- get_layer 0 ;; getc (l_w l) 0 0) s1), fst ((l <- get_layer 0 ;; getc (l_w l) 0 0) s2) with Ret w, Ret w' => ~ (w == w')%Q | _, _ => False end).
  { change s1 with (snd (out1, s1)). change s2 with (snd (out2, s2)). rewrite <- E1, <- E2. vm_compute. discriminate. }
  destruct out1 as [[]|?|?]; try contradiction. destruct out2 as [[]|?|?]; try contradiction.
  destruct (fst ((l <- get_layer 0 ;; getc (l_w l) 0 0) s1)) as [w1|?|?] eqn:F1; try contradiction.
  destruct (fst ((l <- get_layer 0 ;; getc (l_w l) 0 0) s2)) as [w2|?|?] eqn:F2; try contradiction.
  exists s1, s2, w1, w2. split; [exact tj_trainable|]. split; [exact tj_data|].
  split; [exists tj_layer; split; [reflexivity|split; reflexivity]|]. split; [reflexivity|]. split; [reflexivity|].
  split; [vm_compute; reflexivity|]. auto.
Qed.
End Rationals.
