(** * TwinsEx: a concrete network with twins, and dropout separating twins. *)
From Coq Require Import String ZArith List Bool Arith Lia QArith.
From Verif Require Import Num NumQ Heap Spec Matrix Network Loss Optimizers ModelGo PureSpec Repr HeapLemmas OptSpec OptFacts ModelSpec Ex ModelEx Twins TwinsProofs.
Import ListNotations.
Open Scope Z_scope.
Open Scope go_scope.

(** A layer 2 -> 2 of kind [kd] with twin units, a linear layer 2 -> 1, and samples in [eX]'s and [eY]'s shape; in [twX2] both features are equal. *)
Definition tw_rows : list (list Q) :=
  [ [q 1; q 1]; [q 2; q 2]; [q 1; q 1];  [q 1]; [q 1]; [q 3];
    [q 1; q 2]; [q 2; q (-1)]; [q 0; q 1];  [q 1]; [q 0]; [q 2];
    [q 1; q 1]; [q 2; q 2]; [q (-1); q (-1)] ].
Definition tw_outs : list (list nat) := [ [1; 2]; [3]; [4; 5]; [6]; [7; 8; 9]; [10; 11; 12]; [13; 14; 15] ]%nat.
Definition twX := MkMatrix 3 2 (MkSlice 5 0 3). Definition twY := MkMatrix 3 1 (MkSlice 6 0 3). Definition twX2 := MkMatrix 3 2 (MkSlice 7 0 3).
Definition twL0 (kd : lkind) : layer QNum := MkLayer kd 2 2 (MkMatrix 2 2 (MkSlice 1 0 2)) (MkMatrix 1 2 (MkSlice 2 0 1)) 0%Q (1#4)%Q matrix0 matrix0.
Definition twL1 : layer QNum := MkLayer Linear 2 1 (MkMatrix 2 1 (MkSlice 3 0 2)) (MkMatrix 1 1 (MkSlice 4 0 1)) 0%Q 0%Q matrix0 matrix0.
Definition tw_rng : rng QNum := MkRng (fun n => if Nat.even n then (1#10)%Q else (9#10)%Q) (r_nrm ex_rng) (r_int ex_rng) 0 0 0.
Definition tws (kd : lkind) : state QNum := MkState tw_rows tw_outs [twL0 kd; twL1] [eO; eO] tw_rng true [].
Definition twM : model QNum :=
  MkModel 2 2 1 0 (Some (MkLoss MSE 1)) 0 (1#10)%Q 0
    [("learningRate", (1#10)%Q); ("decay", 0%Q); ("momentum", (1#2)%Q)]%string [0; 1]%nat [0; 1]%nat.
Definition twEs (kd : lkind) : list (lent QNum) :=
  [LE 0 [1; 2]%nat [3]%nat (PL kd 2 2 [[q 1; q 1]; [q 2; q 2]] [[q 1; q 1]] 0%Q (1#4)%Q); LE 1 [4; 5]%nat [6]%nat (PL Linear 2 1 [[q 1]; [q 1]] [[q 3]] 0%Q 0%Q)].
Definition twXs : list (oent QNum) := [OE 0 [] (ePO 2); OE 1 [] (ePO 1)].
Definition twpX2 : pm QNum := [[q 1; q 1]; [q 2; q 2]; [q (-1); q (-1)]].
Lemma tw_trainable kd : kd <> SigmoidK -> trainable (tws kd) twM (twEs kd) twXs 2 1 MSE.
Proof.
  intros HK. split; [|split; [|split; [|split; [|split; [|split; [|split; [|split; [|split]]]]]]]].
  - repeat (split; [reflexivity|]). split; [simpl; auto|]. repeat (constructor; [eexists; split; [reflexivity|lown_tac]|]). constructor.
  - split; nodup_tac.
  - simpl; lia.
  - reflexivity.
  - nodup_tac.
  - repeat (constructor; [eexists; split; [reflexivity|]; split; [repeat split|]; simpl; left; repeat split|]). constructor.
  - intros z _ [].
  - reflexivity.
  - reflexivity.
  - constructor; [exact HK|]. constructor; [discriminate|constructor].
Qed.
Lemma tw_data kd : data_ok (tws kd) (twEs kd) twX [7; 8; 9]%nat twY [10; 11; 12]%nat 3 2 1 pXd pYd.
Proof. split; [own_tac|]. split; [own_tac|]. split; disj_tac. Qed.
Lemma tw_twins kd : kd = Hidden \/ kd = Leaky \/ kd = Linear -> twins (trainer (twEs kd) twXs) 0 0 1.
Proof.
  intros HK. do 2 eexists. split; [reflexivity|]. split; [reflexivity|]. split; [exact HK|]. simpl. repeat (split; [lia|]).
  split; repeat split; simpl; intros [|[|i]] Hi; try reflexivity; lia.
Qed.
(** With dropout instead: the units agree in everything except the kind of the layer. *)
Lemma dropout_separates : exists (s : state QNum) m es xs x rsx y rsy X Y s' w w' t1 t2,
  trainable s m es xs 2 1 MSE /\ data_ok s es x rsx y rsy 3 2 1 X Y /\
  nth_error (trainer es xs) 0 = Some t1 /\ nth_error (trainer es xs) 1 = Some t2 /\ p_kind (fst t1) = Dropout /\ twin_units t1 0 1 /\ twin_inputs t2 0 1 /\
  Fit m x y 1 0 matrix0 matrix0 0 s = (Ret tt, s') /\
  fst ((l <- get_layer 0 ;; getc (l_w l) 0 0) s') = Ret w /\ fst ((l <- get_layer 0 ;; getc (l_w l) 0 1) s') = Ret w' /\ ~ (w == w')%Q.
Proof.
  exists (tws Dropout), twM, (twEs Dropout), twXs, twX, [7; 8; 9]%nat, twY, [10; 11; 12]%nat, pXd, pYd.
  destruct (Fit twM twX twY 1 0 matrix0 matrix0 0 (tws Dropout)) as [out s'] eqn:E.
  assert (HO : match out with Ret tt => True | _ => False end /\
    match fst ((l <- get_layer 0 ;; getc (l_w l) 0 0) s'), fst ((l <- get_layer 0 ;; getc (l_w l) 0 1) s') with Ret w, Ret w' => ~ (w == w')%Q | _, _ => False end).
  { change out with (fst (out, s')). change s' with (snd (out, s')) at 2 3. rewrite <- E. clear E. split; [vm_compute; exact I|vm_compute; discriminate]. }
  destruct HO as [HO1 HO2]. destruct out as [[]|?|?]; try contradiction.
  destruct (fst ((l <- get_layer 0 ;; getc (l_w l) 0 0) s')) as [w|?|?] eqn:E1; try contradiction.
  destruct (fst ((l <- get_layer 0 ;; getc (l_w l) 0 1) s')) as [w'|?|?] eqn:E2; try contradiction.
  exists s', w, w'. do 2 eexists. split; [apply tw_trainable; discriminate|]. split; [apply tw_data|]. split; [reflexivity|]. split; [reflexivity|]. split; [reflexivity|].
  split; [repeat split; simpl; intros [|[|i]] Hi; try reflexivity; lia|]. split; [repeat split; simpl; intros [|[|i]] Hi; try reflexivity; lia|]. auto.
Qed.
(** One linear layer on the samples whose two features are equal. *)
Definition twM1 : model QNum :=
  MkModel 1 2 1 0 (Some (MkLoss MSE 1)) 0 (1#10)%Q 0
    [("learningRate", (1#10)%Q); ("decay", 0%Q); ("momentum", (1#2)%Q)]%string [1]%nat [1]%nat.
Lemma ex_features : trainable (tws Linear) twM1 (tl (twEs Linear)) (tl twXs) 2 1 MSE /\
  data_ok (tws Linear) (tl (twEs Linear)) twX2 [13; 14; 15]%nat twY [10; 11; 12]%nat 3 2 1 twpX2 pYd /\
  twin_features (trainer (tl (twEs Linear)) (tl twXs)) 0 1 /\ same_cols 3 twpX2 0 1.
Proof.
  split; [|split; [|split]].
  - split; [|split; [|split; [|split; [|split; [|split; [|split; [|split; [|split]]]]]]]].
    + repeat (split; [reflexivity|]). split; [simpl; auto|]. repeat (constructor; [eexists; split; [reflexivity|lown_tac]|]). constructor.
    + split; nodup_tac.
    + simpl; lia.
    + reflexivity.
    + nodup_tac.
    + repeat (constructor; [eexists; split; [reflexivity|]; split; [repeat split|]; simpl; left; repeat split|]). constructor.
    + intros z _ [].
    + reflexivity.
    + reflexivity.
    + constructor; [discriminate|constructor].
  - split; [own_tac|]. split; [own_tac|]. split; disj_tac.
  - eexists. split; [reflexivity|]. simpl. split; [lia|]. split; [lia|]. repeat split; simpl; intros [|j] Hj; try reflexivity; lia.
  - intros [|[|[|i]]] Hi; try reflexivity; lia.
Qed.
