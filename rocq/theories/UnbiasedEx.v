(** * Examples for C87 and C88. *)
From Coq Require Import String ZArith List Bool Arith Lia Reals Lra Permutation QArith.
From Verif Require Import Num NumR NumQ Heap Spec PureSpec Repr Matrix Misc Network RSum BinomialProofs GradSpec LossRefute Unbiased ShuffleUniform.
Import ListNotations.
Open Scope R_scope.

Lemma tuples_length m n : length (tuples m n) = (m ^ n)%nat.
Proof.
  induction n as [|n IH]; [reflexivity|]. cbn [tuples]. rewrite (flat_length _ _ (m ^ n)%nat).
  - rewrite seq_length. reflexivity.
  - intros a. rewrite map_length. exact IH.
Qed.
Lemma draws_all m n : NoDup (tuples m n) /\ length (tuples m n) = (m ^ n)%nat /\
  forall w, In w (tuples m n) <-> length w = n /\ List.Forall (fun a => (a < m)%nat) w.
Proof. split; [apply nodup_tuples|]. split; [apply tuples_length|]. intros w. apply in_tuples. Qed.
Lemma draws_facts r : (forall I, draws_ok r (draws_of r I)) /\ (forall ds, draws_ok r ds -> exists I, draws_of r I = ds) /\
  exists L, NoDup L /\ (forall ds, In ds L <-> draws_ok r ds) /\ length L = fact r.
Proof.
  split; [apply draws_of_ok|]. split; [|apply draws_count].
  intros ds Hd. eexists. apply draws_of_nat. exact Hd.
Qed.

Lemma unbiased_ex : nth_error (h_layers er_state) 4 = Some (er_layer Dropout) /\
  lown er_state (er_layer Dropout) [1;2]%nat [3]%nat (er_player Dropout) /\
  p_kind (er_player Dropout) = Dropout /\ p_drop (er_player Dropout) = INR 1 / INR 4 /\ (1 < 4)%nat /\
  own er_state er_x [4;5]%nat 2 (p_in (er_player Dropout)) erX /\ own er_state er_g [6;7]%nat 2 (p_out (er_player Dropout)) erG /\
  NoDup [6;7]%nat /\ disjoint [4;5]%nat [6;7]%nat /\ disjoint [1;2]%nat [6;7]%nat /\ disjoint [3]%nat [6;7]%nat /\
  0 < entry (pforward (er_player Dropout) 2 erX) 0 0.
Proof.
  split; [reflexivity|]. split; [apply er_lown|]. split; [reflexivity|]. split; [cbn; lra|]. split; [lia|].
  split; [exact er_own_x|]. split; [exact er_own_g|].
  split; [repeat constructor; cbn; intuition congruence|].
  split; [intros z Ha Hb; cbn in Ha, Hb; lia|]. split; [intros z Ha Hb; cbn in Ha, Hb; lia|]. split; [intros z Ha Hb; cbn in Ha, Hb; lia|].
  cbn. unfold relu1, f0. cbn. unfold Rmax. destruct (Rle_dec _ _); lra.
Qed.

(** Three samples with one feature and one label. *)
Definition sx_s : state QNum :=
  MkState (K := QNum) [[1#1]; [2#1]; [3#1]; [4#1]; [5#1]; [6#1]]%Q [[1;2;3]; [4;5;6]]%nat [] []
    (MkRng (K := QNum) (fun _ => 0%Q) (fun _ => 0%Q) (fun _ => 0%Z) 0 0 0) true [].
Definition sx_x : matrix := MkMatrix 3 1 (MkSlice 1 0 3).
Definition sx_y : matrix := MkMatrix 3 1 (MkSlice 2 0 3).
Definition sx_X : pm QNum := [[1#1]; [2#1]; [3#1]]%Q.
Definition sx_Y : pm QNum := [[4#1]; [5#1]; [6#1]]%Q.
Lemma shuffle_ex : own sx_s sx_x [1;2;3]%nat 3 1 sx_X /\ own sx_s sx_y [4;5;6]%nat 3 1 sx_Y /\ sl_loc (mdata sx_x) <> sl_loc (mdata sx_y) /\
  match ShuffleDataset sx_x sx_y (with_ints sx_s (fun _ => 0%Z)) with
  | (Ret _, s') => out_at s' 1 = Some [2;3;1]%nat /\ out_at s' 2 = Some [5;6;4]%nat | _ => False end /\
  match ShuffleDataset sx_x sx_y (with_ints sx_s (fun t => Z.of_nat (2 - t))) with
  | (Ret _, s') => out_at s' 1 = Some [1;2;3]%nat | _ => False end.
Proof.
  split; [|split; [|split; [discriminate|split; vm_compute; auto]]];
  (unfold own; simpl; repeat (split; [reflexivity|]); split; [split; [reflexivity|repeat constructor]|];
   split; [eexists; split; [reflexivity|]; split; [simpl; lia|reflexivity]|repeat constructor]).
Qed.
