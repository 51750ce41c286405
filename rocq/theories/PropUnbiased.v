(** * Properties C87, C88: averages over the random numbers.

    [tuples m n]: the lists of n numbers below m ([C87_draws]).  [grid m w]: the uniform
    numbers w_0/m, w_1/m, ...  [total l f]: the sum of f over the list l (Unbiased.v). *)
From Coq Require Import String ZArith List Bool Arith Lia Reals Lra Permutation.
From Verif Require Import Num NumR Heap Spec PureSpec Repr Matrix Misc Network RSum BinomialProofs GradSpec LossRefute Ex Unbiased ShuffleUniform UnbiasedEx.
Import ListNotations.
Open Scope R_scope.
Open Scope go_scope.

(** ** C87 *)
Theorem C87_draws m n : NoDup (tuples m n) /\ length (tuples m n) = (m ^ n)%nat /\
  forall w, In w (tuples m n) <-> length w = n /\ List.Forall (fun a => (a < m)%nat) w.
Proof. exact (draws_all m n). Qed.
(** Over all draws of the uniform numbers from 0/m, ..., (m-1)/m the outputs of a training
    pass average to the output without dropout; their variance is out^2 d / (1 - d) and
    different outputs are uncorrelated. *)
Theorem C87_outputs (s : state RNum) lref l rw rb p x rsx r X m k :
  nth_error (h_layers s) lref = Some l -> lown s l rw rb p -> p_kind p = Dropout -> p_drop p = INR k / INR m -> (k < m)%nat ->
  own s x rsx r (p_in p) X -> (1 <= r)%nat ->
  exists A : list nat -> pm RNum,
    (forall w, returns (Layer_Forward lref x) (with_uniforms s (grid m w)) (fun out s' => exists rs, own s' out rs r (p_out p) (A w))) /\
    returns (Dropout_ForwardNoDropout lref x) s (fun out s' => exists rs, own s' out rs r (p_out p) (pforward p r X)) /\
    (forall i j, (i < r)%nat -> (j < p_out p)%nat ->
       total (tuples m (r * p_out p)) (fun w => entry (A w) i j) = INR m ^ (r * p_out p) * entry (pforward p r X) i j) /\
    (forall i j, (i < r)%nat -> (j < p_out p)%nat ->
       total (tuples m (r * p_out p)) (fun w => entry (A w) i j ^ 2) = INR m ^ (r * p_out p) * (entry (pforward p r X) i j ^ 2 / (1 - p_drop p))) /\
    (forall i j i' j', (i < r)%nat -> (j < p_out p)%nat -> (i' < r)%nat -> (j' < p_out p)%nat -> (i, j) <> (i', j') ->
       total (tuples m (r * p_out p)) (fun w => entry (A w) i j * entry (A w) i' j')
       = INR m ^ (r * p_out p) * (entry (pforward p r X) i j * entry (pforward p r X) i' j')).
Proof. exact (dropout_average s lref l rw rb p x rsx r X m k). Qed.
(** The gradients average to (1 - dropout) times those of the layer without dropout (C25):
    they are biased. *)
Theorem C87_gradients (s : state RNum) lref l rw rb p x rsx r X dv rsg G m k :
  nth_error (h_layers s) lref = Some l -> lown s l rw rb p -> p_kind p = Dropout -> p_drop p = INR k / INR m -> (k < m)%nat ->
  own s x rsx r (p_in p) X -> (1 <= r)%nat -> own s dv rsg r (p_out p) G -> NoDup rsg ->
  disjoint rsx rsg -> disjoint rw rsg -> disjoint rb rsg ->
  let H i j := if Rlt_dec 0 (entry (paffine p r X) i j) then entry G i j else 0 in
  exists dW dB dX : list nat -> pm RNum,
    (forall w, returns (out <- Layer_Forward lref x ;; Layer_Backward lref x dv) (with_uniforms s (grid m w)) (fun g s' =>
       bwd_result s s' g (p_in p) (p_out p) r (dW w) (dB w) (dX w))) /\
    (forall i j, (i < p_in p)%nat -> (j < p_out p)%nat ->
       total (tuples m (r * p_out p)) (fun w => entry (dW w) i j) = INR m ^ (r * p_out p) * ((1 - p_drop p) * rsum r (fun n => entry X n i * H n j))) /\
    (forall j, (j < p_out p)%nat ->
       total (tuples m (r * p_out p)) (fun w => entry (dB w) 0 j) = INR m ^ (r * p_out p) * ((1 - p_drop p) * rsum r (fun n => H n j))) /\
    (forall i j, (i < r)%nat -> (j < p_in p)%nat ->
       total (tuples m (r * p_out p)) (fun w => entry (dX w) i j) = INR m ^ (r * p_out p) * ((1 - p_drop p) * rsum (p_out p) (fun n => H i n * entry (p_w p) j n))).
Proof. exact (dropout_gradients s lref l rw rb p x rsx r X dv rsg G m k). Qed.
Print Assumptions C87_draws.
Print Assumptions C87_outputs.
Print Assumptions C87_gradients.
(** A layer with dropout 1/4, 2 rows, 2 outputs: 256 draws.  One output is positive. *)
Example C87_ex : nth_error (h_layers er_state) 4 = Some (er_layer Dropout) /\
  lown er_state (er_layer Dropout) [1;2]%nat [3]%nat (er_player Dropout) /\
  p_kind (er_player Dropout) = Dropout /\ p_drop (er_player Dropout) = INR 1 / INR 4 /\ (1 < 4)%nat /\
  own er_state er_x [4;5]%nat 2 (p_in (er_player Dropout)) erX /\ own er_state er_g [6;7]%nat 2 (p_out (er_player Dropout)) erG /\
  NoDup [6;7]%nat /\ disjoint [4;5]%nat [6;7]%nat /\ disjoint [1;2]%nat [6;7]%nat /\ disjoint [3]%nat [6;7]%nat /\
  0 < entry (pforward (er_player Dropout) 2 erX) 0 0.
Proof. exact unbiased_ex. Qed.

(** ** C88 *)
(** [draws_ok r ds]: r-1 numbers, the t-th below r-t; [C88_count]: there are r! of them.
    [draws_of r I]: what the integer stream I amounts to.  Every ordering of the rows is
    reached by exactly one sequence of draws, which is applied to both matrices, and r-1
    integers are read. *)
Theorem C88_uniform (K : Num) (s : state K) X Y rsx rsy r c d A B :
  own s X rsx r c A -> own s Y rsy r d B -> sl_loc (mdata X) <> sl_loc (mdata Y) ->
  exists P : list nat -> list nat,
    (forall I, returns (ShuffleDataset X Y) (with_ints s I) (fun XY s' => XY = (X, Y) /\
       own s' X (map (fun k => nth k rsx O) (P (draws_of r I))) r c (map (fun k => nth k A []) (P (draws_of r I))) /\
       own s' Y (map (fun k => nth k rsy O) (P (draws_of r I))) r d (map (fun k => nth k B []) (P (draws_of r I))) /\
       h_rows s' = h_rows s /\ r_ipos (h_rng s') = (r - 1)%nat)) /\
    (forall q, Permutation (seq 0 r) q <-> exists! ds, draws_ok r ds /\ P ds = q).
Proof. exact (shuffle_uniform s X Y rsx rsy r c d A B). Qed.
Theorem C88_count r : (forall I, draws_ok r (draws_of r I)) /\ (forall ds, draws_ok r ds -> exists I, draws_of r I = ds) /\
  exists L, NoDup L /\ (forall ds, In ds L <-> draws_ok r ds) /\ length L = fact r.
Proof. exact (draws_facts r). Qed.
Print Assumptions C88_uniform.
Print Assumptions C88_count.
(** Three rows: the draws 0, 0 give the order 1, 2, 0 and the draws 2, 1 change nothing. *)
Example C88_ex : own sx_s sx_x [1;2;3]%nat 3 1 sx_X /\ own sx_s sx_y [4;5;6]%nat 3 1 sx_Y /\ sl_loc (mdata sx_x) <> sl_loc (mdata sx_y) /\
  match ShuffleDataset sx_x sx_y (with_ints sx_s (fun _ => 0%Z)) with
  | (Ret _, s') => out_at s' 1 = Some [2;3;1]%nat /\ out_at s' 2 = Some [5;6;4]%nat | _ => False end /\
  match ShuffleDataset sx_x sx_y (with_ints sx_s (fun t => Z.of_nat (2 - t))) with
  | (Ret _, s') => out_at s' 1 = Some [1;2;3]%nat | _ => False end.
Proof. exact shuffle_ex. Qed.
