(** * Repr: how a model state represents plain matrices and layers.

    [own s m rs r c A]: in state [s] the Go matrix value [m] is a well-formed r x c matrix,
    its rows are the row slices [rs], and its contents are the plain matrix [A].
    [ext s s']: the step from [s] to [s'] changed nothing that existed in [s].
    [frame W s s']: of the rows existing in [s] only those in [W] may have changed. *)
From Coq Require Import String ZArith List Bool Arith.
From Verif Require Import Num Heap Spec Matrix Network PureSpec.
Import ListNotations.
Open Scope Z_scope.

Section WithNum.
Context {K : Num}.
Implicit Types s : state K.
(** [m] run in [s] returns normally (no error, no panic) with a result satisfying [Q]. *)
Definition returns {A} (m : M K A) s (Q : A -> state K -> Prop) : Prop :=
  exists a s', m s = (Ret a, s') /\ Q a s'.

(** Number of allocated rows: row references 0..nrows s are valid (0 is nil). *)
Definition nrows s : nat := length (h_rows s).
(** The row references of a slice. *)
Definition slice_refs s (sl : slice) (rs : list nat) : Prop :=
  exists arr, out_at s (sl_loc sl) = Some arr /\
    (sl_off sl + sl_len sl <= length arr)%nat /\
    rs = firstn (sl_len sl) (skipn (sl_off sl) arr).
(** Header [m] has row references [rs] and contents [A] (r x c) in state [s]. *)
Definition own s (m : matrix) (rs : list nat) (r c : nat) (A : pm K) : Prop :=
  mrows m = Z.of_nat r /\ mcols m = Z.of_nat c /\ sl_len (mdata m) = r /\
  shape r c A /\ slice_refs s (mdata m) rs /\
  Forall2 (fun ref row => row_at s ref = Some row) rs A.
(** [s'] has at least the memory of [s]; array-of-rows are unchanged; the rows outside [W]
    are unchanged; all rows keep their length. *)
Definition frame (W : nat -> Prop) s s' : Prop :=
  (forall o arr, out_at s o = Some arr -> out_at s' o = Some arr) /\
  (forall r row, row_at s r = Some row -> ~ W r -> row_at s' r = Some row) /\
  (forall r row, row_at s r = Some row -> exists row', row_at s' r = Some row' /\ length row' = length row) /\
  (nrows s <= nrows s')%nat.
(** Everything but the two data heaps is unchanged. *)
Definition rest s s' : Prop :=
  h_layers s' = h_layers s /\ h_opts s' = h_opts s /\ h_rng s' = h_rng s /\
  h_logger s' = h_logger s /\ h_log s' = h_log s.
Definition nothing : nat -> Prop := fun _ => False.
Definition among (rs : list nat) : nat -> Prop := fun r => In r rs.
Definition disjoint (rs1 rs2 : list nat) : Prop := forall r, In r rs1 -> ~ In r rs2.
(** References allocated after state [s]. *)
Definition fresh s (rs : list nat) : Prop := Forall (fun r => (nrows s < r)%nat) rs.
(** Extension: nothing that existed changed. *)
Definition ext s s' : Prop := frame nothing s s' /\ rest s s'.
Definition nouts s : nat := length (h_outs s).
(** A fresh matrix: new header storage and new rows. *)
Definition fresh_mat s s' (m : matrix) (rs : list nat) (r c : nat) (A : pm K) : Prop :=
  own s' m rs r c A /\ fresh s rs /\ NoDup rs /\ (nouts s < sl_loc (mdata m))%nat.
Definition fresh_result s (r c : nat) (A : pm K) (m : matrix) s' : Prop :=
  exists rs, fresh_mat s s' m rs r c A /\ ext s s'.
(** An in-place operation: the argument's data is rewritten, the same header is returned. *)
Definition inplace_result s m rs r c (A : pm K) (m' : matrix) s' : Prop :=
  m' = m /\ own s' m rs r c A /\ frame (among rs) s s' /\ rest s s'.
(** A slice of slices seen from outside: its row references and their contents. *)
Definition slice_view s (sl : slice) (rs : list nat) (rows : list (list K)) : Prop :=
  slice_refs s sl rs /\ Forall2 (fun ref row => row_at s ref = Some row) rs rows.
(** Everything except layers and random numbers is unchanged. *)
Definition rest2 s s' : Prop :=
  h_opts s' = h_opts s /\ h_logger s' = h_logger s /\ h_log s' = h_log s.
(** Only the arrays-of-rows at [o1], [o2] may change; all rows keep their contents. *)
Definition outs_frame (o1 o2 : nat) s s' : Prop :=
  h_rows s' = h_rows s /\ rest2 s s' /\ h_layers s' = h_layers s /\
  (forall o arr, o <> o1 -> o <> o2 -> out_at s o = Some arr -> out_at s' o = Some arr).

(** ** Layers *)
(** Layer record [l] stands for the plain layer [p]; [rw], [rb] are its parameter rows. *)
Definition lown s (l : layer K) (rw rb : list nat) (p : player K) : Prop :=
  l_kind l = p_kind p /\ l_in l = Z.of_nat (p_in p) /\ l_out l = Z.of_nat (p_out p) /\
  l_slope l = p_slope p /\ l_drop l = p_drop p /\ (1 <= p_in p)%nat /\ (1 <= p_out p)%nat /\
  own s (l_w l) rw (p_in p) (p_out p) (p_w p) /\ own s (l_b l) rb 1 (p_out p) (p_b p).
(** The layer object after a forward pass with output header [out] (and mask header). *)
Definition after_forward (l : layer K) (out : matrix) (mask : option matrix) : layer K :=
  match l_kind l with
  | Linear | SigmoidK => l
  | Hidden | Leaky | SoftmaxK => set_cache l out
  | Dropout => match mask with Some mk => set_mask (set_cache l out) mk | None => set_cache l out end
  end.
(** What a forward pass of layer [lref] does, apart from its output contents. *)
Definition fwd_effect s s' lref (l : layer K) (out : matrix) (mask : option matrix) : Prop :=
  frame nothing s s' /\ rest2 s s' /\
  h_layers s' = upd lref (after_forward l out mask) (h_layers s).
Definition adv_uni (g : rng K) (n : nat) : rng K :=
  MkRng (r_uni g) (r_nrm g) (r_int g) (r_upos g + n) (r_npos g) (r_ipos g).
Definition adv_nrm (g : rng K) (n : nat) : rng K :=
  MkRng (r_uni g) (r_nrm g) (r_int g) (r_upos g) (r_npos g + n) (r_ipos g).
(** The uniform and normal numbers still to be drawn in state [s]. *)
Definition uniforms s (n : nat) : K := r_uni (h_rng s) (r_upos (h_rng s) + n)%nat.
Definition normals s (n : nat) : K := r_nrm (h_rng s) (r_npos (h_rng s) + n)%nat.
(** A constructor's result: the layer's fields, with zero weights and biases in new storage;
    nothing else changed. *)
Definition new_layer s (k : lkind) (i o : nat) (slope drop : K) (l : layer K) s' : Prop :=
  l_kind l = k /\ l_in l = Z.of_nat i /\ l_out l = Z.of_nat o /\ l_slope l = slope /\ l_drop l = drop /\
  exists rw rb, fresh_mat s s' (l_w l) rw i o (mk i o (fun _ _ => f0)) /\
    fresh_mat s s' (l_b l) rb 1 o (mk 1 o (fun _ _ => f0)) /\ disjoint rw rb /\ ext s s'.
(** The result of a backward pass: three fresh matrices that share no row. *)
Definition bwd_result s s' (g : grads3) (k c r : nat) (dW dB dX : pm K) : Prop :=
  exists rsw rsb rsx,
  fresh_mat s s' (g_w g) rsw k c dW /\ fresh_mat s s' (g_b g) rsb 1 c dB /\
  fresh_mat s s' (g_x g) rsx r k dX /\
  disjoint rsw rsb /\ disjoint rsw rsx /\ disjoint rsb rsx.
(** Memory effect of a backward pass: only the upstream gradient rows [rsg] may change. *)
Definition bwd_effect (rsg : list nat) s s' : Prop := frame (among rsg) s s' /\ rest s s'.
(** The contents of the upstream gradient after a backward pass: hidden, leaky and dropout
    layers overwrite it with the gradient at the pre-activations. *)
Definition dv_after (p : player K) (G G' : pm K) : pm K :=
  match p_kind p with Hidden | Leaky | Dropout => G' | _ => G end.
(** What the cached forward data must be for a backward pass: saved output [O] (and mask). *)
Definition cache_ok s (l : layer K) (p : player K) (r : nat) (rso rsm : list nat) (O Mask : pm K) : Prop :=
  match p_kind p with
  | Hidden | Leaky | SoftmaxK => own s (l_cache l) rso r (p_out p) O
  | Dropout => own s (l_cache l) rso r (p_out p) O /\ own s (l_mask l) rsm r (p_out p) Mask
  | Linear | SigmoidK => True
  end.

End WithNum.
