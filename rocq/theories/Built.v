(** * Built: every modelled operation is composed of the primitive heap operations; facts that
    hold for all such programs, whatever their inputs. *)
From Coq Require Import String ZArith List Bool Arith Lia.
From Verif Require Import Num Heap Spec Matrix Activation Misc Accuracy Loss Network Optimizers ModelGo PureSpec Repr HeapLemmas LoopLemmas ModelSpec.
Import ListNotations.
Open Scope Z_scope.
Open Scope go_scope.

Section WithNum.
Context {K : Num}.
Implicit Types (s : state K).

(** Programs that do not log. *)
Inductive built : forall {A : Type}, M K A -> Prop :=
| b_ret A (a : A) : built (ret a)
| b_fail A e : plain_error e -> built (fail (A := A) e)
| b_panic A p : built (panic (A := A) p)
| b_bind A B (m : M K A) (f : A -> M K B) : built m -> (forall a, built (f a)) -> built (bind m f)
| b_ignore A (z : A) m : built m -> built (ignore_err z m)
| b_catch A (m : M K A) : built m -> built (catch m)
| b_handle A B (m : M K A) (f : A + err -> M K B) : built m -> (forall a, built (f (inl a))) -> (forall e, plain_error e -> built (f (inr e))) ->
    built (bind (catch m) f)
| b_alloc_row l : built (alloc_row l)
| b_alloc_out l : built (alloc_out l)
| b_idx_out sl i : built (idx_out sl i)
| b_set_out sl i r : built (set_out sl i r)
| b_row_len r : built (row_len r)
| b_idx_row r j : built (idx_row r j)
| b_set_row r j v : built (set_row r j v)
| b_reslice sl lo hi : built (reslice sl lo hi)
| b_get_layer l : built (get_layer l)
| b_put_layer l x : built (put_layer l x)
| b_alloc_layer x : built (alloc_layer x)
| b_get_opt l : built (get_opt l)
| b_put_opt l x : built (put_opt l x)
| b_alloc_opt x : built (alloc_opt x)
| b_draw_uniform : built draw_uniform
| b_draw_normal : built draw_normal
| b_draw_int : built draw_int.
Hint Constructors built : built.
Hint Extern 1 (plain_error _) => solve [assumption|simpl; tauto] : built.

Lemma b_loop {A} n : forall i (body : Z -> A -> M K A) acc, (forall i acc, built (body i acc)) -> built (loop n i body acc).
Proof. induction n as [|n IH]; intros i body acc H; [apply b_ret|]. apply b_bind; [apply H|]. intros a. apply IH, H. Qed.
Lemma b_for_acc {A} n (body : Z -> A -> M K A) acc : (forall i acc, built (body i acc)) -> built (for_acc n body acc).
Proof. intros H. apply b_loop, H. Qed.
Lemma b_for n (body : Z -> M K unit) : (forall i, built (body i)) -> built (for_ n body).
Proof. intros H. apply b_for_acc. auto. Qed.
End WithNum.

Ltac head_of t := match t with ?f _ => head_of f | _ => t end.
Ltac built_step :=
  match goal with
  | |- forall _, _ => intros
  | |- built (bind (catch _) _) => apply b_handle
  | |- built (bind _ _) => apply b_bind
  | |- built (for_acc _ _ _) => apply b_for_acc
  | |- built (for_ _ _) => apply b_for
  | |- built (ignore_err _ _) => apply b_ignore
  | |- built (catch _) => apply b_catch
  | |- built (if ?b then _ else _) => destruct b
  | |- built (match ?x with _ => _ end) => destruct x
  | |- built (let _ := _ in _) => cbv zeta
  | |- built (?f) => solve [auto with built]
  | |- built ?m => let h := head_of m in unfold h; cbv beta
  end.
Ltac built_tac := repeat built_step.

Section WithNum.
Context {K : Num}.
Implicit Types (s : state K).
Hint Constructors built : built.
Hint Extern 1 (plain_error _) => solve [assumption|simpl; tauto] : built.

Lemma b_getc m i j : built (K := K) (getc m i j). Proof. built_tac. Qed.
Lemma b_setc m i j v : built (K := K) (setc m i j v). Proof. built_tac. Qed.
Lemma b_NewMatrix r c : built (K := K) (NewMatrix r c). Proof. built_tac. Qed.
Hint Resolve b_getc b_setc b_NewMatrix : built.
Lemma b_NewMatrix_ r c : built (K := K) (NewMatrix_ r c). Proof. built_tac. Qed.
Hint Resolve b_NewMatrix_ : built.
Lemma b_FromSlice sl : built (K := K) (NewMatrixFromSlice sl). Proof. built_tac. Qed.
Lemma b_Get m i j : built (K := K) (Get m i j). Proof. built_tac. Qed.
Lemma b_Set m i j v : built (K := K) (Set_ m i j v). Proof. built_tac. Qed.
Lemma b_GetRow m i : built (K := K) (GetRow m i). Proof. built_tac. Qed.
Lemma b_GetColumn m i : built (K := K) (GetColumn m i). Proof. built_tac. Qed.
Lemma b_SetRow m i v : built (K := K) (SetRow m i v). Proof. built_tac. Qed.
Lemma b_SetColumn m i v : built (K := K) (SetColumn m i v). Proof. built_tac. Qed.
Hint Resolve b_FromSlice b_Get b_Set b_GetRow b_GetColumn b_SetRow b_SetColumn : built.
Lemma b_Equals m b : built (K := K) (Equals m b). Proof. built_tac. Qed.
Lemma b_tabulate r c (f : Z -> Z -> M K K) : (forall i j, built (f i j)) -> built (tabulate r c f). Proof. intros H. built_tac. Qed.
Lemma b_each r c (f : Z -> Z -> M K unit) : (forall i j, built (f i j)) -> built (each_cell r c f). Proof. intros H. built_tac. Qed.
End WithNum.
Ltac built_step ::=
  match goal with
  | |- forall _, _ => intros
  | |- built (bind (catch _) _) => apply b_handle
  | |- built (bind _ _) => apply b_bind
  | |- built (for_acc _ _ _) => apply b_for_acc
  | |- built (for_ _ _) => apply b_for
  | |- built (tabulate _ _ _) => apply b_tabulate
  | |- built (each_cell _ _ _) => apply b_each
  | |- built (ignore_err _ _) => apply b_ignore
  | |- built (catch _) => apply b_catch
  | |- built (if ?b then _ else _) => destruct b
  | |- built (match ?x with _ => _ end) => destruct x
  | |- built (let _ := _ in _) => cbv zeta
  | |- built (?f) => solve [auto with built]
  | |- built ?m => let h := head_of m in unfold h; cbv beta
  end.

Section WithNum.
Context {K : Num}.
Implicit Types (s : state K).
Hint Constructors built : built.
Hint Extern 1 (plain_error _) => solve [assumption|simpl; tauto] : built.
Hint Resolve b_getc b_setc b_NewMatrix b_NewMatrix_ b_FromSlice b_Get b_Set b_GetRow b_GetColumn b_SetRow b_SetColumn : built.
Lemma b_Add m b : built (K := K) (Add m b). Proof. built_tac. Qed.
Lemma b_Sub m b : built (K := K) (Sub m b). Proof. built_tac. Qed.
Lemma b_Neg m : built (K := K) (Neg m). Proof. built_tac. Qed.
Lemma b_AddScalar m a : built (K := K) (AddScalar m a). Proof. built_tac. Qed.
Lemma b_MulScalar m a : built (K := K) (MulScalar m a). Proof. built_tac. Qed.
Lemma b_PowScalar m a : built (K := K) (PowScalar m a). Proof. built_tac. Qed.
Lemma b_Dot m b : built (K := K) (Dot m b). Proof. built_tac. Qed.
Lemma b_T m : built (K := K) (T m). Proof. built_tac. Qed.
Lemma b_Sum m a : built (K := K) (Sum m a). Proof. built_tac. Qed.
Lemma b_Clip m : built (K := K) (Clip m). Proof. built_tac. Qed.
Hint Resolve b_Add b_Sub b_Neg b_AddScalar b_MulScalar b_PowScalar b_Dot b_T b_Sum b_Clip : built.
Lemma b_RELU m : built (K := K) (RELU m). Proof. built_tac. Qed.
Lemma b_RELUPrime m x : built (K := K) (RELUPrime m x). Proof. built_tac. Qed.
Lemma b_Sigmoid m : built (K := K) (Sigmoid m). Proof. built_tac. Qed.
Lemma b_SigmoidPrime m x : built (K := K) (SigmoidPrime m x). Proof. built_tac. Qed.
Lemma b_LeakyRELU m a : built (K := K) (LeakyRELU m a). Proof. built_tac. Qed.
Lemma b_LeakyRELUPrime m x a : built (K := K) (LeakyRELUPrime m x a). Proof. built_tac. Qed.
Lemma b_Softmax m : built (K := K) (Softmax m). Proof. built_tac. Qed.
Lemma b_SparseToOneHot m n : built (K := K) (SparseToOneHot m n). Proof. built_tac. Qed.
Lemma b_RowMax m : built (K := K) (RowMax m). Proof. built_tac. Qed.
Lemma b_OutputBinaryValues m : built (K := K) (OutputBinaryValues m). Proof. built_tac. Qed.
Hint Resolve b_RELU b_RELUPrime b_Sigmoid b_SigmoidPrime b_LeakyRELU b_LeakyRELUPrime b_Softmax b_RowMax b_OutputBinaryValues : built.
Lemma b_swap m i j : built (K := K) (swap_rows m i j). Proof. built_tac. Qed.
Hint Resolve b_swap : built.
Lemma b_shuffle k : forall swap, (forall i j, built (swap i j)) -> built (K := K) (shuffle_down k swap).
Proof. induction k as [|k IH]; intros swap H; simpl; [apply b_ret|]. built_tac; auto. Qed.
Lemma b_ShuffleDataset X Y : built (K := K) (ShuffleDataset X Y).
Proof. unfold ShuffleDataset, rand_Shuffle. repeat first [apply b_shuffle|built_step]. Qed.
Lemma b_RegressionAccuracy a b p : built (K := K) (RegressionAccuracy a b p). Proof. built_tac. Qed.
Lemma b_CategoricalAccuracy a b : built (K := K) (CategoricalAccuracy a b). Proof. built_tac. Qed.
Lemma b_BinaryCategoricalAccuracy a b : built (K := K) (BinaryCategoricalAccuracy a b). Proof. built_tac. Qed.
Lemma b_Loss_Forward l a b : built (K := K) (Loss_Forward l a b). Proof. built_tac. Qed.
Lemma b_Loss_Backward l a b : built (K := K) (Loss_Backward l a b). Proof. built_tac. Qed.
Hint Resolve b_RegressionAccuracy b_CategoricalAccuracy b_BinaryCategoricalAccuracy b_Loss_Forward b_Loss_Backward : built.
Lemma b_Init l : built (K := K) (Init l). Proof. built_tac. Qed.
Lemma b_Layer_Forward l x : built (K := K) (Layer_Forward l x). Proof. built_tac. Qed.
Lemma b_NoDropout l x : built (K := K) (Dropout_ForwardNoDropout l x). Proof. built_tac. Qed.
Lemma b_Layer_Backward l x d : built (K := K) (Layer_Backward l x d). Proof. built_tac. Qed.
Lemma b_BackwardCrossEntropy l x y d : built (K := K) (BackwardCrossEntropy l x y d). Proof. built_tac. Qed.
Lemma b_Opt_Update l w b dw db : built (K := K) (Opt_Update l w b dw db). Proof. built_tac. Qed.
Hint Resolve b_Init b_Layer_Forward b_NoDropout b_Layer_Backward b_BackwardCrossEntropy b_Opt_Update : built.
Lemma b_go_nth {A} (l : list A) i : built (K := K) (go_nth l i). Proof. built_tac. Qed.
Hint Resolve @b_go_nth : built.
Lemma b_Forward m x t : built (K := K) (Forward m x t). Proof. built_tac. Qed.
Lemma b_backward_loop m outs k : forall d gs, built (K := K) (backward_loop m outs k d gs).
Proof. induction k as [|k IH]; intros d gs; simpl; [apply b_ret|]. built_tac; auto. Qed.
Hint Resolve b_Forward b_backward_loop : built.
Lemma b_Backward m outs y : built (K := K) (Backward m outs y). Proof. built_tac. Qed.
Lemma b_CalculateLoss m x y : built (K := K) (CalculateLoss m x y). Proof. built_tac. Qed.
Lemma b_CalculateAccuracy m x y : built (K := K) (CalculateAccuracy m x y). Proof. built_tac. Qed.
Lemma b_Predict m x : built (K := K) (Predict m x). Proof. built_tac. Qed.
Lemma b_AddLayer m r : built (K := K) (AddLayer m r). Proof. built_tac. Qed.
Lemma b_Finalize m l o a p : built (K := K) (Finalize m l o a p). Proof. built_tac. Qed.
Lemma b_InitLayers m : built (K := K) (InitLayers m). Proof. built_tac. Qed.

(** ** Errors *)
Lemma built_errors {A} (m : M K A) : built m -> forall s e s', m s = (Fail e, s') -> plain_error e.
Proof.
  induction 1; intros s e0 s' E; try discriminate E.
  - injection E as <- _. assumption.
  - unfold bind in E. destruct (m s) as [[a|e|p] s1] eqn:E1; [eapply H1; exact E| |discriminate].
    injection E as <- _. eapply IHbuilt. exact E1.
  - unfold ignore_err in E. destruct (m s) as [[a|e|p] s1]; discriminate.
  - unfold catch in E. destruct (m s) as [[a|e|p] s1]; discriminate.
  - unfold bind in E. destruct (m s) as [[a|e|p] s1] eqn:E1; unfold catch in E; rewrite E1 in E; [eapply H1; exact E| |discriminate].
    eapply H3; [eapply IHbuilt; exact E1|exact E].
  - unfold idx_out in E. destruct (_ && _); [|discriminate]. destruct (out_at s (sl_loc sl)) as [arr|]; [|discriminate].
    destruct (nth_error arr (sl_off sl + Z.to_nat i)); discriminate.
  - unfold set_out in E. destruct (_ && _); [|discriminate]. destruct (sl_loc sl) as [|k]; [discriminate|].
    destruct (nth_error (h_outs s) k); discriminate.
  - unfold row_len in E. destruct r as [|k]; [discriminate|]. destruct (row_at s (S k)); discriminate.
  - unfold idx_row in E. destruct (row_at s r) as [l|]; [|discriminate]. destruct (_ && _); [|discriminate].
    destruct (nth_error l (Z.to_nat j)); discriminate.
  - unfold set_row in E. destruct r as [|k]; [discriminate|]. destruct (nth_error (h_rows s) k) as [l|]; [|discriminate].
    destruct (_ && _); discriminate.
  - unfold reslice in E. destruct (out_at s (sl_loc sl)); [|discriminate]. destruct (_ && _); discriminate.
  - unfold get_layer in E. destruct (nth_error (h_layers s) l); discriminate.
  - unfold get_opt in E. destruct (nth_error (h_opts s) l); discriminate.
Qed.

(** ** Stability *)
Lemma stable_refl s : stable s s.
Proof. repeat split; eauto. exists []. symmetry. apply app_nil_r. Qed.
Lemma stable_trans s1 s2 s3 : stable s1 s2 -> stable s2 s3 -> stable s1 s3.
Proof.
  intros (A1 & A2 & A3 & A4 & A5 & A6 & A7 & A8 & A9 & la & A10) (B1 & B2 & B3 & B4 & B5 & B6 & B7 & B8 & B9 & lb & B10).
  split; [|split; [|split; [lia|split; [lia|split; [congruence|split; [congruence|split; [congruence|split; [lia|split; [congruence|]]]]]]]]].
  - intros r row H. destruct (A1 _ _ H) as (r1 & H1 & L1). destruct (B1 _ _ H1) as (r2 & H2 & L2). exists r2. split; [exact H2|congruence].
  - intros r row H. destruct (A2 _ _ H) as (r1 & H1 & L1). destruct (B2 _ _ H1) as (r2 & H2 & L2). exists r2. split; [exact H2|congruence].
  - exists (la ++ lb). rewrite B10, A10. apply eq_sym, app_assoc.
Qed.
Lemma upd_length_ {A} k (x : A) l : length (upd k x l) = length l.
Proof. revert k. induction l; destruct k; simpl; auto. Qed.
Lemma nth_upd {A} (l : list A) : forall k x n y, nth_error l n = Some y ->
  nth_error (upd k x l) n = Some (if (k =? n)%nat then x else y).
Proof. induction l as [|a l IH]; intros [|k] x [|n] y H; try discriminate; simpl in *; auto. Qed.
Ltac stab := first [apply stable_refl | unfold stable, row_at, out_at in *; simpl; repeat split; eauto; try lia; try (exists []; symmetry; apply app_nil_r)].
Lemma built_stable {A} (m : M K A) : built m -> forall s, stable s (snd (m s)).
Proof.
  induction 1; intros s.
  - apply stable_refl.
  - apply stable_refl.
  - apply stable_refl.
  - unfold bind. specialize (IHbuilt s). destruct (m s) as [[a|e|p] s1]; simpl in *; auto.
    eapply stable_trans; [exact IHbuilt|apply H1].
  - unfold ignore_err. specialize (IHbuilt s). destruct (m s) as [[a|e|p] s1]; simpl in *; auto.
  - unfold catch. specialize (IHbuilt s). destruct (m s) as [[a|e|p] s1]; simpl in *; auto.
  - unfold bind, catch. specialize (IHbuilt s). assert (HE := built_errors m H s). destruct (m s) as [[a|e|p] s1]; simpl in *; auto;
      (eapply stable_trans; [exact IHbuilt|]); [apply H1|apply H3]. exact (HE e s1 eq_refl).
  - stab. intros [|r] row H; [eauto|]. exists row. split; [|reflexivity]. rewrite nth_error_app1; [exact H|].
    apply nth_error_Some. congruence.
  - stab. intros [|r] row H; [eauto|]. exists row. split; [|reflexivity]. rewrite nth_error_app1; [exact H|].
    apply nth_error_Some. congruence.
  - unfold idx_out. destruct (_ && _); [|stab]. destruct (out_at s (sl_loc sl)) as [arr|]; [|stab].
    destruct (nth_error arr (sl_off sl + Z.to_nat i)); stab.
  - unfold set_out. destruct (_ && _); [|stab]. destruct (sl_loc sl) as [|k]; [stab|].
    destruct (nth_error (h_outs s) k) as [arr|] eqn:E; [|stab]. stab.
    intros [|n] a H; [eauto|]. rewrite (nth_upd _ _ _ _ _ H). eexists. split; [reflexivity|].
    destruct (Nat.eqb_spec k n); [|reflexivity]. subst. rewrite upd_length_. congruence.
  - unfold row_len. destruct (row_at s r); stab.
  - unfold idx_row. destruct (row_at s r) as [l|]; [|stab]. destruct (_ && _); [|stab]. destruct (nth_error l (Z.to_nat j)); stab.
  - unfold set_row. destruct r as [|k]; [stab|]. destruct (nth_error (h_rows s) k) as [l|] eqn:E; [|stab].
    destruct (_ && _); [|stab]. stab. intros [|n] a H; [eauto|]. rewrite (nth_upd _ _ _ _ _ H). eexists. split; [reflexivity|].
    destruct (Nat.eqb_spec k n); [|reflexivity]. subst. rewrite upd_length_. congruence.
  - unfold reslice. destruct (out_at s (sl_loc sl)); [|stab]. destruct (_ && _); stab.
  - unfold get_layer. destruct (nth_error (h_layers s) l); stab.
  - stab. rewrite upd_length_. lia.
  - stab. rewrite app_length. lia.
  - unfold get_opt. destruct (nth_error (h_opts s) l); stab.
  - stab. rewrite upd_length_. lia.
  - stab. rewrite app_length. lia.
  - stab.
  - stab.
  - stab.
Qed.

(** ** Logging *)
(** A program that does not log gives the same result with and without loggers. *)
Definition indifferent {A} (m : M K A) : Prop :=
  forall s b, m (with_logger s b) = (fst (m s), with_logger (snd (m s)) b).
Lemma built_indifferent {A} (m : M K A) : built m -> indifferent m.
Proof.
  induction 1; intros s b; try reflexivity.
  - unfold bind. rewrite (IHbuilt s b). destruct (m s) as [[a|e|p] s1]; simpl; auto. apply H1.
  - unfold ignore_err. rewrite (IHbuilt s b). destruct (m s) as [[a|e|p] s1]; simpl; auto.
  - unfold catch. rewrite (IHbuilt s b). destruct (m s) as [[a|e|p] s1]; simpl; auto.
  - unfold bind, catch. rewrite (IHbuilt s b). assert (HE := built_errors m H s). destruct (m s) as [[a|e|p] s1]; simpl; auto;
      [apply H1|apply H3]. exact (HE e s1 eq_refl).
  - unfold idx_out. change (out_at (with_logger s b)) with (out_at s).
    destruct (_ && _); [|reflexivity]. destruct (out_at s (sl_loc sl)) as [arr|]; [|reflexivity].
    destruct (nth_error arr (sl_off sl + Z.to_nat i)); reflexivity.
  - unfold set_out. destruct (_ && _); [|reflexivity]. destruct (sl_loc sl) as [|k]; [reflexivity|].
    simpl. destruct (nth_error (h_outs s) k) as [arr|]; reflexivity.
  - unfold row_len. change (row_at (with_logger s b)) with (row_at s). destruct (row_at s r); reflexivity.
  - unfold idx_row. change (row_at (with_logger s b)) with (row_at s). destruct (row_at s r) as [l|]; [|reflexivity].
    destruct (_ && _); [|reflexivity]. destruct (nth_error l (Z.to_nat j)); reflexivity.
  - unfold set_row. destruct r as [|k]; [reflexivity|]. simpl. destruct (nth_error (h_rows s) k) as [l|]; [|reflexivity].
    destruct (_ && _); reflexivity.
  - unfold reslice. change (out_at (with_logger s b)) with (out_at s). destruct (out_at s (sl_loc sl)); [|reflexivity]. destruct (_ && _); reflexivity.
  - unfold get_layer. simpl. destruct (nth_error (h_layers s) l); reflexivity.
  - unfold get_opt. simpl. destruct (nth_error (h_opts s) l); reflexivity.
Qed.

(** Programs that log every error they return. *)
Inductive logging : forall {A : Type}, M K A -> Prop :=
| l_built A (m : M K A) : built m -> (forall s e, fst (m s) <> Fail e) -> logging m
| l_bind A B (m : M K A) (f : A -> M K B) : logging m -> (forall a, logging (f a)) -> logging (bind m f)
| l_or_log A what (m : M K A) : In what fit_messages -> built m -> logging (or_log what m)
| l_line l : logging (log_print l).

Lemma l_ret {A} (a : A) : logging (ret a).
Proof. apply l_built; [apply b_ret|discriminate]. Qed.
Lemma l_loop {A} n : forall i (body : Z -> A -> M K A) acc, (forall i acc, logging (body i acc)) -> logging (loop n i body acc).
Proof. induction n as [|n IH]; intros i body acc H; [apply l_ret|]. apply l_bind; [apply H|]. intros a. apply IH, H. Qed.
Lemma l_for n (body : Z -> M K unit) : (forall i, logging (body i)) -> logging (for_ n body).
Proof. intros H. apply l_loop. auto. Qed.
Lemma l_go_nth {A} (l : list A) i : logging (go_nth l i).
Proof.
  apply l_built; [apply b_go_nth|]. intros s e. unfold go_nth. destruct (_ && _); [|discriminate].
  destruct (nth_error l (Z.to_nat i)); discriminate.
Qed.
Lemma l_get_layer l : logging (get_layer l).
Proof. apply l_built; [apply b_get_layer|]. intros s e. unfold get_layer. destruct (nth_error _ _); discriminate. Qed.
Lemma l_reslice sl lo hi : logging (reslice sl lo hi).
Proof. apply l_built; [apply b_reslice|]. intros s e. unfold reslice. destruct (out_at _ _); [|discriminate]. destruct (_ && _); discriminate. Qed.
Lemma l_ignore {A} (z : A) m : built m -> logging (ignore_err z m).
Proof. intros H. apply l_built; [apply b_ignore, H|]. intros s e. unfold ignore_err. destruct (m s) as [[a|e'|p] s1]; discriminate. Qed.

Lemma l_fit_batch m x y bs st : logging (fit_batch m x y bs st).
Proof.
  unfold fit_batch. cbv zeta. apply l_bind; [apply l_reslice|intros bx]. apply l_bind; [apply l_ignore, b_FromSlice|intros X].
  apply l_bind; [apply l_reslice|intros by_]. apply l_bind; [apply l_ignore, b_FromSlice|intros Y].
  apply l_bind; [apply l_or_log; [simpl; tauto|]; apply b_Forward|intros outs]. apply l_bind; [apply l_or_log; [simpl; tauto|]; apply b_Backward|intros gs].
  apply l_for. intros i. apply l_bind; [apply l_go_nth|intros lref]. apply l_bind; [apply l_get_layer|intros l].
  apply l_bind; [apply l_go_nth|intros oref]. apply l_bind; [apply l_go_nth|intros g]. apply l_or_log; [simpl; tauto|]; apply b_Opt_Update.
Qed.
Lemma l_fit_log m x y what line : what = ""%string \/ what = "validation "%string -> logging (fit_log m x y what line).
Proof.
  intros Hw. unfold fit_log. apply l_bind; [apply l_or_log; [destruct Hw as [->| ->]; simpl; tauto|apply b_CalculateLoss]|intros v].
  apply l_bind; [apply l_or_log; [destruct Hw as [->| ->]; simpl; tauto|apply b_CalculateAccuracy]|intros a]. apply l_line.
Qed.
Lemma l_Fit m x y ep bs xv yv every : logging (Fit m x y ep bs xv yv every).
Proof.
  unfold Fit. cbv zeta. apply l_for. intros e. apply l_bind; [apply l_for; intros st; apply l_fit_batch|intros _].
  apply l_bind; [destruct (_ && _); [apply l_fit_log; auto|apply l_ret]|intros _]. destruct (_ && _); [apply l_fit_log; auto|apply l_ret].
Qed.

Lemma logging_stable {A} (m : M K A) : logging m -> forall s, stable s (snd (m s)).
Proof.
  assert (HL : forall l s, stable s (snd (log_print l s))).
  { intros l s. unfold log_print. destruct (h_logger s); [|stab]. stab. }
  induction 1; intros s.
  - apply built_stable; assumption.
  - unfold bind. specialize (IHlogging s). destruct (m s) as [[a|e|p] s1]; simpl in *; auto.
    eapply stable_trans; [exact IHlogging|apply H1].
  - unfold or_log, bind, catch. assert (S := built_stable m H0 s). destruct (m s) as [[a|e|p] s1]; simpl in *; auto.
    eapply stable_trans; [exact S|]. specialize (HL (LError what e) s1). destruct (log_print (LError what e) s1) as [[[]|e'|p] s2]; exact HL.
  - apply HL.
Qed.
(** Returned errors are logged, as the last line. *)
Lemma logging_error {A} (m : M K A) : logging m -> forall s e s', m s = (Fail e, s') ->
  h_logger s' = true /\ exists ls what, In what fit_messages /\ h_log s' = ls ++ [LError what e].
Proof.
  induction 1; intros s e s' E.
  - exfalso. apply (H0 s e). rewrite E. reflexivity.
  - unfold bind in E. destruct (m s) as [[a|e1|p] s1] eqn:E1; [eapply H1; exact E| |discriminate].
    injection E as -> ->. eapply IHlogging; exact E1.
  - unfold or_log, bind, catch in E. destruct (m s) as [[a|e1|p] s1] eqn:E1; try discriminate.
    unfold log_print in E. destruct (h_logger s1) eqn:HG; [|discriminate]. unfold fail in E. injection E as <- <-.
    simpl. split; [exact HG|]. exists (h_log s1), what. auto.
  - unfold log_print in E. destruct (h_logger s); discriminate.
Qed.
Lemma logging_errors {A} (m : M K A) : logging m -> forall s e s', m s = (Fail e, s') -> plain_error e.
Proof.
  induction 1; intros s e s' E.
  - exfalso. apply (H0 s e). rewrite E. reflexivity.
  - unfold bind in E. destruct (m s) as [[a|e1|p] s1] eqn:E1; [eapply H1; exact E| |discriminate].
    injection E as <- _. eapply IHlogging; exact E1.
  - unfold or_log, bind, catch in E. destruct (m s) as [[a|e1|p] s1] eqn:E1; try discriminate.
    unfold log_print in E. destruct (h_logger s1) eqn:HG; [|discriminate]. unfold fail in E. injection E as <- _.
    eapply built_errors; [exact H0|exact E1].
  - unfold log_print in E. destruct (h_logger s); discriminate.
Qed.
(** Without loggers a returned error becomes a nil-pointer panic; nothing else differs, as long
    as no other lines are logged. *)
Inductive quiet : forall {A : Type}, M K A -> Prop :=
| q_built A (m : M K A) : built m -> (forall s e, fst (m s) <> Fail e) -> quiet m
| q_bind A B (m : M K A) (f : A -> M K B) : quiet m -> (forall a, quiet (f a)) -> quiet (bind m f)
| q_or_log A what (m : M K A) : In what fit_messages -> built m -> quiet (or_log what m).
Lemma quiet_nil {A} (m : M K A) : quiet m -> forall s,
  match m (with_logger s true) with
  | (Fail e, s1) => exists s0 what, In what fit_messages /\ s1 = with_log (with_logger s0 true) (h_log s0 ++ [LError what e]) /\
      m (with_logger s false) = (Panic PNil, with_logger s0 false)
  | (r, s1) => exists s0, s1 = with_logger s0 true /\ m (with_logger s false) = (r, with_logger s0 false)
  end.
Proof.
  induction 1; intros s.
  - rewrite (built_indifferent m H s true), (built_indifferent m H s false). specialize (H0 s).
    destruct (m s) as [[a|e|p] s1]; simpl in *; eauto. exfalso. exact (H0 e eq_refl).
  - specialize (IHquiet s). unfold bind. destruct (m (with_logger s true)) as [[a|e|p] s1].
    + destruct IHquiet as (s0 & -> & ->). apply H1.
    + destruct IHquiet as (s0 & what & HI & -> & ->). exists s0, what. auto.
    + destruct IHquiet as (s0 & -> & ->). eauto.
  - unfold or_log, bind, catch. rewrite (built_indifferent m H0 s true), (built_indifferent m H0 s false).
    destruct (m s) as [[a|e|p] s1]; simpl; [eauto| |eauto]. exists s1, what. auto.
Qed.
Lemma q_ret {A} (a : A) : quiet (ret a).
Proof. apply q_built; [apply b_ret|discriminate]. Qed.
Lemma q_loop {A} n : forall i (body : Z -> A -> M K A) acc, (forall i acc, quiet (body i acc)) -> quiet (loop n i body acc).
Proof. induction n as [|n IH]; intros i body acc H; [apply q_ret|]. apply q_bind; [apply H|]. intros a. apply IH, H. Qed.
Lemma q_for n (body : Z -> M K unit) : (forall i, quiet (body i)) -> quiet (for_ n body).
Proof. intros H. apply q_loop. auto. Qed.
Lemma q_go_nth {A} (l : list A) i : quiet (go_nth l i).
Proof.
  apply q_built; [apply b_go_nth|]. intros s e. unfold go_nth. destruct (_ && _); [|discriminate].
  destruct (nth_error l (Z.to_nat i)); discriminate.
Qed.
Lemma q_get_layer l : quiet (get_layer l).
Proof. apply q_built; [apply b_get_layer|]. intros s e. unfold get_layer. destruct (nth_error _ _); discriminate. Qed.
Lemma q_reslice sl lo hi : quiet (reslice sl lo hi).
Proof. apply q_built; [apply b_reslice|]. intros s e. unfold reslice. destruct (out_at _ _); [|discriminate]. destruct (_ && _); discriminate. Qed.
Lemma q_ignore {A} (z : A) m : built m -> quiet (ignore_err z m).
Proof. intros H. apply q_built; [apply b_ignore, H|]. intros s e. unfold ignore_err. destruct (m s) as [[a|e'|p] s1]; discriminate. Qed.
Lemma q_fit_batch m x y bs st : quiet (fit_batch m x y bs st).
Proof.
  unfold fit_batch. cbv zeta. apply q_bind; [apply q_reslice|intros bx]. apply q_bind; [apply q_ignore, b_FromSlice|intros X].
  apply q_bind; [apply q_reslice|intros by_]. apply q_bind; [apply q_ignore, b_FromSlice|intros Y].
  apply q_bind; [apply q_or_log; [simpl; tauto|]; apply b_Forward|intros outs]. apply q_bind; [apply q_or_log; [simpl; tauto|]; apply b_Backward|intros gs].
  apply q_for. intros i. apply q_bind; [apply q_go_nth|intros lref]. apply q_bind; [apply q_get_layer|intros l].
  apply q_bind; [apply q_go_nth|intros oref]. apply q_bind; [apply q_go_nth|intros g]. apply q_or_log; [simpl; tauto|]; apply b_Opt_Update.
Qed.
Lemma q_Fit m x y ep bs xv yv : quiet (Fit m x y ep bs xv yv 0).
Proof.
  unfold Fit. cbv zeta. apply q_for. intros e. apply q_bind; [apply q_for; intros st; apply q_fit_batch|intros _].
  simpl. rewrite andb_false_r. apply q_bind; [apply q_ret|intros _; apply q_ret].
Qed.
End WithNum.
