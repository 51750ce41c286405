(** * EvalFrame: evaluation changes nothing, for arbitrary arguments and whatever the outcome. *)
From Coq Require Import String ZArith List Bool Arith Lia.
From Verif Require Import MatrixFacts Num Heap Spec Matrix Activation Misc Accuracy Loss Network Optimizers ModelGo PureSpec Repr HeapLemmas LoopLemmas LossProofs OptSpec ModelSpec ModelProofs EvalProofs FitProofs FitLoop ModelFacts FitFacts Built.
Import ListNotations.
Open Scope Z_scope.
Open Scope go_scope.

Section WithNum.
Context {K : Num}.
Implicit Types (s : state K).

Section Ev.
Context (s0 : state K) (refs : list nat).
Definition ok s : Prop := forward_effect refs 0 s0 s.
Definition keeps s s' : Prop := forall n arr, out_at s n = Some arr -> out_at s' n = Some arr.
(** All rows of [x] were allocated after [s0]. *)
Definition mnew s (x : matrix) : Prop :=
  exists arr, out_at s (sl_loc (mdata x)) = Some arr /\ Forall (fun r => r = O \/ (nrows s0 < r)%nat) arr.
Definition ev {A} (m : M K A) s (Q : A -> state K -> Prop) : Prop :=
  ok s -> ok (snd (m s)) /\ keeps s (snd (m s)) /\ forall a, fst (m s) = Ret a -> Q a (snd (m s)).
Definition any {A} (a : A) s : Prop := True.

Lemma keeps_refl s : keeps s s. Proof. intros n arr H. exact H. Qed.
Lemma keeps_trans s1 s2 s3 : keeps s1 s2 -> keeps s2 s3 -> keeps s1 s3.
Proof. intros H1 H2 n arr H. apply H2, H1, H. Qed.
Lemma mnew_keep s s' x : mnew s x -> keeps s s' -> mnew s' x.
Proof. intros (arr & H1 & H2) HK. exists arr. split; [apply HK, H1|exact H2]. Qed.
Lemma ev_bind {A B} (m : M K A) (f : A -> M K B) s R Q :
  ev m s R -> (forall a s', keeps s s' -> R a s' -> ev (f a) s' Q) -> ev (bind m f) s Q.
Proof.
  intros H1 H2 Hok. unfold bind. destruct (H1 Hok) as (A1 & A2 & A3). destruct (m s) as [[a|e|p] s1]; simpl in *.
  - specialize (H2 a s1 A2 (A3 a eq_refl) A1). destruct H2 as (B1 & B2 & B3). split; [exact B1|]. split; [eapply keeps_trans; eauto|exact B3].
  - split; [exact A1|]. split; [exact A2|]. discriminate.
  - split; [exact A1|]. split; [exact A2|]. discriminate.
Qed.
Lemma ev_same {A} (m : M K A) s (Q : A -> state K -> Prop) : snd (m s) = s -> (forall a, fst (m s) = Ret a -> Q a s) -> ev m s Q.
Proof. intros E HQ Hok. rewrite E. split; [exact Hok|]. split; [apply keeps_refl|exact HQ]. Qed.
Lemma ev_ret {A} (a : A) s (Q : A -> state K -> Prop) : Q a s -> ev (ret a) s Q.
Proof. intros H. apply ev_same; [reflexivity|]. intros a' E. injection E as <-. exact H. Qed.
Lemma ev_fail {A} e s Q : ev (fail (A := A) e) s Q.
Proof. apply ev_same; [reflexivity|discriminate]. Qed.
Lemma ev_panic {A} e s Q : ev (panic (A := A) e) s Q.
Proof. apply ev_same; [reflexivity|discriminate]. Qed.
Lemma ev_weak {A} (m : M K A) s (Q R : A -> state K -> Prop) : ev m s Q -> (forall a s', keeps s s' -> Q a s' -> R a s') -> ev m s R.
Proof. intros H HW Hok. destruct (H Hok) as (A1 & A2 & A3). split; [exact A1|]. split; [exact A2|]. auto. Qed.
Lemma ev_any {A} (m : M K A) s Q : ev m s Q -> ev m s any.
Proof. intros H. eapply ev_weak; [exact H|]. intros. exact I. Qed.
Lemma ev_loop {A} n : forall i (body : Z -> A -> M K A) acc s,
  (forall i acc s', keeps s s' -> ev (body i acc) s' any) -> ev (loop n i body acc) s any.
Proof.
  induction n as [|n IH]; intros i body acc s H; [apply ev_ret; exact I|]. cbn [loop].
  eapply ev_bind; [apply H, keeps_refl|]. intros a s' HK _. apply IH. intros j b s2 HK2. apply H. eapply keeps_trans; eauto.
Qed.
Lemma ev_for_acc {A} n (body : Z -> A -> M K A) acc s :
  (forall i acc s', keeps s s' -> ev (body i acc) s' any) -> ev (for_acc n body acc) s any.
Proof. apply ev_loop. Qed.
Lemma ev_for n (body : Z -> M K unit) s :
  (forall i s', keeps s s' -> ev (body i) s' any) -> ev (for_ n body) s any.
Proof. intros H. apply ev_loop. intros i acc s'. apply H. Qed.
Lemma ev_each r c (body : Z -> Z -> M K unit) s :
  (forall i j s', keeps s s' -> ev (body i j) s' any) -> ev (each_cell r c body) s any.
Proof. intros H. apply ev_for. intros i s1 K1. apply ev_for. intros j s2 K2. apply H. eapply keeps_trans; eauto. Qed.
Lemma ev_getc x i j s : ev (getc x i j) s any.
Proof.
  apply ev_same; [|intros; exact I]. unfold getc, bind, idx_out, idx_row. destruct (_ && _); [|reflexivity].
  destruct (out_at s (sl_loc (mdata x))) as [arr|]; [|reflexivity]. destruct (nth_error arr _) as [r|]; [|reflexivity].
  destruct (row_at s r) as [l|]; [|reflexivity]. destruct (_ && _); [|reflexivity]. destruct (nth_error l _); reflexivity.
Qed.
Lemma nrows_pos r row s : row_at s r = Some row -> r = O \/ (r <= nrows s)%nat.
Proof. destruct r; [auto|]. intros H. right. unfold row_at in H. assert (nth_error (h_rows s) r <> None) by congruence. apply nth_error_Some in H0. unfold nrows. lia. Qed.
Lemma ev_setc x i j v s : mnew s x -> ev (setc x i j v) s any.
Proof.
  intros (arr & Ha & Hf) Hok. unfold setc, bind, idx_out. rewrite Ha. destruct (_ && _).
  2:{ split; [exact Hok|]. split; [apply keeps_refl|intros; exact I]. }
  destruct (nth_error arr _) as [r|] eqn:Er.
  2:{ split; [exact Hok|]. split; [apply keeps_refl|intros; exact I]. }
  apply nth_error_In in Er. rewrite Forall_forall in Hf. specialize (Hf r Er).
  unfold set_row. destruct r as [|k]; [split; [exact Hok|]; split; [apply keeps_refl|intros; exact I]|].
  destruct Hf as [Hf|Hf]; [discriminate|].
  destruct (nth_error (h_rows s) k) as [l|] eqn:El; [|split; [exact Hok|]; split; [apply keeps_refl|intros; exact I]].
  destruct (_ && _); [|split; [exact Hok|]; split; [apply keeps_refl|intros; exact I]].
  simpl. split; [|split; [intros n a Hn; exact Hn|intros; exact I]].
  destruct Hok as (F & R & L & G). split; [|split; [exact R|split; [exact L|exact G]]].
  eapply frame_trans with (W1 := nothing) (W2 := fun r => r = S k).
  - exact F.
  - split; [intros n a Hn; exact Hn|]. split; [|split].
    + intros r row Hr Hne. destruct r as [|r]; [exact Hr|]. simpl in *. rewrite (nth_upd _ _ _ _ _ Hr).
      destruct (Nat.eqb_spec k r); [subst; congruence|reflexivity].
    + intros r row Hr. destruct r as [|r]; [eauto|]. simpl in *. rewrite (nth_upd _ _ _ _ _ Hr). eexists. split; [reflexivity|].
      destruct (Nat.eqb_spec k r); [|reflexivity]. subst. rewrite upd_length_. congruence.
    + unfold nrows. simpl. rewrite upd_length_. lia.
  - intros r Hr [[]|Hr2]. subst r. lia.
Qed.
Lemma mnew0 s : mnew s matrix0.
Proof. exists []. split; [reflexivity|constructor]. Qed.
Lemma ok_ext s s' : ok s -> ext s s' -> ok s'.
Proof.
  intros (F & R & L & G) (F' & (A1 & A2 & A3 & A4 & A5)). split; [eapply frame_trans; [exact F|exact F'|]; intros z _ [[]|[]]|].
  split; [destruct R as (R1 & R2 & R3); repeat split; congruence|].
  split; [destruct L as (L1 & L2); split; [congruence|]; rewrite A1; exact L2|congruence].
Qed.
Lemma ev_NewMatrix_ r c s : ev (NewMatrix_ r c) s (fun x s' => mnew s' x).
Proof.
  destruct (Z_lt_le_dec r 1) as [Hr|Hr]; [|destruct (Z_lt_le_dec c 1) as [Hc|Hc]].
  - apply ev_same; rewrite NewMatrix__err by auto; [reflexivity|]. intros a E. injection E as <-. apply mnew0.
  - apply ev_same; rewrite NewMatrix__err by auto; [reflexivity|]. intros a E. injection E as <-. apply mnew0.
  - intros Hok. assert (W : wp (NewMatrix_ (Z.of_nat (Z.to_nat r)) (Z.of_nat (Z.to_nat c))) s (fun m s' => ext s s')).
    { apply wp_NewMatrix_; [lia|lia|]. auto. }
    assert (E := NewMatrix__run s (Z.to_nat r) (Z.to_nat c) ltac:(lia) ltac:(lia)).
    unfold wp in W. rewrite !Z2Nat.id in W, E by lia. rewrite E in *.
    cbn [fst snd] in *. split; [eapply ok_ext; eauto|]. split; [intros n arr Hn; apply W; exact Hn|].
    intros a Ea. injection Ea as <-. exists (seq (S (nrows s)) (Z.to_nat r)). split.
    + unfold out_at, new_header, new_state. cbn [mdata sl_loc]. simpl h_outs. unfold nouts. rewrite nth_error_app2 by lia. rewrite Nat.sub_diag. reflexivity.
    + rewrite Forall_forall. intros x Hx. apply in_seq in Hx. right. destruct Hok as ((_ & _ & _ & Hn) & _). lia.
Qed.
End Ev.

(** Reads, and writes to new matrices. *)
Ltac lift := cbv beta in *; repeat match goal with
  | H : mnew ?s0 ?s ?x, HK : keeps ?s ?s' |- _ =>
      lazymatch goal with H' : mnew s0 s' x |- _ => fail | _ => pose proof (mnew_keep s0 s s' x H HK) end
  | H1 : keeps ?s1 ?s2, H2 : keeps ?s2 ?s3 |- _ =>
      lazymatch goal with H' : keeps s1 s3 |- _ => fail | _ => pose proof (keeps_trans s1 s2 s3 H1 H2) end
  end.
Ltac evs :=
  match goal with
  | |- ev _ _ (bind (getc _ _ _) _) _ _ => eapply ev_bind; [apply ev_getc|intros ? ? ? _; lift]
  | |- ev _ _ (bind (setc _ _ _ _) _) _ _ => eapply ev_bind; [apply ev_setc; eassumption|intros ? ? ? _; lift]
  | |- ev _ _ (bind (NewMatrix_ _ _) _) _ _ => eapply ev_bind; [apply ev_NewMatrix_|intros ? ? ? ?; lift]
  | |- ev _ _ (bind (for_ _ _) _) _ _ => eapply ev_bind; [apply ev_for; intros ? ? ?; lift|intros ? ? ? _; lift]
  | |- ev _ _ (bind (for_acc _ _ _) _) _ _ => eapply ev_bind; [apply ev_for_acc; intros ? ? ? ?; lift|intros ? ? ? _; lift]
  | |- ev _ _ (bind (each_cell _ _ _) _) _ _ => eapply ev_bind; [apply ev_each; intros ? ? ? ?; lift|intros ? ? ? _; lift]
  | |- ev _ _ (for_ _ _) _ any => apply ev_for; intros ? ? ?; lift
  | |- ev _ _ (for_acc _ _ _) _ any => apply ev_for_acc; intros ? ? ? ?; lift
  | |- ev _ _ (each_cell _ _ _) _ any => apply ev_each; intros ? ? ? ?; lift
  | |- ev _ _ (getc _ _ _) _ any => apply ev_getc
  | |- ev _ _ (setc _ _ _ _) _ any => apply ev_setc; eassumption
  | |- ev _ _ (ret _) _ _ => apply ev_ret; first [exact I|eassumption]
  | |- ev _ _ (fail _) _ _ => apply ev_fail
  | |- ev _ _ (panic _) _ _ => apply ev_panic
  | |- ev _ _ (if ?b then _ else _) _ _ => destruct b
  | |- ev _ _ (let _ := _ in _) _ _ => cbv zeta
  end.

Section Ops.
Context (s0 : state K) (refs : list nat).
Notation new := (fun x s' => mnew s0 s' x).
Notation ev := (ev s0 refs).
Lemma ev_tabulate r c cell s : (forall i j s', keeps s s' -> ev (cell i j) s' any) -> ev (tabulate r c cell) s new.
Proof.
  intros H. unfold tabulate. evs. eapply ev_bind; [apply ev_for; intros i s2 HK2; apply ev_for; intros j s3 HK3; lift|intros ? ? ? _; lift; evs].
  eapply ev_bind; [apply H; assumption|]. intros v s4 HK4 _. lift. evs.
Qed.
Lemma ev_Sub a b s : ev (Sub a b) s new.
Proof. unfold Sub. evs; [evs|]. apply ev_tabulate. intros. repeat evs. Qed.
Lemma ev_Dot a b s : ev (Dot a b) s new.
Proof. unfold Dot. evs; [evs|]. apply ev_tabulate. intros. repeat evs. Qed.
Lemma ev_affine l x s : ev (affine l x) s new.
Proof. unfold affine. evs; [evs|]. eapply ev_bind; [apply ev_Dot|]. intros out s1 HK Hn. lift. repeat evs. Qed.
Lemma ev_Sum x a s : ev (Sum x a) s new.
Proof. unfold Sum. repeat evs. Qed.
Lemma ev_RELU x s : mnew s0 s x -> ev (RELU x) s new.
Proof. intros H. unfold RELU. repeat evs. Qed.
Lemma ev_Sigmoid x s : mnew s0 s x -> ev (Sigmoid x) s new.
Proof. intros H. unfold Sigmoid. repeat evs. Qed.
Lemma ev_LeakyRELU x a s : mnew s0 s x -> ev (LeakyRELU x a) s new.
Proof. intros H. unfold LeakyRELU. repeat evs. Qed.
Lemma ev_Softmax x s : mnew s0 s x -> ev (Softmax x) s new.
Proof. intros H. unfold Softmax. repeat evs. Qed.
Lemma ev_Clip x s : mnew s0 s x -> ev (Clip x) s new.
Proof. intros H. unfold Clip. repeat evs. Qed.
Lemma ev_RowMax x s : ev (RowMax x) s new.
Proof. unfold RowMax. repeat evs. Qed.
Lemma ev_Binary x s : mnew s0 s x -> ev (OutputBinaryValues x) s new.
Proof. intros H. unfold OutputBinaryValues. repeat evs. Qed.
Lemma ev_check_cols n a b s : ev (check_cols n a b) s any.
Proof. unfold check_cols. repeat evs. Qed.
Lemma ev_Loss_Forward l a b s : mnew s0 s a -> ev (Loss_Forward l a b) s any.
Proof.
  intros H. unfold Loss_Forward, MSE_Forward, MAE_Forward, CE_Forward, BCE_Forward.
  destruct (ls_kind l); (eapply ev_bind; [apply ev_check_cols|intros ? s1 HK1 _; lift]).
  - eapply ev_bind; [apply ev_Sub|intros sub s2 HK2 Hs; lift]. evs; [repeat evs|].
    eapply ev_bind; [apply ev_Sum|intros ? ? ? ?; lift]. repeat evs.
  - eapply ev_bind; [apply ev_Sub|intros sub s2 HK2 Hs; lift]. evs; [repeat evs|].
    eapply ev_bind; [apply ev_Sum|intros ? ? ? ?; lift]. repeat evs.
  - eapply ev_bind; [apply ev_Clip; eassumption|intros ? ? ? ?; lift]. repeat evs.
  - eapply ev_bind; [apply ev_Clip; eassumption|intros ? ? ? ?; lift]. repeat evs.
Qed.
Lemma ev_Regression a b p s : ev (RegressionAccuracy a b p) s any.
Proof. unfold RegressionAccuracy. repeat evs. Qed.
Lemma ev_Categorical a b s : ev (CategoricalAccuracy a b) s any.
Proof. unfold CategoricalAccuracy. eapply ev_bind; [apply ev_RowMax|intros ? ? ? ?; lift]. repeat evs. Qed.
Lemma ev_BinaryAcc a b s : mnew s0 s a -> ev (BinaryCategoricalAccuracy a b) s any.
Proof. intros H. unfold BinaryCategoricalAccuracy. eapply ev_bind; [apply ev_Binary; eassumption|intros ? ? ? ?; lift]. repeat evs. Qed.

(** Layers *)
Definition was s lref (l : layer K) : Prop := exists l1, nth_error (h_layers s0) lref = Some l1 /\ same_layer l1 l.
Lemma ev_get_layer lref s : ev (get_layer lref) s (fun l s' => exists l1, nth_error (h_layers s0) lref = Some l1 /\ same_layer l1 l).
Proof.
  intros Hok. unfold get_layer. destruct (nth_error (h_layers s) lref) as [l|] eqn:E; cbn [fst snd].
  - split; [exact Hok|]. split; [apply keeps_refl|]. intros a Ea. injection Ea as <-.
    destruct Hok as (_ & _ & (L1 & L2) & _). destruct (nth_error (h_layers s0) lref) as [l1|] eqn:E0.
    + destruct (L2 _ _ E0) as (l' & E' & S & _). exists l1. split; [reflexivity|]. congruence.
    + apply nth_error_None in E0. assert (nth_error (h_layers s) lref <> None) by congruence. apply nth_error_Some in H. lia.
  - split; [exact Hok|]. split; [apply keeps_refl|]. discriminate.
Qed.
Lemma ev_put_layer lref l s : In lref refs -> (exists l1, nth_error (h_layers s0) lref = Some l1 /\ same_layer l1 l) -> ev (put_layer lref l) s any.
Proof.
  intros HI (l1 & E1 & HS) (F & R & (L1 & L2) & G). cbn [put_layer fst snd].
  split; [|split; [intros n arr Hn; exact Hn|intros; exact I]].
  split; [exact F|]. split; [exact R|]. split; [|exact G]. split; [simpl; rewrite upd_length_; exact L1|].
  intros n l0 Hn. destruct (L2 n l0 Hn) as (l' & E' & S' & Hn'). simpl. rewrite (nth_upd _ _ _ _ _ E').
  destruct (Nat.eqb_spec lref n) as [->|Hne].
  - exists l. split; [reflexivity|]. split; [congruence|]. intros H. contradiction.
  - exists l'. auto.
Qed.
Lemma same_cache (l1 l : layer K) c : same_layer l1 l -> same_layer l1 (set_cache l c).
Proof. intros H. exact H. Qed.
Lemma ev_cache lref l out s : In lref refs -> (exists l1, nth_error (h_layers s0) lref = Some l1 /\ same_layer l1 l) ->
  ev (put_layer lref (set_cache l out)) s any.
Proof. intros HI (l1 & E & S). apply ev_put_layer; [exact HI|]. exists l1. split; [exact E|exact S]. Qed.
Lemma ev_forward_layer lref x s : In lref refs -> ev (forward_layer false lref x) s new.
Proof.
  intros HI. unfold forward_layer. eapply ev_bind; [apply ev_get_layer|]. intros l s1 HK1 (l1 & E1 & S1).
  assert (H : l_kind l <> Dropout -> ev (Layer_Forward lref x) s1 new).
  { intros Hk. unfold Layer_Forward. eapply ev_bind; [apply ev_get_layer|]. intros l2 s2 HK2 (l2' & E2 & S2).
    assert (Hkk : l_kind l2 = l_kind l).
    { rewrite E1 in E2. injection E2 as <-. destruct S1 as (-> & _), S2 as (-> & _). reflexivity. }
    rewrite Hkk. destruct (l_kind l); try contradiction;
      unfold Hidden_Forward, Linear_Forward, Sigmoid_Forward, Leaky_Forward, Softmax_Forward;
      (eapply ev_bind; [apply ev_get_layer|intros l3 s3 HK3 Hl3]); try apply ev_affine;
      (eapply ev_bind; [apply ev_affine|intros out s4 HK4 Ho]).
    - eapply ev_bind; [apply ev_cache; assumption|intros ? s5 HK5 _; lift]. apply ev_RELU. assumption.
    - apply ev_Sigmoid. assumption.
    - eapply ev_bind; [apply ev_cache; assumption|intros ? s5 HK5 _; lift]. apply ev_LeakyRELU. assumption.
    - eapply ev_bind; [apply ev_Softmax; assumption|intros out2 s5 HK5 Ho2; lift].
      eapply ev_bind; [apply ev_cache; assumption|intros ? s6 HK6 _; lift]. evs. }
  destruct (l_kind l) eqn:Ek; try (apply H; discriminate).
  unfold Dropout_ForwardNoDropout. eapply ev_bind; [apply ev_get_layer|]. intros l2 s2 HK2 Hl.
  eapply ev_bind; [apply ev_affine|]. intros out s3 HK3 Ho. eapply ev_bind; [apply ev_cache; eassumption|]. intros ? s4 HK4 _. lift.
  apply ev_RELU. assumption.
Qed.
Lemma ev_go_nth {A} (l : list A) i s : ev (go_nth l i) s (fun a _ => nth_error l (Z.to_nat i) = Some a).
Proof.
  unfold go_nth. destruct (_ && _); [|apply ev_panic]. destruct (nth_error l (Z.to_nat i)); [apply ev_ret; reflexivity|apply ev_panic].
Qed.
Lemma ev_loop_inv {A} (I : nat -> A -> state K -> Prop) n : forall k (body : Z -> A -> M K A) acc s,
  (forall j acc s', (k <= j < k + n)%nat -> I j acc s' -> ev (body (Z.of_nat j) acc) s' (fun a s'' => I (S j) a s'')) ->
  I k acc s -> ev (loop n (Z.of_nat k) body acc) s (fun a s' => I (k + n)%nat a s').
Proof.
  induction n as [|n IH]; intros k body acc s H HI; [apply ev_ret; rewrite Nat.add_0_r; exact HI|]. cbn [loop].
  eapply ev_bind; [apply H; [lia|exact HI]|]. intros a s' HK HI'. cbv beta in HI'.
  replace (Z.of_nat k + 1) with (Z.of_nat (S k)) by lia. replace (k + S n)%nat with (S k + n)%nat by lia.
  apply IH; [|exact HI']. intros j b s2 Hj. apply H. lia.
Qed.
(** The outputs of an inference pass: all but the first are new. *)
Lemma ev_Forward m X s : (forall r, In r (m_layers m) -> In r refs) -> 0 <= m_size m ->
  ev (Forward m X false) s (fun outs s' => forall k x, (1 <= k)%nat -> nth_error outs k = Some x -> mnew s0 s' x).
Proof.
  intros HR Hsz. unfold Forward.
  set (I := fun (k : nat) (acc : list matrix * matrix) (s : state K) => length (fst acc) = S k /\ forall k x, (1 <= k)%nat -> nth_error (fst acc) k = Some x -> mnew s0 s x).
  eapply ev_bind with (R := fun acc s' => I (Z.to_nat (m_size m)) acc s').
  - unfold for_acc. apply (ev_loop_inv I (Z.to_nat (m_size m)) 0).
    + intros j acc s1 Hj (Hl & Hn). eapply ev_bind; [apply ev_go_nth|]. intros lref s2 HK2 Hr. cbv beta in Hr.
      eapply ev_bind; [apply ev_forward_layer, HR; eapply nth_error_In; exact Hr|]. intros out s3 HK3 Ho. cbv beta in Ho.
      apply ev_ret. split; [cbn [fst]; rewrite app_length, Hl; simpl; lia|]. cbn [fst]. intros k x Hk E.
      destruct (Nat.lt_ge_cases k (S j)) as [Hlt|Hge].
      * rewrite nth_error_app1 in E by lia. eapply mnew_keep; [eapply Hn; eauto|eapply keeps_trans; eauto].
      * rewrite nth_error_app2 in E by lia. destruct (k - length (fst acc))%nat as [|[|?]]; [injection E as <-; exact Ho|discriminate|discriminate].
    + split; [reflexivity|]. intros [|[|k]] x Hk E; [lia|discriminate|discriminate].
  - intros acc s1 HK (Hl & Hn). apply ev_ret. exact Hn.
Qed.
Section Model.
Context (m : model K) (HR : forall r, In r (m_layers m) -> In r refs) (Hsz : 1 <= m_size m).
Lemma ev_out outs s : (forall k x, (1 <= k)%nat -> nth_error outs k = Some x -> mnew s0 s x) -> ev (go_nth outs (m_size m)) s new.
Proof.
  intros H. eapply ev_weak; [apply ev_go_nth|]. intros x s' HK E. cbv beta in E. eapply mnew_keep; [|exact HK].
  eapply H; [|exact E]. lia.
Qed.
Lemma ev_Loss X Y s : ev (CalculateLoss m X Y) s any.
Proof.
  unfold CalculateLoss. eapply ev_bind; [apply ev_Forward; [exact HR|lia]|]. intros outs s1 HK1 Ho. cbv beta in Ho.
  eapply ev_bind; [apply ev_out; exact Ho|]. intros out s2 HK2 Hn. destruct (m_loss m); [apply ev_Loss_Forward; exact Hn|apply ev_panic].
Qed.
Lemma ev_Acc X Y s : ev (CalculateAccuracy m X Y) s any.
Proof.
  unfold CalculateAccuracy. eapply ev_bind; [apply ev_Forward; [exact HR|lia]|]. intros outs s1 HK1 Ho. cbv beta in Ho.
  repeat (evs; [eapply ev_bind; [apply ev_out; exact Ho|]; intros out s2 HK2 Hn|]); [apply ev_Regression|apply ev_Categorical|apply ev_BinaryAcc; exact Hn|evs].
Qed.
Lemma ev_Predict X s : ev (Predict m X) s new.
Proof.
  unfold Predict. eapply ev_bind; [apply ev_Forward; [exact HR|lia]|]. intros outs s1 HK1 Ho. cbv beta in Ho.
  evs; [apply ev_out; exact Ho|].
  repeat (evs; [eapply ev_bind; [apply ev_out; exact Ho|]; intros out s2 HK2 Hn|]); [apply ev_RowMax|apply ev_Binary; exact Hn|evs].
Qed.
End Model.
End Ops.


(** ** Arbitrary queries *)
Lemma ask_pure s (m : model K) qu : 1 <= m_size m -> forward_effect (m_layers m) 0 s (snd (ask m qu s)).
Proof.
  intros Hs. assert (H0 : ok s (m_layers m) s).
  { split; [apply frame_refl|]. split; [repeat split|]. split; [apply layers_kept_refl|]. destruct (h_rng s); unfold adv_uni; simpl; rewrite Nat.add_0_r; reflexivity. }
  assert (HE : ev s (m_layers m) (ask m qu) s any); [|exact (proj1 (HE H0))].
  destruct qu; cbn [ask]; (eapply ev_bind; [|intros ? ? ? _; apply ev_ret; exact I]).
  - eapply ev_any. apply ev_Predict; auto.
  - apply ev_Loss; auto.
  - apply ev_Acc; auto.
Qed.
Lemma ask_all_pure s (m : model K) qs : 1 <= m_size m -> forward_effect (m_layers m) 0 s (snd (ask_all m qs s)).
Proof.
  intros Hs. assert (H0 : ok s (m_layers m) s).
  { split; [apply frame_refl|]. split; [repeat split|]. split; [apply layers_kept_refl|]. destruct (h_rng s); unfold adv_uni; simpl; rewrite Nat.add_0_r; reflexivity. }
  assert (HE : forall s', ev s (m_layers m) (ask_all m qs) s' any); [|exact (proj1 (HE s H0))].
  clear H0. induction qs as [|qu qs IH]; intros s'; [apply ev_ret; exact I|]. cbn [ask_all].
  eapply ev_bind with (R := any).
  - destruct qu; cbn [ask]; (eapply ev_bind; [|intros ? ? ? _; apply ev_ret; exact I]).
    + eapply ev_any. apply ev_Predict; auto.
    + apply ev_Loss; auto.
    + apply ev_Acc; auto.
  - intros a s1 HK _. eapply ev_bind; [apply IH|]. intros ? ? ? _. apply ev_ret. exact I.
Qed.

(** ** Fit, whatever is logged *)
Lemma train_result_effect s s' m es xs i o k : trainable s m es xs i o k -> forward_effect (map e_ref es) 0 s s' ->
  train_result s s' m es xs i o k (trainer es xs) 0 [].
Proof.
  intros HT E. exists es, xs. split; [destruct E as (F & (R & _) & L & _); eapply trainable_kept; eauto|].
  split; [apply same_place_refl|]. split; [apply same_slots_refl|]. split; [reflexivity|]. apply forward_train_effect. exact E.
Qed.
Lemma train_result_log s m es xs i o k l oc s' : trainable s m es xs i o k -> log_print l s = (oc, s') ->
  exists ls, train_result s s' m es xs i o k (trainer es xs) 0 ls.
Proof.
  intros HT. unfold log_print. destruct (h_logger s) eqn:HL; intros E; injection E as <- <-.
  - exists [l]. exists es, xs. split; [eapply trainable_kept; [exact HT|exact (frame_refl nothing s)|intros z _ []|exact (layers_kept_refl _ s)|reflexivity]|].
    split; [apply same_place_refl|]. split; [apply same_slots_refl|]. split; [reflexivity|]. apply train_effect_log. exact HL.
  - exists []. apply train_result_refl. exact HT.
Qed.
Lemma results_seq s s1 s2 m es xs i o k : (exists ls, train_result s s1 m es xs i o k (trainer es xs) 0 ls) ->
  (forall es1 xs1, trainable s1 m es1 xs1 i o k -> exists ls, train_result s1 s2 m es1 xs1 i o k (trainer es1 xs1) 0 ls) ->
  exists ls, train_result s s2 m es xs i o k (trainer es xs) 0 ls.
Proof.
  intros (ls1 & es1 & xs1 & HT1 & P1 & Q1 & T1 & E1) H2. destruct (H2 es1 xs1 HT1) as (ls2 & R2).
  exists (ls1 ++ ls2). rewrite T1 in R2. exact (train_result_trans _ _ _ _ _ _ _ _ _ _ _ _ 0 0 _ _ P1 Q1 E1 R2).
Qed.
Lemma or_log_any {A} what (p : M K A) s oc s' m es xs i o k : trainable s m es xs i o k ->
  forward_effect (map e_ref es) 0 s (snd (p s)) -> or_log what p s = (oc, s') ->
  exists ls, train_result s s' m es xs i o k (trainer es xs) 0 ls.
Proof.
  intros HT HE. assert (HR := train_result_effect _ _ _ _ _ _ _ _ HT HE). unfold or_log, bind, catch.
  destruct (p s) as [[a|e|q] s1]; cbn [snd] in HR.
  - intros E. injection E as <- <-. eauto.
  - intros E. eapply results_seq; [eexists; exact HR|]. intros es1 xs1 HT1.
    destruct (log_print (LError what e) s1) as [oc2 s2] eqn:EL.
    assert (s' = s2) by (destruct oc2; injection E as <- <-; reflexivity). subst s2. eapply train_result_log; eauto.
  - intros E. injection E as <- <-. eauto.
Qed.
Lemma results_bind {A B} (p : M K A) (f : A -> M K B) s oc s' m es xs i o k : trainable s m es xs i o k ->
  (forall oc1 s1, p s = (oc1, s1) -> exists ls, train_result s s1 m es xs i o k (trainer es xs) 0 ls) ->
  (forall a s1 es1 xs1 oc2 s2, trainable s1 m es1 xs1 i o k -> f a s1 = (oc2, s2) -> exists ls, train_result s1 s2 m es1 xs1 i o k (trainer es1 xs1) 0 ls) ->
  bind p f s = (oc, s') -> exists ls, train_result s s' m es xs i o k (trainer es xs) 0 ls.
Proof.
  intros HT H1 H2. unfold bind. destruct (p s) as [[a|e|q] s1] eqn:E1; specialize (H1 _ _ eq_refl); intros E.
  - eapply results_seq; [exact H1|]. intros es1 xs1 HT1. eapply H2; eauto.
  - injection E as <- <-. exact H1.
  - injection E as <- <-. exact H1.
Qed.
Lemma fit_log_any m i o k x y what line s es xs oc s' : trainable s m es xs i o k -> fit_log m x y what line s = (oc, s') ->
  exists ls, train_result s s' m es xs i o k (trainer es xs) 0 ls.
Proof.
  intros HT. assert (HS : forall s es xs, trainable s m es xs i o k -> 1 <= m_size m /\ m_layers m = map e_ref es).
  { clear. intros s es xs (HC & _ & Hlen & _). destruct HC as (Hs & Hl & _). split; [lia|exact Hs]. }
  unfold fit_log. apply results_bind; [exact HT| |].
  - intros oc1 s1. apply or_log_any; [exact HT|]. destruct (HS _ _ _ HT) as [H1 H2]. rewrite <- H2.
    assert (HE := ask_pure s m (QLoss x y) H1). cbn [ask] in HE. unfold bind in HE. destruct (CalculateLoss m x y s) as [[?|?|?] ?]; exact HE.
  - intros v s1 es1 xs1 oc2 s2 HT1. apply results_bind; [exact HT1| |].
    + intros oc3 s3. apply or_log_any; [exact HT1|]. destruct (HS _ _ _ HT1) as [H1 H2]. rewrite <- H2.
      assert (HE := ask_pure s1 m (QAccuracy x y) H1). cbn [ask] in HE. unfold bind in HE. destruct (CalculateAccuracy m x y s1) as [[?|?|?] ?]; exact HE.
    + intros a s3 es3 xs3 oc4 s4 HT3. apply train_result_log. exact HT3.
Qed.
Lemma maybe_log_any (c : bool) m i o k x y what line s es xs oc s' : trainable s m es xs i o k ->
  (if c then fit_log m x y what line else ret tt) s = (oc, s') -> exists ls, train_result s s' m es xs i o k (trainer es xs) 0 ls.
Proof.
  intros HT. destruct c; [apply fit_log_any; exact HT|]. intros E. injection E as <- <-. exists []. apply train_result_refl, HT.
Qed.
Lemma epoch_any s m es xs i o k x rsx y rsy n X Y b xv yv every e oc s' :
  min_faithful K -> Z.of_nat (n + b) <= 2 ^ 53 -> (1 <= b)%nat -> (1 <= n)%nat ->
  trainable s m es xs i o k -> data_ok s es x rsx y rsy n i o X Y ->
  epoch_body m x y (Z.of_nat (nsteps n b)) (Z.of_nat b) xv yv every e s = (oc, s') ->
  let tq := ptrain_on k o (trainer es xs) (r_uni (h_rng s)) (r_upos (h_rng s)) (combine (chunks b X) (chunks b Y)) in
  exists nn ls, snd tq = (r_upos (h_rng s) + nn)%nat /\ train_result s s' m es xs i o k (fst tq) nn ls.
Proof.
  intros HM H53 Hb Hn HT HD. cbv zeta.
  assert (LX : length X = n) by (apply (own_shape _ _ _ _ _ _ (proj1 HD))).
  assert (LY : length Y = n) by (apply (own_shape _ _ _ _ _ _ (proj1 (proj2 HD)))).
  rewrite !chunks_seq by exact Hb. rewrite LX, LY, combine_map.
  set (bs := map _ _). set (tq := ptrain_on _ _ _ _ _ _).
  assert (W := wp_batches m i o k x rsx y rsy n X Y b HM H53 Hb (nsteps n b) 0 s es xs HT HD).
  unfold epoch_body, bind at 1, for_, for_acc. rewrite Nat2Z.id. 
  assert (HS : (nsteps n b = 0 \/ (0 + nsteps n b - 1) * b < n)%nat) by (destruct (nsteps_spec n b Hb); simpl; lia).
  specialize (W HS). unfold wp in W. fold bs in W. fold tq in W. change (Z.of_nat 0) with 0 in W.
  destruct (loop _ _ _ _ _) as [[[]|e1|p] s1]; try contradiction.
  destruct W as (nn & Hq & es1 & xs1 & HT1 & P1 & Q1 & T1 & E1). intros E.
  assert (HR : exists ls, train_result s1 s' m es1 xs1 i o k (trainer es1 xs1) 0 ls).
  { revert E. apply results_bind; [exact HT1| |].
    - intros oc1 s2. apply maybe_log_any. exact HT1.
    - intros a s2 es2 xs2 oc2 s3 HT2. apply maybe_log_any. exact HT2. }
  destruct HR as (ls & HR). exists (nn + 0)%nat, ([] ++ ls). split; [lia|]. rewrite T1 in HR.
  eapply train_result_trans; eauto.
Qed.
Lemma epochs_any m i o k x rsx y rsy n X Y b xv yv every :
  min_faithful K -> Z.of_nat (n + b) <= 2 ^ 53 -> (1 <= b)%nat -> (1 <= n)%nat ->
  forall c e s es xs oc s', trainable s m es xs i o k -> data_ok s es x rsx y rsy n i o X Y ->
  loop c e (fun ep (_ : unit) => epoch_body m x y (Z.of_nat (nsteps n b)) (Z.of_nat b) xv yv every ep) tt s = (oc, s') ->
  exists c', (c' <= c)%nat /\ (oc = Ret tt -> c' = c) /\
    let tq := ptrain_on k o (trainer es xs) (r_uni (h_rng s)) (r_upos (h_rng s)) (epochs_of c' b X Y) in
    exists nn ls, snd tq = (r_upos (h_rng s) + nn)%nat /\ train_result s s' m es xs i o k (fst tq) nn ls.
Proof.
  intros HM H53 Hb Hn. induction c as [|c IH]; intros e s es xs oc s' HT HD.
  - intros E. injection E as <- <-. exists 0%nat. split; [lia|]. split; [reflexivity|]. exists 0%nat, []. split; [simpl; lia|]. apply train_result_refl; exact HT.
  - cbn [loop]. unfold bind. destruct (epoch_body _ _ _ _ _ _ _ _ _ s) as [oc1 s1] eqn:E1.
    assert (H1 := epoch_any s m es xs i o k x rsx y rsy n X Y b xv yv every e oc1 s1 HM H53 Hb Hn HT HD E1). cbv zeta in H1.
    destruct H1 as (nn & ls & Hq & HR). destruct oc1 as [[]|e1|p].
    + intros E. destruct HR as (es1 & xs1 & HT1 & P1 & Q1 & T1 & F1).
      destruct (train_effect_rng _ _ _ _ _ _ F1) as [R1 R2].
      destruct (IH (e + 1) s1 es1 xs1 oc s' HT1) as (c' & Hc & Ho & nn2 & ls2 & Hq2 & HR2); [eapply data_ok_effect; eauto|exact E|].
      exists (S c'). split; [lia|]. split; [intros H; rewrite (Ho H); reflexivity|].
      cbv zeta. unfold epochs_of in *. cbn [repeat concat]. rewrite (ptrain_on_app k o (r_uni (h_rng s)) (combine (chunks b X) (chunks b Y))) by idtac. rewrite R1, R2, T1, <- Hq in Hq2, HR2.
      exists (nn + nn2)%nat, (ls ++ ls2). split; [rewrite Hq2, Hq; lia|]. eapply train_result_trans; eauto.
    + intros E. injection E as <- <-. exists 1%nat. split; [lia|]. split; [discriminate|]. unfold epochs_of. simpl repeat. simpl concat. rewrite app_nil_r. eauto.
    + intros E. injection E as <- <-. exists 1%nat. split; [lia|]. split; [discriminate|]. unfold epochs_of. simpl repeat. simpl concat. rewrite app_nil_r. eauto.
Qed.
(** Whatever is passed for logging and however Fit ends, the model is as after some number of
    whole epochs; after all of them if it returns nil. *)
Lemma fit_anyhow s m es xs i o k x rsx y rsy n X Y epochs bs xv yv every oc s' :
  min_faithful K -> 0 <= bs -> Z.of_nat n + bs <= 2 ^ 52 -> (1 <= n)%nat ->
  trainable s m es xs i o k -> data_ok s es x rsx y rsy n i o X Y ->
  Fit m x y epochs bs xv yv every s = (oc, s') ->
  exists e, (e <= Z.to_nat epochs)%nat /\ (oc = Ret tt -> e = Z.to_nat epochs) /\
    let tq := ptrain_on k o (trainer es xs) (r_uni (h_rng s)) (r_upos (h_rng s)) (epochs_of e (batch_rows n bs) X Y) in
    exists nn ls, snd tq = (r_upos (h_rng s) + nn)%nat /\ train_result s s' m es xs i o k (fst tq) nn ls.
Proof.
  intros HM Hbs H53 Hn HT HD. unfold Fit. cbv zeta. rewrite (own_rows _ _ _ _ _ _ (proj1 (proj2 HD))).
  unfold batch_rows. destruct (Z.eqb_spec bs 0) as [->|Hnz]; simpl negb; cbv iota.
  - replace 1 with (Z.of_nat (nsteps n n)).
    + eapply (epochs_any m i o k x rsx y rsy n X Y n xv yv every); eauto; lia.
    + unfold nsteps. rewrite Nat.div_same by lia. rewrite Nat.mul_1_l, Nat.ltb_irrefl. reflexivity.
  - assert (E : bs = Z.of_nat (Z.to_nat bs)) by lia.
    set (b := Z.to_nat bs) in *. clearbody b. subst bs.
    assert (Hs := nsteps_Z n b ltac:(lia)). cbv zeta in Hs. rewrite Hs.
    eapply (epochs_any m i o k x rsx y rsy n X Y b xv yv every); eauto; lia.
Qed.
Lemma fit_logging_any s m es xs i o k x rsx y rsy n X Y epochs bs xv yv every s1 :
  min_faithful K -> 0 <= bs -> Z.of_nat n + bs <= 2 ^ 52 -> (1 <= n)%nat ->
  trainable s m es xs i o k -> data_ok s es x rsx y rsy n i o X Y ->
  Fit m x y epochs bs xv yv every s = (Ret tt, s1) ->
  exists s2, Fit m x y epochs bs matrix0 matrix0 0 s = (Ret tt, s2) /\ same_training s1 s2 m es xs i o k.
Proof.
  intros HM Hbs H53 Hn HT HD E. destruct (fit_anyhow _ _ _ _ _ _ _ _ _ _ _ _ _ _ _ _ _ _ _ _ _ HM Hbs H53 Hn HT HD E) as (e & _ & He & nn & ls & Hq & HR).
  rewrite (He eq_refl) in *.
  destruct (fit_trains s m es xs i o k x rsx y rsy n X Y epochs bs matrix0 matrix0 HM Hbs H53 Hn HT HD) as (a & s2 & E2 & nn2 & Hq2 & HR2 & _).
  destruct a. exists s2. split; [exact E2|]. eapply results_agree; [exact HR|exact HR2|lia].
Qed.


(** Asking again, after any other queries, gives the same answer. *)
Lemma ask_again s m es i o k qu :
  int_faithful K -> Z.of_nat o <= 2 ^ 53 -> consistent s m es i o -> (1 <= length es)%nat ->
  m_loss m = Some (MkLoss k (Z.of_nat o)) -> 0 <= m_acctype m <= 2 -> askable s i o qu ->
  exists a s1, ask m qu s = (Ret a, s1) /\
    forall qs, exists a' s3, ask m qu (snd (ask_all m qs s1)) = (Ret a', s3) /\ same_answer s3 a a'.
Proof.
  intros HI H53 HC Hlen HL Hac HQ.
  assert (W := wp_ask s m es i o k qu HI H53 HC Hlen HL Hac HQ). apply returns_wp in W. destruct W as (a & s1 & E1 & X1 & F1).
  exists a, s1. split; [exact E1|]. intros qs.
  assert (Hm : m_layers m = map e_ref es /\ 1 <= m_size m) by (destruct HC as (A & B & _); split; [exact A|lia]).
  assert (F2 := ask_all_pure s1 m qs (proj2 Hm)). rewrite (proj1 Hm) in F2. set (s2 := snd _) in *.
  assert (C2 : consistent s2 m es i o) by (eapply consistent_effect; [eapply consistent_effect; [exact HC|exact F1]|exact F2]).
  assert (F12 : frame nothing s s2).
  { eapply frame_trans; [apply F1|apply F2|]. intros z _ [[]|[]]. }
  assert (Q2 := askable_effect _ _ _ _ _ F12 HQ).
  assert (W := wp_ask s2 m es i o k qu HI H53 C2 Hlen HL Hac Q2). apply returns_wp in W. destruct W as (a' & s3 & E3 & X3 & F3).
  exists a', s3. split; [exact E3|].
  assert (F13 : frame nothing s1 s3).
  { eapply frame_trans; [apply F2|apply F3|]. intros z _ [[]|[]]. }
  destruct qu as [x|x y|x y]; destruct a as [P|v]; try contradiction; destruct a' as [P'|v']; try contradiction; cbn [same_answer expected] in *.
  - destruct HQ as (rs & r & X & HX & Hr).
    assert (HP : exists cA, ppredict (m_acctype m) r o (pnet (net es) r X) = Some cA).
    { unfold ppredict. destruct (Z.eqb_spec (m_acctype m) 0); [eauto|]. destruct (Z.eqb_spec (m_acctype m) 1); [eauto|].
      destruct (Z.eqb_spec (m_acctype m) 2); [eauto|lia]. }
    destruct HP as ([c A] & HP). destruct (X1 _ _ _ _ _ HX HP) as (r1 & O1).
    assert (HX2 : own s2 x rs r i X) by (eapply own_frame; [eauto|exact F12|]; intros ? ? []).
    destruct (X3 _ _ _ _ _ HX2 HP) as (r3 & O3). exists r1, r3, r, c, A. split; [|exact O3].
    eapply own_frame; [exact O1|exact F13|]. intros ? ? [].
  - destruct HQ as (rs & rs' & r & X & Y & HX & HY & Hr).
    assert (HX2 : own s2 x rs r i X) by (eapply own_frame; [exact HX|exact F12|]; intros ? ? []).
    assert (HY2 : own s2 y rs' r o Y) by (eapply own_frame; [exact HY|exact F12|]; intros ? ? []).
    rewrite (X1 _ _ _ _ _ HX HY), (X3 _ _ _ _ _ HX2 HY2). reflexivity.
  - destruct HQ as (rs & rs' & r & X & Y & HX & HY & Hr).
    assert (HX2 : own s2 x rs r i X) by (eapply own_frame; [exact HX|exact F12|]; intros ? ? []).
    assert (HY2 : own s2 y rs' r o Y) by (eapply own_frame; [exact HY|exact F12|]; intros ? ? []).
    assert (A1 := X1 _ _ _ _ _ HX HY). assert (A3 := X3 _ _ _ _ _ HX2 HY2). congruence.
Qed.
End WithNum.
