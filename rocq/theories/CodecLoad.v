(** * CodecLoad: what LoadLayer and LoadModel do on arbitrary bytes. *)
From Coq.Strings Require Import Byte.
From Coq Require Import String Ascii ZArith List Bool Arith Lia ZifyBool.
From Verif Require Import Num Heap Spec Matrix MatrixFacts MatrixProofs LoopLemmas LayerProofs Network Loss Optimizers ModelGo LayerData ModelData
  PureSpec Repr OptSpec ModelSpec ModelProofs ModelFacts CodecSpec HeapLemmas CodecBytes.
Import ListNotations.
Open Scope Z_scope.
Open Scope go_scope.

(** ** All three outcomes *)
Section WithNum.
Context {K : Num} (B : FBits K).
Implicit Types s : state K.

Definition wpx {A} (m : M K A) s (Q : A -> state K -> Prop) (E P : state K -> Prop) : Prop :=
  match m s with
  | (Ret a, s') => Q a s'
  | (Fail _, s') => E s'
  | (Panic _, s') => P s'
  end.
Lemma wpx_bind {A C} (m : M K A) (f : A -> M K C) s Q E P :
  wpx m s (fun a s' => wpx (f a) s' Q E P) E P -> wpx (bind m f) s Q E P.
Proof. unfold wpx, bind. destruct (m s) as [[a|e|p] s']; auto. Qed.
Lemma wpx_conseq {A} (m : M K A) s (Q Q' : A -> state K -> Prop) (E E' P P' : state K -> Prop) :
  wpx m s Q E P -> (forall a s', Q a s' -> Q' a s') -> (forall s', E s' -> E' s') -> (forall s', P s' -> P' s') -> wpx m s Q' E' P'.
Proof. unfold wpx. destruct (m s) as [[a|e|p] s']; auto. Qed.
Lemma wpx_ret {A} (a : A) s (Q : A -> state K -> Prop) E P : Q a s -> wpx (ret a) s Q E P. Proof. auto. Qed.
Lemma wpx_eq {A} (m : M K A) s a s' (Q : A -> state K -> Prop) E P : m s = (Ret a, s') -> Q a s' -> wpx m s Q E P.
Proof. unfold wpx. now intros ->. Qed.
Lemma wpx_err {A} (m : M K A) s e s' (Q : A -> state K -> Prop) (E P : state K -> Prop) : m s = (Fail e, s') -> E s' -> wpx m s Q E P.
Proof. unfold wpx. now intros ->. Qed.
Lemma wpx_wp {A} (m : M K A) s Q E P : wp m s Q -> wpx m s Q E P.
Proof. unfold wp, wpx. destruct (m s) as [[a|e|p] s']; tauto. Qed.
Lemma wpx_run {A C} (m : M K A) (f : A -> M K C) s a s' Q E P : m s = (Ret a, s') -> wpx (f a) s' Q E P -> wpx (bind m f) s Q E P.
Proof. intros H H2. apply wpx_bind. now apply wpx_eq with (a := a) (s' := s'). Qed.
Lemma wpx_stop {A C} (m : M K A) (f : A -> M K C) s e s' Q (E P : state K -> Prop) : m s = (Fail e, s') -> E s' -> wpx (bind m f) s Q E P.
Proof. intros H H2. apply wpx_bind. now apply wpx_err with (e := e) (s' := s'). Qed.
Lemma wpx_loop {A} (body : Z -> A -> M K A) (I : nat -> A -> state K -> Prop) (Q : A -> state K -> Prop) E P :
  forall n k acc s,
  I k acc s ->
  (forall i a s1, (k <= i < k + n)%nat -> I i a s1 -> wpx (body (Z.of_nat i) a) s1 (I (S i)) E P) ->
  (forall a s1, I (k + n)%nat a s1 -> Q a s1) ->
  wpx (loop n (Z.of_nat k) body acc) s Q E P.
Proof.
  induction n as [|n IH]; intros k acc s HI Hstep HQ; cbn [loop].
  - apply wpx_ret. apply HQ. now rewrite Nat.add_0_r.
  - apply wpx_bind. eapply wpx_conseq. { apply Hstep; [lia|exact HI]. } 2,3: auto.
    intros a s1 HI1. replace (Z.of_nat k + 1) with (Z.of_nat (S k)) by lia.
    apply IH; auto.
    + intros; apply Hstep; auto; lia.
    + intros a' s' H'. apply HQ. now replace (k + S n)%nat with (S k + n)%nat by lia.
Qed.
Lemma wpx_for_acc {A} (n : nat) (body : Z -> A -> M K A) acc s
      (I : nat -> A -> state K -> Prop) (Q : A -> state K -> Prop) E P :
  I 0%nat acc s ->
  (forall i a s1, (i < n)%nat -> I i a s1 -> wpx (body (Z.of_nat i) a) s1 (I (S i)) E P) ->
  (forall a s1, I n a s1 -> Q a s1) ->
  wpx (for_acc (Z.of_nat n) body acc) s Q E P.
Proof.
  intros H0 Hs HQ. unfold for_acc. rewrite Nat2Z.id.
  apply (wpx_loop body I Q E P n 0%nat); auto. intros; apply Hs; auto; lia.
Qed.

(** ** One matrix of float64 values *)
Definition read_row (m : matrix) (i o : Z) (buf : list byte) : M K (list byte) :=
  for_acc o (fun j buf => r <- get_f64 B buf ;; setc m i j (fst r) ;; ret (snd r)) buf.
Lemma read_row_spec s0 s m rs (r c i : nat) bf f Z0 : (i < r)%nat -> fresh_mat s0 s m rs r c (merge r c f Z0 i 0) -> ext s0 s ->
  (forall j, (j < c)%nat -> f i j = f64_at B (8 * j) bf) ->
  wpx (read_row m (Z.of_nat i) (Z.of_nat c) bf) s
    (fun bf' s' => (8 * c <= length bf)%nat /\ bf' = skipn (8 * c) bf /\
       fresh_mat s0 s' m rs r c (merge r c f Z0 i c) /\ ext s0 s')
    (fun s' => (length bf < 8 * c)%nat /\ ext s0 s') (fun _ => False).
Proof.
  intros Hi HM HE Hf. unfold read_row.
  apply wpx_for_acc with (I := fun j bf' s' => (8 * j <= length bf)%nat /\ bf' = skipn (8 * j) bf /\
    fresh_mat s0 s' m rs r c (merge r c f Z0 i j) /\ ext s0 s').
  - repeat (split; [first [lia|reflexivity|eassumption]|]). exact HE.
  - intros j bf' s1 Hj (HL & -> & HM1 & HE1).
    destruct (le_lt_dec 8 (length (skipn (8 * j) bf))) as [HL8|HL8].
    + eapply wpx_run; [now apply get_f64_run|]. cbn [fst snd]. apply wpx_bind. apply wpx_wp.
      eapply wp_conseq; [eapply wp_setc_ext; eauto|]. cbv beta. intros _ s2 (HM2 & HE2). apply wpx_ret.
      rewrite skipn_length in HL8. split; [lia|]. split; [rewrite skipn_add; f_equal; lia|]. split; [|exact HE2].
      rewrite <- merge_step by auto. rewrite Hf by auto.
      replace (f64_at B (8 * j) bf) with (f64_at B 0 (skipn (8 * j) bf)); [exact HM2|].
      unfold f64_at. rewrite field_skip. now rewrite Nat.add_0_r.
    + destruct (get_f64_fail B s1 _ HL8) as [e E]. eapply wpx_stop; [exact E|]. rewrite skipn_length in HL8. split; [lia|exact HE1].
  - auto.
Qed.
Definition read_matrix (m : matrix) (r c : Z) (buf : list byte) : M K (list byte) :=
  for_acc r (fun i buf => read_row m i c buf) buf.
Lemma read_matrix_spec s0 s m rs (r c : nat) bf Z0 : fresh_mat s0 s m rs r c Z0 -> ext s0 s ->
  wpx (read_matrix m (Z.of_nat r) (Z.of_nat c) bf) s
    (fun bf' s' => (8 * (r * c) <= length bf)%nat /\ bf' = skipn (8 * (r * c)) bf /\
       fresh_mat s0 s' m rs r c (mk r c (fun a b => f64_at B (8 * (a * c + b)) bf)) /\ ext s0 s')
    (fun s' => (length bf < 8 * (r * c))%nat /\ ext s0 s') (fun _ => False).
Proof.
  intros HM HE. unfold read_matrix. set (f := fun a b => f64_at B (8 * (a * c + b)) bf).
  apply wpx_for_acc with (I := fun i bf' s' => (8 * (i * c) <= length bf)%nat /\ bf' = skipn (8 * (i * c)) bf /\
    fresh_mat s0 s' m rs r c (merge r c f Z0 i 0) /\ ext s0 s').
  - cbn [Nat.mul]. split; [lia|]. split; [reflexivity|]. split; [|exact HE]. rewrite merge_0; [exact HM|].
    destruct HM as (HO & _). eapply own_shape; eauto.
  - intros i bf' s1 Hi (HL & -> & HM1 & HE1).
    eapply wpx_conseq; [eapply read_row_spec with (f := f)| | |]; eauto.
    + intros j Hj. unfold f, f64_at. rewrite field_skip. f_equal. f_equal. f_equal. lia.
    + cbv beta. intros bf' s2 (HL2 & -> & HM2 & HE2). rewrite skipn_length in HL2. split; [lia|].
      split; [rewrite skipn_add; f_equal; lia|]. split; [|exact HE2]. now rewrite <- merge_row.
    + cbv beta. intros s2 (HL2 & HE2). split; [|exact HE2]. rewrite skipn_length in HL2. nia.
  - intros bf' s1 (HL & -> & HM1 & HE1). rewrite merge_end in HM1. auto.
Qed.

(** ** LoadLayer *)
(** Reading the 27 header bytes. *)
Definition load_tail (buf : list byte) : M K (saved_layer K * list byte) :=
  let i := int32_at 3 buf in let o := int32_at 7 buf in
  weights <- NewMatrix i o ;;
  bf <- read_matrix weights i o (skipn 27 buf) ;;
  biases <- NewMatrix 1 o ;;
  bf <- read_row biases 0 o bf ;;
  ret (MkSaved (int8_at 2 buf) i o (f64_at B 11 buf) (f64_at B 19 buf) weights biases, bf).
Lemma at_skip8 a k buf : int8_at a (skipn k buf) = int8_at (k + a) buf.
Proof. unfold int8_at. now rewrite field_skip. Qed.
Lemma at_skip32 a k buf : int32_at a (skipn k buf) = int32_at (k + a) buf.
Proof. unfold int32_at. now rewrite field_skip. Qed.
Lemma at_skip64 a k buf : f64_at B a (skipn k buf) = f64_at B (k + a) buf.
Proof. unfold f64_at. now rewrite field_skip. Qed.
Ltac at_skip := rewrite ?at_skip8, ?at_skip32, ?at_skip64, ?skipn_add; cbn [Nat.add].

Lemma string_nul l : forall n, (0 < n)%nat -> forall x, (forall b, In b (list_byte_of_string x) -> b <> x00) ->
  string_of_list_byte (l ++ repeat x00 n) <> x.
Proof.
  intros n Hn x Hx E. subst x. rewrite list_byte_of_string_of_list_byte in Hx.
  apply (Hx x00); [|reflexivity]. apply in_or_app. right. destruct n; [lia|]. left. reflexivity.
Qed.
Lemma buf_read_magic s n x buf : (forall b, In b (list_byte_of_string x) -> b <> x00) -> String.length x = n -> (0 < n)%nat ->
  (exists e, buf_read (K := K) n buf s = (Fail e, s) /\ buf = []) \/
  (exists l, buf_read n buf s = (Ret (l, []), s) /\ (0 < length buf < n)%nat /\ l = firstn n buf ++ repeat x00 (n - length buf) /\ string_of_list_byte l <> x /\ string_at 0 n buf <> x) \/
  (buf_read n buf s = (Ret (field 0 n buf, skipn n buf), s) /\ (n <= length buf)%nat).
Proof.
  intros Hx Hn H0. destruct (le_lt_dec n (length buf)) as [HL|HL].
  - right. right. split; auto. now apply buf_read_run.
  - destruct buf as [|b t].
    + left. exists EEOF. split; [|reflexivity]. unfold buf_read. replace (n =? 0)%nat with false by lia. reflexivity.
    + right. left. eexists. split; [apply buf_read_short; cbn [length] in *; lia|]. split; [cbn [length] in *; lia|]. split; [now rewrite firstn_all2 by (cbn [length] in *; lia)|].
      split; [apply string_nul; auto; lia|]. unfold string_at. intros E.
      assert (EL : length (list_byte_of_string (string_of_list_byte (field 0 n (b :: t)))) = n) by (rewrite E, list_byte_length; lia).
      rewrite list_byte_of_string_of_list_byte in EL. unfold field in EL. rewrite firstn_length in EL. cbn [skipn] in EL. lia.
Qed.
Lemma no_nul_tac x : forallb (fun b => negb (Byte.eqb b x00)) (list_byte_of_string x) = true -> forall b, In b (list_byte_of_string x) -> b <> x00.
Proof. intros H b Hb ->. rewrite forallb_forall in H. specialize (H _ Hb). discriminate. Qed.

Ltac get8 := match goal with |- wpx (bind (get_int8 ?b) _) ?s _ _ _ => let H := fresh "HL" in destruct (le_lt_dec 1 (length b)) as [H|H];
  [eapply wpx_run; [now apply get_int8_run|]; cbv beta iota zeta|let e := fresh "e" in let E' := fresh "E" in destruct (get_int8_fail s b H) as [e E']; eapply wpx_stop; [exact E'|]] end.
Ltac get32 := match goal with |- wpx (bind (get_int32 ?b) _) ?s _ _ _ => let H := fresh "HL" in destruct (le_lt_dec 4 (length b)) as [H|H];
  [eapply wpx_run; [now apply get_int32_run|]; cbv beta iota zeta|let e := fresh "e" in let E' := fresh "E" in destruct (get_int32_fail s b H) as [e E']; eapply wpx_stop; [exact E'|]] end.
Ltac get64 := match goal with |- wpx (bind (get_f64 B ?b) _) ?s _ _ _ => let H := fresh "HL" in destruct (le_lt_dec 8 (length b)) as [H|H];
  [eapply wpx_run; [now apply get_f64_run|]; cbv beta iota zeta|let e := fresh "e" in let E' := fresh "E" in destruct (get_f64_fail B s b H) as [e E']; eapply wpx_stop; [exact E'|]] end.
Ltac lens := rewrite ?skipn_length in *.

Definition layer_header (buf : list byte) : bool := (27 <=? length buf)%nat && String.eqb (string_at 0 2 buf) "LA".
Lemma loadLayerBuffer_header s buf Q (E P : state K -> Prop) :
  (layer_header buf = false -> E s) -> (layer_header buf = true -> wpx (load_tail buf) s Q E P) ->
  wpx (loadLayerBuffer B buf) s Q E P.
Proof.
  intros HE HT. unfold loadLayerBuffer.
  destruct (buf_read_magic s 2 "LA" buf) as [(e & Er & ->)|[(l & Er & HL & _ & Hl & _)|(Er & HL)]]; try reflexivity; try lia; try (apply no_nul_tac; reflexivity).
  - eapply wpx_stop; [exact Er|]. apply HE. reflexivity.
  - eapply wpx_run; [exact Er|]. cbv beta iota zeta. apply String.eqb_neq in Hl. rewrite Hl. cbn [negb]. apply HE.
    unfold layer_header. replace (27 <=? length buf)%nat with false by lia. reflexivity.
  - eapply wpx_run; [exact Er|]. cbv beta iota zeta. change (string_of_list_byte (field 0 2 buf)) with (string_at 0 2 buf).
    destruct (String.eqb (string_at 0 2 buf) "LA") eqn:EM; cbn [negb].
    2:{ apply HE. unfold layer_header. rewrite EM. apply andb_false_r. }
    assert (HS : (length buf < 27)%nat -> E s) by (intros H; apply HE; unfold layer_header; replace (27 <=? length buf)%nat with false by lia; reflexivity).
    get8; [|apply HS; lens; lia]. get32; [|apply HS; lens; lia]. get32; [|apply HS; lens; lia].
    get64; [|apply HS; lens; lia]. get64; [|apply HS; lens; lia].
    at_skip. apply HT. unfold layer_header. rewrite EM. lens. replace (27 <=? length buf)%nat with true by lia. reflexivity.
Qed.

Lemma load_tail_spec s buf :
  let i := int32_at 3 buf in let o := int32_at 7 buf in (27 <= length buf)%nat ->
  wpx (load_tail buf) s
    (fun r s' => exists i' o' rw rb, int32_at 3 buf = Z.of_nat i' /\ int32_at 7 buf = Z.of_nat o' /\ (1 <= i')%nat /\ (1 <= o')%nat /\
       (27 + 8 * (i' * o') + 8 * o' <= length buf)%nat /\ snd r = skipn (27 + 8 * (i' * o') + 8 * o') buf /\
       sv_type (fst r) = int8_at 2 buf /\ sv_in (fst r) = i /\ sv_out (fst r) = o /\
       sv_slope (fst r) = f64_at B 11 buf /\ sv_drop (fst r) = f64_at B 19 buf /\
       own s' (sv_w (fst r)) rw i' o' (mk i' o' (fun a b => f64_at B (27 + 8 * (a * o' + b)) buf)) /\
       own s' (sv_b (fst r)) rb 1 o' (mk 1 o' (fun _ b => f64_at B (27 + 8 * (i' * o' + b)) buf)) /\
       fresh s (rw ++ rb) /\ NoDup (rw ++ rb) /\ ext s s')
    (fun s' => (i < 1 \/ o < 1 \/ Z.of_nat (length buf) < 27 + 8 * (i * o) + 8 * o) /\ ext s s') (fun _ => False).
Proof.
  intros i o HL. subst i o. unfold load_tail. cbv zeta.
  destruct (Z.leb_spec 1 (int32_at 3 buf)) as [Hi|Hi].
  2:{ eapply wpx_stop; [apply NewMatrix_err; lia|]. split; [lia|apply ext_refl]. }
  destruct (Z.leb_spec 1 (int32_at 7 buf)) as [Ho|Ho].
  2:{ eapply wpx_stop; [apply NewMatrix_err; lia|]. split; [lia|apply ext_refl]. }
  remember (Z.to_nat (int32_at 3 buf)) as i eqn:Ei. assert (Ei' : int32_at 3 buf = Z.of_nat i) by lia.
  remember (Z.to_nat (int32_at 7 buf)) as o eqn:Eo. assert (Eo' : int32_at 7 buf = Z.of_nat o) by lia.
  rewrite Ei', Eo'. clear Ei Eo.
  eapply wpx_run; [apply NewMatrix_run; lia|].
  pose proof (new_state_own s i o) as HM1. pose proof (new_state_ext s i o) as HE1.
  apply wpx_bind. eapply wpx_conseq; [eapply read_matrix_spec; eauto| | |].
  2:{ cbv beta. intros s2 (HL2 & HE2). lens. split; [|exact HE2]. right. right. nia. }
  2:{ auto. }
  cbv beta. intros bf s2 (HL2 & -> & HM2 & HE2). lens.
  eapply wpx_run; [apply (NewMatrix_run s2 1 o); lia|].
  pose proof (new_state_own s2 1 o) as HM3. pose proof (new_state_ext s2 1 o) as HE3.
  set (bf := skipn (8 * (i * o)) (skipn 27 buf)).
  apply wpx_bind. eapply wpx_conseq; [eapply (read_row_spec s2 _ _ _ 1 o 0 bf (fun _ b => f64_at B (8 * b) bf))| | |].
  - lia.
  - rewrite merge_0 by apply shape_mk. exact HM3.
  - exact HE3.
  - reflexivity.
  - cbv beta. intros bf' s4 (HL4 & -> & HM4 & HE4). rewrite merge_row, merge_end in HM4. apply wpx_ret.
    unfold bf in HL4. rewrite !skipn_length in HL4.
    destruct HM2 as (HO2 & HF2 & HN2 & _). destruct HM4 as (HO4 & HF4 & HN4 & _).
    eexists i, o, _, _. cbn [fst snd sv_type sv_in sv_out sv_slope sv_drop sv_w sv_b].
    split; [reflexivity|]. split; [reflexivity|]. split; [lia|]. split; [lia|]. split; [lia|].
    split. { unfold bf. now rewrite !skipn_add. }
    do 5 (split; [first [reflexivity|symmetry; assumption]|]).
    split. { eapply own_ext; [|exact HE4].
      replace (mk i o (fun a b => f64_at B (27 + 8 * (a * o + b)) buf)) with (mk i o (fun a b => f64_at B (8 * (a * o + b)) (skipn 27 buf))); [exact HO2|].
      apply mk_ext. intros a b Ha Hb. at_skip. reflexivity. }
    split. { replace (mk 1 o (fun _ b => f64_at B (27 + 8 * (i * o + b)) buf)) with (mk 1 o (fun _ b => f64_at B (8 * b) bf)); [exact HO4|].
      apply mk_ext. intros a b Ha Hb. unfold bf. at_skip. f_equal. lia. }
    split. { apply Forall_app. split; [exact HF2|]. eapply fresh_mono; [|exact HF4]. now apply ext_nrows. }
    split. { apply NoDup_app_; auto. intros x Hx Hx'. pose proof (own_old _ _ _ _ _ _ HO2) as HD. rewrite Forall_forall in HD.
      unfold fresh in HF4. rewrite Forall_forall in HF4. specialize (HD _ Hx). specialize (HF4 _ Hx'). lia. }
    eapply ext_trans; eassumption.
  - cbv beta. intros s4 (HL4 & HE4). unfold bf in HL4. rewrite !skipn_length in HL4. split; [right; right; nia|].
    eapply ext_trans; eassumption.
  - auto.
Qed.

Lemma LoadLayer_spec s buf :
  wpx (LoadLayer B buf) s
    (fun r s' => exists p l rw rb, decode_layer B buf = Some (p, snd r) /\ fst r = length (h_layers s) /\ loaded s s' l rw rb p)
    (fun s' => decode_layer B buf = None /\ ext s s') (fun _ => False).
Proof.
  unfold LoadLayer. apply wpx_bind. apply loadLayerBuffer_header.
  { intros H. split; [|apply ext_refl]. unfold decode_layer. fold (layer_header buf). now rewrite H. }
  intros HH. assert (HL : (27 <= length buf)%nat) by (unfold layer_header in HH; lia).
  assert (HD : decode_layer B buf = match kind_of_code (int8_at 2 buf) with
    | None => None
    | Some k => let i := int32_at 3 buf in let o := int32_at 7 buf in
        if (1 <=? i) && (1 <=? o) && (27 + 8 * (i * o) + 8 * o <=? Z.of_nat (length buf)) then
          let i := Z.to_nat i in let o := Z.to_nat o in
          Some (PL k i o (mk i o (fun a b => f64_at B (27 + 8 * (a * o + b)) buf))
                         (mk 1 o (fun _ b => f64_at B (27 + 8 * (i * o + b)) buf))
                   (match k with Leaky => f64_at B 11 buf | _ => f0 end)
                   (match k with Dropout => f64_at B 19 buf | _ => f0 end),
                skipn (27 + 8 * (i * o) + 8 * o) buf)
        else None end).
  { unfold decode_layer. fold (layer_header buf). now rewrite HH. }
  rewrite HD. clear HD HH.
  eapply wpx_conseq; [apply (load_tail_spec s buf HL)| | |].
  3:{ auto. }
  2:{ cbv beta. intros s' (Hc & HE). split; [|exact HE]. destruct (kind_of_code (int8_at 2 buf)); [|reflexivity]. cbv zeta.
      replace ((1 <=? int32_at 3 buf) && (1 <=? int32_at 7 buf) && (27 + 8 * (int32_at 3 buf * int32_at 7 buf) + 8 * int32_at 7 buf <=? Z.of_nat (length buf))) with false; [reflexivity|].
      destruct (Z.leb_spec 1 (int32_at 3 buf)), (Z.leb_spec 1 (int32_at 7 buf)); cbn [andb]; try reflexivity. symmetry. apply Z.leb_gt. lia. }
  cbv beta. intros [d bf] s' (i & o & rw & rb & Hi & Ho & Hi1 & Ho1 & HLen & Hbf & Ht & Hin & Hout & Hsl & Hdr & HW & HBi & HF & HN & HX).
  cbn [fst snd] in *. subst bf. cbv zeta. rewrite Ht, Hi, Ho, !Nat2Z.id.
  replace ((1 <=? Z.of_nat i) && (1 <=? Z.of_nat o) && (27 + 8 * (Z.of_nat i * Z.of_nat o) + 8 * Z.of_nat o <=? Z.of_nat (length buf))) with true
    by (symmetry; rewrite !andb_true_iff; lia).
  assert (HG : forall k, wpx (lref <- alloc_layer (layer_of_saved k d) ;; ret (lref, skipn (27 + 8 * (i * o) + 8 * o) buf)) s'
    (fun r s'' => exists p l rw rb, Some (PL k i o (mk i o (fun a b => f64_at B (27 + 8 * (a * o + b)) buf))
                         (mk 1 o (fun _ b => f64_at B (27 + 8 * (i * o + b)) buf))
                   (match k with Leaky => f64_at B 11 buf | _ => f0 end)
                   (match k with Dropout => f64_at B 19 buf | _ => f0 end), skipn (27 + 8 * (i * o) + 8 * o) buf) = Some (p, snd r) /\
       fst r = length (h_layers s) /\ loaded s s'' l rw rb p) (fun s' => False) (fun _ => False)).
  { intros k. unfold wpx, alloc_layer, bind, ret. cbn [fst snd].
    destruct HX as [HXf (HR1 & HR2 & HR3 & HR4 & HR5)]. rewrite HR1.
    eexists _, (layer_of_saved k d), rw, rb. split; [reflexivity|]. split; [reflexivity|].
    unfold loaded. split.
    { unfold lown, layer_of_saved. cbn. split; [reflexivity|]. split; [congruence|]. split; [congruence|].
      split; [now rewrite Hsl|]. split; [now rewrite Hdr|]. split; [lia|]. split; [lia|]. split; [exact HW|exact HBi]. }
    split; [exact HF|]. split; [exact HN|]. split; [exact HXf|]. cbn. auto 10. }
  unfold kind_of_code.
  repeat match goal with |- context [if ?c then _ else _] => destruct c eqn:?; [eapply wpx_conseq; [apply HG|auto|intros ? []|auto]|] end.
  apply (wpx_err _ _ (EMsg "nn.LoadLayer: Invalid layer type value.") s'); [reflexivity|]. split; [reflexivity|exact HX].
Qed.
End WithNum.
