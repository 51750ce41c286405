(** * CodecModel: what LoadModel does on arbitrary bytes. *)
From Coq.Strings Require Import Byte.
From Coq Require Import String Ascii ZArith List Bool Arith Lia ZifyBool.
From Verif Require Import Num Heap Spec Matrix MatrixFacts MatrixProofs LoopLemmas LayerProofs Network Loss Optimizers ModelGo LayerData ModelData
  PureSpec Repr OptSpec ModelSpec ModelProofs ModelFacts CodecSpec HeapLemmas CodecBytes CodecLoad.
Import ListNotations.
Open Scope Z_scope.
Open Scope go_scope.

Section WithNum.
Context {K : Num} (B : FBits K).
Implicit Types s : state K.

(** ** States *)
Lemma ext_grows s s' : ext s s' -> grows s s'.
Proof.
  intros [HF (H1 & H2 & H3 & H4 & H5)]. split; [exact HF|]. split; [exists []; now rewrite app_nil_r|]. split; [exists []; now rewrite app_nil_r|].
  split; [exact H3|]. split; [exact H4|]. exists []. now rewrite app_nil_r.
Qed.
Lemma grows_refl s : grows s s.
Proof. apply ext_grows, ext_refl. Qed.
Lemma grows_trans s1 s2 s3 : grows s1 s2 -> grows s2 s3 -> grows s1 s3.
Proof.
  intros (A1 & (la & A2) & (oa & A3) & A4 & A5 & (ga & A6)) (B1 & (lb & B2) & (ob & B3) & B4 & B5 & (gb & B6)).
  split; [eapply frame_trans; [exact A1|exact B1|]; intros x _ [[]|[]]|].
  split; [exists (la ++ lb); now rewrite B2, A2, app_assoc|]. split; [exists (oa ++ ob); now rewrite B3, A3, app_assoc|].
  split; [congruence|]. split; [congruence|]. exists (ga ++ gb). now rewrite B6, A6, app_assoc.
Qed.
Lemma loaded_grows s s' l rw rb p : loaded s s' l rw rb p -> grows s s' /\ h_opts s' = h_opts s /\ h_log s' = h_log s.
Proof.
  intros (H1 & H2 & H3 & H4 & H5 & H6 & H7 & H8 & H9). split; [|auto].
  split; [exact H4|]. split; [eauto|]. split; [exists []; now rewrite app_nil_r|]. split; [exact H7|]. split; [exact H8|]. exists []. now rewrite app_nil_r.
Qed.
Lemma lown_frame s s' l rw rb (p : player K) : lown s l rw rb p -> frame nothing s s' -> lown s' l rw rb p.
Proof.
  intros (H1 & H2 & H3 & H4 & H5 & H6 & H7 & H8 & H9) HF. do 7 (split; [assumption|]).
  split; (eapply own_frame; [eassumption|exact HF|]; intros x _ []).
Qed.
Lemma lok_grows s s' e : grows s s' -> lok s e -> lok s' e.
Proof.
  intros (HF & (la & HL) & _) (l & Hl & Ho). exists l. split; [|eapply lown_frame; eauto].
  rewrite HL, nth_error_app1; auto. apply nth_error_Some. congruence.
Qed.
Lemma lok_old s e : lok s e -> Forall (fun x => (x <= nrows s)%nat) (e_rw e ++ e_rb e).
Proof. intros (l & _ & (_ & _ & _ & _ & _ & _ & _ & H8 & H9)). apply Forall_app. split; eapply own_old; eauto. Qed.

(** ** The optimizer table *)
Definition set_all (kvs m : gomap K) : gomap K := fold_left (fun m kv => map_set (fst kv) (snd kv) m) kvs m.
Lemma map_get_set {V} (z : V) k k' v m : map_get z k (map_set k' v m) = if String.eqb k k' then v else map_get z k m.
Proof.
  induction m as [|[k2 v2] m IH]; cbn [map_set map_get].
  - reflexivity.
  - destruct (String.eqb_spec k' k2) as [->|Hne]; cbn [map_get].
    + destruct (String.eqb k k2); reflexivity.
    + rewrite IH. destruct (String.eqb_spec k k2) as [->|Hne2]; [|reflexivity].
      destruct (String.eqb_spec k2 k') as [->|]; [congruence|reflexivity].
Qed.
Lemma mget_set_all k kvs : mget k (set_all kvs []) = value_of k kvs.
Proof.
  unfold value_of, mget, set_all. induction kvs as [|kv l IH] using rev_ind; [reflexivity|].
  rewrite !fold_left_app. cbn [fold_left]. now rewrite map_get_set, IH.
Qed.
Lemma optimizer_of_values k kvs : opt_setValues (opt_zero k) (set_all kvs []) = optimizer_of k kvs.
Proof. unfold opt_setValues, optimizer_of, opt_zero. destruct k; cbn [o_kind]; now rewrite !mget_set_all. Qed.

Definition load_pair (st : gomap K * list byte) : M K (gomap K * list byte) :=
  let '(vals, buf) := st in
  r <- get_int8 buf ;; let '(lenKey, buf) := r in
  if lenKey <? 0 then panic PMake else
  r <- buf_read (Z.to_nat lenKey) buf ;; let '(key, buf) := r in
  r <- get_f64 B buf ;; let '(value, buf) := r in
  ret (map_set (string_of_list_byte key) value vals, buf).
Lemma load_pairs_spec s : forall n k vals bf,
  wpx (loop n k (fun _ => load_pair) (vals, bf)) s
    (fun r s' => exists kvs, decode_pairs B n bf = Good (kvs, snd r) /\ fst r = set_all kvs vals /\ s' = s)
    (fun s' => decode_pairs B n bf = Bad /\ s' = s) (fun s' => decode_pairs B n bf = Crash /\ s' = s).
Proof.
  induction n as [|n IH]; intros k vals bf; cbn [loop decode_pairs].
  { apply wpx_ret. exists []. auto. }
  apply wpx_bind. unfold load_pair at 1.
  destruct (le_lt_dec 1 (length bf)) as [HL|HL].
  2:{ destruct bf; [|cbn [length] in HL; lia]. destruct (get_int8_fail s [] HL) as [e E]. eapply wpx_stop; [exact E|]. auto. }
  assert (Hne : bf <> []) by (intros ->; cbn [length] in HL; lia).
  assert (HD : decode_pairs B (S n) bf = let len := int8_at 0 bf in
          if len <? 0 then Crash
          else if Z.of_nat (length bf) <? 1 + len + 8 then Bad
          else
            let len := Z.to_nat len in
            match decode_pairs B n (skipn (1 + len + 8) bf) with
            | Good (kvs, rest) => Good ((string_at 1 len bf, f64_at B (1 + len) bf) :: kvs, rest)
            | Bad => Bad
            | Crash => Crash
            end) by (cbn [decode_pairs]; destruct bf; [congruence|reflexivity]).
  cbn [decode_pairs] in HD. rewrite HD. clear HD.
  eapply wpx_run; [now apply get_int8_run|]. cbv beta iota zeta.
  destruct (Z.ltb_spec (int8_at 0 bf) 0) as [Hneg|Hpos].
  { unfold wpx, panic. auto. }
  remember (Z.to_nat (int8_at 0 bf)) as len eqn:El. assert (El' : int8_at 0 bf = Z.of_nat len) by lia. rewrite El'. clear El.
  destruct (le_lt_dec (1 + len + 8) (length bf)) as [HL2|HL2].
  - replace (Z.of_nat (length bf) <? 1 + Z.of_nat len + 8) with false by lia.
    eapply wpx_run; [apply buf_read_run; rewrite skipn_length; lia|]. cbv beta iota zeta.
    eapply wpx_run; [apply get_f64_run; rewrite !skipn_length; lia|]. cbv beta iota zeta.
    apply wpx_ret. eapply wpx_conseq; [apply IH| | |].
    + cbv beta. intros r s' (kvs & Hd & Hv & ->). rewrite !skipn_add, ?Nat.add_assoc in Hd. rewrite Hd.
      eexists. split; [reflexivity|]. split; [|reflexivity]. rewrite Hv. unfold set_all. cbn [fold_left fst snd].
      f_equal. unfold string_at. rewrite field_skip. unfold f64_at. rewrite !field_skip. cbn [Nat.add]. now rewrite Nat.add_0_r.
    + cbv beta. intros s' (Hd & ->). rewrite !skipn_add, ?Nat.add_assoc in Hd. now rewrite Hd.
    + cbv beta. intros s' (Hd & ->). rewrite !skipn_add, ?Nat.add_assoc in Hd. now rewrite Hd.
  - replace (Z.of_nat (length bf) <? 1 + Z.of_nat len + 8) with true by lia.
    destruct (le_lt_dec len (length (skipn 1 bf))) as [HL3|HL3].
    + eapply wpx_run; [now apply buf_read_run|]. cbv beta iota zeta. rewrite skipn_length in HL3.
      destruct (get_f64_fail B s (skipn len (skipn 1 bf))) as [e E]; [rewrite !skipn_length; lia|]. eapply wpx_stop; [exact E|]. auto.
    + destruct (skipn 1 bf) as [|b t] eqn:Eb.
      * eapply (wpx_stop _ _ _ EEOF); [|split; reflexivity]. unfold buf_read. replace (len =? 0)%nat with false by (cbn [length] in HL3; lia). reflexivity.
      * eapply wpx_run; [apply buf_read_short; cbn [length] in *; lia|]. cbv beta iota zeta.
        destruct (get_f64_fail B s []) as [e E]; [cbn; lia|]. eapply wpx_stop; [exact E|]. auto.
Qed.

(** ** The layers *)
Definition load_one (st : list nat * list byte) : M K (list nat * list byte) :=
  let '(layers, buf) := st in
  r <- LoadLayer B buf ;; let '(lref, buf) := r in
  ret (layers ++ [lref], buf).
Lemma decode_layer_small bf p rest : decode_layer B bf = Some (p, rest) -> small_player p.
Proof.
  unfold decode_layer. destruct (_ && String.eqb _ _); [|discriminate]. destruct (kind_of_code _); [|discriminate]. cbv zeta.
  destruct ((1 <=? int32_at 3 bf) && (1 <=? int32_at 7 bf) && _) eqn:E; [|discriminate]. intros [= <- _]. unfold small_player. cbn [p_in p_out].
  apply andb_true_iff in E as [E _]. apply andb_true_iff in E as [E1 E2]. apply Z.leb_le in E1, E2.
  pose proof (int32_range 3 bf). pose proof (int32_range 7 bf). lia.
Qed.
Lemma load_layers_spec : forall n k ls0 bf s,
  wpx (loop n k (fun _ => load_one) (ls0, bf)) s
    (fun r s' => exists es, decode_layers B n bf = Some (net es, snd r) /\ length es = n /\ fst r = ls0 ++ map e_ref es /\
       map e_ref es = seq (length (h_layers s)) n /\ Forall (lok s') es /\ Forall (fun e => small_player (e_p e)) es /\
       NoDup (prows es) /\ fresh s (prows es) /\ grows s s' /\ h_opts s' = h_opts s /\ h_log s' = h_log s)
    (fun s' => decode_layers B n bf = None /\ grows s s' /\ h_opts s' = h_opts s /\ h_log s' = h_log s) (fun _ => False).
Proof.
  induction n as [|n IH]; intros k ls0 bf s; cbn [loop decode_layers].
  { apply wpx_ret. exists []. cbn. rewrite app_nil_r. do 8 (split; [first [reflexivity|constructor]|]). split; [apply grows_refl|auto]. }
  apply wpx_bind. unfold load_one at 1. apply wpx_bind. eapply wpx_conseq; [apply LoadLayer_spec| | |].
  - cbv beta. intros [lref bf1] s1 (p & l & rw & rb & Hd & Hr & HL). cbn [fst snd] in *. subst lref. rewrite Hd. apply wpx_ret.
    destruct (loaded_grows _ _ _ _ _ _ HL) as (HG1 & HO1 & HLg1). destruct HL as (Hown & HFr & HND & HFm & HLs & _).
    eapply wpx_conseq; [apply IH| | |auto].
    + cbv beta. intros [ls bf2] s2 (es & Hd2 & Hlen & Hls & Href & Hok & Hsm & Hnd & Hfr & HG2 & HO2 & HLg2). cbn [fst snd] in *. rewrite Hd2.
      exists (LE (length (h_layers s)) rw rb p :: es). split; [reflexivity|]. split; [cbn [length]; lia|].
      split. { rewrite Hls. cbn [map e_ref]. now rewrite <- app_assoc. }
      split. { cbn [map e_ref seq]. rewrite Href, HLs, app_length. cbn [length]. now rewrite Nat.add_1_r. }
      split. { constructor; [|exact Hok]. eapply lok_grows; [exact HG2|]. exists l. split; [|exact Hown].
        cbn [e_ref]. rewrite HLs, nth_error_app2, Nat.sub_diag by lia. reflexivity. }
      split. { constructor; [|exact Hsm]. eapply decode_layer_small; eauto. }
      assert (HOld : Forall (fun x => (x <= nrows s1)%nat) (rw ++ rb)).
      { apply (lok_old s1 (LE (length (h_layers s)) rw rb p)). exists l. split; [|exact Hown].
        cbn [e_ref]. rewrite HLs, nth_error_app2, Nat.sub_diag by lia. reflexivity. }
      split. { unfold prows. cbn [map concat e_rw e_rb]. apply NoDup_app_; auto. intros x Hx Hx'.
        rewrite Forall_forall in HOld. unfold fresh in Hfr. rewrite Forall_forall in Hfr. specialize (HOld _ Hx). specialize (Hfr _ Hx'). lia. }
      split. { unfold prows. cbn [map concat e_rw e_rb]. apply Forall_app. split; [exact HFr|]. eapply fresh_mono; [|exact Hfr].
        destruct HG1 as (HF1 & _). eapply frame_nrows; eauto. }
      split; [eapply grows_trans; eauto|]. split; congruence.
    + cbv beta. intros s2 (Hd2 & HG2 & HO2 & HLg2). rewrite Hd2. split; [reflexivity|]. split; [eapply grows_trans; eauto|]. split; congruence.
  - cbv beta. intros s1 (Hd & HE). rewrite Hd. split; [reflexivity|]. split; [now apply ext_grows|].
    destruct HE as (_ & (_ & H2 & _ & _ & H5)). auto.
  - auto.
Qed.

(** ** Assembling the model *)
Definition add_one (refs : list nat) (i : Z) (m : model K) : M K (model K) :=
  lref <- go_nth refs i ;; check_err (AddLayer m lref).
Definition part (k : nat) (i o : nat) (ls : list nat) : model K :=
  MkModel (Z.of_nat k) (Z.of_nat i) (Z.of_nat o) 0 None 0 f0 0 [] ls [].
Lemma go_nth_run {A} (l : list A) k x s : nth_error l k = Some x -> go_nth l (Z.of_nat k) s = (Ret x, s).
Proof.
  intros H. assert (k < length l)%nat by (apply nth_error_Some; congruence). unfold go_nth.
  replace ((0 <=? Z.of_nat k) && (Z.of_nat k <? Z.of_nat (length l))) with true by lia. now rewrite Nat2Z.id, H.
Qed.
Lemma last_cons {A} (x : A) l d : last (x :: l) d = last l x.
Proof.
  revert x d. induction l as [|y l IH]; intros x d; [reflexivity|]. change (last (y :: l) d = last (y :: l) x). now rewrite (IH y d), (IH y x).
Qed.
Lemma AddLayer_part (HI : int_faithful K) s k i o ls (e : lent K) l : nth_error (h_layers s) (e_ref e) = Some l ->
  lown s l (e_rw e) (e_rb e) (e_p e) -> small_player (e_p e) ->
  AddLayer (part k i o ls) (e_ref e) s =
    (Ret (if (k =? 0)%nat || (o =? p_in (e_p e))%nat
          then (part (S k) (if (k =? 0)%nat then p_in (e_p e) else i) (p_out (e_p e)) (ls ++ [e_ref e]), None)
          else (part k i o ls, reject)), s).
Proof.
  intros Hl (_ & Hin & Hout & _) [Hs1 Hs2]. unfold AddLayer. erewrite bind_eq by (unfold get_layer; rewrite Hl; reflexivity).
  unfold layer_inputs, layer_outputs. rewrite Hin, Hout. rewrite !HI by (unfold small_int; lia).
  unfold part. cbn [m_size m_out m_in m_losstype m_loss m_acctype m_prec m_opttype m_optvals m_layers m_opts].
  replace (Z.of_nat k =? 0) with (k =? 0)%nat by lia. replace (Z.of_nat o =? Z.of_nat (p_in (e_p e))) with (o =? p_in (e_p e))%nat by lia.
  replace (Z.of_nat k + 1) with (Z.of_nat (S k)) by lia.
  destruct (k =? 0)%nat; [reflexivity|]. cbn [orb]. destruct (o =? p_in (e_p e))%nat; reflexivity.
Qed.
Lemma add_loop (HI : int_faithful K) s refs : forall es k i o ls,
  (forall j, (j < length es)%nat -> nth_error refs (k + j) = Some (nth j (map e_ref es) O)) ->
  Forall (lok s) es -> Forall (fun e => small_player (e_p e)) es ->
  wpx (loop (length es) (Z.of_nat k) (add_one refs) (part k i o ls)) s
    (fun m s' => s' = s /\ fits (if (k =? 0)%nat then None else Some o) (net es) = true /\
       m = part (k + length es) (match es with e :: _ => if (k =? 0)%nat then p_in (e_p e) else i | [] => i end)
             (last (map p_out (net es)) o) (ls ++ map e_ref es))
    (fun s' => s' = s /\ fits (if (k =? 0)%nat then None else Some o) (net es) = false) (fun _ => False).
Proof.
  induction es as [|e es IH]; intros k i o ls Hn Hok Hsm; cbn [loop length].
  { apply wpx_ret. split; [reflexivity|]. split; [reflexivity|]. cbn. now rewrite Nat.add_0_r, app_nil_r. }
  inversion Hok as [|? ? (l & Hl & Ho) Hok']; subst. inversion Hsm as [|? ? Hs1 Hsm']; subst.
  apply wpx_bind. unfold add_one at 1.
  eapply wpx_run. { apply go_nth_run. rewrite <- (Nat.add_0_r k). apply Hn. cbn [length]. lia. }
  cbn [map nth]. unfold check_err. apply wpx_bind. eapply wpx_eq; [eapply AddLayer_part; eauto|].
  cbn [net map fits]. replace (match (if (k =? 0)%nat then None else Some o) with Some o => (o =? p_in (e_p e))%nat | None => true end)
    with ((k =? 0)%nat || (o =? p_in (e_p e))%nat) by (destruct (k =? 0)%nat; reflexivity).
  destruct ((k =? 0)%nat || (o =? p_in (e_p e))%nat) eqn:Ek.
  - cbn [fst snd]. apply wpx_ret.
    specialize (IH (S k) (if (k =? 0)%nat then p_in (e_p e) else i) (p_out (e_p e)) (ls ++ [e_ref e])).
    replace (Z.of_nat k + 1) with (Z.of_nat (S k)) by lia.
    eapply wpx_conseq; [apply IH; auto| | |auto].
    + intros j Hj. replace (S k + j)%nat with (k + S j)%nat by lia. rewrite Hn by (cbn [length]; lia). reflexivity.
    + cbv beta. intros m s' (-> & Hf & ->). split; [reflexivity|]. split; [exact Hf|].
      cbn [length]. replace (S k + length es)%nat with (k + S (length es))%nat by lia. f_equal.
      * destruct es; cbn; reflexivity.
      * cbn [map]. now rewrite last_cons.
      * now rewrite <- app_assoc.
    + cbv beta. intros s' (-> & Hf). cbn [Nat.eqb] in Hf. auto.
  - cbn [fst snd]. split; reflexivity.
Qed.

Lemma fits_chain (ps : list (player K)) : forall prev, fits prev ps = true ->
  chain (match prev with Some o => o | None => first_in ps end) ps (last (map p_out ps) (match prev with Some o => o | None => O end)).
Proof.
  induction ps as [|p ps IH]; intros prev H; cbn [chain map].
  - destruct prev; reflexivity.
  - cbn [fits] in H. apply andb_true_iff in H as [H1 H2]. split.
    + destruct prev as [o|]; [|reflexivity]. now apply Nat.eqb_eq in H1.
    + specialize (IH _ H2). cbv iota in IH. change (chain (p_out p) ps (last (p_out p :: map p_out ps) (match prev with Some o => o | None => 0%nat end))).
      rewrite last_cons. exact IH.
Qed.

(** ** LoadModel *)
Definition model_header (buf : list byte) : bool := (5 <=? length buf)%nat && String.eqb (string_at 0 4 buf) "NNML".
Definition warned s (buf : list byte) : state K := with_log s (h_log s ++ version_warning buf).
Definition model_body (version : string) (buf : list byte) : M K (saved_model K * list nat * list byte) :=
  r <- for_acc (int8_at 29 buf) (fun _ => load_pair) ([], skipn 30 buf) ;;
  let '(vals, bf) := r in
  r <- for_acc (int8_at 9 buf) (fun _ => load_one) ([], bf) ;;
  let '(layers, bf) := r in
  ret (MkSavedModel version (int8_at 9 buf) (int32_at 10 buf) (int32_at 14 buf) (int8_at 18 buf) (int8_at 19 buf)
                    (f64_at B 20 buf) (int8_at 28 buf) vals [], layers, bf).
Lemma with_log_same s : with_log s (h_log s ++ []) = s.
Proof. destruct s. unfold with_log. cbn. now rewrite app_nil_r. Qed.
Lemma at_skip8' a k buf : int8_at a (skipn k buf) = int8_at (k + a) buf. Proof. apply at_skip8. Qed.
Ltac at_skip := rewrite ?at_skip8, ?at_skip32, ?at_skip64, ?skipn_add; cbn [Nat.add].
Ltac lens := rewrite ?skipn_length in *.
Ltac get8 := match goal with |- wpx (bind (get_int8 ?b) _) ?s _ _ _ => let H := fresh "HL" in destruct (le_lt_dec 1 (length b)) as [H|H];
  [eapply wpx_run; [now apply get_int8_run|]; cbv beta iota zeta|let e := fresh "e" in let E' := fresh "E" in destruct (get_int8_fail s b H) as [e E']; eapply wpx_stop; [exact E'|]] end.
Ltac get32 := match goal with |- wpx (bind (get_int32 ?b) _) ?s _ _ _ => let H := fresh "HL" in destruct (le_lt_dec 4 (length b)) as [H|H];
  [eapply wpx_run; [now apply get_int32_run|]; cbv beta iota zeta|let e := fresh "e" in let E' := fresh "E" in destruct (get_int32_fail s b H) as [e E']; eapply wpx_stop; [exact E'|]] end.
Ltac get64 := match goal with |- wpx (bind (get_f64 B ?b) _) ?s _ _ _ => let H := fresh "HL" in destruct (le_lt_dec 8 (length b)) as [H|H];
  [eapply wpx_run; [now apply get_f64_run|]; cbv beta iota zeta|let e := fresh "e" in let E' := fresh "E" in destruct (get_f64_fail B s b H) as [e E']; eapply wpx_stop; [exact E'|]] end.

Lemma model_header_spec s buf Q (E P : state K -> Prop) :
  (model_header buf = false -> E s) ->
  (model_header buf = true -> String.eqb (string_at 4 5 buf) VERSION = false -> h_logger s = false -> P s) ->
  (model_header buf = true -> String.eqb (string_at 4 5 buf) VERSION = true \/ h_logger s = true ->
     ((length buf < 30)%nat -> E (warned s buf)) /\
     ((30 <= length buf)%nat -> wpx (model_body (string_at 4 5 buf) buf) (warned s buf) Q E P)) ->
  wpx (loadModelBuffer B buf) s Q E P.
Proof.
  intros HE HP HT. unfold loadModelBuffer.
  destruct (buf_read_magic s 4 "NNML" buf) as [(e & Er & ->)|[(l & Er & HL & _ & Hl & Hs)|(Er & HL)]]; try reflexivity; try lia; try (apply no_nul_tac; reflexivity).
  - eapply wpx_stop; [exact Er|]. apply HE. reflexivity.
  - eapply wpx_run; [exact Er|]. cbv beta iota zeta. apply String.eqb_neq in Hl. rewrite Hl. cbn [negb]. apply HE.
    unfold model_header. replace (5 <=? length buf)%nat with false by lia. reflexivity.
  - eapply wpx_run; [exact Er|]. cbv beta iota zeta. change (string_of_list_byte (field 0 4 buf)) with (string_at 0 4 buf).
    destruct (String.eqb (string_at 0 4 buf) "NNML") eqn:EM; cbn [negb].
    2:{ apply HE. unfold model_header. rewrite EM. apply andb_false_r. }
    destruct (buf_read_magic s 5 VERSION (skipn 4 buf)) as [(e & Ev & E0)|[(l & Ev & HL5 & Hlv & Hl & Hs)|(Ev & HL5)]]; try reflexivity; try lia; try (apply no_nul_tac; reflexivity).
    + eapply wpx_stop; [exact Ev|]. apply HE. unfold model_header. apply (f_equal (@length _)) in E0. rewrite skipn_length in E0. cbn [length] in E0.
      replace (5 <=? length buf)%nat with false by lia. reflexivity.
    + rewrite skipn_length in HL5.
      assert (HH : model_header buf = true) by (unfold model_header; rewrite EM; replace (5 <=? length buf)%nat with true by lia; reflexivity).
      assert (HV : String.eqb (string_at 4 5 buf) VERSION = false).
      { apply String.eqb_neq. unfold string_at in *. rewrite field_skip in Hs. cbn [Nat.add] in Hs. exact Hs. }
      eapply wpx_run; [exact Ev|]. cbv beta iota zeta. apply String.eqb_neq in Hl. rewrite Hl. cbn [negb].
      destruct (h_logger s) eqn:HLg.
      * assert (EW : log_print (LWarning (string_of_list_byte l)) s = (Ret tt, warned s buf)).
        { assert (ET : string_of_list_byte l = version_text buf) by (subst l; unfold version_text, field; rewrite skipn_length; do 3 f_equal; lia). rewrite ET. unfold log_print, warned, version_warning. rewrite HLg. fold (model_header buf). now rewrite HH, HV. }
        apply (wpx_run _ _ _ _ _ _ _ _ EW). destruct (HT HH (or_intror eq_refl)) as [HT1 _].
        destruct (get_int8_fail (warned s buf) [] ltac:(cbn; lia)) as [e E']. eapply wpx_stop; [exact E'|]. apply HT1. lia.
      * eapply wpx_bind. unfold wpx at 1, log_print. rewrite HLg. now apply HP.
    + rewrite skipn_length in HL5.
      assert (HH : model_header buf = true) by (unfold model_header; rewrite EM; replace (5 <=? length buf)%nat with true by lia; reflexivity).
      eapply wpx_run; [exact Ev|]. cbv beta iota zeta. change (string_of_list_byte (field 0 5 (skipn 4 buf))) with (string_at 0 5 (skipn 4 buf)).
      replace (string_at 0 5 (skipn 4 buf)) with (string_at 4 5 buf) by (unfold string_at; now rewrite field_skip).
      set (v := string_at 4 5 buf) in *.
      assert (HG : String.eqb v VERSION = true \/ h_logger s = true ->
        wpx (r <- get_int8 (skipn 5 (skipn 4 buf)) ;; let '(modelSize, buf) := r in
    r <- get_int32 buf ;; let '(inputSize, buf) := r in
    r <- get_int32 buf ;; let '(outputSize, buf) := r in
    r <- get_int8 buf ;; let '(lossType, buf) := r in
    r <- get_int8 buf ;; let '(accType, buf) := r in
    r <- get_f64 B buf ;; let '(prec, buf) := r in
    r <- get_int8 buf ;; let '(optType, buf) := r in
    r <- get_int8 buf ;; let '(lenValues, buf) := r in
    r <- for_acc lenValues (fun _ => load_pair) ([], buf) ;;
    let '(vals, buf) := r in
    r <- for_acc modelSize (fun _ => load_one) ([], buf) ;;
    let '(layers, buf) := r in
    ret (MkSavedModel v modelSize inputSize outputSize lossType accType
                      prec optType vals [], layers, buf)) (warned s buf) Q E P).
      { intros Hor. destruct (HT HH Hor) as [HT1 HT2].
        get8; [|apply HT1; lens; lia]. get32; [|apply HT1; lens; lia]. get32; [|apply HT1; lens; lia].
        get8; [|apply HT1; lens; lia]. get8; [|apply HT1; lens; lia]. get64; [|apply HT1; lens; lia].
        get8; [|apply HT1; lens; lia]. get8; [|apply HT1; lens; lia].
        lens. at_skip. apply HT2. lia. }
      destruct (String.eqb v VERSION) eqn:EV; cbn [negb].
      * assert (EW : ret (K := K) tt s = (Ret tt, warned s buf)).
        { unfold ret, warned, version_warning. fold (model_header buf). rewrite HH. fold v. rewrite EV. cbn [andb negb]. now rewrite with_log_same. }
        apply (wpx_run _ _ _ _ _ _ _ _ EW). apply HG. auto.
      * destruct (h_logger s) eqn:HLg.
        -- assert (EW : log_print (LWarning v) s = (Ret tt, warned s buf)).
           { assert (ET : v = version_text buf) by (unfold v, version_text, string_at; replace (9 - length buf)%nat with O by lia; now rewrite app_nil_r). rewrite ET at 1. unfold log_print, warned, version_warning. rewrite HLg. fold (model_header buf). fold v. now rewrite HH, EV. }
           apply (wpx_run _ _ _ _ _ _ _ _ EW). apply HG. auto.
        -- eapply wpx_bind. unfold wpx at 1, log_print. rewrite HLg. now apply HP.
Qed.

Definition assembled s (m : model K) (es : list (lent K)) (d : plain_model K) (rest : list byte) (buf : list byte) s' : Prop :=
  decode_model B (h_logger s) buf = Good (d, rest) /\ represents s' m es (length (h_opts s)) d /\
  map e_ref es = seq (length (h_layers s)) (length es) /\ fresh s (prows es) /\ Forall (fun e => small_player (e_p e)) es /\
  grows s s' /\ h_log s' = h_log s ++ version_warning buf.
Lemma lok_with_opts s os e : lok s e -> lok (with_opts s os) e.
Proof. intros (l & H & Ho). exists l. split; [exact H|exact Ho]. Qed.
Lemma grows_with_opts s s' os : grows s s' -> grows s (with_opts s' (h_opts s' ++ os)).
Proof.
  intros (H1 & H2 & (os0 & H3) & H4 & H5 & H6). split; [exact H1|]. split; [exact H2|].
  split; [exists (os0 ++ os); cbn; now rewrite H3, app_assoc|]. split; [exact H4|]. split; [exact H5|exact H6].
Qed.
Lemma grows_warned s buf : grows s (warned s buf).
Proof.
  unfold warned. split. { split; [auto|]. split; [auto|]. split; [eauto|]. apply Nat.le_refl. }
  split; [exists []; cbn; now rewrite app_nil_r|]. split; [exists []; cbn; now rewrite app_nil_r|]. cbn. eauto.
Qed.
Definition load_rest (d : saved_model K) (layers : list nat) (bf : list byte) : M K (model K * list byte) :=
  m <- for_acc (sm_size d) (add_one layers) NewModel ;;
  l <- loadLoss (sm_losstype d) (sm_out d) ;;
  o <- loadOptimizer (sm_opttype d) (sm_optvals d) ;;
  m <- check_err (Finalize m l o (sm_acctype d) (sm_prec d)) ;;
  ret (m, bf).
Lemma loadLoss_run s t z : loadLoss t z s =
  match loss_of_code t with Some k => (Ret (MkLoss k z), s) | None => (Fail (EMsg "nn.LoadModel: Invalid loss type."), s) end.
Proof.
  unfold loadLoss, loss_of_code. destruct (t =? 0); [reflexivity|]. destruct (t =? 1); [reflexivity|]. destruct (t =? 2); [reflexivity|]. destruct (t =? 3); reflexivity.
Qed.
Lemma loadOptimizer_run s t kvs : loadOptimizer t (set_all kvs []) s =
  match opt_of_code t with Some k => (Ret (optimizer_of k kvs), s) | None => (Fail (EMsg "nn.LoadModel: Invalid optimizer type."), s) end.
Proof. unfold loadOptimizer, opt_of_code. rewrite !optimizer_of_values. destruct (t =? 0); [reflexivity|]. destruct (t =? 1); reflexivity. Qed.
Lemma optimizer_of_kind k kvs : o_kind (optimizer_of (K := K) k kvs) = k.
Proof. destruct k; reflexivity. Qed.

Lemma load_rest_spec (HI : int_faithful K) (HF : feq (f0 : K) f0 = true) s1 es v size i o lt at_ prec ot kvs bf :
  Z.to_nat size = length es -> small_int o ->
  Forall (lok s1) es -> Forall (fun e => small_player (e_p e)) es ->
  let ok := fits None (net es) && (o =? Z.of_nat (last_out (net es))) && negb (flt prec f0) in
  wpx (load_rest (MkSavedModel v size i o lt at_ prec ot (set_all kvs []) []) (map e_ref es) bf) s1
    (fun r s' => exists l k, loss_of_code lt = Some l /\ opt_of_code ot = Some k /\ ok = true /\ snd r = bf /\
       s' = with_opts s1 (h_opts s1 ++ repeat (clone (optimizer_of k kvs)) (length es)) /\
       fst r = MkModel (Z.of_nat (length es)) (Z.of_nat (first_in (net es))) (Z.of_nat (last_out (net es))) (losskind_code l)
                 (Some (MkLoss l o)) at_ prec (okind_code k) (opt_values (optimizer_of k kvs)) (map e_ref es) (seq (length (h_opts s1)) (length es)))
    (fun s' => (loss_of_code lt = None \/ opt_of_code ot = None \/ ok = false) /\ (exists os, s' = with_opts s1 (h_opts s1 ++ os))) (fun _ => False).
Proof.
  intros Hs1 Ho Hok Hsm ok. unfold load_rest. cbn [sm_size sm_losstype sm_out sm_opttype sm_optvals sm_acctype sm_prec].
  assert (HSame : exists os, s1 = with_opts s1 (h_opts s1 ++ os)) by (exists []; rewrite app_nil_r; destruct s1; reflexivity).
  apply wpx_bind. unfold for_acc. rewrite Hs1.
  eapply wpx_conseq; [apply (add_loop HI s1 (map e_ref es) es 0 0 0 [])| | |auto]; auto.
  { intros j Hj. cbn [Nat.add]. apply nth_error_nth'. now rewrite map_length. }
  2:{ cbv beta. intros s' (-> & Hf). split; [|exact HSame]. right. right. unfold ok. cbn [Nat.eqb] in Hf. now rewrite Hf. }
  cbv beta. intros m s' (-> & Hf & ->). cbn [Nat.eqb] in Hf.
  apply wpx_bind. unfold wpx at 1. rewrite loadLoss_run. destruct (loss_of_code lt) as [l|] eqn:El; [|split; [auto|exact HSame]].
  apply wpx_bind. unfold wpx at 1. rewrite loadOptimizer_run. destruct (opt_of_code ot) as [k|] eqn:Ek; [|split; [auto|exact HSame]].
  cbn [Nat.add Nat.eqb app].
  assert (Hfi : match es with [] => 0%nat | e :: _ => p_in (e_p e) end = first_in (net es)) by (destruct es; reflexivity).
  rewrite Hfi. fold (last_out (net es)).
  destruct (Z.eqb_spec (Z.of_nat (last_out (net es))) o) as [Eo|Eo].
  - apply wpx_bind. unfold check_err. apply wpx_bind. eapply wpx_eq; [apply (finalize_match HI HF); [exact Ho|exact Eo]|].
    cbn [fst snd part m_size m_in m_out ls_kind ls_size m_prec m_layers]. rewrite Nat2Z.id, optimizer_of_kind.
    destruct (flt prec f0) eqn:Ep.
    + cbn [check_err]. unfold wpx at 1, fail. split; [|eauto]. right. right. unfold ok. rewrite ?Ep. cbn [negb]. apply andb_false_r.
    + apply wpx_ret. apply wpx_ret. exists l, k. split; [reflexivity|]. split; [reflexivity|].
      split. { unfold ok. rewrite Hf. replace (o =? Z.of_nat (last_out (net es))) with true by lia. rewrite ?Ep. reflexivity. }
      split; [reflexivity|]. split; reflexivity.
  - apply wpx_bind. unfold check_err. apply wpx_bind. eapply wpx_eq; [apply (finalize_mismatch HI); [exact Ho|exact Eo]|].
    cbn [fst snd]. unfold wpx at 1, fail. split; [|exact HSame]. right. right. unfold ok.
    replace (o =? Z.of_nat (last_out (net es))) with false by lia. now rewrite andb_false_r.
Qed.

Lemma loss_code_of t l : loss_of_code t = Some l -> losskind_code l = t.
Proof.
  unfold loss_of_code. destruct (Z.eqb_spec t 0); [intros [= <-]; cbn; lia|]. destruct (Z.eqb_spec t 1); [intros [= <-]; cbn; lia|].
  destruct (Z.eqb_spec t 2); [intros [= <-]; cbn; lia|]. destruct (Z.eqb_spec t 3); [intros [= <-]; cbn; lia|]. discriminate.
Qed.

Theorem LoadModel_spec (HI : int_faithful K) (HF : feq (f0 : K) f0 = true) s buf :
  wpx (LoadModel B buf) s
    (fun r s' => exists d es, assembled s (fst r) es d (snd r) buf s')
    (fun s' => decode_model B (h_logger s) buf = Bad /\ grows s s' /\ h_log s' = h_log s ++ version_warning buf)
    (fun s' => decode_model B (h_logger s) buf = Crash /\ grows s s').
Proof.
  unfold LoadModel. apply wpx_bind. apply model_header_spec.
  { intros H. unfold decode_model, version_warning. fold (model_header buf). rewrite H. cbn [negb andb]. rewrite app_nil_r.
    split; [reflexivity|]. split; [apply grows_refl|reflexivity]. }
  { intros H HV HLg. unfold decode_model. fold (model_header buf). rewrite H, HV, HLg. cbn [negb andb]. split; [reflexivity|apply grows_refl]. }
  intros HH HV.
  assert (HD : decode_model B (h_logger s) buf = if (length buf <? 30)%nat then Bad else
    match decode_pairs B (Z.to_nat (int8_at 29 buf)) (skipn 30 buf) with
    | Crash => Crash
    | Bad => Bad
    | Good (kvs, rest) =>
        match decode_layers B (Z.to_nat (int8_at 9 buf)) rest with
        | None => Bad
        | Some (ps, rest) =>
            match loss_of_code (int8_at 18 buf), opt_of_code (int8_at 28 buf) with
            | Some l, Some o =>
                if fits None ps && (int32_at 14 buf =? Z.of_nat (last_out ps)) && negb (flt (f64_at B 20 buf) f0)
                then Good (PMod ps l (int8_at 19 buf) (f64_at B 20 buf) (optimizer_of o kvs), rest)
                else Bad
            | _, _ => Bad
            end
        end
    end).
  { unfold decode_model. fold (model_header buf). rewrite HH.
    replace (negb (String.eqb (string_at 4 5 buf) VERSION) && negb (h_logger s)) with false; [reflexivity|].
    destruct HV as [->| ->]; [reflexivity|]. symmetry. apply andb_false_r. }
  set (w := warned s buf). assert (HGw : grows s w) by apply grows_warned.
  split.
  { intros HL. rewrite HD. replace (length buf <? 30)%nat with true by lia. split; [reflexivity|]. split; [exact HGw|reflexivity]. }
  intros HL. replace (length buf <? 30)%nat with false in HD by lia.
  unfold model_body. apply wpx_bind. unfold for_acc at 1. eapply wpx_conseq; [apply load_pairs_spec| | |].
  2:{ cbv beta. intros s' (Hd & ->). rewrite HD, Hd. split; [reflexivity|]. split; [exact HGw|reflexivity]. }
  2:{ cbv beta. intros s' (Hd & ->). rewrite HD, Hd. split; [reflexivity|exact HGw]. }
  cbv beta. intros [vals bf] s' (kvs & Hd & Hv & ->). cbn [fst snd] in *. subst vals. rewrite Hd in HD.
  apply wpx_bind. unfold for_acc at 1. eapply wpx_conseq; [apply load_layers_spec| | |intros ? []].
  2:{ cbv beta. intros s1 (Hd2 & HG & HO & HLg). rewrite HD, Hd2. split; [reflexivity|]. split; [eapply grows_trans; eauto|]. rewrite HLg. reflexivity. }
  cbv beta. intros [layers bf2] s1 (es & Hd2 & Hlen & Hls & Href & Hok & Hsm & Hnd & Hfr & HG & HO & HLg). cbn [fst snd app] in *. subst layers. rewrite Hd2 in HD.
  apply wpx_ret. cbv beta iota.
  assert (HG1 : grows s s1) by (eapply grows_trans; eauto).
  eapply wpx_conseq; [apply (load_rest_spec HI HF s1 es (string_at 4 5 buf) (int8_at 9 buf) (int32_at 10 buf) (int32_at 14 buf) (int8_at 18 buf) (int8_at 19 buf) (f64_at B 20 buf) (int8_at 28 buf) kvs bf2)| | |intros ? []]; auto; try lia.
  { unfold small_int. pose proof (int32_range 14 buf). lia. }
  - cbv beta. intros [m rest] s2 (l & k & El & Ek & Eok & Er & Es & Em). cbn [fst snd] in *. subst rest m s2. rewrite El, Ek, Eok in HD.
    eexists _, es. unfold assembled. split; [exact HD|].
    apply andb_true_iff in Eok as [Eok Ep]. apply andb_true_iff in Eok as [Ef Eo]. apply Z.eqb_eq in Eo.
    split. { unfold represents. cbn [d_layers d_loss d_acc d_prec d_opt m_loss m_losstype m_acctype m_prec m_opttype m_optvals m_opts].
      split. { unfold consistent. cbn [m_layers m_size m_in m_out]. do 4 (split; [reflexivity|]).
        split; [exact (fits_chain _ None Ef)|]. eapply Forall_impl; [|exact Hok]. intros e. apply lok_with_opts. }
      split; [reflexivity|]. split. { split; [|exact Hnd]. rewrite Href. apply seq_NoDup. }
      split; [now rewrite Eo|]. split; [reflexivity|]. split; [reflexivity|]. split; [reflexivity|].
      split; [now rewrite optimizer_of_kind|]. split; [reflexivity|]. split; [now rewrite HO|].
      intros j Hj. cbn [h_opts with_opts]. replace (h_opts s1) with (h_opts s) by (rewrite HO; reflexivity).
      rewrite nth_error_app2 by lia. replace (length (h_opts s) + j - length (h_opts s))%nat with j by lia.
      apply nth_error_repeat. exact Hj. }
    split; [rewrite Href, Hlen; reflexivity|]. split; [exact Hfr|]. split; [exact Hsm|].
    split; [now apply grows_with_opts|]. cbn [h_log with_opts]. rewrite HLg. reflexivity.
  - cbv beta. intros s2 (Hc & (os & ->)). split.
    + rewrite HD. destruct (loss_of_code (int8_at 18 buf)); [|reflexivity]. destruct (opt_of_code (int8_at 28 buf)); [|reflexivity].
      destruct Hc as [Hc|[Hc| ->]]; [discriminate|discriminate|reflexivity].
    + split; [now apply grows_with_opts|]. cbn [h_log with_opts]. rewrite HLg. reflexivity.
Qed.
End WithNum.
