(** * TextLog: error messages, log lines and the log file. *)
From Coq Require Import String ZArith Reals Lra Lia Bool Ascii List Psatz QArith.
From Flocq Require Import Core.Core IEEE754.BinarySingleNaN IEEE754.Binary IEEE754.Bits.
From Verif Require Import Num Heap Spec Repr FitFacts EvalFrame RoundSpec Rounding NumB64 B64Facts LayerData ModelData Loss Network ModelGo PureSpec OptSpec ModelSpec Built FitGlue ExamplesFacts NumQ Ex ModelEx TextGo TextSpec TextFacts.
Import ListNotations.
Open Scope string_scope.
Open Scope Z_scope.

(** ** Errors *)
(** The constant messages of the loader. *)
Definition load_messages : list string :=
  ["nn.LoadLayer: Invalid magic bytes. Check that the data is not corrupted."; "nn.LoadLayer: Invalid layer type value.";
   "nn.LoadModel: Invalid magic bytes. Check that the data is not corrupted."; "nn.LoadModel: Invalid loss type.";
   "nn.LoadModel: Invalid optimizer type."].
Definition known_error (e : err) : Prop := plain_error e \/ e = EEOF \/ e = EUnexpectedEOF \/ exists msg, e = EMsg msg /\ In msg load_messages.
Lemma append_cancel p a b : p ++ a = p ++ b -> a = b.
Proof. induction p as [|c p IH]; simpl; intros E; [exact E|]. injection E as E. auto. Qed.
Lemma pair_inj a b c d : fmt_d a ++ ", " ++ fmt_d b = fmt_d c ++ ", " ++ fmt_d d -> a = c /\ b = d.
Proof.
  intros E. apply fmt_d_inj in E as [-> E]; [|reflexivity|reflexivity]. apply (append_cancel ", ") in E.
  rewrite <- (app_nil_s (fmt_d b)), <- (app_nil_s (fmt_d d)) in E. apply fmt_d_inj in E as [-> _]; auto; exact I.
Qed.
Lemma last_inj a b : fmt_d a = fmt_d b -> a = b.
Proof. intros E. rewrite <- (app_nil_s (fmt_d a)), <- (app_nil_s (fmt_d b)) in E. apply fmt_d_inj in E as [-> _]; auto; exact I. Qed.
Definition all_messages := (messages ++ load_messages)%list.
Lemma known_cases e : known_error e ->
  match e with EMsg msg => In msg all_messages | _ => True end.
Proof.
  intros [H|[->|[->|(msg & -> & H)]]]; [|exact I|exact I|apply in_or_app; auto].
  destruct e; auto. apply in_or_app. left. exact H.
Qed.
Lemma msg_not_dims msg p t : In msg all_messages -> (forall m, In m all_messages -> expect p m = None) -> msg <> p ++ t.
Proof. intros H HP E. specialize (HP msg H). rewrite E, expect_app in HP. discriminate. Qed.
Ltac all_msgs := let m := fresh in let H := fresh in intros m H; unfold all_messages, messages, load_messages in H; simpl in H; repeat destruct H as [<-|H]; try reflexivity; contradiction.
Lemma err_text_inj e e' : known_error e -> known_error e' -> err_text e = err_text e' -> e = e'.
Proof.
  intros H H'. apply known_cases in H. apply known_cases in H'. intros E.
  assert (N1 : forall m, In m all_messages -> expect "nn.Matrix: Invalid matrix dimensions: " m = None) by all_msgs.
  assert (N2 : forall m, In m all_messages -> expect "nn.Matrix: Invalid index for matrix: " m = None) by all_msgs.
  assert (N3 : forall m, In m all_messages -> expect "nn.Matrix: Invalid slice dimensions: " m = None) by all_msgs.
  assert (N4 : forall m, In m all_messages -> expect "nn.Layer: Invalid layer dimensions: " m = None) by all_msgs.
  assert (N5 : forall m, In m all_messages -> expect "nn.Loss: Invalid loss input size: " m = None) by all_msgs.
  assert (N6 : forall m, In m all_messages -> expect "EOF" m = None) by all_msgs.
  assert (N7 : forall m, In m all_messages -> expect "unexpected EOF" m = None) by all_msgs.
  destruct e as [a b|a b|a|a b|a|msg| |], e' as [a' b'|a' b'|a'|a' b'|a'|msg'| |]; unfold err_text in E; try reflexivity;
    try (exfalso; eapply msg_not_dims; [exact H'| |symmetry; exact E]; assumption);
    try (exfalso; eapply msg_not_dims; [exact H| |exact E]; assumption);
    try (apply append_cancel in E; first [apply pair_inj in E as [-> ->]|apply last_inj in E as ->]; reflexivity);
    try discriminate E; try (subst; reflexivity).
  all: first [ exfalso; apply (msg_not_dims msg "EOF" "" H N6); exact E | exfalso; apply (msg_not_dims msg "unexpected EOF" "" H N7); exact E
             | exfalso; apply (msg_not_dims msg' "EOF" "" H' N6); symmetry; exact E | exfalso; apply (msg_not_dims msg' "unexpected EOF" "" H' N7); symmetry; exact E ].
Qed.
(** The numbers in the messages. *)
Lemma read_one_text p n : read_one p (p ++ fmt_d n) = Some n.
Proof. unfold read_one. rewrite expect_app, <- (app_nil_s (fmt_d n)), read_fmt_d by exact I. reflexivity. Qed.
Lemma read_two_text p a b : read_two p (p ++ fmt_d a ++ ", " ++ fmt_d b) = Some (a, b).
Proof.
  unfold read_two. rewrite expect_app, read_fmt_d by reflexivity. rewrite expect_app, <- (app_nil_s (fmt_d b)), read_fmt_d by exact I. reflexivity.
Qed.
Lemma error_numbers a b : read_two "nn.Matrix: Invalid matrix dimensions: " (err_text (EMatDims a b)) = Some (a, b) /\
  read_two "nn.Matrix: Invalid index for matrix: " (err_text (EMatIndex a b)) = Some (a, b) /\
  read_two "nn.Layer: Invalid layer dimensions: " (err_text (ELayerDims a b)) = Some (a, b) /\
  read_one "nn.Matrix: Invalid slice dimensions: " (err_text (ESliceDims a)) = Some a /\ read_one "nn.Loss: Invalid loss input size: " (err_text (ELossSize a)) = Some a.
Proof. repeat split; first [apply read_two_text|apply read_one_text]. Qed.
(** What a line of the log file starts with, and the warning. *)
Lemma level_text (L : libm) (l : logline (B64 L)) stamp : exists rest, entry_text stamp l = (match l with
  | LInfo _ _ _ | LValInfo _ _ _ => "[info]: " | LError _ _ => "[error]: " | LWarning _ => "[warning]: " end) ++ stamp ++ " " ++ rest.
Proof. unfold entry_text. destruct l; eexists; reflexivity. Qed.
Lemma warning_text (L : libm) v : line_text (LWarning (K := B64 L) v) = "Model version " ++ v ++ " may be incompatable with nn version 1.0.3.".
Proof. reflexivity. Qed.
(** An error line tells what failed and with which error. *)
Lemma error_line_inj (L : libm) what what' e e' : In what fit_messages -> In what' fit_messages -> known_error e -> known_error e' ->
  line_text (L := L) (LError what e) = line_text (L := L) (LError what' e') -> what = what' /\ e = e'.
Proof.
  intros H H' He He' E. unfold line_text in E.
  simpl in H, H'. repeat destruct H as [<-|H]; try contradiction; repeat destruct H' as [<-|H']; try contradiction;
    try discriminate E; (split; [reflexivity|]); apply append_cancel in E; apply err_text_inj; assumption.
Qed.

(** ** Information lines *)
Lemma read_line (L : libm) ep loss acc :
  read_info (line_text (L := L) (LInfo ep loss acc)) = Some (false, ep, reading_of loss, reading_of acc) /\
  read_info (line_text (L := L) (LValInfo ep loss acc)) = Some (true, ep, reading_of loss, reading_of acc).
Proof.
  split; unfold read_info, line_text; rewrite expect_app.
  - rewrite read_fmt_d by reflexivity. change (expect ", Validation" (", Loss: " ++ fmt_f loss ++ ", Accuracy: " ++ fmt_f acc)) with (@None string).
    cbv beta iota. rewrite expect_app. rewrite read_fmt_f_of by reflexivity. rewrite expect_app. rewrite <- (app_nil_s (fmt_f acc)), read_fmt_f_of by exact I. reflexivity.
  - rewrite read_fmt_d by reflexivity.
    change (expect ", Validation" (", Validation Loss: " ++ fmt_f loss ++ ", Validation Accuracy: " ++ fmt_f acc))
      with (Some (" Loss: " ++ fmt_f loss ++ ", Validation Accuracy: " ++ fmt_f acc)).
    cbv beta iota. rewrite expect_app. rewrite read_fmt_f_of by reflexivity. rewrite expect_app. rewrite <- (app_nil_s (fmt_f acc)), read_fmt_f_of by exact I. reflexivity.
Qed.
Lemma read_error_line (L : libm) what e : In what fit_messages -> read_info (line_text (L := L) (LError what e)) = None.
Proof. intros H. simpl in H. repeat destruct H as [<-|H]; try contradiction; reflexivity. Qed.
Lemma read_warning (L : libm) v : read_info (line_text (L := L) (LWarning v)) = None.
Proof. reflexivity. Qed.
Lemma reading_close x : match reading_of x with
  | Decimal v => b64_finite x = true /\ (Rabs (v - b64_R x) <= 5 / 10 ^ 7)%R
  | Infinite s => x = b64_inf s
  | NotANumber => b64_nan x = true end.
Proof. destruct x; simpl; auto; (split; [reflexivity|]); apply millionths_close. Qed.
Lemma reading_mono x y v w : reading_of x = Decimal v -> reading_of y = Decimal w -> (b64_R x <= b64_R y)%R -> (v <= w)%R.
Proof.
  intros Hx Hy H. assert (HM := millionths_mono x y H).
  assert (Ex : v = (IZR (millionths x) / 10 ^ 6)%R) by (destruct x; try discriminate; now injection Hx).
  assert (Ey : w = (IZR (millionths y) / 10 ^ 6)%R) by (destruct y; try discriminate; now injection Hy).
  subst. apply Rmult_le_compat_r; [|apply IZR_le, HM]. left. apply Rinv_0_lt_compat. simpl. lra.
Qed.

(** The lines of a training run. *)
Definition shown (t : string) : option (bool * Z) := option_map (fun r => (fst (fst (fst r)), snd (fst (fst r)))) (read_info t).
(** The epochs 0, 1, ... that are reported, with validation or without. *)
Definition reported (val : bool) (every : Z) (epochs : nat) : list (bool * Z) :=
  if every =? 0 then [] else
  flat_map (fun e => if (Z.of_nat e mod every =? 0) then (false, Z.of_nat e) :: (if val then [(true, Z.of_nat e)] else []) else []) (seq 0 epochs).
Section Run.
Context {L : libm}.
Notation K := (B64 L).
Lemma shown_info ep l a : shown (line_text (L := L) (LInfo ep l a)) = Some (false, ep).
Proof. unfold shown. now rewrite (proj1 (read_line L ep l a)). Qed.
Lemma shown_val ep l a : shown (line_text (L := L) (LValInfo ep l a)) = Some (true, ep).
Proof. unfold shown. now rewrite (proj2 (read_line L ep l a)). Qed.
Lemma plog_shown (m : model K) k o X Y val every e ps :
  map shown (map (line_text (L := L)) (plog m k o X Y val every (Z.of_nat e) ps)) =
  map Some (if every =? 0 then [] else if (Z.of_nat e mod every =? 0) then (false, Z.of_nat e) :: (if match val with Some _ => true | None => false end then [(true, Z.of_nat e)] else []) else []).
Proof.
  unfold plog. destruct (every =? 0) eqn:E0; cbn [negb andb]; [reflexivity|].
  assert (EM : (Z.rem (Z.of_nat e) every =? 0) = (Z.of_nat e mod every =? 0)).
  { apply Bool.eq_true_iff_eq. rewrite !Z.eqb_eq. rewrite Z.rem_divide, Z.mod_divide by lia. reflexivity. }
  rewrite EM. destruct (Z.of_nat e mod every =? 0); [|reflexivity].
  destruct (ploss_acc m k o ps X Y) as [l a]. destruct val as [[X' Y']|].
  - destruct (ploss_acc m k o ps X' Y') as [l' a']. cbn [map]. now rewrite shown_info, shown_val.
  - cbn [map]. now rewrite shown_info.
Qed.
Lemma pfit_shown (m : model K) k o b X Y val every n : forall e ts U q ts' q' ls,
  pfit m k o b X Y val every n (Z.of_nat e) ts U q = (ts', q', ls) ->
  map shown (map (line_text (L := L)) ls) = map Some (if every =? 0 then [] else
    flat_map (fun e => if (Z.of_nat e mod every =? 0) then (false, Z.of_nat e) :: (if match val with Some _ => true | None => false end then [(true, Z.of_nat e)] else []) else []) (seq e n)).
Proof.
  induction n as [|n IH]; intros e ts U q ts' q' ls H; cbn [pfit] in H.
  - injection H as <- <- <-. simpl. now destruct (every =? 0).
  - destruct (ptrain_on k o ts U q (combine (chunks b X) (chunks b Y))) as [ts1 q1].
    replace (Z.of_nat e + 1) with (Z.of_nat (S e)) in H by lia.
    destruct (pfit m k o b X Y val every n (Z.of_nat (S e)) ts1 U q1) as [[ts2 q2] ls2] eqn:E.
    injection H as <- <- <-. rewrite !map_app, (IH _ _ _ _ _ _ _ E), plog_shown. destruct (every =? 0); [reflexivity|].
    rewrite <- map_app. reflexivity.
Qed.
Lemma fit_log_text (s : state K) m es xs i o k x rsx y rsy n X Y epochs bs xv yv val every :
  min_faithful K -> 0 <= bs -> Z.of_nat n + bs <= 2 ^ 52 -> (1 <= n)%nat ->
  trainable s m es xs i o k -> data_ok s es x rsx y rsy n i o X Y -> log_ok s m es xv yv i o val every ->
  returns (Fit m x y epochs bs xv yv every) s (fun _ s' => exists ls, h_log s' = (h_log s ++ ls)%list /\
    map shown (map (line_text (L := L)) ls) = map Some (reported (match val with Some _ => true | None => false end) every (Z.to_nat epochs))).
Proof.
  intros HM Hb HB Hn HT HD HL. destruct (fit_logs s m es xs i o k x rsx y rsy n X Y epochs bs xv yv val every HM Hb HB Hn HT HD HL) as ([] & s' & E & HQ).
  exists tt, s'. split; [exact E|].
  destruct (pfit m k o (batch_rows n bs) X Y val every (Z.to_nat epochs) 0 (trainer es xs) (r_uni (h_rng s)) (r_upos (h_rng s))) as [[ts' q'] ls] eqn:EP.
  destruct HQ as (nn & _ & es' & xs' & _ & _ & _ & _ & HE). exists ls. split; [apply HE|].
  apply (pfit_shown _ _ _ _ _ _ _ _ _ 0%nat) in EP. exact EP.
Qed.

(** ** The file *)
Lemma one_line_cons c t : one_line (String c t) <-> c <> ascii_of_nat 10 /\ one_line t.
Proof.
  split.
  - intros H. split; [intros ->; exact (H 0%nat eq_refl)|]. intros i. exact (H (S i)).
  - intros [H1 H2] [|i]; [simpl; congruence|]. exact (H2 i).
Qed.
Lemma one_line_app a b : one_line a -> one_line b -> one_line (a ++ b).
Proof. induction a as [|c a IH]; simpl; intros Ha Hb; [exact Hb|]. apply one_line_cons in Ha as [H1 H2]. apply one_line_cons. auto. Qed.
Fixpoint no_newline (t : string) : bool := match t with EmptyString => true | String c t => negb (Ascii.eqb c (ascii_of_nat 10)) && no_newline t end.
Lemma no_newline_ok t : no_newline t = true -> one_line t.
Proof.
  induction t as [|c t IH]; [intros _ [|i]; discriminate|]. cbn [no_newline]. intros H. apply andb_prop in H as [H1 H2].
  apply one_line_cons. split; [|auto]. intros ->. discriminate.
Qed.
Lemma nat_ascii_10 c : c <> ascii_of_nat 10 -> (nat_of_ascii c =? 10)%nat = false.
Proof. intros H. apply Nat.eqb_neq. intros E. apply H. rewrite <- E. symmetry. apply ascii_nat_embedding. Qed.
Lemma split_line a : forall cur t, one_line a -> split_lines cur (a ++ String newline t) = (cur ++ a) :: split_lines "" t.
Proof.
  induction a as [|c a IH]; intros cur t H.
  - simpl. now rewrite app_nil_s.
  - apply one_line_cons in H as [H1 H2]. cbn [append split_lines]. rewrite nat_ascii_10 by exact H1. rewrite IH by exact H2. now rewrite app_assoc_s.
Qed.
Lemma one_line_ends t : one_line t -> ends_line t = false.
Proof.
  induction t as [|c t IH]; intros H; [reflexivity|]. apply one_line_cons in H as [H1 H2]. destruct t; [|exact (IH H2)].
  simpl. apply Ascii.eqb_neq. exact H1.
Qed.
Definition shown_entry (e : string * logline K) : string := level (snd e) ++ fst e ++ " " ++ line_text (snd e).
Lemma file_of_entries (ls : list (string * logline K)) : List.Forall (fun e => one_line (fst e) /\ one_line (line_text (snd e))) ls ->
  file_lines (log_text ls) = map shown_entry ls.
Proof.
  induction 1 as [|[stamp l] ls [H1 H2] _ IH]; [reflexivity|]. cbn [fst snd] in H1, H2.
  unfold file_lines in *. change (log_text ((stamp, l) :: ls)) with (entry_text stamp l ++ log_text ls). unfold entry_text.
  rewrite (one_line_ends _ H2). rewrite !app_assoc_s. change (String newline "" ++ log_text ls) with (String newline (log_text ls)).
  replace (level l ++ stamp ++ " " ++ line_text l ++ String newline (log_text ls))
    with ((level l ++ stamp ++ " " ++ line_text l) ++ String newline (log_text ls)) by (now rewrite !app_assoc_s).
  rewrite split_line.
  - rewrite IH. reflexivity.
  - apply one_line_app; [destruct l; apply no_newline_ok; reflexivity|]. apply one_line_app; [exact H1|]. apply one_line_app; [apply no_newline_ok; reflexivity|exact H2].
Qed.
(** Numbers and known messages contain no line feed. *)
Lemma digit_line d : 0 <= d < 10 -> digit d <> ascii_of_nat 10.
Proof. intros H E. assert (HD := digit_read d H). rewrite E in HD. discriminate. Qed.
Lemma digits_line fuel : forall n acc, one_line acc -> one_line (digits fuel n acc).
Proof.
  induction fuel as [|f IH]; intros n acc H; [exact H|]. assert (HB := Z.mod_pos_bound n 10 ltac:(lia)).
  assert (one_line (String (digit (n mod 10)) acc)) by (apply one_line_cons; split; [apply digit_line; lia|exact H]).
  cbn [digits]. destruct (n <? 10); auto.
Qed.
Lemma pad_line w : forall n acc, one_line acc -> one_line (fmt_pad w n acc).
Proof.
  induction w as [|w IH]; intros n acc H; [exact H|]. assert (HB := Z.mod_pos_bound n 10 ltac:(lia)). cbn [fmt_pad]. apply IH.
  apply one_line_cons. split; [apply digit_line; lia|exact H].
Qed.
Ltac const_line := apply no_newline_ok; reflexivity.
Lemma fmt_nat_line n : one_line (fmt_nat n).
Proof. apply digits_line. const_line. Qed.
Lemma fmt_d_line n : one_line (fmt_d n).
Proof. unfold fmt_d. destruct (n <? 0); [|apply fmt_nat_line]. apply one_line_app; [const_line|apply fmt_nat_line]. Qed.
Lemma fmt_f_line x : one_line (fmt_f x).
Proof.
  assert (H : forall s n, one_line (sign_text s ++ fmt_micro n)).
  { intros s n. apply one_line_app; [destruct s; const_line|]. unfold fmt_micro. apply one_line_app; [apply fmt_nat_line|].
    apply one_line_app; [const_line|]. apply pad_line. const_line. }
  destruct x as [s|[]|s pl Hpl|s m e Hb]; try const_line; apply H.
Qed.
Lemma err_line e : known_error e -> one_line (err_text e).
Proof.
  intros H. apply known_cases in H. destruct e; unfold err_text; try const_line; try (repeat apply one_line_app; try apply fmt_d_line; const_line).
  unfold all_messages, messages, load_messages in H. simpl in H. repeat destruct H as [<-|H]; try contradiction; const_line.
Qed.
Lemma line_one_line (l : logline K) : match l with LError what e => In what fit_messages /\ known_error e | LWarning v => one_line v | _ => True end ->
  one_line (line_text l).
Proof.
  intros H. destruct l as [ep a b|ep a b|what e|v]; unfold line_text.
  - repeat apply one_line_app; try apply fmt_d_line; try apply fmt_f_line; const_line.
  - repeat apply one_line_app; try apply fmt_d_line; try apply fmt_f_line; const_line.
  - destruct H as [H He]. apply one_line_app; [|apply err_line, He]. simpl in H. repeat destruct H as [<-|H]; try contradiction; const_line.
  - repeat apply one_line_app; try exact H; const_line.
Qed.
(** Fit's error is in the last line. *)
Lemma fit_error_text (s : state K) m x y ep bs xv yv every e s' : Fit m x y ep bs xv yv every s = (Fail e, s') ->
  plain_error e /\ exists ls what, In what fit_messages /\ h_log s' = (ls ++ [LError what e])%list /\ line_text (LError (K := K) what e) = what ++ err_text e /\
    one_line (what ++ err_text e).
Proof.
  intros E. assert (HP : plain_error e) by (eapply logging_errors; [apply l_Fit|exact E]).
  split; [exact HP|]. destruct (logging_error _ (l_Fit m x y ep bs xv yv every) _ _ _ E) as (_ & ls & what & HI & HL).
  exists ls, what. repeat split; auto. apply (line_one_line (LError what e)). split; [exact HI|left; exact HP].
Qed.
(** ** Accuracies *)
Lemma rnd_unit_close x : (0 <= x <= 1)%R -> (Rabs (rnd x - x) <= / 10 ^ 15)%R.
Proof.
  intros [H0 H1]. eapply Rle_trans; [apply rnd_error|]. rewrite (Rabs_pos_eq x H0).
  assert (HU : (u64 <= / (2 * 10 ^ 15))%R).
  { unfold u64. apply Rinv_le_contravar; simpl; lra. }
  assert (HE : (eta64 <= u64)%R) by (rewrite eta64_bpow, u64_bpow; apply bpow_le; lia).
  assert (HP := u64_pos). assert (HI : (/ (2 * 10 ^ 15) = / 2 * / 10 ^ 15)%R) by (field; simpl; lra). nra.
Qed.
(** For up to 999999 samples the printed accuracy tells how many were right. *)
Lemma accuracy_text (a b n : Z) : 0 <= a <= n -> 0 <= b <= n -> 1 <= n < 10 ^ 6 ->
  fmt_f (fdiv (n := B64 L) (ofZ a) (ofZ n)) = fmt_f (fdiv (n := B64 L) (ofZ b) (ofZ n)) -> a = b.
Proof.
  intros Ha Hb Hn E. change (10 ^ 6) with 1000000 in Hn.
  destruct (b64_quot a n) as [Fa Ra]; [lia|lia|]. destruct (b64_quot b n) as [Fb Rb]; [lia|lia|].
  apply fmt_f_same in E; [|exact Fa|exact Fb].
  change (fdiv (n := B64 L) (ofZ a) (ofZ n)) with (b64_div mode_NE (b64_ofZ a) (b64_ofZ n)) in E.
  change (fdiv (n := B64 L) (ofZ b) (ofZ n)) with (b64_div mode_NE (b64_ofZ b) (b64_ofZ n)) in E. rewrite Ra, Rb in E.
  assert (HN : (1 <= IZR n <= 999999)%R) by (split; apply IZR_le; lia).
  assert (HQ : forall c, 0 <= c <= n -> (0 <= IZR c / IZR n <= 1)%R).
  { intros c Hc. assert (0 <= IZR c <= IZR n)%R by (split; apply IZR_le; lia). split.
    - apply Rmult_le_pos; [lra|]. left. apply Rinv_0_lt_compat. lra.
    - apply Rmult_le_reg_r with (IZR n); [lra|]. unfold Rdiv. rewrite Rmult_assoc, Rinv_l by lra. lra. }
  assert (Ca := rnd_unit_close _ (HQ a Ha)). assert (Cb := rnd_unit_close _ (HQ b Hb)).
  apply Rabs_le_inv in Ca. apply Rabs_le_inv in Cb. apply Rabs_le_inv in E.
  assert (HD : (IZR a / IZR n - IZR b / IZR n = IZR (a - b) * / IZR n)%R) by (rewrite minus_IZR; field; lra).
  assert (HI : (/ 999999 <= / IZR n)%R) by (apply Rinv_le_contravar; lra).
  replace (10 ^ 15)%R with 1000000000000000%R in * by (simpl; ring). replace (10 ^ 6)%R with 1000000%R in * by (simpl; ring).
  destruct (Z.lt_trichotomy a b) as [H|[H|H]]; [exfalso|exact H|exfalso].
  - assert (HS : (IZR (a - b) <= -1)%R) by (apply IZR_le; lia). apply (Rmult_le_compat_r (/ IZR n)) in HS; lra.
  - assert (HS : (1 <= IZR (a - b))%R) by (apply IZR_le; lia). apply (Rmult_le_compat_r (/ IZR n)) in HS; lra.
Qed.
(** With four million samples it does not. *)
Lemma accuracy_text_large : exists a n : Z, 0 <= a < n /\ n = 4000000 /\ fmt_f (fdiv (n := B64 L) (ofZ a) (ofZ n)) = "1.000000".
Proof. exists 3999999, 4000000. split; [lia|]. split; [reflexivity|]. vm_compute. reflexivity. Qed.
(** A printed loss of zero is not a loss of zero. *)
Definition tl_row (x : K) : list K := [x].
Definition tl_state : state K := MkState [tl_row (fdiv f1 (ofZ (2 ^ 30))); tl_row f0] [[1%nat]; [2%nat]] [] [] (MkRng (fun _ => f0) (fun _ => f0) (fun _ => 0) 0 0 0) true [].
Definition tl_mat (k : nat) : matrix := MkMatrix 1 1 (MkSlice k 0 1).
Definition is_ret {A} (r : outcome A * state K) : bool := match fst r with Ret _ => true | _ => false end.
Definition value {A} (z : A) (r : outcome A * state K) : A := match fst r with Ret a => a | _ => z end.
Lemma is_ret_eq {A} (z : A) (r : outcome A * state K) : is_ret r = true -> r = (Ret (value z r), snd r).
Proof. destruct r as [[a|e|p] s]; try discriminate. reflexivity. Qed.
Lemma zero_loss_text : exists (s s' : state K) yhat y rs1 rs2 P Y v, own s yhat rs1 1 1 P /\ own s y rs2 1 1 Y /\ P <> Y /\
  Loss_Forward (MkLoss MAE 1) yhat y s = (Ret v, s') /\ flt f0 v = true /\ fmt_f v = "0.000000".
Proof.
  exists tl_state. eexists. exists (tl_mat 1), (tl_mat 2), [1%nat], [2%nat], [tl_row (fdiv f1 (ofZ (2 ^ 30)))], [tl_row f0].
  exists (value f0 (Loss_Forward (MkLoss MAE 1) (tl_mat 1) (tl_mat 2) tl_state)).
  split; [own_tac|]. split; [own_tac|]. split.
  - intros E. assert (H : feq (n := K) (entry [tl_row (fdiv f1 (ofZ (2 ^ 30)))] 0 0) f0 = true) by (rewrite E; vm_compute; reflexivity).
    vm_compute in H. discriminate.
  - split; [apply is_ret_eq; vm_compute; reflexivity|]. split; vm_compute; reflexivity.
Qed.
(** A warning can take up two lines of the file. *)
Definition tl_bytes : list Byte.byte := list_byte_of_string ("NNML1" ++ String newline "[e]").
Definition tl_warning : logline K := LWarning ("1" ++ String newline "[e]").
Lemma tl_load (B : FBits K) (s : state K) : LoadModel B tl_bytes (with_log (with_logger s true) []) = (Fail EEOF, with_log (with_logger s true) [tl_warning]).
Proof. reflexivity. Qed.
Lemma two_lines (B : FBits K) : exists (s s' : state K) buf e l, h_log s = [] /\ LoadModel B buf s = (Fail e, s') /\ h_log s' = [l] /\
  forall stamp, one_line stamp -> length (file_lines (log_text [(stamp, l)])) = 2%nat.
Proof.
  exists (with_log (with_logger tl_state true) []). eexists. exists tl_bytes. eexists. exists tl_warning. split; [reflexivity|]. split; [apply tl_load|].
  split; [reflexivity|]. intros stamp H. unfold file_lines, log_text, entry_text. cbn [fold_right level line_text tl_warning].
  set (rest := "[e]" ++ " may be incompatable with nn version " ++ VERSION ++ ".").
  replace (("[warning]: " ++ stamp ++ " " ++ ("Model version " ++ ("1" ++ String newline "[e]") ++ " may be incompatable with nn version " ++ VERSION ++ ".") ++
    (if ends_line ("Model version " ++ ("1" ++ String newline "[e]") ++ " may be incompatable with nn version " ++ VERSION ++ ".") then "" else String newline "")) ++ "")
    with (("[warning]: " ++ stamp ++ " Model version 1") ++ String newline (rest ++ String newline "")).
  - rewrite split_line; [|apply one_line_app; [const_line|apply one_line_app; [exact H|const_line]]].
    rewrite split_line; [reflexivity|const_line].
  - unfold rest. rewrite !app_assoc_s. reflexivity.
Qed.
End Run.
(** A failed backward pass is announced as a forward pass. *)
Definition ran_well {K A} (r : outcome A * state K) : bool := match fst r with Ret _ => true | _ => false end.
Lemma misnamed_pass : exists (s : state QNum) m x y e, (exists outs s1, Forward m x true s = (Ret outs, s1) /\ fst (Backward m outs y s1) = Fail e) /\
  fst (Fit m x y 1 0 matrix0 matrix0 0 s) = Fail e /\ h_log s = [] /\ h_log (snd (Fit m x y 1 0 matrix0 matrix0 0 s)) = [LError "Failed to perform forward pass: " e].
Proof.
  exists mes, eM, eX, eX, (EMatDims 3 2). split; [|split; [vm_compute; reflexivity|split; [reflexivity|vm_compute; reflexivity]]].
  exists (match fst (Forward eM eX true mes) with Ret o => o | _ => [] end), (snd (Forward eM eX true mes)). split.
  - assert (H : ran_well (Forward eM eX true mes) = true) by (vm_compute; reflexivity).
    destruct (Forward eM eX true mes) as [[o|e|p] s1]; try discriminate. reflexivity.
  - vm_compute. reflexivity.
Qed.
(** What a printed number tells about [x]. *)
Definition tells (r : reading) (x : binary64) : Prop :=
  match r with
  | Decimal v => b64_finite x = true /\ (Rabs (v - b64_R x) <= 5 / 10 ^ 7)%R
  | Infinite neg => x = b64_inf neg
  | NotANumber => b64_nan x = true
  end.
Lemma tells_of x : tells (reading_of x) x.
Proof. exact (reading_close x). Qed.
Lemma info_text (L : libm) (val : bool) ep (loss acc : B64 L) :
  exists rl ra, read_info (line_text (L := L) (if val then LValInfo ep loss acc else LInfo ep loss acc)) = Some (val, ep, rl, ra) /\ tells rl loss /\ tells ra acc.
Proof.
  exists (reading_of loss), (reading_of acc). split; [|split; apply tells_of]. destruct val; [apply (proj2 (read_line L ep loss acc))|apply (proj1 (read_line L ep loss acc))].
Qed.
Lemma mono_text x y v w : read_float (fmt_f x) = Some (Decimal v, "") -> read_float (fmt_f y) = Some (Decimal w, "") ->
  (b64_R x <= b64_R y)%R -> (v <= w)%R.
Proof.
  rewrite <- (app_nil_s (fmt_f x)), <- (app_nil_s (fmt_f y)), !read_fmt_f_of by exact I. intros Hx Hy.
  injection Hx as Hx. injection Hy as Hy. eapply reading_mono; eauto.
Qed.
Lemma fixed_text x : b64_finite x = true -> read_float (fmt_f x) = Some (Decimal (IZR (ZnearestE (10 ^ 6 * b64_R x)) / 10 ^ 6), "").
Proof. intros H. rewrite <- (app_nil_s (fmt_f x)). apply read_fmt_finite; [exact H|exact I]. Qed.
Lemma special_text x : read_float (fmt_f x) = Some (NotANumber, "") <-> b64_nan x = true.
Proof.
  rewrite <- (app_nil_s (fmt_f x)), read_fmt_f_of by exact I. destruct x; simpl; split; intros H; try discriminate; try reflexivity.
Qed.
Lemma int_text n : read_int (fmt_d n) = Some (n, "").
Proof. rewrite <- (app_nil_s (fmt_d n)). apply read_fmt_d. exact I. Qed.
Lemma close_text x y : b64_finite x = true -> b64_finite y = true -> fmt_f x = fmt_f y -> (Rabs (b64_R x - b64_R y) <= 1 / 10 ^ 6)%R.
Proof. exact (fmt_f_same x y). Qed.
