(** * FilesProofs: a saved file determines the model; several models in one buffer. *)
From Coq.Strings Require Import Byte.
From Coq Require Import String ZArith List Bool Arith Lia Permutation.
From Verif Require Import Num Heap Spec Matrix Network Loss Optimizers ModelGo LayerData ModelData PureSpec Repr OptSpec ModelSpec HeapLemmas ModelProofs
  CodecSpec CodecBytes CodecLoad CodecModel CodecSave CodecFacts CodecMore FilesSpec.
Import ListNotations.
Open Scope Z_scope.
Open Scope go_scope.

Section WithNum.
Context {K : Num} (B : FBits K).
Implicit Types s : state K.

Lemma savable_decodes (HB : bits_ok B) s f lg rest : savable s f ->
  exists o', decode_model B lg (model_bytes B (sm_m f) (sm_ord f) (net (sm_es f)) ++ rest) = Good (PMod (map stored (net (sm_es f))) (sm_l f) (m_acctype (sm_m f)) (m_prec (sm_m f)) o', rest) /\
    clone o' = clone (sm_o f) /\ opt_values o' = opt_values (sm_o f) /\ o_kind o' = o_kind (sm_o f).
Proof.
  intros (HF & HS & HP). exists (optimizer_of (o_kind (sm_o f)) (sm_ord f)). split.
  - apply decode_model_enc; [exact HB|eapply finalized_header; eauto|eapply finalized_codable; eauto; apply HS|eapply finalized_fits; eauto].
  - destruct HF as (_ & _ & _ & _ & EV & _). rewrite EV in HP. now apply opt_of_order.
Qed.
Lemma savable_saves (HI : int_faithful K) s f : savable s f -> save B (sm_m f) (sm_ord f) s = (Ret (model_bytes B (sm_m f) (sm_ord f) (net (sm_es f))), s).
Proof.
  intros (HF & (_ & HS & _) & _). eapply finalized_save; eauto. eapply Forall_impl; [|exact HS]. intros p (A & C). split; lia.
Qed.
Lemma same_file (HI : int_faithful K) (HB : bits_ok B) s s' f f' bytes bytes' rest rest' : savable s f -> savable s' f' ->
  save B (sm_m f) (sm_ord f) s = (Ret bytes, s) -> save B (sm_m f') (sm_ord f') s' = (Ret bytes', s') -> bytes ++ rest = bytes' ++ rest' ->
  bytes = bytes' /\ rest = rest' /\ map stored (net (sm_es f)) = map stored (net (sm_es f')) /\ sm_l f = sm_l f' /\ m_acctype (sm_m f) = m_acctype (sm_m f') /\ m_prec (sm_m f) = m_prec (sm_m f') /\
  o_kind (sm_o f) = o_kind (sm_o f') /\ opt_values (sm_o f) = opt_values (sm_o f').
Proof.
  intros HF HF' E E' EQ. rewrite savable_saves in E by assumption. rewrite savable_saves in E' by assumption. injection E as <-. injection E' as <-.
  destruct (savable_decodes HB s f true rest HF) as (o1 & D1 & _ & V1 & K1). destruct (savable_decodes HB s' f' true rest' HF') as (o2 & D2 & _ & V2 & K2).
  rewrite EQ, D2 in D1. injection D1 as E1 E2 E3 E4 E5 E6. subst. split; [|split; [reflexivity|repeat split; congruence]].
  apply app_inv_tail in EQ. exact EQ.
Qed.

(** ** Sequences *)
Lemma serialize_into (HI : int_faithful K) s f buf : savable s f ->
  (d <- NewSavedModelData (sm_m f) ;; Serialize B d (sm_ord f) buf) s = (Ret (buf ++ model_bytes B (sm_m f) (sm_ord f) (net (sm_es f))), s).
Proof.
  intros ((HC & _) & (_ & HS & _) & _). pose proof HC as (Hl & Hsz & _ & _ & _ & Hok). destruct (entries _ _ Hok) as [ls HE].
  erewrite bind_eq.
  2:{ eapply NewSavedModel_run; eauto. unfold net in HS. rewrite Forall_map in HS. eapply Forall_impl; [|exact HS]. intros e (A & C). split; lia. }
  unfold Serialize, saved_model_of.
  cbn [sm_version sm_size sm_in sm_out sm_losstype sm_acctype sm_prec sm_opttype sm_optvals sm_layers].
  rewrite fold_pairs. rewrite Hsz at 1. rewrite (serialize_layers _ _ _ _ _ HE). do 2 f_equal.
  unfold model_bytes, put_string, put_int8, put_int32, put_f64. rewrite !le_bytes_enc. cbn [app]. rewrite <- !app_assoc. reflexivity.
Qed.
Definition bytes_of (f : smodel K) : list byte := model_bytes B (sm_m f) (sm_ord f) (net (sm_es f)).
Lemma save_all_run (HI : int_faithful K) s fs : Forall (savable s) fs -> forall buf, save_all B fs buf s = (Ret (buf ++ concat (map bytes_of fs)), s).
Proof.
  induction 1 as [|f fs HF _ IH]; intros buf; cbn [save_all map concat]; [now rewrite app_nil_r|].
  pose proof (serialize_into HI s f buf HF) as E. unfold bind in *. destruct (NewSavedModelData (sm_m f) s) as [[d| |] s1]; try discriminate.
  destruct (Serialize B d (sm_ord f) buf s1) as [[b| |] s2]; try discriminate. injection E as -> ->. rewrite IH. now rewrite <- app_assoc.
Qed.
Lemma represents_grows s s' m es n d : grows s s' -> represents s m es n d -> represents s' m es n d.
Proof.
  intros HG ((C1 & C2 & C3 & C4 & C5 & C6) & R). split.
  - do 5 (split; [assumption|]). eapply Forall_impl; [|exact C6]. intros e. now apply lok_grows.
  - destruct R as (R1 & R2 & R3 & R4 & R5 & R6 & R7 & R8 & R9 & R10). do 9 (split; [assumption|]).
    intros j Hj. specialize (R10 j Hj). destruct HG as (_ & _ & (os & ->) & _). rewrite nth_error_app1; [exact R10|]. apply nth_error_Some. congruence.
Qed.
(** Everything of the models [rs] lies below the bounds. *)
Definition inside (s : state K) (rs : list (rmodel K)) : Prop :=
  (forall x, In x (map e_ref (concat (map rm_es rs))) -> (x < length (h_layers s))%nat) /\ (forall x, In x (prows (concat (map rm_es rs))) -> (x <= nrows s)%nat) /\
  (forall x, In x (concat (map (fun r => m_opts (rm_m r)) rs)) -> (x < length (h_opts s))%nat).
Lemma prows_app (a b : list (lent K)) : prows (a ++ b) = prows a ++ prows b.
Proof. unfold prows. now rewrite map_app, concat_app. Qed.
Lemma load_all_run (HI : int_faithful K) (HF : feq (f0 : K) f0 = true) (HB : bits_ok B) fs : forall s2 rest, (forall f, In f fs -> exists s, savable s f) ->
  exists rs s2', load_all B (length fs) (concat (map bytes_of fs) ++ rest) s2 = (Ret (map rm_m rs, rest), s2') /\
    Forall2 (fun f r => represents s2' (rm_m r) (rm_es r) (rm_n r) (meaning f)) fs rs /\
    unshared (concat (map rm_es rs)) /\ NoDup (concat (map (fun r => m_opts (rm_m r)) rs)) /\
    (forall x, In x (map e_ref (concat (map rm_es rs))) -> (length (h_layers s2) <= x)%nat) /\ fresh s2 (prows (concat (map rm_es rs))) /\
    (forall x, In x (concat (map (fun r => m_opts (rm_m r)) rs)) -> (length (h_opts s2) <= x)%nat) /\
    grows s2 s2' /\ h_log s2' = h_log s2.
Proof.
  induction fs as [|f fs IH]; intros s2 rest HS.
  - exists [], s2. split; [reflexivity|]. split; [constructor|]. split; [split; constructor|]. split; [constructor|]. split; [intros x []|]. split; [constructor|]. split; [intros x []|].
    split; [apply grows_refl|reflexivity].
  - destruct (HS f (or_introl eq_refl)) as (s & HF1 & HS1 & HP1).
    destruct (model_round_trip B HI HF HB s (sm_m f) (sm_es f) (sm_l f) (sm_o f) (sm_ord f) (concat (map bytes_of fs) ++ rest) s2 HF1 HS1 HP1) as (_ & m' & es' & s3 & EL & HR & ER & HFr & HG & HLg).
    destruct (IH s3 rest) as (rs & s4 & EA & HRs & (U1 & U2) & NO & LB & FB & OB & HG4 & HL4); [intros g Hg; apply HS; now right|].
    exists (RM m' es' (length (h_opts s2)) :: rs), s4.
    assert (HR4 : represents s4 m' es' (length (h_opts s2)) (meaning f)) by (eapply represents_grows; eauto).
    pose proof HR as ((_ & _ & _ & _ & _ & HOK) & _ & (UR1 & UR2) & _ & _ & _ & _ & _ & _ & HOp & HOn).
    assert (L0 : forall x, In x (map e_ref es') -> (length (h_layers s2) <= x < length (h_layers s3))%nat).
    { intros x Hx. split; [rewrite ER in Hx; apply in_seq in Hx; lia|]. apply in_map_iff in Hx as (e & <- & He). assert (G := proj1 (Forall_forall _ _) HOK e He).
      destruct G as (l & El & _). apply nth_error_Some. congruence. }
    assert (R0 : forall x, In x (prows es') -> (nrows s2 < x <= nrows s3)%nat).
    { intros x Hx. split; [exact (proj1 (Forall_forall _ _) HFr x Hx)|]. unfold prows in Hx. apply in_concat in Hx as (l & Hl & Hx). apply in_map_iff in Hl as (e & <- & He).
      assert (G := lok_old _ _ (proj1 (Forall_forall _ _) HOK e He)). exact (proj1 (Forall_forall _ _) G x Hx). }
    assert (O0 : forall x, In x (m_opts m') -> (length (h_opts s2) <= x < length (h_opts s3))%nat).
    { intros x Hx. rewrite HOp in Hx. apply in_seq in Hx. split; [lia|]. specialize (HOn (x - length (h_opts s2))%nat ltac:(lia)).
      replace (length (h_opts s2) + (x - length (h_opts s2)))%nat with x in HOn by lia. apply nth_error_Some. congruence. }
    split; [|split; [|split; [|split; [|split; [|split; [|split; [|split]]]]]]].
    + cbn [length load_all map concat]. rewrite <- app_assoc. unfold bytes_of at 1. rewrite (bind_eq _ _ _ _ _ EL). cbn [snd fst]. rewrite (bind_eq _ _ _ _ _ EA). reflexivity.
    + constructor; [exact HR4|exact HRs].
    + cbn [map concat rm_es]. split.
      * rewrite map_app. apply NoDup_app_; [exact UR1|exact U1|]. intros x Hx Hx2. specialize (L0 x Hx). specialize (LB x Hx2). lia.
      * rewrite prows_app. apply NoDup_app_; [exact UR2|exact U2|]. intros x Hx Hx2. specialize (R0 x Hx). assert (G := proj1 (Forall_forall _ _) FB x Hx2). cbv beta in G. lia.
    + cbn [map concat rm_m]. apply NoDup_app_; [rewrite HOp; apply seq_NoDup|exact NO|]. intros x Hx Hx2. specialize (O0 x Hx). specialize (OB x Hx2). lia.
    + cbn [map concat rm_es]. intros x Hx. rewrite map_app in Hx. apply in_app_iff in Hx as [Hx|Hx]; [apply L0 in Hx; lia|]. specialize (LB x Hx).
      destruct HG as (_ & (ls & EE) & _). rewrite EE, app_length in LB. lia.
    + cbn [map concat rm_es]. rewrite prows_app. apply Forall_app. split; [exact HFr|]. eapply Forall_impl; [|exact FB]. cbv beta. intros x Hx. destruct HG as ((_ & _ & _ & G4) & _). lia.
    + cbn [map concat rm_m]. intros x Hx. apply in_app_iff in Hx as [Hx|Hx]; [apply O0 in Hx; lia|]. specialize (OB x Hx). destruct HG as (_ & _ & (os & EE) & _). rewrite EE, app_length in OB. lia.
    + eapply grows_trans; eauto.
    + congruence.
Qed.
Lemma sequence (HI : int_faithful K) (HF : feq (f0 : K) f0 = true) (HB : bits_ok B) s fs : Forall (savable s) fs ->
  exists bytes, save_all B fs [] s = (Ret bytes, s) /\ forall rest s2, exists rs s2', load_all B (length fs) (bytes ++ rest) s2 = (Ret (map rm_m rs, rest), s2') /\
    Forall2 (fun f r => represents s2' (rm_m r) (rm_es r) (rm_n r) (meaning f)) fs rs /\
    unshared (concat (map rm_es rs)) /\ NoDup (concat (map (fun r => m_opts (rm_m r)) rs)) /\ fresh s2 (prows (concat (map rm_es rs))) /\ grows s2 s2' /\ h_log s2' = h_log s2.
Proof.
  intros H. exists (concat (map bytes_of fs)). split; [exact (save_all_run HI s fs H [])|]. intros rest s2.
  destruct (load_all_run HI HF HB fs s2 rest) as (rs & s2' & E & A1 & A2 & A3 & _ & A5 & _ & A7 & A8); [intros f Hf; exists s; exact (proj1 (Forall_forall _ _) H f Hf)|].
  exists rs, s2'. auto 10.
Qed.
(** LoadFile reads the first model and drops the rest without a word. *)
Lemma first_only (HI : int_faithful K) (HF : feq (f0 : K) f0 = true) (HB : bits_ok B) s f bytes rest nread s2 : savable s f ->
  save B (sm_m f) (sm_ord f) s = (Ret bytes, s) -> (length (bytes ++ rest) <= nread)%nat ->
  exists m' es' s2', LoadFile B (Some (bytes ++ rest)) nread s2 = (Ret m', s2') /\ represents s2' m' es' (length (h_opts s2)) (meaning f) /\ h_log s2' = h_log s2.
Proof.
  intros HV E Hn. rewrite (savable_saves HI _ _ HV) in E. injection E as <-. destruct HV as (HF1 & HS1 & HP1).
  destruct (model_round_trip B HI HF HB s (sm_m f) (sm_es f) (sm_l f) (sm_o f) (sm_ord f) rest s2 HF1 HS1 HP1) as (_ & m' & es' & s3 & EL & HR & _ & _ & _ & HLg).
  exists m', es', s3. split; [|split; [exact HR|exact HLg]]. rewrite LoadFile_full by exact Hn. rewrite (bind_eq _ _ _ _ _ EL). reflexivity.
Qed.
End WithNum.
