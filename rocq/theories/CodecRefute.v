(** * CodecRefute: witnesses against saving and loading. *)
From Coq.Strings Require Import Byte.
From Coq Require Import String Ascii ZArith List Bool Arith Lia Permutation.
From Flocq Require Import IEEE754.Bits.
From Verif Require Import Num NumB64 Heap Spec Matrix Network Loss Optimizers ModelGo LayerData ModelData PureSpec Repr OptSpec ModelSpec HeapLemmas ModelFacts
  Ex ModelEx CodecSpec CodecBytes CodecLoad CodecModel CodecSave CodecFacts CodecMore CodecEx.
Import ListNotations.
Open Scope Z_scope.
Open Scope go_scope.

Definition no_logger {K} (s : state K) : state K := with_logger s false.

Section Generic.
Context {K : Num} (B : FBits K).
(** One optimizer value whose key has length -1; and an older version. *)
Definition neg_key : list byte := list_byte_of_string "NNML1.0.3" ++ repeat x00 20 ++ [x01; xff].
Definition old_version : list byte := list_byte_of_string "NNML1.0.2".
Lemma neg_key_panics s : LoadModel B neg_key s = (Panic PMake, s).
Proof. reflexivity. Qed.
Lemma old_version_panics s : LoadModel B old_version (no_logger s) = (Panic PNil, no_logger s).
Proof. destruct s. reflexivity. Qed.
Lemma huge_allocation_witness : exists bytes s e s', (length bytes <= 27)%nat /\ LoadLayer B bytes s = (Fail e, s') /\
  Z.of_nat (cells s') = Z.of_nat (cells s) + (2 ^ 31 - 1) * (2 ^ 31 - 1).
Proof.
  set (n := Z.to_nat (2 ^ 31 - 1)). assert (Hn : Z.of_nat n = 2 ^ 31 - 1) by (unfold n; rewrite Z2Nat.id; lia). clearbody n.
  set (s := MkState [] [] [] [] (MkRng (K := K) (fun _ => f0) (fun _ => f0) (fun _ => 0) 0 0 0) true [] : state K).
  destruct (header_allocates B s Linear n n) as (e & s' & H & HC); [lia..|].
  exists (bare_header Linear n n), s, e, s'. split; [rewrite bare_header_length; lia|]. split; [exact H|]. rewrite HC, Nat2Z.inj_add, Nat2Z.inj_mul, Hn. reflexivity.
Qed.
End Generic.

Section WithLibm.
Context (L : libm).
Notation BN := (B64 L).
Notation BB := (B64_bits L).

Lemma bytes_long (m : model BN) ord ps : (30 <= length (model_bytes BB m ord ps))%nat.
Proof. unfold model_bytes. rewrite !app_length, !enc_length, !list_byte_length, f64s_length. cbn [length String.length]. lia. Qed.
Lemma truncated_panic_witness : exists (s : state BN) m es l o ord n s2 p s2',
  finalized s m es l o /\ storable m (net es) /\ Permutation ord (m_optvals m) /\ (n < length (model_bytes BB m ord (net es)))%nat /\
  LoadModel BB (firstn n (model_bytes BB m ord (net es))) s2 = (Panic p, s2').
Proof.
  destruct (truncated_panics BB (B64_int_faithful L) (f0_c L) (cM L f0) (m_optvals (cM L f0)) (net (cEs L)) 5 (no_logger (ces L f0))) as (p & s2' & H); [lia|reflexivity|].
  exists (ces L f0), (cM L f0), (cEs L), MSE, (cO L f0), (m_optvals (cM L f0)), 5%nat, (no_logger (ces L f0)), p, s2'.
  split; [apply finalized_c|]. split; [apply storable_c|]. split; [apply Permutation_refl|]. split; [|exact H].
  pose proof (bytes_long (cM L f0) (m_optvals (cM L f0)) (net (cEs L))). lia.
Qed.

(** An accuracy type that does not exist. *)
Definition with_acc (m : model BN) (a : Z) : model BN :=
  MkModel (m_size m) (m_in m) (m_out m) (m_losstype m) (m_loss m) a (m_prec m) (m_opttype m) (m_optvals m) (m_layers m) (m_opts m).
Definition acc_bytes : list byte := model_bytes BB (with_acc (cM L f0) 3) (m_optvals (cM L f0)) (net (cEs L)).
Lemma bad_accuracy_witness : exists (s : state BN) buf m rest s' x rs X e s'', LoadModel BB buf s = (Ret (m, rest), s') /\
  own s' x rs 1 2 X /\ m_in m = 2 /\ 1 <= m_size m /\ Predict m x s' = (Fail e, s'').
Proof.
  destruct (model_round_trip BB (B64_int_faithful L) (f0_c L) (B64_bits_ok L) (ces L f0) (with_acc (cM L f0) 3) (cEs L) MSE (cO L f0) (m_optvals (cM L f0)) [] (ces L f0)) as
    (_ & m & es & s' & HL & HR & _ & _ & HG & _).
  - destruct (finalized_c L f0) as (H & H2). split; [|exact H2]. exact H.
  - destruct (storable_c L f0) as (H & H2 & _). split; [exact H|]. split; [exact H2|]. simpl. lia.
  - apply Permutation_refl.
  - rewrite app_nil_r in HL. assert (HX : own s' cX [6]%nat 1 2 ([[bz 1; bz 2]] : pm BN)).
    { destruct HG as (HF & _). eapply own_frame; [apply own_cX|exact HF|]. intros z _ []. }
    assert (HC := proj1 HR). assert (Hn := represents_net _ _ _ _ _ HR). destruct HR as (_ & _ & _ & _ & _ & Ha & _).
    assert (Hlen : length es = 2%nat) by (apply (f_equal (@length _)) in Hn; unfold net in Hn; rewrite map_length in Hn; exact Hn).
    destruct (bad_type_fails s' m es 2 1 cX [6]%nat matrix0 1 _ HC HX) as (s1 & _ & E & _); [lia|rewrite Ha; discriminate..|].
    eexists (ces L f0), _, m, [], s', cX, [6]%nat, _, _, s1. split; [exact HL|]. split; [exact HX|].
    destruct HC as (_ & Hs & Hi & _). split; [rewrite Hi; reflexivity|]. split; [rewrite Hs, Hlen; lia|exact E].
Qed.

(** Many layers: the linear layer of the example [n] times. *)
Definition cMn (n : nat) : model BN :=
  MkModel (Z.of_nat n) 1 1 0 (Some (MkLoss MSE 1)) 0 (bhalf : BN) 0 (m_optvals (cM L f0)) (repeat 1%nat n) [].
Definition cEn (n : nat) : list (lent BN) := repeat (LE 1 [4]%nat [5]%nat (cP1 L)) n.
Lemma net_n n : net (cEn n) = repeat (cP1 L) n.
Proof. unfold net, cEn. induction n as [|n IH]; [reflexivity|]. cbn. now rewrite IH. Qed.
Lemma sizes_n n : (1 <= n)%nat -> first_in (net (cEn n)) = 1%nat /\ last_out (net (cEn n)) = 1%nat.
Proof.
  intros Hn. rewrite net_n. destruct n as [|n]; [lia|]. split; [reflexivity|]. unfold last_out. clear Hn. induction n as [|n IH]; [reflexivity|]. exact IH.
Qed.
Lemma finalized_n n : (1 <= n)%nat -> finalized (ces L f0) (cMn n) (cEn n) MSE (cO L f0).
Proof.
  intros Hn. unfold finalized. destruct (sizes_n n Hn) as (-> & ->). split; [|repeat (split; [reflexivity|]); apply prec_c].
  unfold consistent, cMn. cbn [m_layers m_size m_in m_out]. split; [unfold cEn; clear; induction n as [|n IH]; [reflexivity|cbn; now rewrite IH]|].
  split; [unfold cEn; now rewrite repeat_length|]. split; [reflexivity|]. split; [reflexivity|].
  split; [rewrite net_n; clear; induction n as [|n IH]; [reflexivity|split; [reflexivity|exact IH]]|].
  apply Forall_forall. intros e He. apply repeat_spec in He. subst e. destruct (consistent_c L f0) as (_ & _ & _ & _ & _ & Hok). apply Forall_inv_tail in Hok. now apply Forall_inv in Hok.
Qed.
Lemma small_n n : Forall small_player (net (cEn n)).
Proof. rewrite net_n. apply Forall_forall. intros p Hp. apply repeat_spec in Hp. subst p. split; reflexivity. Qed.
Lemma long_witness : exists (s : state BN) m es l o ord bytes s2 e s2', finalized s m es l o /\ length es = 128%nat /\ Permutation ord (m_optvals m) /\
  save BB m ord s = (Ret bytes, s) /\ LoadModel BB bytes s2 = (Fail e, s2').
Proof.
  destruct (long_rejected BB (B64_int_faithful L) (f0_c L) (B64_bits_ok L) (ces L f0) (cMn 128) (cEn 128) MSE (cO L f0) (m_optvals (cMn 128)) (ces L f0)) as (bytes & HS & e & s2' & HL).
  - apply finalized_n. lia.
  - apply small_n.
  - simpl. lia.
  - unfold cEn. rewrite repeat_length. lia.
  - apply Permutation_refl.
  - exists (ces L f0), (cMn 128), (cEn 128), MSE, (cO L f0), (m_optvals (cMn 128)), bytes, (ces L f0), e, s2'. split; [apply finalized_n; lia|].
    split; [unfold cEn; now rewrite repeat_length|]. split; [apply Permutation_refl|]. auto.
Qed.
Lemma lost_layers_witness : exists (s : state BN) m es l o ord bytes s2 m' rest s2', finalized s m es l o /\ m_size m = 257 /\ Permutation ord (m_optvals m) /\
  save BB m ord s = (Ret bytes, s) /\ LoadModel BB bytes s2 = (Ret (m', rest), s2') /\ m_size m' = 1 /\ rest <> [].
Proof.
  destruct (long_saved BB (B64_int_faithful L) (f0_c L) (B64_bits_ok L) (ces L f0) (cMn 257) (cEn 257) MSE (cO L f0) (m_optvals (cMn 257)) (ces L f0)) as (bytes & HS & H).
  - apply finalized_n. lia.
  - split; [unfold net, cEn; rewrite map_length, repeat_length; lia|]. split; [apply small_n|simpl; lia].
  - apply Permutation_refl.
  - assert (EL : length (cEn 257) = 257%nat) by (unfold cEn; apply repeat_length). rewrite EL in H. change (claimed 257) with 1%nat in H. cbv zeta in H.
    destruct (sizes_n 257 ltac:(lia)) as (_ & E). rewrite E in H. replace (firstn 1 (net (cEn 257))) with [cP1 L] in H by (rewrite net_n; reflexivity).
    change (1 =? last_out [cP1 L])%nat with true in H. destruct H as (_ & m' & es' & rest & s2' & HL & HR & Hr).
    exists (ces L f0), (cMn 257), (cEn 257), MSE, (cO L f0), (m_optvals (cMn 257)), bytes, (ces L f0), m', rest, s2'.
    split; [apply finalized_n; lia|]. split; [reflexivity|]. split; [apply Permutation_refl|]. split; [exact HS|]. split; [exact HL|]. split; [|exact Hr].
    assert (Hn := represents_net _ _ _ _ _ HR). apply (f_equal (@length _)) in Hn. unfold net in Hn. rewrite map_length in Hn. destruct HR as ((_ & -> & _) & _). rewrite Hn. reflexivity.
Qed.

(** A short read of the example drops the last bias. *)
Lemma short_read_witness : exists (s : state BN) m es l o ord nread s2 m' es' n d s2',
  finalized s m es l o /\ storable m (net es) /\ Permutation ord (m_optvals m) /\
  LoadFile BB (Some (model_bytes BB m ord (net es))) nread s2 = (Ret m', s2') /\ represents s2' m' es' n d /\ d_layers d <> map stored (net es).
Proof.
  destruct (short_read BB (B64_int_faithful L) (f0_c L) (B64_bits_ok L) ltac:(apply B64_bits_surj; lia) (ces L f0) (cM L f0) (cEs L) [cP0 L] (cP1 L) MSE (cO L f0) (m_optvals (cM L f0)) 1 (ces L f0))
    as (m' & es' & s2' & HL & HR).
  - apply finalized_c.
  - reflexivity.
  - apply storable_c.
  - apply Permutation_refl.
  - simpl. lia.
  - eexists (ces L f0), (cM L f0), (cEs L), MSE, (cO L f0), (m_optvals (cM L f0)), _, (ces L f0), m', es', _, _, s2'. split; [apply finalized_c|]. split; [apply storable_c|].
    split; [apply Permutation_refl|]. split; [exact HL|]. split; [exact HR|]. cbn [described d_layers net map cEs e_p app]. intros E.
    apply (f_equal (fun ps => bits_of_b64 (nth 0 (nth 0 (p_b (nth 1 ps (cP0 L))) []) (bz 5)))) in E. vm_compute in E. discriminate.
Qed.

(** Saving a model with a misshapen layer empties the file. *)
Definition bad_layers (s : state BN) : state BN :=
  MkState (h_rows s) (h_outs s) [MkLayer Linear 1 1 (cX : matrix) cB1 f0 f0 matrix0 matrix0] (h_opts s) (h_rng s) (h_logger s) (h_log s).
Definition cMbad : model BN := MkModel 1 1 1 0 (Some (MkLoss MSE 1)) 0 (bhalf : BN) 0 (m_optvals (cM L f0)) [0]%nat [0]%nat.
Definition old_file : list byte := model_bytes BB (cM L f0) (m_optvals (cM L f0)) (net (cEs L)).
Lemma not_atomic_witness : exists (s : state BN) m ord old e s' s2 m2 s2' e2 s3, (1 <= length old)%nat /\
  LoadFile BB (Some old) (length old) s2 = (Ret m2, s2') /\
  SaveFile BB m ord (MkSaveEnv true (length old)) (Some old) s = (Ret (Some e, Some []), s') /\
  LoadFile BB (Some []) 0 s2 = (Fail e2, s3).
Proof.
  destruct (LoadFile_saved BB (B64_int_faithful L) (f0_c L) (B64_bits_ok L) (ces L f0) (cM L f0) (cEs L) MSE (cO L f0) (m_optvals (cM L f0)) (length old_file) (ces L f0)) as (m2 & es2 & s2' & HL & _).
  - apply finalized_c.
  - apply storable_c.
  - apply Permutation_refl.
  - unfold old_file. lia.
  - exists (bad_layers (ces L f0)), cMbad, (m_optvals cMbad), old_file, (ELayerDims 1 1), (bad_layers (ces L f0)), (ces L f0), m2, s2', EEOF, (ces L f0).
    split; [unfold old_file; pose proof (bytes_long (cM L f0) (m_optvals (cM L f0)) (net (cEs L))); lia|]. split; [exact HL|]. split; [|reflexivity].
    eapply SaveFile_lost; [reflexivity| |reflexivity]. reflexivity.
Qed.

(** Two rounds of training, and the same with saving and loading in between. *)
Definition weight (m : model BN) : M BN BN := r <- go_nth (m_layers m) 0 ;; l <- get_layer r ;; getc (l_w l) 0 0.
Definition result (r : outcome (F BN) * state BN) : option Z := match r with (Ret v, _) => Some (bits_of_b64 v) | _ => None end.
Lemma momentum_lost_witness : exists (s : state BN) m es l o x y v v', finalized s m es l o /\ storable m (net es) /\
  result ((Fit m x y 1 0 matrix0 matrix0 0 ;; Fit m x y 1 0 matrix0 matrix0 0 ;; weight m) s) = Some v /\
  result ((Fit m x y 1 0 matrix0 matrix0 0 ;; bytes <- save BB m (m_optvals m) ;; r <- LoadModel BB bytes ;;
           Fit (fst r) x y 1 0 matrix0 matrix0 0 ;; weight (fst r)) s) = Some v' /\ v <> v'.
Proof.
  exists (ces L bhalf), (cM L bhalf), (cEs L), MSE, (cO L bhalf), cX, cY, 4700207665219895296, 4700208010964762624.
  split; [apply finalized_c|]. split; [apply storable_c|]. split; [vm_compute; reflexivity|]. split; [vm_compute; reflexivity|discriminate].
Qed.
End WithLibm.
