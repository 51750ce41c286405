(** * PropModel: building, finalizing and evaluating models (C22, C42-C44, C51, C52). *)
From Coq Require Import String ZArith List Bool Arith Lia QArith.
From Verif Require Import Num Heap Spec Matrix Misc Accuracy Loss Network Optimizers ModelGo PureSpec Repr NumQ NumR NumB64 OptSpec ModelSpec EvalProofs ModelFacts EvalFrame ModelRefute Ex ModelEx ModelGlue.
Import ListNotations.
Open Scope Z_scope.
Open Scope go_scope.

(** The hypotheses [int_faithful] and [min_faithful] below hold in all the number semantics used here:
    float64, exact reals and rationals. *)
Theorem C42_semantics : (forall L, int_faithful (B64 L) /\ min_faithful (B64 L)) /\
  (int_faithful RNum /\ min_faithful RNum) /\ (int_faithful QNum /\ min_faithful QNum).
Proof. exact semantics_faithful. Qed.
Print Assumptions C42_semantics.

(** C22: inference treats samples independently, at every layer and for predictions. *)
Theorem C22_outputs (K : Num) (s : state K) m es i o x rsx r X x1 rs1 a :
  consistent s m es i o -> own s x rsx r i X -> (a < r)%nat -> own s x1 rs1 1 i [nth a X []] ->
  returns (outs <- Forward m x false ;; outs1 <- Forward m x1 false ;; ret (outs, outs1)) s (fun oo s' =>
    length (fst oo) = S (length es) /\ length (snd oo) = S (length es) /\
    forall k, (k <= length es)%nat -> exists rs c A rs', own s' (nth k (fst oo) matrix0) rs r c A /\
      own s' (nth k (snd oo) matrix0) rs' 1 c [nth a A []]).
Proof. exact (samples_independent s m es i o x rsx r X x1 rs1 a). Qed.
Theorem C22_predictions (K : Num) (s : state K) m es i o x rsx r X x1 rs1 a :
  consistent s m es i o -> (1 <= length es)%nat -> 0 <= m_acctype m <= 2 ->
  own s x rsx r i X -> (a < r)%nat -> own s x1 rs1 1 i [nth a X []] ->
  returns (P <- Predict m x ;; P1 <- Predict m x1 ;; ret (P, P1)) s (fun oo s' =>
    exists rs c A rs', own s' (fst oo) rs r c A /\ own s' (snd oo) rs' 1 c [nth a A []]).
Proof. exact (predictions_independent s m es i o x rsx r X x1 rs1 a). Qed.
Print Assumptions C22_outputs.
Print Assumptions C22_predictions.
Example C22_ex : consistent mes eM eEs 2 1 /\ own mes eX [10; 11; 12]%nat 3 2 pXd /\ own mes eX1 [16]%nat 1 2 [nth 1 pXd []] /\
  match (P <- Predict eM eX ;; P1 <- Predict eM eX1 ;; v <- getc P 1 0 ;; v0 <- getc P 0 0 ;; w <- getc P1 0 0 ;; ret (v0, v, w)) mes with
  | (Ret r, _) => r = (5#1, 4#1, 4#1)%Q | _ => False end.
Proof. split; [exact consistent_e|]. split; [exact own_eX|]. split; [exact own_eX1|]. vm_compute. reflexivity. Qed.

(** C42: sequences of AddLayer on a new model. *)
Theorem C42_add_layers (K : Num) (s : state K) refs (ls : list (layer K)) : int_faithful K ->
  Forall2 (fun r l => nth_error (h_layers s) r = Some l /\ small_layer l) refs ls ->
  let bs := accepts None ls in
  add_layers NewModel refs s = (Ret (MkModel (Z.of_nat (length (keep bs refs)))
      (match keep bs ls with l :: _ => l_in l | [] => 0 end)
      (last (map l_out (keep bs ls)) 0) 0 None 0 f0 0 [] (keep bs refs) [],
    map (fun b : bool => if b then None else reject) bs), s) /\ fitting (keep bs ls).
Proof. exact (fun HI => add_layers_spec HI s refs ls). Qed.
Theorem C42_add_layer (K : Num) (s : state K) m r l : int_faithful K -> nth_error (h_layers s) r = Some l -> small_layer l ->
  (m_size m <> 0 -> m_out m <> l_in l -> AddLayer m r s = (Ret (m, reject), s)) /\
  (m_size m = 0 \/ m_out m = l_in l -> exists m', AddLayer m r s = (Ret (m', None), s) /\
     m_size m' = m_size m + 1 /\ m_layers m' = m_layers m ++ [r] /\ m_out m' = l_out l /\
     m_in m' = (if m_size m =? 0 then l_in l else m_in m) /\
     m_loss m' = m_loss m /\ m_losstype m' = m_losstype m /\ m_acctype m' = m_acctype m /\ m_prec m' = m_prec m /\
     m_opttype m' = m_opttype m /\ m_optvals m' = m_optvals m /\ m_opts m' = m_opts m).
Proof. exact (fun HI => add_layer_rejects HI s m r l). Qed.
Theorem C42_consistent (K : Num) (s : state K) es ls : int_faithful K ->
  Forall2 (entry_of s) es ls -> Forall small_layer ls ->
  let bs := accepts None ls in
  exists m, add_layers NewModel (map e_ref es) s = (Ret (m, map (fun b : bool => if b then None else reject) bs), s) /\
    consistent s m (keep bs es) (first_in (net (keep bs es))) (last_out (net (keep bs es))) /\
    m_loss m = None /\ m_opts m = [].
Proof. exact (fun HI => built_consistent HI s es ls). Qed.
Print Assumptions C42_add_layers.
Print Assumptions C42_add_layer.
Print Assumptions C42_consistent.
(** Offered: hidden 2->2, linear 2->1, dropout 2->2, linear 2->1.  The third and the fourth are rejected. *)
Example C42_ex : Forall2 (entry_of mes) [eE0; eE2; eE1; eE2] [eL0; eL2; eL1; eL2] /\ Forall small_layer [eL0; eL2; eL1; eL2] /\
  accepts None [eL0; eL2; eL1; eL2] = [true; true; false; false] /\
  match add_layers NewModel [0; 2; 1; 2]%nat mes with
  | (Ret (m, es), _) => m_size m = 2 /\ m_in m = 2 /\ m_out m = 1 /\ m_layers m = [0; 2]%nat /\ es = [None; None; reject; reject]
  | _ => False end.
Proof.
  split. { repeat (constructor; [split; [reflexivity|lown_tac]|]). constructor. }
  split. { repeat constructor; simpl; unfold small_int; lia. }
  vm_compute. repeat split; reflexivity.
Qed.

(** C43: Finalize. *)
Theorem C43_mismatch (K : Num) (s : state K) m l o acctype prec : int_faithful K ->
  small_int (ls_size l) -> m_out m <> ls_size l ->
  Finalize m l o acctype prec s = (Ret (m, Some (EMsg "nn.Model: Loss size does not match up with output size.")), s).
Proof. exact (fun HI => finalize_mismatch HI s m l o acctype prec). Qed.
Theorem C43_installs (K : Num) (s : state K) m l o acctype prec : int_faithful K -> feq (f0 : K) f0 = true ->
  small_int (ls_size l) -> m_out m = ls_size l ->
  let n := Z.to_nat (m_size m) in
  Finalize m l o acctype prec s =
    (Ret (MkModel (m_size m) (m_in m) (m_out m) (losskind_code (ls_kind l)) (Some l) acctype
            (if flt prec f0 then m_prec m else prec) (okind_code (o_kind o)) (opt_values o) (m_layers m)
            (seq (length (h_opts s)) n),
          if flt prec f0 then Some (EMsg "nn.Model: Accuracy percision cannot be less than zero.") else None),
     with_opts s (h_opts s ++ repeat (clone o) n)).
Proof. exact (fun HI HF => finalize_match HI HF s m l o acctype prec). Qed.
Theorem C43_trainable (K : Num) (s : state K) m es i o k opt acctype prec : int_faithful K -> feq (f0 : K) f0 = true ->
  consistent s m es i o -> unshared es -> (1 <= length es)%nat -> Z.of_nat o <= 2 ^ 53 ->
  Forall (fun e => p_kind (e_p e) <> SigmoidK) es -> flt prec f0 = false ->
  returns (Finalize m (MkLoss k (Z.of_nat o)) opt acctype prec) s (fun r s' =>
    snd r = None /\ m_acctype (fst r) = acctype /\ m_prec (fst r) = prec /\
    trainable s' (fst r) es (new_opts (length (h_opts s)) opt es) i o k /\ ext s (with_opts s' (h_opts s)) /\ h_rows s' = h_rows s /\
    firstn (length (h_opts s)) (h_opts s') = h_opts s).
Proof. exact (fun HI HF => finalize_trainable HI HF s m es i o k opt acctype prec). Qed.
(** A failing Finalize that is not atomic: with a negative precision. *)
Theorem C43_atomic_refuted : exists (s : state QNum) m l o acctype prec m' e s',
  Finalize m l o acctype prec s = (Ret (m', Some e), s') /\ m_loss m = None /\ m_loss m' = Some l /\
  m_opts m = [] /\ m_opts m' <> [] /\ h_opts s' <> h_opts s.
Proof. exact finalize_not_atomic. Qed.
Print Assumptions C43_mismatch.
Print Assumptions C43_installs.
Print Assumptions C43_trainable.
Print Assumptions C43_atomic_refuted.
Example C43_ex : consistent mes eM0 eEs 2 1 /\ unshared eEs /\ Forall (fun e => p_kind (e_p e) <> SigmoidK) eEs /\
  feq (f0 : QNum) f0 = true /\ m_out eM0 <> 2 /\
  match Finalize eM0 (MkLoss MSE 1) eO 0 (1#10)%Q mes with
  | (Ret (m, None), s') => m_opts m = [3; 4; 5]%nat /\ length (h_opts s') = 6%nat | _ => False end.
Proof.
  split; [exact consistent_e0|]. split; [exact unshared_e|]. split; [repeat constructor; discriminate|].
  split; [reflexivity|]. split; [discriminate|]. vm_compute. split; reflexivity.
Qed.

(** C44: Forward composes the layers. *)
Theorem C44_outputs (K : Num) (s : state K) m es i o x rsx r X (t : bool) :
  consistent s m es i o -> own s x rsx r i X -> (1 <= r)%nat -> (t = true -> NoDup (map e_ref es)) ->
  returns (Forward m x t) s (fun outs s' =>
    length outs = S (length es) /\ nth 0 outs matrix0 = x /\
    (forall k, (k < length es)%nat -> exists rs,
       own s' (nth (S k) outs matrix0) rs r (p_out (nth k (net es) no_layer))
         (nth (S k) (pouts t (net es) r X (r_uni (h_rng s)) (r_upos (h_rng s))) []) /\ NoDup rs /\ fresh s rs) /\
    forward_effect (map e_ref es) (net_draws t (net es) r) s s').
Proof. exact (forward_outputs s m es i o x rsx r X t). Qed.
Theorem C44_width (K : Num) (s : state K) m es i o x (t : bool) :
  consistent s m es i o -> (1 <= length es)%nat -> mcols x <> Z.of_nat i ->
  Forward m x t s = (Fail (EMatDims (mrows x) (mcols x)), s).
Proof. exact (forward_width s m es i o x t). Qed.
(** A model without layers accepts every width: its InputSize is never compared. *)
Theorem C44_empty_refuted : exists (s : state QNum) m es i o x, consistent s m es i o /\ mcols x <> Z.of_nat i /\
  exists outs s', Forward m x false s = (Ret outs, s').
Proof. exact forward_empty. Qed.
Print Assumptions C44_outputs.
Print Assumptions C44_width.
Print Assumptions C44_empty_refuted.
Example C44_ex : consistent mes eM eEs 2 1 /\ own mes eX [10; 11; 12]%nat 3 2 pXd /\ NoDup (map e_ref eEs) /\
  mcols eYv <> 2 /\ fst (Forward eM eYv true mes) = Fail (EMatDims 2 1) /\
  match (outs <- Forward eM eX true ;; v <- getc (nth 1 outs matrix0) 1 1 ;; ret (length outs, v)) mes with
  | (Ret r, s') => r = (4%nat, (0#1)%Q) /\ r_upos (h_rng s') = 6%nat | _ => False end.
Proof.
  split; [exact consistent_e|]. split; [exact own_eX|]. split; [apply unshared_e|]. split; [discriminate|].
  split; [vm_compute; reflexivity|]. vm_compute. split; reflexivity.
Qed.

(** C51: evaluation changes nothing: for arbitrary arguments, well shaped or not, and however it ends. *)
Theorem C51_pure (K : Num) (s : state K) m qs : 1 <= m_size m -> forward_effect (m_layers m) 0 s (snd (ask_all m qs s)).
Proof. exact (ask_all_pure s m qs). Qed.
(** Every query in an arbitrary interleaving gets the answer computed from the initial state. *)
Theorem C51_answers (K : Num) (s : state K) m es i o k qs :
  int_faithful K -> Z.of_nat o <= 2 ^ 53 -> consistent s m es i o -> (1 <= length es)%nat ->
  m_loss m = Some (MkLoss k (Z.of_nat o)) -> 0 <= m_acctype m <= 2 -> Forall (askable s i o) qs ->
  returns (ask_all m qs) s (fun as_ s' =>
    Forall2 (fun qu a => expected s m (net es) i o k qu s' a) qs as_ /\ forward_effect (map e_ref es) 0 s s').
Proof. exact (evaluation s m es i o k qs). Qed.
(** Asking again gives the same answer, whatever was asked in between. *)
Theorem C51_again (K : Num) (s : state K) m es i o k qu :
  int_faithful K -> Z.of_nat o <= 2 ^ 53 -> consistent s m es i o -> (1 <= length es)%nat ->
  m_loss m = Some (MkLoss k (Z.of_nat o)) -> 0 <= m_acctype m <= 2 -> askable s i o qu ->
  exists a s1, ask m qu s = (Ret a, s1) /\
    forall qs, exists a' s3, ask m qu (snd (ask_all m qs s1)) = (Ret a', s3) /\ same_answer s3 a a'.
Proof. exact (ask_again s m es i o k qu). Qed.
(** Without layers, evaluation can change X itself. *)
Theorem C51_empty_refuted : exists (s : state QNum) m x rsx X y X' s', m_size m = 0 /\ own s x rsx 2 2 X /\
  ask m (QAccuracy x y) s = (Ret (ANum (1#1)%Q), s') /\ own s' x rsx 2 2 X' /\ X' <> X.
Proof. exact evaluation_empty. Qed.
Print Assumptions C51_pure.
Print Assumptions C51_answers.
Print Assumptions C51_again.
Print Assumptions C51_empty_refuted.
Example C51_ex : askable mes 2 1 (QLoss eX eY) /\ askable mes 2 1 (QPredict eXv) /\
  match ask_all eM [QLoss eX eY; QPredict eXv; QAccuracy eX eY; QLoss eX eY] mes with
  | (Ret [ANum a; AMat P; ANum b; ANum a'], s') => a = a' /\ h_opts s' = h_opts mes | _ => False end /\
  fst (ask_all eM [QLoss eX eY; QPredict eYv] mes) = Fail (EMatDims 2 1).
Proof.
  split. { exists [10; 11; 12]%nat, [13; 14; 15]%nat, 3%nat, pXd, pYd. split; [exact own_eX|]. split; [exact own_eY|lia]. }
  split. { exists [17; 18]%nat, 2%nat, pXv. split; [exact own_eXv|lia]. }
  split; [vm_compute; split; reflexivity|]. vm_compute. reflexivity.
Qed.

(** C52: what Predict returns. *)
Theorem C52_predict (K : Num) (s : state K) m es i o x rsx r X c P :
  consistent s m es i o -> (1 <= length es)%nat ->
  ppredict (m_acctype m) r o (pnet (net es) r X) = Some (c, P) ->
  own s x rsx r i X -> (1 <= r)%nat ->
  returns (Predict m x) s (fun out s' => exists rs, own s' out rs r c P /\ fresh s rs /\ NoDup rs /\
    forward_effect (map e_ref es) 0 s s').
Proof. exact (predict_spec s m es i o x rsx r X c P). Qed.
Theorem C52_bad_type (K : Num) (s : state K) m es i o x rsx y r X :
  consistent s m es i o -> own s x rsx r i X -> (1 <= r)%nat ->
  m_acctype m <> 0 -> m_acctype m <> 1 -> m_acctype m <> 2 ->
  exists s1 s2, Predict m x s = (Fail (EMsg "nn.Model: Invalid accuracy type."), s1) /\ forward_effect (map e_ref es) 0 s s1 /\
    CalculateAccuracy m x y s = (Fail (EMsg "nn.Model: Invalid accuracy type."), s2) /\ forward_effect (map e_ref es) 0 s s2.
Proof. exact (bad_type_fails s m es i o x rsx y r X). Qed.
Print Assumptions C52_predict.
Print Assumptions C52_bad_type.

Example C52_ex : consistent mes (with_type 2) [eE0] 2 2 /\
  ppredict 2 3 2 (pnet (net [eE0]) 3 pXd) = Some (2%nat, [[q 1; q 1]; [q 0; q 0]; [q 1; q 1]]) /\
  match (P <- Predict (with_type 2) eX ;; a <- getc P 0 0 ;; b <- getc P 1 0 ;; ret (a, b)) mes with
  | (Ret r, _) => r = (q 1, q 0) | _ => False end /\
  fst (Predict (with_type 7) eX mes) = Fail (EMsg "nn.Model: Invalid accuracy type.").
Proof.
  split. { repeat (split; [reflexivity|]). split; [simpl; auto|]. constructor; [eexists; split; [reflexivity|lown_tac]|constructor]. }
  vm_compute. repeat split; reflexivity.
Qed.
