(** * MonoEx: a network that can only go up, and one whose output stays although its input goes up. *)
From Coq Require Import String ZArith List Bool Arith Lia Reals Lra.
From Flocq Require Import IEEE754.BinarySingleNaN IEEE754.Binary IEEE754.Bits.
From Verif Require Import Num NumR NumB64 Heap Spec Matrix Network Activation Misc ModelGo PureSpec Repr HeapLemmas OptSpec ModelSpec RSum CodecEx Ex ModelEx LateLayer RoundSpec Rounding RoundProofs RoundEx MonoSpec Mono.
From Verif Require SoftFloat FloatRange.
Import ListNotations.
Open Scope go_scope.

Section Ex.
Context (L : libm).
Notation BN := (B64 L).
(** ReLU 2 -> 2 with negative weights for the second feature, leaky 2 -> 1 with slope 1/2; two samples that differ in the first feature. *)
Definition mn_p1 : player BN := PL (K := BN) Hidden 2 2 [[bz 1; bz 2]; [bz (-1); bz (-3)]] [[bz 0; bz 4]] f0 f0.
Definition mn_p2 : player BN := PL (K := BN) Leaky 2 1 [[bz 1]; [bz 2]] [[bz (-5)]] (lit_half : BN) f0.
Definition mn_X : pm BN := [[bz 0; bz 1]; [bz 3; bz 1]].
Definition mn_state : state BN :=
  MkState (K := BN) [[bz 1; bz 2]; [bz (-1); bz (-3)]; [bz 0; bz 4]; [bz 1]; [bz 2]; [bz (-5)]; [bz 0; bz 1]; [bz 3; bz 1]] [[1;2]; [3]; [4;5]; [6]; [7;8]]%nat
    [MkLayer Hidden 2 2 (MkMatrix 2 2 (MkSlice 1 0 2)) (MkMatrix 1 2 (MkSlice 2 0 1)) f0 f0 matrix0 matrix0;
     MkLayer Leaky 2 1 (MkMatrix 2 1 (MkSlice 3 0 2)) (MkMatrix 1 1 (MkSlice 4 0 1)) (lit_half : BN) f0 matrix0 matrix0] [] (c_rng L) true [].
Definition mn_m (acc : Z) : model BN := MkModel 2 2 1 0 None acc (f0 : BN) 0 [] [0;1]%nat [].
Definition mn_es : list (lent BN) := [LE 0 [1;2]%nat [3]%nat mn_p1; LE 1 [4;5]%nat [6]%nat mn_p2].
Definition mn_x : matrix := MkMatrix 2 2 (MkSlice 5 0 2).
Lemma mn_all : (forall acc, consistent mn_state (mn_m acc) mn_es 2 1) /\ rising (net mn_es) mn_X 0 1 /\ own mn_state mn_x [7;8]%nat 2 2 mn_X /\
  flt (entry mn_X 0 0) (entry mn_X 1 0) = true /\
  match (P <- Predict (mn_m 0) mn_x ;; a <- getc P 0 0 ;; b <- getc P 1 0 ;; ret (a, b)) mn_state with (Ret (a, b), _) => b64_toZ a = (-1)%Z /\ b64_toZ b = 11%Z | _ => False end.
Proof.
  split; [|split; [|split; [own_tac|split; [reflexivity|vm_compute; split; reflexivity]]]].
  - intros acc. repeat (split; [reflexivity|]). split; [simpl; auto|]. repeat (constructor; [eexists; split; [reflexivity|lown_tac]|]). constructor.
  - split; [exact I|]. split.
    + intros [|[|n]] Hn; cbn in Hn; try lia; [right|left; reflexivity]. split; [reflexivity|]. intros [|[|j]] Hj; cbn in Hj; try lia; reflexivity.
    + apply List.Forall_cons; [|apply List.Forall_nil]. split; [reflexivity|]. intros [|[|n]] [|j] Hn Hj; cbn in Hn, Hj; try lia; reflexivity.
Qed.
Lemma mn_no_sigmoid : no_sigmoid (net mn_es).
Proof. repeat (apply List.Forall_cons; [discriminate|]). apply List.Forall_nil. Qed.
(** One linear unit with weight 1 and bias 2^53: the inputs 0 and 1 have the same output. *)
Definition st_p : player BN := PL (K := BN) Linear 1 1 [[bz 1]] [[bz (2 ^ 53)]] f0 f0.
Definition st_state : state BN :=
  MkState (K := BN) [[bz 1]; [bz (2 ^ 53)]; [bz 0]; [bz 1]] [[1]; [2]; [3;4]]%nat
    [MkLayer Linear 1 1 (MkMatrix 1 1 (MkSlice 1 0 1)) (MkMatrix 1 1 (MkSlice 2 0 1)) f0 f0 matrix0 matrix0] [] (c_rng L) true [].
Definition st_m : model BN := MkModel 1 1 1 0 None 0 (f0 : BN) 0 [] [0]%nat [].
Definition st_es : list (lent BN) := [LE 0 [1]%nat [2]%nat st_p].
Lemma not_strict : exists (s : state BN) m es x rsx (X : pm BN), consistent s m es 1 1 /\ map p_kind (net es) = [Linear] /\ rising (net es) X 0 1 /\ m_acctype m = 0%Z /\ own s x rsx 2 1 X /\
  (forall p, In p (net es) -> flt f0 (entry (p_w p) 0 0) = true) /\ flt (entry X 0 0) (entry X 1 0) = true /\
  match (P <- Predict m x ;; a <- getc P 0 0 ;; b <- getc P 1 0 ;; ret (a, b)) s with (Ret (a, b), _) => feq a b = true | _ => False end.
Proof.
  exists st_state, st_m, st_es, (MkMatrix 2 1 (MkSlice 3 0 2)), [3;4]%nat, [[bz 0]; [bz 1]]. split; [|split; [reflexivity|split; [|split; [reflexivity|split; [own_tac|split; [|split; [reflexivity|vm_compute; reflexivity]]]]]]].
  - repeat (split; [reflexivity|]). split; [simpl; auto|]. repeat (constructor; [eexists; split; [reflexivity|lown_tac]|]). constructor.
  - split; [exact I|]. split; [|apply List.Forall_nil]. intros [|n] Hn; cbn in Hn; try lia. right. split; [reflexivity|]. intros [|j] Hj; cbn in Hj; try lia; reflexivity.
  - intros p [<-|[]]. reflexivity.
Qed.
End Ex.
(** One ReLU unit in exact arithmetic. *)
Definition mr_state : state RNum :=
  MkState (K := RNum) [[2]; [-1]; [0]; [3]]%R [[1]; [2]; [3;4]]%nat
    [MkLayer (K := RNum) Hidden 1 1 (MkMatrix 1 1 (MkSlice 1 0 1)) (MkMatrix 1 1 (MkSlice 2 0 1)) 0%R 0%R matrix0 matrix0] [] (MkRng (K := RNum) (fun _ => 0%R) (fun _ => 0%R) (fun _ => 0%Z) 0 0 0) true [].
Definition mr_m : model RNum := MkModel (K := RNum) 1 1 1 0 None 0 0%R 0 [] [0]%nat [].
Definition mr_es : list (lent RNum) := [LE (K := RNum) 0 [1]%nat [2]%nat (PL (K := RNum) Hidden 1 1 [[2%R]] [[(-1)%R]] 0%R 0%R)].
Definition mr_x : matrix := MkMatrix 2 1 (MkSlice 3 0 2).
Definition mr_X : pm RNum := [[0%R]; [3%R]].
Lemma mr_all : consistent mr_state mr_m mr_es 1 1 /\ rising (net mr_es) mr_X 0 1 /\ m_acctype mr_m = 0%Z /\ own mr_state mr_x [3;4]%nat 2 1 mr_X /\ (entry mr_X 0 0 < entry mr_X 1 0)%R.
Proof.
  split; [|split; [|split; [reflexivity|split; [own_tac|]]]].
  - repeat (split; [reflexivity|]). split; [simpl; auto|]. repeat (constructor; [eexists; split; [reflexivity|lown_tac]|]). constructor.
  - split; [exact I|]. split; [|apply List.Forall_nil]. intros [|n] Hn; cbn in Hn; try lia. right. split; [apply upto_R; cbn; lra|]. intros [|j] Hj; cbn in Hj; try lia. apply upto_R. cbn. lra.
  - cbn. lra.
Qed.
(** An Exp with the two properties asked for. *)
Definition mn_libm : libm := MkLibm (fun x => b64_max x (b64_ofZ 0)) (fun x => x) (fun x _ => x).
Lemma mn_exp : exp_rising (B64 mn_libm) /\ SoftFloat.exp_nonneg mn_libm.
Proof. split; [intros a b H; exact (relu_upto mn_libm a b H)|]. intros x. exact (FloatRange.relu_nonneg mn_libm x). Qed.
