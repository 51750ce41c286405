(** * SessionEx: a concrete session in binary64 for C82. *)
From Coq Require Import String ZArith List Bool Arith Lia Permutation.
From Flocq Require Import IEEE754.Bits.
From Verif Require Import Num NumB64 Heap Spec Matrix Network Loss Optimizers ModelGo LayerData ModelData PureSpec Repr OptSpec ModelSpec HeapLemmas
  Ex ModelEx CodecSpec CodecEx CodecGlue Session SessionProofs.
Import ListNotations.
Open Scope Z_scope.
Open Scope go_scope.

Section WithLibm.
Context (L : libm).
Notation BN := (B64 L).
(** Two samples of two features, their labels and two samples to predict, in a state with nothing else. *)
Definition sn_rows : list (list BN) := [ [bz 1; bz 2]; [bz 3; bz (-1)]; [bz 4]; [bz 2]; [bz 1; bz 1]; [bz 0; bz 2] ].
Definition sn_outs : list (list nat) := [ [1; 2]; [3; 4]; [5; 6] ]%nat.
Definition snX := MkMatrix 2 2 (MkSlice 1 0 2). Definition snY := MkMatrix 2 1 (MkSlice 2 0 2). Definition snZ := MkMatrix 2 2 (MkSlice 3 0 2).
(** Normal numbers 1/2, 1/4, 1/2, ...; uniform numbers 0, 1/2, 0, 1/2, ... *)
Definition sn_rng : rng BN := MkRng (K := BN) (fun n => if Nat.even n then bz 0 else bhalf) (fun n => if Nat.even n then bhalf else b64_mult BinarySingleNaN.mode_NE bhalf bhalf) (fun _ => 0) 0 0 0.
Definition sns : state BN := MkState sn_rows sn_outs [] [] sn_rng true [].
Definition sn_specs : list (lspec BN) := [LSpec (K := BN) Leaky 2 2 (bhalf : BN); LSpec (K := BN) Dropout 2 2 (bhalf : BN); LSpec (K := BN) Linear 2 1 f0].
Definition sn_prog : M BN (matrix * matrix) :=
  session (B64_bits L) sn_specs MSE (cO L (bhalf : BN)) 0 (bhalf : BN) snX snY 1 1 snZ (rev (opt_values (cO L (bhalf : BN)))).
Definition bits_of (m : matrix) (i j : Z) : M BN Z := v <- getc m i j ;; ret (to_bits (B64_bits L) v).
Lemma ex_session : Forall spec_ok sn_specs /\ linked (in_of sn_specs) sn_specs /\
  own sns snX [1; 2]%nat 2 2 ([[bz 1; bz 2]; [bz 3; bz (-1)]] : pm BN) /\ own sns snY [3; 4]%nat 2 1 ([[bz 4]; [bz 2]] : pm BN) /\
  own sns snZ [5; 6]%nat 2 2 ([[bz 1; bz 1]; [bz 0; bz 2]] : pm BN) /\
  Permutation (rev (opt_values (cO L (bhalf : BN)))) (opt_values (cO L (bhalf : BN))) /\
  match (PP <- sn_prog ;; a <- bits_of (fst PP) 0 0 ;; b <- bits_of (snd PP) 0 0 ;; c <- bits_of (fst PP) 1 0 ;; ret (a, b, c)) sns with
  | (Ret (a, b, c), _) => a = b /\ a <> c /\ 0 < a | _ => False end.
Proof.
  split.
  { repeat (apply Forall_cons; [unfold spec_ok; simpl; repeat split; try lia; vm_compute; reflexivity|]). apply Forall_nil. }
  split; [simpl; auto|]. split; [own_tac|]. split; [own_tac|]. split; [own_tac|].
  split; [apply Permutation_sym, Permutation_rev|].
  vm_compute. split; [reflexivity|]. split; [intros H; discriminate H|reflexivity].
Qed.
End WithLibm.
Lemma session_float (L : libm) sps k (opt : optimizer (B64 L)) acctype prec s x rsx y rsy z rsz n r X Y Zs epochs bs ord :
  sps <> [] -> (length sps <= 127)%nat -> Forall spec_ok sps -> linked (in_of sps) sps -> flt prec f0 = false -> 0 <= acctype <= 2 ->
  own s x rsx n (in_of sps) X -> own s y rsy n (out_of sps) Y -> (1 <= n)%nat -> 0 <= bs -> Z.of_nat n + bs <= 2 ^ 52 ->
  own s z rsz r (in_of sps) Zs -> (1 <= r)%nat -> Permutation ord (opt_values opt) ->
  returns (session (B64_bits L) sps k opt acctype prec x y epochs bs z ord) s (fun PP s' => exists c A rs1 rs2,
    ppredict acctype r (out_of sps) (pnet (final_net sps k opt (normals s) (r_uni (h_rng s)) (r_upos (h_rng s)) X Y epochs bs) r Zs) = Some (c, A) /\
    own s' (fst PP) rs1 r c A /\ own s' (snd PP) rs2 r c A /\ disjoint rs1 rs2 /\
    own s' x rsx n (in_of sps) X /\ own s' y rsy n (out_of sps) Y /\ own s' z rsz r (in_of sps) Zs /\ h_log s' = h_log s).
Proof.
  destruct (codec_semantics L) as (H1 & H2 & H3 & _). intros. eapply session_run; eauto. apply B64_min_faithful.
Qed.
