(** * PropSession: the whole life of a model (C82). *)
From Coq Require Import String ZArith List Bool Arith Lia Permutation.
From Verif Require Import Num NumB64 Heap Spec Matrix Network Loss Optimizers ModelGo LayerData ModelData PureSpec Repr OptSpec ModelSpec
  CodecSpec CodecEx Session SessionProofs SessionEx.
Import ListNotations.
Open Scope Z_scope.
Open Scope go_scope.

(** C82: building a model from layer sizes that fit together, initialising, finalizing and training it, predicting, saving, loading
    and predicting again neither fails nor panics.  Both predictions are the same matrix, computed by the network that the training
    equations yield from the random initial one; the data are left as they were. *)
Theorem C82_session (K : Num) (B : FBits K) sps k (opt : optimizer K) acctype prec s x rsx y rsy z rsz n r X Y Zs epochs bs ord :
  int_faithful K -> min_faithful K -> feq (f0 : K) f0 = true -> bits_ok B ->
  sps <> [] -> (length sps <= 127)%nat -> Forall spec_ok sps -> linked (in_of sps) sps -> flt prec f0 = false -> 0 <= acctype <= 2 ->
  own s x rsx n (in_of sps) X -> own s y rsy n (out_of sps) Y -> (1 <= n)%nat -> 0 <= bs -> Z.of_nat n + bs <= 2 ^ 52 ->
  own s z rsz r (in_of sps) Zs -> (1 <= r)%nat -> Permutation ord (opt_values opt) ->
  returns (session B sps k opt acctype prec x y epochs bs z ord) s (fun PP s' => exists c A rs1 rs2,
    ppredict acctype r (out_of sps) (pnet (final_net sps k opt (normals s) (r_uni (h_rng s)) (r_upos (h_rng s)) X Y epochs bs) r Zs) = Some (c, A) /\
    own s' (fst PP) rs1 r c A /\ own s' (snd PP) rs2 r c A /\ disjoint rs1 rs2 /\
    own s' x rsx n (in_of sps) X /\ own s' y rsy n (out_of sps) Y /\ own s' z rsz r (in_of sps) Zs /\ h_log s' = h_log s).
Proof. exact (session_run B sps k opt acctype prec s x rsx y rsy z rsz n r X Y Zs epochs bs ord). Qed.
(** For float64 no assumption about the numbers remains. *)
Theorem C82_float (L : libm) sps k (opt : optimizer (B64 L)) acctype prec s x rsx y rsy z rsz n r X Y Zs epochs bs ord :
  sps <> [] -> (length sps <= 127)%nat -> Forall spec_ok sps -> linked (in_of sps) sps -> flt prec f0 = false -> 0 <= acctype <= 2 ->
  own s x rsx n (in_of sps) X -> own s y rsy n (out_of sps) Y -> (1 <= n)%nat -> 0 <= bs -> Z.of_nat n + bs <= 2 ^ 52 ->
  own s z rsz r (in_of sps) Zs -> (1 <= r)%nat -> Permutation ord (opt_values opt) ->
  returns (session (B64_bits L) sps k opt acctype prec x y epochs bs z ord) s (fun PP s' => exists c A rs1 rs2,
    ppredict acctype r (out_of sps) (pnet (final_net sps k opt (normals s) (r_uni (h_rng s)) (r_upos (h_rng s)) X Y epochs bs) r Zs) = Some (c, A) /\
    own s' (fst PP) rs1 r c A /\ own s' (snd PP) rs2 r c A /\ disjoint rs1 rs2 /\
    own s' x rsx n (in_of sps) X /\ own s' y rsy n (out_of sps) Y /\ own s' z rsz r (in_of sps) Zs /\ h_log s' = h_log s).
Proof. exact (session_float L sps k opt acctype prec s x rsx y rsy z rsz n r X Y Zs epochs bs ord). Qed.
(** The model that the building and training part yields: it can be trained further and saved, and it owns no memory that existed before. *)
Theorem C82_prepared (K : Num) sps k (opt : optimizer K) acctype prec s x rsx y rsy n X Y epochs bs :
  int_faithful K -> min_faithful K -> feq (f0 : K) f0 = true ->
  sps <> [] -> Forall spec_ok sps -> linked (in_of sps) sps -> flt prec f0 = false ->
  own s x rsx n (in_of sps) X -> own s y rsy n (out_of sps) Y -> (1 <= n)%nat -> 0 <= bs -> Z.of_nat n + bs <= 2 ^ 52 ->
  returns (prepare sps k opt acctype prec x y epochs bs) s (fun m s' => exists es xs,
    trainable s' m es xs (in_of sps) (out_of sps) k /\ finalized s' m es k opt /\ m_acctype m = acctype /\ m_prec m = prec /\
    net es = final_net sps k opt (normals s) (r_uni (h_rng s)) (r_upos (h_rng s)) X Y epochs bs /\
    Forall2 like (start_net (normals s) sps) (net es) /\ frame nothing s s' /\ h_log s' = h_log s).
Proof. exact (prepare_run sps k opt acctype prec s x rsx y rsy n X Y epochs bs). Qed.
Print Assumptions C82_session.
Print Assumptions C82_float.
Print Assumptions C82_prepared.
Example C82_ex L : Forall spec_ok (sn_specs L) /\ linked (in_of (sn_specs L)) (sn_specs L) /\
  own (sns L) snX [1; 2]%nat 2 2 ([[bz 1; bz 2]; [bz 3; bz (-1)]] : pm (B64 L)) /\ own (sns L) snY [3; 4]%nat 2 1 ([[bz 4]; [bz 2]] : pm (B64 L)) /\
  own (sns L) snZ [5; 6]%nat 2 2 ([[bz 1; bz 1]; [bz 0; bz 2]] : pm (B64 L)) /\
  Permutation (rev (opt_values (cO L (bhalf : B64 L)))) (opt_values (cO L (bhalf : B64 L))) /\
  match (PP <- sn_prog L ;; a <- bits_of L (fst PP) 0 0 ;; b <- bits_of L (snd PP) 0 0 ;; c <- bits_of L (fst PP) 1 0 ;; ret (a, b, c)) (sns L) with
  | (Ret (a, b, c), _) => a = b /\ a <> c /\ 0 < a | _ => False end.
Proof. exact (ex_session L). Qed.
