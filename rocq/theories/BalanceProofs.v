(** * BalanceProofs: incoming and outgoing weights of a unit change together. *)
From Coq Require Import String ZArith List Bool Arith Lia Reals Lra Psatz.
From Verif Require Import Num NumR Heap Spec Matrix Network Loss LossProofs Optimizers ModelGo PureSpec Repr HeapLemmas RSum MiscFacts MiscProofs OptSpec OptFacts ModelSpec FitProofs FitLoop FitFacts Twins TwinsProofs BalanceSpec.
Import ListNotations.
Open Scope R_scope.
Notation rpm := (pm RNum).

Lemma mask01 (d v : R) : mask1 (K := RNum) d v = 0 \/ mask1 (K := RNum) d v = 1.
Proof.
  unfold mask1, f0, f1. cbn [flt fsub fadd feq ofZ RNum]. destruct (negb _); destruct (r_ltb v _); simpl IZR; solve [left; lra|right; lra].
Qed.
Lemma back_cell p r (X : rpm) U (G : rpm) n u : homogeneous p -> (n < r)%nat -> (u < p_out p)%nat ->
  entry (paffine p r X) n u * entry (pback p r (ptrain p r X U) (ptrain_mask p r U) G) n u = kept p * (entry (ptrain p r X U) n u * entry G n u).
Proof.
  intros HH Hn Hu. unfold homogeneous, kept, pback, ptrain, ptrain_mask, pforward, pact in *. destruct (p_kind p) eqn:EK; try contradiction.
  - unfold pmap2, pmap. rewrite !entry_mk by assumption. unfold act1. rewrite EK. unfold relu_prime1, relu1, f0. cbn [fle fmax ofZ RNum]. unfold r_leb.
    set (z := entry (paffine p r X) n u). unfold Rmax. destruct (Rle_dec z 0); destruct (Rle_dec _ 0); try lra.
  - lra.
  - unfold pmap2, pmap. rewrite !entry_mk by assumption. unfold act1. rewrite EK. unfold leaky_prime1, leaky1, f0. cbn [flt fmul ofZ RNum]. unfold r_ltb.
    set (z := entry (paffine p r X) n u). destruct (Rlt_dec z 0); destruct (Rlt_dec _ 0); try lra; try nra.
  - unfold pforward_drop, pmask. unfold pmap2. rewrite !entry_mk by assumption. unfold relu_prime1, relu1, f0, f1. cbn [fle fmax fmul fdiv fsub ofZ RNum]. unfold r_leb.
    set (z := entry (paffine p r X) n u). destruct (mask01 (p_drop p) (U (n * p_out p + u)%nat)) as [-> | ->].
    + unfold Rdiv. rewrite Rmult_0_l, Rmult_0_r. destruct (Rle_dec 0 0); lra.
    + assert (HI : 0 < 1 / (1 - p_drop p)) by (apply Rdiv_lt_0_compat; lra).
      assert (EI : (1 - p_drop p) * (1 / (1 - p_drop p)) = 1) by (field; lra). set (w := 1 / (1 - p_drop p)) in *.
      unfold Rmax. destruct (Rle_dec z 0); destruct (Rle_dec _ 0) as [h|h].
      * ring.
      * exfalso. apply h. lra.
      * exfalso. assert (0 < z * w) by (apply Rmult_lt_0_compat; lra). lra.
      * rewrite Rmult_1_r. rewrite <- Rmult_assoc, <- Rmult_assoc, (Rmult_comm _ z), Rmult_assoc, Rmult_assoc. rewrite <- (Rmult_assoc (1 - p_drop p) w), EI. ring.
Qed.
(** The scalar product of parameters and gradients. *)
Lemma in_product p r (X G : rpm) u : (u < p_out p)%nat ->
  rsum (p_in p) (fun i => entry (p_w p) i u * entry (pdW r (p_in p) (p_out p) X G) i u) + entry (p_b p) 0 u * entry (psum0 r (p_out p) G) 0 u =
  rsum r (fun n => entry (paffine p r X) n u * entry G n u).
Proof.
  intros Hu. rewrite (rsum_ext r _ (fun n => rsum (p_in p) (fun i => entry X n i * entry (p_w p) i u) * entry G n u + entry (p_b p) 0 u * entry G n u)).
  - rewrite rsum_plus. f_equal.
    + rewrite (rsum_ext r _ (fun n => rsum (p_in p) (fun i => entry X n i * entry (p_w p) i u * entry G n u))) by (intros n Hn; now rewrite rsum_scal_r).
      rewrite <- rsum_swap. apply rsum_ext. intros i Hi. unfold pdW, pdot. rewrite entry_mk by assumption.
      change (fsum r (fun n => fmul (entry (ptrans r (p_in p) X) i n) (entry G n u))) with (rsum r (fun n => entry (ptrans r (p_in p) X) i n * entry G n u)).
      rewrite <- rsum_scal. apply rsum_ext. intros n Hn. unfold ptrans. rewrite entry_mk by assumption. ring.
    + rewrite rsum_scal. f_equal. unfold psum0. rewrite entry_mk by (lia || assumption). reflexivity.
  - intros n Hn. unfold paffine, paff. rewrite entry_mk by assumption. cbn [fadd RNum].
    change (fsum (p_in p) (fun k => fmul (entry X n k) (entry (p_w p) k u))) with (rsum (p_in p) (fun i => entry X n i * entry (p_w p) i u)). ring.
Qed.
Lemma out_product q r (O D : rpm) u : (u < p_in q)%nat ->
  rsum (p_out q) (fun j => entry (p_w q) u j * entry (pdW r (p_in q) (p_out q) O D) u j) = rsum r (fun n => entry O n u * entry (pdX r (p_in q) (p_out q) D (p_w q)) n u).
Proof.
  intros Hu. rewrite (rsum_ext r _ (fun n => rsum (p_out q) (fun j => entry O n u * (entry D n j * entry (p_w q) u j)))).
  - rewrite <- rsum_swap. apply rsum_ext. intros j Hj. unfold pdW, pdot. rewrite entry_mk by assumption.
    change (fsum r (fun n => fmul (entry (ptrans r (p_in q) O) u n) (entry D n j))) with (rsum r (fun n => entry (ptrans r (p_in q) O) u n * entry D n j)).
    rewrite <- rsum_scal. apply rsum_ext. intros n Hn. unfold ptrans. rewrite entry_mk by assumption. ring.
  - intros n Hn. rewrite rsum_scal. f_equal. unfold pdX, pdot. rewrite entry_mk by assumption. apply rsum_ext. intros j Hj. unfold ptrans. rewrite entry_mk by assumption. reflexivity.
Qed.
Lemma grads_balance k (Y : rpm) o : forall l ps r (X : rpm) U q a b u, nth_error ps l = Some a -> nth_error ps (S l) = Some b -> homogeneous a -> p_in b = p_out a -> (u < p_out a)%nat ->
  exists dW dB eW eB, nth_error (snd (pbackprop (K := RNum) k Y o ps r X U q)) l = Some (dW, dB) /\ nth_error (snd (pbackprop (K := RNum) k Y o ps r X U q)) (S l) = Some (eW, eB) /\
    rsum (p_in a) (fun i => entry (p_w a) i u * entry dW i u) + entry (p_b a) 0 u * entry dB 0 u = kept a * rsum (p_out b) (fun j => entry (p_w b) u j * entry eW u j).
Proof.
  induction l as [|l IH]; intros ps r X U q a b u HA HB HH HE Hu; (destruct ps as [|p0 ps]; [discriminate|]).
  - destruct ps as [|p1 ps]; [discriminate|]. cbn [nth_error] in HA, HB. injection HA as ->. injection HB as ->. cbn [pbackprop].
    set (O := ptrain a r X (from U q)).
    destruct (pbackprop (K := RNum) k Y o ps r (ptrain b r O (from U (q + pdraws a r))) U (q + pdraws a r + pdraws b r)) as [G gs].
    set (D := pre_grad k Y _ b r _ _ G). cbn [snd nth_error]. eexists _, _, _, _. split; [reflexivity|]. split; [reflexivity|].
    rewrite out_product by (rewrite HE; exact Hu). rewrite in_product by exact Hu. rewrite <- rsum_scal. apply rsum_ext. intros n Hn. unfold pre_grad. apply back_cell; assumption.
  - cbn [pbackprop]. simpl in HA, HB. destruct (IH ps r (ptrain p0 r X (from U q)) U (q + pdraws p0 r)%nat a b u HA HB HH HE Hu) as (dW & dB & eW & eB & E1 & E2 & E3).
    destruct (pbackprop (K := RNum) k Y o ps r (ptrain p0 r X (from U q)) U (q + pdraws p0 r)) as [G gs]. cbn [snd nth_error] in *. eauto 8.
Qed.
(** Steps of plain SGD. *)
Lemma step_sgd (t : player RNum * popt RNum) dW dB : po_kind (snd t) = SGD -> po_usemom (snd t) = false ->
  let p := fst t in let p' := fst (tstep (K := RNum) t (dW, dB)) in let c := next_rate (snd t) in
  p_kind p' = p_kind p /\ p_in p' = p_in p /\ p_out p' = p_out p /\ p_slope p' = p_slope p /\ p_drop p' = p_drop p /\
  (forall i j, (i < p_in p)%nat -> (j < p_out p)%nat -> entry (p_w p') i j = entry (p_w p) i j - entry dW i j * c) /\
  (forall j, (j < p_out p)%nat -> entry (p_b p') 0 j = entry (p_b p) 0 j - entry dB 0 j * c) /\
  let o' := snd (tstep (K := RNum) t (dW, dB)) in
  po_kind o' = SGD /\ po_usemom o' = false /\ po_lr o' = po_lr (snd t) /\ po_decay o' = po_decay (snd t) /\ po_rate o' = c /\ po_iter o' = (po_iter (snd t) + 1)%Z /\ po_usedecay o' = po_usedecay (snd t).
Proof.
  intros HK HM. destruct t as [p po]. cbn [fst snd] in *. unfold tstep, pupdate, pupd1. cbn [fst snd]. rewrite HK, HM. cbn [fst snd reparam p_kind p_in p_out p_slope p_drop p_w p_b po_after po_kind po_usemom po_lr po_decay po_rate po_iter po_usedecay].
  repeat (split; [reflexivity|]). split; [|split].
  - intros i j Hi Hj. unfold pmap2. rewrite entry_mk by assumption. reflexivity.
  - intros j Hj. unfold pmap2. rewrite entry_mk by (lia || assumption). reflexivity.
  - auto 10.
Qed.
Lemma rsum_sq n (f g : nat -> R) c : rsum n (fun i => (f i - g i * c) * (f i - g i * c)) - rsum n (fun i => f i * f i) - rsum n (fun i => sq (f i - g i * c - f i)) = - 2 * c * rsum n (fun i => f i * g i).
Proof. rewrite <- !rsum_minus. rewrite <- rsum_scal. apply rsum_ext. intros i _. unfold sq. ring. Qed.
Lemma batch_balance k o ts (X Y : rpm) U q l u a b : between ts l u a b ->
  exists a' b', between (pbatch (K := RNum) k o ts X Y U q) l u a' b' /\ balance_law (fst a) (fst b) (fst a') (fst b') u /\ like (fst a) (fst a') /\ like (fst b) (fst b').
Proof.
  intros (HA & HB & HH & HE & Hu & (S1 & S2 & S3 & S4 & S5 & S6 & S7 & S8 & S9)).
  destruct (grads_balance k Y o l (map fst ts) (length X) X U q (fst a) (fst b) u) as (dW & dB & eW & eB & E1 & E2 & E3); try assumption; try (now apply map_nth_error).
  exists (tstep (K := RNum) a (dW, dB)), (tstep (K := RNum) b (eW, eB)).
  destruct (step_sgd a dW dB S1 S3) as (A1 & A2 & A3 & A4 & A5 & A6 & A7 & A8 & A9 & A10 & A11 & A12 & A13 & A14).
  destruct (step_sgd b eW eB S2 S4) as (B1 & B2 & B3 & B4 & B5 & B6 & B7 & B8 & B9 & B10 & B11 & B12 & B13 & B14).
  assert (EC : next_rate (snd a) = next_rate (snd b)) by (unfold next_rate; rewrite S5, S6, S7, S8, S9; reflexivity).
  assert (Hu2 : (u < p_in (fst b))%nat) by (rewrite HE; exact Hu).
  split; [|split; [|split; repeat split; assumption]].
  - unfold between, homogeneous, plain_sgd. rewrite A1, A4, A5, B2, A3, A8, A9, A10, A11, A12, A13, A14, B8, B9, B10, B11, B12, B13, B14, EC, S8.
    split; [apply nth_step; assumption|]. split; [apply nth_step; assumption|]. auto 20.
  - unfold balance_law, sq_in, sq_out, move_in, move_out. rewrite A2, B3.
    set (c := next_rate (snd a)) in *. rewrite <- EC in *.
    rewrite (rsum_ext (p_in (fst a)) (fun i => entry (p_w (fst (tstep a (dW, dB)))) i u * _) (fun i => (entry (p_w (fst a)) i u - entry dW i u * c) * (entry (p_w (fst a)) i u - entry dW i u * c))) by (intros i Hi; now rewrite A6).
    rewrite (rsum_ext (p_in (fst a)) (fun i => sq _) (fun i => sq (entry (p_w (fst a)) i u - entry dW i u * c - entry (p_w (fst a)) i u))) by (intros i Hi; now rewrite A6).
    rewrite (rsum_ext (p_out (fst b)) (fun j => entry (p_w (fst (tstep b (eW, eB)))) u j * _) (fun j => (entry (p_w (fst b)) u j - entry eW u j * c) * (entry (p_w (fst b)) u j - entry eW u j * c))) by (intros j Hj; rewrite (B6 u j Hu2 Hj); reflexivity).
    rewrite (rsum_ext (p_out (fst b)) (fun j => sq _) (fun j => sq (entry (p_w (fst b)) u j - entry eW u j * c - entry (p_w (fst b)) u j))) by (intros j Hj; rewrite (B6 u j Hu2 Hj); reflexivity).
    rewrite (A7 u) by exact Hu. rewrite (rsum_sq (p_out (fst b)) (fun j => entry (p_w (fst b)) u j) (fun j => entry eW u j) c).
    pose proof (rsum_sq (p_in (fst a)) (fun i => entry (p_w (fst a)) i u) (fun i => entry dW i u) c) as EI. unfold sq in *. cbv beta in EI. revert EI E3.
    generalize (rsum (p_in (fst a)) (fun i => (entry (p_w (fst a)) i u - entry dW i u * c) * (entry (p_w (fst a)) i u - entry dW i u * c))).
    generalize (rsum (p_in (fst a)) (fun i => entry (p_w (fst a)) i u * entry (p_w (fst a)) i u)).
    generalize (rsum (p_in (fst a)) (fun i => (entry (p_w (fst a)) i u - entry dW i u * c - entry (p_w (fst a)) i u) * (entry (p_w (fst a)) i u - entry dW i u * c - entry (p_w (fst a)) i u))).
    generalize (rsum (p_in (fst a)) (fun i => entry (p_w (fst a)) i u * entry dW i u)) (rsum (p_out (fst b)) (fun j => entry (p_w (fst b)) u j * entry eW u j)).
    generalize (entry (p_b (fst a)) 0 u) (entry dB 0 u). cbn [F RNum]. intros x1 x2 x3 x4 x5 x6 x7 EI E3.
    transitivity (-2 * c * (x3 + x1 * x2)); [replace x7 with (x6 + x5 - 2 * c * x3) by lra; ring|]. rewrite E3. ring.
Qed.
(** Whole runs: the changes add up. *)
Lemma rsum_shift n f : rsum (S n) f = f 0%nat + rsum n (fun i => f (S i)).
Proof. induction n as [|n IH]; [rewrite rsum_S, !rsum_0; ring|]. rewrite rsum_S, IH, rsum_S. ring. Qed.
Lemma train_balance k o U l u : forall bs ts q a b, between ts l u a b ->
  exists a' b', between (fst (ptrain_on (K := RNum) k o ts U q bs)) l u a' b' /\ like (fst a) (fst a') /\ like (fst b) (fst b') /\
    sq_in (fst a') u - kept (fst a) * sq_out (fst b') u - (sq_in (fst a) u - kept (fst a) * sq_out (fst b) u) =
    rsum (length bs) (fun j => unit_moves (fst (ptrain_on (K := RNum) k o ts U q (firstn j bs))) (fst (ptrain_on (K := RNum) k o ts U q (firstn (S j) bs))) l u).
Proof.
  induction bs as [|[X Y] bs IH]; intros ts q a b HB.
  - exists a, b. split; [exact HB|]. split; [repeat split|]. split; [repeat split|]. rewrite rsum_0. ring.
  - cbn [ptrain_on length]. destruct (batch_balance k o ts X Y U q l u a b HB) as (a1 & b1 & HB1 & HL & K1 & K2).
    destruct (IH _ (q + net_draws true (map fst ts) (length X))%nat a1 b1 HB1) as (a' & b' & HB' & K3 & K4 & ES). exists a', b'. split; [exact HB'|].
    split; [unfold like in *; intuition congruence|]. split; [unfold like in *; intuition congruence|].
    rewrite rsum_shift. cbn [firstn ptrain_on fst] in *. rewrite <- ES. unfold unit_moves.
    destruct HB as (N1 & N2 & _). destruct HB1 as (N3 & N4 & _). rewrite N1, N2, N3, N4.
    assert (EK : kept (fst a1) = kept (fst a)) by (unfold kept; destruct K1 as (-> & _ & _ & _ & ->); reflexivity). rewrite EK. unfold balance_law in HL. lra.
Qed.
Lemma fit_balance s (m : model RNum) es xs i o k x rsx y rsy n X Y epochs bs xv yv l u a b :
  (0 <= bs)%Z -> (Z.of_nat n + bs <= 2 ^ 52)%Z -> (1 <= n)%nat ->
  trainable s m es xs i o k -> data_ok s es x rsx y rsy n i o X Y -> between (trainer es xs) l u a b ->
  let T j := fst (ptrain_on (K := RNum) k o (trainer es xs) (r_uni (h_rng s)) (r_upos (h_rng s)) (firstn j (epochs_of (Z.to_nat epochs) (batch_rows n bs) X Y))) in
  let N := length (epochs_of (Z.to_nat epochs) (batch_rows n bs) X Y) in
  returns (Fit m x y epochs bs xv yv 0) s (fun _ s' => exists es' xs' a' b', trainable s' m es' xs' i o k /\ Forall2 same_place es es' /\
    between (trainer es' xs') l u a' b' /\ like (fst a) (fst a') /\ like (fst b) (fst b') /\ T 0%nat = trainer es xs /\ T N = trainer es' xs' /\
    sq_in (fst a') u - kept (fst a) * sq_out (fst b') u = sq_in (fst a) u - kept (fst a) * sq_out (fst b) u + rsum N (fun j => unit_moves (T j) (T (S j)) l u)).
Proof.
  intros Hb Hn H1 HT HD HB T N.
  destruct (fit_trains s m es xs i o k x rsx y rsy n X Y epochs bs xv yv RNum_min_faithful Hb Hn H1 HT HD) as ([] & s' & E & nn & _ & (es' & xs' & A1 & A2 & _ & A3 & _) & _).
  destruct (train_balance k o (r_uni (h_rng s)) l u (epochs_of (Z.to_nat epochs) (batch_rows n bs) X Y) (trainer es xs) (r_upos (h_rng s)) a b HB) as (a' & b' & B1 & B2 & B3 & B4).
  exists tt, s'. split; [exact E|]. exists es', xs', a', b'. split; [exact A1|]. split; [exact A2|]. rewrite A3. split; [exact B1|]. split; [exact B2|]. split; [exact B3|].
  split; [reflexivity|]. split; [unfold T, N; now rewrite firstn_all|]. unfold T, N. lra.
Qed.
Lemma one_chunk {A} n (l : list A) : (1 <= length l <= n)%nat -> chunks n l = [l].
Proof.
  intros H. unfold chunks. destruct l as [|x l]; [simpl in H; lia|]. cbn [length] in *. cbn [chunks_fuel]. rewrite firstn_all2, skipn_all2 by (simpl; lia). destruct (length l); reflexivity.
Qed.
Lemma fit_balance_step s (m : model RNum) es xs i o k x rsx y rsy n X Y xv yv l u a b :
  (Z.of_nat n <= 2 ^ 52)%Z -> (1 <= n)%nat ->
  trainable s m es xs i o k -> data_ok s es x rsx y rsy n i o X Y -> between (trainer es xs) l u a b ->
  returns (Fit m x y 1 0 xv yv 0) s (fun _ s' => exists es' xs' a' b', trainable s' m es' xs' i o k /\ Forall2 same_place es es' /\
    between (trainer es' xs') l u a' b' /\ balance_law (fst a) (fst b) (fst a') (fst b') u).
Proof.
  intros Hn H1 HT HD HB.
  destruct (fit_trains s m es xs i o k x rsx y rsy n X Y 1 0 xv yv RNum_min_faithful ltac:(lia) ltac:(lia) H1 HT HD) as ([] & s' & E & nn & _ & (es' & xs' & A1 & A2 & _ & A3 & _) & _).
  destruct (own_lengths _ _ _ _ _ _ (proj1 HD)) as (_ & L1). destruct (own_lengths _ _ _ _ _ _ (proj1 (proj2 HD))) as (_ & L2).
  assert (EE : epochs_of (Z.to_nat 1) (batch_rows n 0) X Y = [(X, Y)]).
  { unfold epochs_of, batch_rows. change (Z.to_nat 1) with 1%nat. cbn [Z.eqb repeat concat]. rewrite (one_chunk n X), (one_chunk n Y) by lia. reflexivity. }
  rewrite EE in A3. cbn [ptrain_on fst] in A3.
  destruct (batch_balance k o (trainer es xs) X Y (r_uni (h_rng s)) (r_upos (h_rng s)) l u a b HB) as (a' & b' & B1 & B2 & _).
  exists tt, s'. split; [exact E|]. exists es', xs', a', b'. rewrite A3. auto.
Qed.
