(** * ExamplesProofs: the spiral and the iris program train what they build. *)
From Coq Require Import String ZArith List Bool Arith Lia Permutation.
From Verif Require Import Num LayerData Heap Spec Matrix Misc Accuracy Network Loss Optimizers ModelGo ModelData
  PureSpec Repr HeapLemmas MatrixProofs MatrixFacts OptSpec OptFacts ModelSpec ModelProofs ModelFacts FitProofs FitLoop FitFacts MiscProofs
  CodecSpec CodecSave CodecFacts Session SessionProofs Tests TestProofs TestModels WrongShape ExamplesGo ExamplesSpec ExamplesData.
Import ListNotations.
Open Scope Z_scope.
Open Scope go_scope.

Section AnyNum.
Context {K : Num}.
Implicit Types s : state K.

(** Everything before Fit. *)
Lemma wp_example_model sps k new_opt (opt : optimizer K) acctype prec x y epochs bs every s s1 (Q : model K * option err -> state K -> Prop) :
  int_faithful K -> feq (f0 : K) f0 = true ->
  (forall s, new_opt s = (Ret opt, s)) -> sps <> [] -> Forall spec_ok sps -> linked (in_of sps) sps -> flt prec f0 = false -> 0 <= acctype <= 2 ->
  ShuffleDataset x y s = (Ret (x, y), s1) -> h_logger s1 = true ->
  (forall m es xs s', trainable s' m es xs (in_of sps) (out_of sps) k -> net es = start_net (normals s) sps -> map x_po xs = map (start_opt opt) sps ->
    fresh s1 (prows es) -> frame nothing s1 s' -> h_logger s' = true -> m_acctype m = acctype ->
    r_uni (h_rng s') = r_uni (h_rng s) -> r_upos (h_rng s') = r_upos (h_rng s) ->
    wp (e <- catch (Fit m x y epochs bs matrix0 matrix0 every) ;; ret (m, match e with inl _ => None | inr e => Some e end)) s' Q) ->
  wp (example_fit sps k new_opt acctype prec x y epochs bs every) s Q.
Proof.
  intros HI HF HNew HN HS HLk HP HA E HLg HQ. unfold example_fit.
  pose proof (keeps_shuffle x y s) as HSt. rewrite E in HSt. cbn [snd] in HSt. destruct HSt as (ip & G1).
  apply wp_bind. eapply wp_eq; [exact E|]. cbn [fst snd]. clear E.
  apply wp_bind. eapply wp_conseq; [apply (wp_create sps s1 HI HS HLk)|]. cbv beta.
  intros refs s2 (m1 & es & HC & HU & HNet & HFr & FR & RS & G2 & HAdd).
  apply wp_bind. apply wp_ignore_err. eapply wp_eq; [eapply new_loss; eassumption|]. apply wp_bind. apply wp_ignore_err. eapply wp_eq; [apply HNew|].
  apply wp_bind. eapply wp_eq; [apply HAdd; reflexivity|].
  apply wp_bind. eapply wp_conseq.
  { unfold InitLayers, for_, for_acc. pose proof HC as (C1 & C2 & _ & _ & _ & C6). rewrite C2, Nat2Z.id. apply (init_loop m1 es [] s2); [exact C1|exact C6|apply HU]. }
  cbv beta. intros [] s3 (es3 & A1 & A2 & A3 & A4 & A5 & A6 & A7).
  destruct (same_place_maps _ _ A2) as (P1 & P2 & P3). destruct (like_sizes _ _ A2) as (Q1 & Q2 & Q3).
  assert (HC3 : consistent s3 m1 es3 (first_in (net es3)) (last_out (net es3))).
  { destruct HC as (C1 & C2 & C3 & C4 & C5 & C6). unfold consistent. rewrite P1, P3. unfold last_out in *. rewrite Q1, Q2. repeat (split; [assumption|]). split; [|exact A1]. eapply same_place_chain; eauto. }
  assert (HU3 : unshared es3) by (unfold unshared; rewrite P1, P2; exact HU).
  assert (N3 : net es3 = start_net (normals s) sps).
  { rewrite A3, HNet, reinit_blank. f_equal. unfold normals. rewrite G2, G1. reflexivity. }
  assert (EF : first_in (net es3) = in_of sps) by (rewrite N3; apply start_first).
  assert (EO : last_out (net es3) = out_of sps) by (rewrite N3; apply start_last).
  destruct (out_small sps HN HS) as [HO1 HO2].
  assert (HLen : (1 <= length es3)%nat) by (rewrite <- net_length, N3; destruct sps; [congruence|simpl; lia]).
  assert (H53 : Z.of_nat (last_out (net es3)) <= 2 ^ 53) by (rewrite EO; lia).
  assert (HK : Forall (fun e => p_kind (e_p e) <> SigmoidK) es3).
  { apply (proj1 (Forall_map e_p (fun p => p_kind p <> SigmoidK) es3)). change (map e_p es3) with (net es3). rewrite N3. apply start_kinds. exact HS. }
  destruct (finalize_trainable HI HF s3 m1 es3 _ _ k opt acctype prec HC3 HU3 HLen H53 HK HP) as ([m2 er] & s4 & E4 & (R1 & R2 & R3 & HT & HE & HRr & _)).
  simpl in R1, R2, R3, HT. subst er. rewrite EF, EO in HT. rewrite EO in E4.
  apply wp_bind. eapply wp_eq; [exact E4|]. cbn [fst].
  assert (FR4 : frame nothing s3 s4) by (destruct HE as [HE _]; eapply frame_trans; [exact HE|apply (frame_rows _ s4); reflexivity|tauto]).
  assert (G4 : h_rng s4 = h_rng s3) by apply HE.
  assert (EU : r_uni (h_rng s4) = r_uni (h_rng s) /\ r_upos (h_rng s4) = r_upos (h_rng s)) by (rewrite G4, A7, G2, G1; auto). destruct EU as [EU1 EU2].
  eapply HQ; [exact HT|exact N3|apply new_opts_po; rewrite N3; apply start_sizes|now rewrite P2| | |exact R2|exact EU1|exact EU2].
  - eapply (frame_trans nothing nothing); [|exact FR4|tauto]. eapply fresh_frame; [exact FR|exact HFr|exact A4].
  - assert (h_logger s4 = h_logger s3) as -> by apply HE. destruct A5 as (_ & -> & _). destruct RS as (_ & -> & _). exact HLg.
Qed.

Lemma wp_example_fit sps k new_opt (opt : optimizer K) acctype prec x y rsx rsy n X Y epochs bs every s :
  int_faithful K -> min_faithful K -> feq (f0 : K) f0 = true ->
  (forall s, new_opt s = (Ret opt, s)) -> sps <> [] -> Forall spec_ok sps -> linked (in_of sps) sps -> flt prec f0 = false -> 0 <= acctype <= 2 ->
  own s x rsx n (in_of sps) X -> own s y rsy n (out_of sps) Y -> sl_loc (mdata x) <> sl_loc (mdata y) ->
  (1 <= n)%nat -> 0 <= bs -> Z.of_nat n + bs <= 2 ^ 52 -> h_logger s = true ->
  wp (example_fit sps k new_opt acctype prec x y epochs bs every) s (fun r s' => snd r = None /\ exists p es xs,
    Permutation (seq 0 n) p /\ trainable s' (fst r) es xs (in_of sps) (out_of sps) k /\
    net es = final_net sps k opt (normals s) (r_uni (h_rng s)) (r_upos (h_rng s)) (pick [] p X) (pick [] p Y) epochs bs).
Proof.
  intros HI HM HF HNew HN HS HLk HP HA HX HY HXY Hn Hb H52 HLg.
  pose proof (wp_ShuffleDataset s x y rsx rsy n _ _ X Y HX HY HXY) as W. apply wp_ex in W as (XY & s1 & E & -> & (HR & HR2 & HL & HO) & p & HPm & HX1 & HY1).
  assert (LG1 : h_logger s1 = true) by (destruct HR2 as (_ & -> & _); exact HLg).
  eapply (wp_example_model sps k new_opt opt acctype prec x y epochs bs every s s1); auto.
  intros m es xs s4 HT N3 EX HFr FR LG4 MA EU1 EU2. clear HX HY. set (X' := pick [] p X) in *. set (Y' := pick [] p Y) in *.
  set (rx := pick O p rsx) in *. set (ry := pick O p rsy) in *. destruct (out_small sps HN HS) as [HO1 HO2].
  assert (DP : forall m rs c B, own s1 m rs n c B -> disjoint rs (prows es)).
  { intros m' rs c B Ho w Hw Hw'. pose proof (own_old_in _ _ _ _ _ _ _ Ho Hw). pose proof (fresh_in _ _ _ HFr Hw'). lia. }
  assert (UP : forall m rs c B, own s1 m rs n c B -> own s4 m rs n c B) by (intros m' rs c B Ho; eapply own_frame; [exact Ho|exact FR|intros ? _ []]).
  assert (HD : data_ok s4 es x rx y ry n (in_of sps) (out_of sps) X' Y').
  { split; [exact (UP _ _ _ _ HX1)|]. split; [exact (UP _ _ _ _ HY1)|]. split; [exact (DP _ _ _ _ HX1)|exact (DP _ _ _ _ HY1)]. }
  assert (HLo : log_ok s4 m es matrix0 matrix0 (in_of sps) (out_of sps) None every).
  { right. split; [exact LG4|split; [now rewrite MA|split; [exact HI|split; [lia|reflexivity]]]]. }
  destruct (fit_any_log s4 m es xs _ _ k x rx y ry n X' Y' epochs bs matrix0 matrix0 None every HM Hb H52 Hn HT HD HLo)
    as ([] & s5 & E5 & nn & ls & _ & (es' & xs' & HT' & SP & _ & ET & EE) & _).
  apply wp_bind. unfold catch. eapply wp_eq; [rewrite E5; reflexivity|]. apply wp_ret. cbn [fst snd]. split; [reflexivity|].
  exists p, es', xs'. split; [exact HPm|]. split; [exact HT'|].
  unfold final_net. unfold trainer in ET. rewrite EX, N3 in ET.
  rewrite EU1, EU2 in ET. destruct (own_lengths _ _ _ _ _ _ HX1) as [_ ELX]. fold X' Y'. rewrite ELX, <- ET. rewrite map_fst_combine; [reflexivity|].
  rewrite map_length, net_length. destruct HT' as (_ & _ & _ & _ & _ & H & _). apply Forall2_length in H. lia.
Qed.

(** Without data Fit reports an error that the programs do not look at; the network stays what it was. *)
Lemma wp_example_empty sps k new_opt (opt : optimizer K) acctype prec epochs every s :
  int_faithful K -> min_faithful K -> feq (f0 : K) f0 = true ->
  (forall s, new_opt s = (Ret opt, s)) -> sps <> [] -> Forall spec_ok sps -> linked (in_of sps) sps -> flt prec f0 = false -> 0 <= acctype <= 2 ->
  h_logger s = true -> 1 <= epochs ->
  wp (example_fit sps k new_opt acctype prec matrix0 matrix0 epochs 0 every) s (fun r s' => snd r = Some (EMatDims 0 0) /\ exists es xs,
    trainable s' (fst r) es xs (in_of sps) (out_of sps) k /\ net es = start_net (normals s) sps).
Proof.
  intros HI HM HF HNew HN HS HLk HP HA HLg He.
  eapply (wp_example_model sps k new_opt opt acctype prec matrix0 matrix0 epochs 0 every s s); auto.
  intros m es xs s4 HT N3 EX HFr FR LG4 MA EU1 EU2.
  assert (HO : own s4 matrix0 [] 0 0 []) by (unfold own; simpl; repeat split; auto; exists []; repeat split; simpl; auto).
  pose proof (fit_empty0 s4 m es _ _ matrix0 [] 0 0 [] epochs matrix0 matrix0 every HM He (proj1 HT) ltac:(apply HT) LG4 HO) as E.
  apply wp_bind. unfold catch. eapply wp_eq; [rewrite E; reflexivity|]. apply wp_ret. cbn [fst snd]. split; [reflexivity|].
  exists es, xs. split; [|exact N3]. exact HT.
Qed.

(** ** The whole programs *)
Lemma spiral_example_run fsin fcos sps k new_opt (opt : optimizer K) acctype prec p c epochs bs every s :
  int_faithful K -> min_faithful K -> feq (f0 : K) f0 = true ->
  (forall s, new_opt s = (Ret opt, s)) -> sps <> [] -> Forall spec_ok sps -> linked (in_of sps) sps -> flt prec f0 = false -> 0 <= acctype <= 2 ->
  in_of sps = 2%nat -> out_of sps = c -> (1 <= p)%nat -> (1 <= c)%nat -> 0 <= bs -> Z.of_nat (p * c) + bs <= 2 ^ 52 ->
  returns (spiral_example fsin fcos sps k new_opt acctype prec (Z.of_nat p) (Z.of_nat c) epochs bs every) s (fun r s' =>
    snd r = None /\ exists perm es xs, Permutation (seq 0 (p * c)) perm /\ trainable s' (fst r) es xs 2 c k /\
    net es = final_net sps k opt (fun n => normals s (p * c + n)%nat) (r_uni (h_rng s)) (r_upos (h_rng s))
      (pick [] perm (spiral_X fsin fcos (normals s) p c)) (pick [] perm (spiral_Y p c)) epochs bs).
Proof.
  intros HI HM HF HNew HN HS HLk HP HA Ein Eout Hp Hc Hb H52. apply returns_wp. unfold spiral_example, InitLogger. cbn [andb negb].
  apply wp_bind. eapply wp_eq; [reflexivity|]. set (s0 := with_logger s true).
  apply wp_bind. eapply wp_conseq; [apply (wp_spiral_data fsin fcos p c s0 Hp Hc)|]. cbv beta.
  intros [x y] s1 (rsx & rsy & HX & HY & _ & _ & _ & _ & _ & HL & _ & (_ & LG & _) & _ & G). cbn [fst snd] in *.
  rewrite <- Eout in HY at 2. rewrite <- Ein in HX.
  eapply wp_conseq; [eapply (wp_example_fit sps k new_opt opt acctype prec x y rsx rsy (p * c) _ _ epochs bs every s1); eauto; [lia|nia]|]. cbv beta.
  rewrite Ein, Eout, G. intros r s2 (E & perm & es & xs & P1 & P2 & P3). split; [exact E|]. exists perm, es, xs. split; [exact P1|]. split; [exact P2|].
  rewrite P3. unfold final_net. f_equal. f_equal. cbn [adv_nrm r_uni r_upos]. f_equal. f_equal.
  rewrite <- !reinit_blank. apply reinit_ext. intros n. unfold normals. rewrite G. cbn. f_equal. lia.
Qed.
Lemma iris_example_run other sps k new_opt (opt : optimizer K) acctype prec text epochs bs every s :
  let records := fst (csv_ReadAll text) in
  int_faithful K -> min_faithful K -> feq (f0 : K) f0 = true ->
  (forall s, new_opt s = (Ret opt, s)) -> sps <> [] -> Forall spec_ok sps -> linked (in_of sps) sps -> flt prec f0 = false -> 0 <= acctype <= 2 ->
  in_of sps = 4%nat -> out_of sps = 3%nat -> 0 <= bs -> Z.of_nat (length records) + bs <= 2 ^ 52 ->
  (1 <= length records)%nat -> Forall (fun r => (5 <= length r)%nat) records ->
  returns (iris_example other sps k new_opt acctype prec text epochs bs every) s (fun r s' =>
    snd r = None /\ exists perm es xs, Permutation (seq 0 (length records)) perm /\ trainable s' (fst r) es xs 4 3 k /\
    net es = final_net sps k opt (normals s) (r_uni (h_rng s)) (r_upos (h_rng s))
      (pick [] perm (iris_X other records)) (pick [] perm (iris_Y records)) epochs bs).
Proof.
  intros records HI HM HF HNew HN HS HLk HP HA Ein Eout Hb H52 Hn H5. apply returns_wp. unfold iris_example, InitLogger. cbn [andb negb].
  apply wp_bind. eapply wp_eq; [reflexivity|]. set (s0 := with_logger s true). fold records.
  apply wp_bind. eapply wp_conseq; [apply (wp_iris_data other records s0 Hn H5)|]. cbv beta zeta.
  intros [x y] s1 (rsx & rsy & HX & HY & _ & _ & _ & _ & _ & HL & _ & (_ & _ & G & LG & _)). cbn [fst snd] in *.
  rewrite <- Eout in HY. rewrite <- Ein in HX.
  eapply wp_conseq; [eapply (wp_example_fit sps k new_opt opt acctype prec x y rsx rsy (length records) _ _ epochs bs every s1); eauto; lia|]. cbv beta.
  rewrite Ein, Eout. unfold normals. rewrite G. intros r s2 (E & perm & es & xs & P1 & P2 & P3). eauto 8.
Qed.
Lemma iris_example_unread other sps k new_opt (opt : optimizer K) acctype prec text epochs every s :
  int_faithful K -> min_faithful K -> feq (f0 : K) f0 = true ->
  (forall s, new_opt s = (Ret opt, s)) -> sps <> [] -> Forall spec_ok sps -> linked (in_of sps) sps -> flt prec f0 = false -> 0 <= acctype <= 2 ->
  1 <= epochs -> snd (csv_ReadAll text) = false ->
  returns (iris_example other sps k new_opt acctype prec text epochs 0 every) s (fun r s' =>
    snd r = Some (EMatDims 0 0) /\ exists es xs, trainable s' (fst r) es xs (in_of sps) (out_of sps) k /\ net es = start_net (normals s) sps).
Proof.
  intros HI HM HF HNew HN HS HLk HP HA He HT. apply returns_wp. unfold iris_example, InitLogger. cbn [andb negb].
  apply wp_bind. eapply wp_eq; [reflexivity|]. set (s0 := with_logger s true).
  assert (fst (csv_ReadAll text) = []) as -> by (unfold csv_ReadAll in *; destruct (forallb _ _); [discriminate|reflexivity]).
  apply wp_bind. unfold iris_data. eapply wp_eq; [reflexivity|]. cbn [fst snd].
  apply (wp_example_empty sps k new_opt opt acctype prec epochs every s0); auto.
Qed.
End AnyNum.
