(** * Csv: reading tables of text and decimal numbers (C103). *)
From Coq Require Import String Ascii ZArith List Bool Arith Lia Reals.
From Flocq Require Import Core.Core.
From Verif Require Import Num NumB64 B64Facts Heap Spec PureSpec OptSpec ModelSpec Session ExamplesGo ExamplesSpec IrisData ExamplesFacts ExamplesRuns TextSpec RoundSpec.
Import ListNotations.

(** ** Fields and lines *)
Lemma free_cons c a w : free_of c (String a w) -> a <> c /\ free_of c w.
Proof. intros H. split; [intros ->; exact (H 0%nat eq_refl)|]. intros i. exact (H (S i)). Qed.
Lemma free_app c v w : free_of c v -> free_of c w -> free_of c (v ++ w)%string.
Proof.
  intros Hv Hw. induction v as [|a v IH]; [exact Hw|]. apply free_cons in Hv as [Ha Hv]. intros [|i]; cbn; [intros [= E]; contradiction|]. apply IH, Hv.
Qed.
Lemma free_char c a w : a <> c -> free_of c w -> free_of c (String a w).
Proof. intros Ha Hw [|i]; cbn; [intros [= E]; contradiction|apply Hw]. Qed.
Lemma split_last c w : free_of c w -> split_at c w = [w].
Proof.
  induction w as [|a w IH]; intros H; [reflexivity|]. apply free_cons in H as [Ha H]. cbn.
  apply Ascii.eqb_neq in Ha. rewrite Ha, (IH H). reflexivity.
Qed.
Lemma split_next c w t : free_of c w -> split_at c (w ++ String c t) = w :: split_at c t.
Proof.
  induction w as [|a w IH]; intros H; cbn; [rewrite Ascii.eqb_refl; reflexivity|]. apply free_cons in H as [Ha H].
  apply Ascii.eqb_neq in Ha. rewrite Ha, (IH H). reflexivity.
Qed.
Lemma split_separated c r : r <> [] -> (forall w, In w r -> free_of c w) -> split_at c (separated c r) = r.
Proof.
  induction r as [|w r IH]; intros HN H; [congruence|]. destruct r as [|w' r].
  - apply split_last, H. left. reflexivity.
  - change (split_at c (w ++ String c (separated c (w' :: r))) = w :: w' :: r).
    rewrite split_next by (apply H; left; reflexivity). f_equal. apply IH; [discriminate|]. intros v Hv. apply H. right. exact Hv.
Qed.
Lemma separated_free c d r : c <> d -> (forall w, In w r -> free_of d w) -> free_of d (separated c r).
Proof.
  intros HC. induction r as [|w r IH]; intros H; [intros [|i]; discriminate|]. destruct r as [|w' r].
  - apply H. left. reflexivity.
  - change (free_of d (w ++ String c (separated c (w' :: r)))). apply free_app; [apply H; left; reflexivity|]. apply free_char; [exact HC|].
    apply IH. intros v Hv. apply H. right. exact Hv.
Qed.
Lemma separated_blank r : r <> [] -> String.eqb (separated ","%char r) EmptyString = blank r.
Proof.
  intros H. destruct r as [|w [|w' r]]; [congruence| |].
  - destruct w; reflexivity.
  - change (separated "," (w :: w' :: r)) with (w ++ String "," (separated "," (w' :: r)))%string. destruct w; reflexivity.
Qed.
Lemma table_lines records : is_table records ->
  split_at (ascii_of_nat 10) (table_text records) = (map (separated ","%char) records ++ [EmptyString])%list.
Proof.
  induction records as [|r l IH]; intros H; [reflexivity|].
  change (table_text (r :: l)) with (separated "," r ++ String (ascii_of_nat 10) (table_text l))%string.
  rewrite split_next.
  - cbn [map app]. f_equal. apply IH. intros r' Hr. apply H. right. exact Hr.
  - apply separated_free; [discriminate|]. intros w Hw. apply (H r (or_introl eq_refl)), Hw.
Qed.
Lemma table_read records : is_table records -> csv_lines (table_text records) = filter (fun r => negb (blank r)) records.
Proof.
  intros H. unfold csv_lines. rewrite table_lines by exact H. rewrite filter_app. cbn [filter String.eqb negb]. rewrite app_nil_r.
  induction records as [|r l IH]; [reflexivity|]. cbn [map filter].
  destruct (H r (or_introl eq_refl)) as [HN HF]. rewrite separated_blank by exact HN.
  assert (E : map (split_at ",") (filter (fun l0 => negb (l0 =? "")%string) (map (separated ",") l)) = filter (fun r0 => negb (blank r0)) l).
  { apply IH. intros r' Hr. apply H. right. exact Hr. }
  destruct (blank r); cbn [negb]; [exact E|]. cbn [map]. rewrite E, split_separated; [reflexivity|exact HN|]. intros w Hw. apply HF, Hw.
Qed.
Lemma csv_reads records k : is_table records ->
  (forall r, In r records -> blank r = false -> length r = k) -> csv_ReadAll (table_text records) = (filter (fun r => negb (blank r)) records, true).
Proof.
  intros H HK. unfold csv_ReadAll. rewrite table_read by exact H.
  replace (forallb _ _) with true; [reflexivity|]. symmetry. apply forallb_forall. intros r Hr.
  assert (G : forall r, In r (filter (fun r => negb (blank r)) records) -> length r = k).
  { intros r' Hr'. apply filter_In in Hr' as [Hi Hb]. apply HK; [exact Hi|]. now apply negb_true_iff. }
  destruct (filter (fun r0 => negb (blank r0)) records) as [|r0 l]; [destruct Hr|]. apply Nat.eqb_eq. rewrite (G r Hr), (G r0 (or_introl eq_refl)). reflexivity.
Qed.
Lemma csv_ragged records r r' : is_table records -> In r records -> In r' records -> blank r = false -> blank r' = false -> length r <> length r' ->
  csv_ReadAll (table_text records) = ([], false).
Proof.
  intros H Hr Hr' Hb Hb' HN. unfold csv_ReadAll. rewrite table_read by exact H.
  destruct (forallb _ _) eqn:E; [|reflexivity]. exfalso. rewrite forallb_forall in E.
  assert (I1 : In r (filter (fun r => negb (blank r)) records)) by (apply filter_In; rewrite Hb; auto).
  assert (I2 : In r' (filter (fun r => negb (blank r)) records)) by (apply filter_In; rewrite Hb'; auto).
  apply E in I1, I2. apply Nat.eqb_eq in I1, I2. congruence.
Qed.

(** ** Numbers *)
Lemma decimal_digits t : forall v k v' k' t' fr, read_digits v k t = (v', k', t') ->
  decimal t v k fr = decimal t' v' k' (match fr with None => None | Some f => Some (f + (k' - k))%nat end) /\ (k <= k')%nat /\ (k' + String.length t' = k + String.length t)%nat.
Proof.
  induction t as [|c t IH]; intros v k v' k' t' fr H; cbn [read_digits] in H.
  - injection H as <- <- <-. rewrite Nat.sub_diag. repeat split; [|lia]. destruct fr; [rewrite Nat.add_0_r|]; reflexivity.
  - unfold digit_value in H. destruct ((48 <=? nat_of_ascii c) && (nat_of_ascii c <=? 57))%nat eqn:E.
    + destruct (IH _ _ _ _ _ (match fr with None => None | Some f => Some (S f) end) H) as (A & B & C). split; [|cbn; lia].
      apply andb_true_iff in E as [E1 E2]. apply Nat.leb_le in E1, E2. cbn [decimal].
      replace ((0 <=? Z.of_nat (nat_of_ascii c) - 48) && (Z.of_nat (nat_of_ascii c) - 48 <=? 9))%Z with true
        by (symmetry; apply andb_true_iff; split; apply Z.leb_le; lia).
      rewrite Z.mul_comm with (n := v). rewrite A. f_equal. destruct fr; [f_equal; lia|reflexivity].
    + injection H as <- <- <-. rewrite Nat.sub_diag. repeat split; [|lia]. destruct fr; [rewrite Nat.add_0_r|]; reflexivity.
Qed.
Lemma expect_dot t t' : expect "." t = Some t' -> t = String "." t'.
Proof. destruct t as [|c t]; [discriminate|]. cbn [expect]. destruct (Ascii.eqb "."%char c) eqn:E; [|discriminate]. apply Ascii.eqb_eq in E. subst c. intros [= ->]. reflexivity. Qed.
Lemma parse_value (L : libm) (other : string -> B64 L) t v : (String.length t <= 16)%nat -> read_sign t = (false, t) ->
  read_decimal t = Some (Decimal v, EmptyString) -> b64_finite (ParseFloat other t) = true /\ b64_R (ParseFloat other t) = rnd v.
Proof.
  intros HL HS H. unfold read_decimal in H. rewrite HS in H.
  destruct (read_digits 0 0 t) as [[v1 k1] t1] eqn:E1. destruct (k1 =? 0)%nat eqn:K1; [discriminate|]. apply Nat.eqb_neq in K1.
  destruct (expect "." t1) as [t2|] eqn:E2; [|discriminate]. apply expect_dot in E2. subst t1.
  destruct (read_digits v1 0 t2) as [[v2 f] t3] eqn:E3. destruct (f =? 0)%nat eqn:F1; [discriminate|]. injection H as HV HT. subst t3 v.
  destruct (decimal_digits _ _ _ _ _ _ None E1) as (A & _ & B).
  assert (E4 : forall k0 k v0, read_digits v0 k0 t2 = (v2, f, EmptyString) -> read_digits v0 k t2 = (v2, (f - k0 + k)%nat, EmptyString) /\ (k0 <= f)%nat).
  { clear. induction t2 as [|c t IH]; intros k0 k v0 H; cbn [read_digits] in *.
    - injection H as -> ->. rewrite Nat.sub_diag. split; [reflexivity|lia].
    - destruct (digit_value c); [|discriminate]. destruct (IH _ (S k) _ H) as [E G]. rewrite E. split; [f_equal; f_equal; lia|lia]. }
  destruct (E4 0%nat k1 v1 E3) as [E5 _]. rewrite Nat.sub_0_r in E5.
  destruct (decimal_digits _ _ _ _ _ _ (Some O) E5) as (C & _ & D).
  assert (E6 : decimal t 0 0 None = Some (v2, (f + k1)%nat, f)).
  { rewrite A. cbn [decimal]. change (Z.of_nat (nat_of_ascii ".") - 48)%Z with (-2)%Z. cbn [Z.leb andb Ascii.eqb]. cbv beta iota delta [Z.compare Bool.eqb]. rewrite C. cbn [decimal]. replace (0 + (f + k1 - k1))%nat with f by lia. reflexivity. }
  cbn [String.length] in *.
  destruct (parse_nearest L other t v2 (f + k1) f E6) as [P1 P2]; [lia|]. split; [exact P1|]. rewrite P2. f_equal.
  rewrite pow_IZR. reflexivity.
Qed.

Lemma csv_ex : is_table [["1.5"; ""]; [""]; ["";"x"]]%string /\ blank ["1.5"; ""]%string = false /\ blank [""]%string = true /\
  csv_ReadAll (table_text [["1.5"; ""]; [""]; ["";"x"]]%string) = ([["1.5"; ""]; ["";"x"]]%string, true) /\
  read_sign "12.75" = (false, "12.75")%string /\ read_decimal "12.75" = Some (Decimal (IZR 1275 / 10 ^ 2), EmptyString).
Proof.
  split; [|repeat split].
  intros r Hr. cbn in Hr. assert (F : forall w, In w ["1.5"; ""; "x"]%string -> free_of "," w /\ free_of (ascii_of_nat 10) w).
  { intros w Hw. cbn in Hw. repeat destruct Hw as [<-|Hw]; try contradiction; split; intros [|[|[|i]]]; cbn; discriminate. }
  split; [destruct Hr as [<-|[<-|[<-|[]]]]; discriminate|]. intros w Hw. apply F.
  destruct Hr as [<-|[<-|[<-|[]]]]; cbn in *; tauto.
Qed.
