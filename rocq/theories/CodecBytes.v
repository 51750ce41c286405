(** * CodecBytes: integers, float64 values and fields in byte strings. *)
From Coq.Strings Require Import Byte.
From Coq Require Import String Ascii ZArith List Bool Arith Lia ZifyBool.
From Verif Require Import Num Heap Spec Matrix Network Loss Optimizers ModelGo LayerData ModelData PureSpec Repr OptSpec ModelSpec CodecSpec HeapLemmas.
Import ListNotations.
Open Scope Z_scope.

(** ** Bytes *)
Lemma Z_of_byte_range b : 0 <= Z_of_byte b < 256.
Proof. unfold Z_of_byte. pose proof (Byte.to_N_bounded b). lia. Qed.
Lemma Z_of_byte_of_Z z : Z_of_byte (byte_of_Z z) = z mod 256.
Proof.
  unfold byte_of_Z, Z_of_byte. pose proof (Z.mod_pos_bound z 256 ltac:(lia)) as H.
  destruct (Byte.of_N (Z.to_N (z mod 256))) as [b|] eqn:E.
  - apply Byte.to_of_N in E. rewrite E. lia.
  - apply Byte.of_N_None_iff in E. lia.
Qed.
Lemma byte_of_Z_of_byte b : byte_of_Z (Z_of_byte b) = b.
Proof.
  unfold byte_of_Z. pose proof (Z_of_byte_range b). rewrite Z.mod_small by lia.
  unfold Z_of_byte. rewrite N2Z.id, Byte.of_to_N. reflexivity.
Qed.

Lemma le_bytes_enc n : forall z, le_bytes n z = enc n z.
Proof.
  induction n as [|n IH]; intros z; [reflexivity|]. cbn [le_bytes]. rewrite IH. unfold enc.
  cbn [seq map]. f_equal. { f_equal. simpl. now rewrite Z.div_1_r. }
  rewrite <- seq_shift, map_map. apply map_ext. intros k. f_equal.
  rewrite Z.div_div by (try apply Z.pow_pos_nonneg; lia). f_equal. rewrite Nat2Z.inj_succ, Z.pow_succ_r by lia. reflexivity.
Qed.
Lemma enc_length n z : length (enc n z) = n.
Proof. unfold enc. now rewrite map_length, seq_length. Qed.
Lemma fold_add_app l l' : fold_right Z.add 0 (l ++ l') = fold_right Z.add 0 l + fold_right Z.add 0 l'.
Proof. induction l; simpl; lia. Qed.
Lemma fold_add_scale c l : fold_right Z.add 0 (map (fun z => c * z) l) = c * fold_right Z.add 0 l.
Proof. induction l; simpl; lia. Qed.
Lemma of_le_sum bs : of_le bs = sum_bytes bs.
Proof.
  induction bs as [|b t IH]; [reflexivity|]. cbn [of_le]. rewrite IH. unfold sum_bytes.
  cbn [length seq map fold_right nth]. rewrite Z.pow_0_r, Z.mul_1_r. f_equal.
  rewrite <- seq_shift, map_map, <- fold_add_scale, map_map. f_equal. apply map_ext. intros k.
  cbn [nth]. rewrite Nat2Z.inj_succ, Z.pow_succ_r by lia. lia.
Qed.
Lemma of_le_range bs : 0 <= of_le bs < 256 ^ Z.of_nat (length bs).
Proof.
  induction bs as [|b t IH]; cbn [of_le length]; [simpl; lia|].
  rewrite Nat2Z.inj_succ, Z.pow_succ_r by lia. pose proof (Z_of_byte_range b). lia.
Qed.
Lemma of_le_le n : forall z, of_le (le_bytes n z) = z mod 256 ^ Z.of_nat n.
Proof.
  induction n as [|n IH]; intros z; [simpl; now rewrite Z.mod_1_r|]. cbn [le_bytes of_le]. rewrite IH, Z_of_byte_of_Z.
  rewrite Nat2Z.inj_succ, Z.pow_succ_r by lia.
  rewrite Z.rem_mul_r; [reflexivity|lia|]. apply Z.pow_pos_nonneg; lia.
Qed.
Lemma sum_enc n z : sum_bytes (enc n z) = z mod 256 ^ Z.of_nat n.
Proof. now rewrite <- of_le_sum, <- le_bytes_enc, of_le_le. Qed.
Lemma sum_range bs : 0 <= sum_bytes bs < 256 ^ Z.of_nat (length bs).
Proof. rewrite <- of_le_sum. apply of_le_range. Qed.

Lemma wrap8_signed z : 0 <= z < 256 -> wrap8 z = signed 8 z.
Proof.
  intros H. unfold wrap8, signed. change (2 ^ (8 - 1)) with 128. change (2 ^ 8) with 256.
  destruct (z <? 128) eqn:E; apply Z.ltb_lt in E || apply Z.ltb_ge in E.
  - rewrite Z.mod_small; lia.
  - replace (z + 128) with (z - 128 + 1 * 256) by lia. rewrite Z.mod_add, Z.mod_small; lia.
Qed.
Lemma wrap32_signed z : 0 <= z < 2 ^ 32 -> wrap32 z = signed 32 z.
Proof.
  intros H. unfold wrap32, signed. change (2 ^ (32 - 1)) with 2147483648. change (2 ^ 32) with 4294967296 in *.
  destruct (z <? 2147483648) eqn:E; apply Z.ltb_lt in E || apply Z.ltb_ge in E.
  - rewrite Z.mod_small; lia.
  - replace (z + 2147483648) with (z - 2147483648 + 1 * 4294967296) by lia. rewrite Z.mod_add, Z.mod_small; lia.
Qed.
Lemma signed_enc bits z : 0 < bits -> - 2 ^ (bits - 1) <= z < 2 ^ (bits - 1) -> signed bits (z mod 2 ^ bits) = z.
Proof.
  intros Hb H. unfold signed. assert (E : 2 ^ bits = 2 * 2 ^ (bits - 1)).
  { rewrite <- Z.pow_succ_r by lia. f_equal. lia. }
  rewrite E. set (P := 2 ^ (bits - 1)) in *. destruct (Z.leb_spec 0 z).
  - rewrite Z.mod_small by lia. now replace (z <? P) with true by lia.
  - replace (z mod (2 * P)) with (z + 2 * P).
    + replace (z + 2 * P <? P) with false by lia. lia.
    + symmetry. rewrite <- (Z.mod_add z 1 (2 * P)) by lia. rewrite Z.mod_small; lia.
Qed.
Lemma signed_range bits z : 0 < bits -> 0 <= z < 2 ^ bits -> - 2 ^ (bits - 1) <= signed bits z < 2 ^ (bits - 1).
Proof.
  intros Hb H. assert (E : 2 ^ bits = 2 * 2 ^ (bits - 1)).
  { rewrite <- Z.pow_succ_r by lia. f_equal. lia. }
  unfold signed. destruct (Z.ltb_spec z (2 ^ (bits - 1))); lia.
Qed.
Lemma int8_range a buf : -128 <= int8_at a buf < 128.
Proof.
  apply (signed_range 8); [lia|]. pose proof (sum_range (field a 1 buf)) as H.
  assert (L : (length (field a 1 buf) <= 1)%nat) by (unfold field; rewrite firstn_length; lia).
  split; [apply H|]. eapply Z.lt_le_trans; [apply H|]. change (2 ^ 8) with (256 ^ 1). apply Z.pow_le_mono_r; lia.
Qed.
Lemma int32_range a buf : - 2 ^ 31 <= int32_at a buf < 2 ^ 31.
Proof.
  apply (signed_range 32); [lia|]. pose proof (sum_range (field a 4 buf)) as H.
  assert (L : (length (field a 4 buf) <= 4)%nat) by (unfold field; rewrite firstn_length; lia).
  split; [apply H|]. eapply Z.lt_le_trans; [apply H|]. change (2 ^ 32) with (256 ^ 4). apply Z.pow_le_mono_r; lia.
Qed.

(** ** Fields *)
Lemma field_0 n buf : field 0 n buf = firstn n buf. Proof. reflexivity. Qed.
Lemma skipn_add {A} (l : list A) : forall a b, skipn a (skipn b l) = skipn (b + a) l.
Proof. intros a b. revert l. induction b as [|b IH]; intros l; [reflexivity|]. destruct l; [now rewrite !skipn_nil|]. simpl. apply IH. Qed.
Lemma field_skip a n k buf : field a n (skipn k buf) = field (k + a) n buf.
Proof. unfold field. now rewrite skipn_add. Qed.
Lemma field_length a n buf : (a + n <= length buf)%nat -> length (field a n buf) = n.
Proof. intros H. unfold field. rewrite firstn_length, skipn_length. lia. Qed.
Lemma field_app_l a n x y : (a + n <= length x)%nat -> field a n (x ++ y) = field a n x.
Proof.
  intros H. unfold field. rewrite skipn_app, firstn_app, skipn_length.
  replace (n - (length x - a))%nat with O by lia. now rewrite firstn_O, app_nil_r.
Qed.
Lemma field_app_r a b n x y : length x = a -> field (a + b) n (x ++ y) = field b n y.
Proof. intros <-. unfold field. now rewrite <- skipn_add, skipn_app, skipn_all, Nat.sub_diag. Qed.
Lemma field_head n x y : length x = n -> field 0 n (x ++ y) = x.
Proof. intros <-. unfold field. simpl. now rewrite firstn_app, Nat.sub_diag, firstn_all, firstn_O, app_nil_r. Qed.
Lemma skipn_head {A} n (x y : list A) : length x = n -> skipn n (x ++ y) = y.
Proof. intros <-. now rewrite skipn_app, skipn_all, Nat.sub_diag. Qed.
Lemma skipn_past {A} n k (x y : list A) : length x = n -> skipn (n + k) (x ++ y) = skipn k y.
Proof. intros <-. rewrite <- skipn_add. now rewrite skipn_head. Qed.
Lemma list_byte_length x : length (list_byte_of_string x) = String.length x.
Proof. induction x; simpl; [reflexivity|]. now f_equal. Qed.
Lemma string_at_enc n x y : String.length x = n -> string_at 0 n (list_byte_of_string x ++ y) = x.
Proof. intros H. unfold string_at. rewrite field_head by now rewrite list_byte_length. apply string_of_list_byte_of_string. Qed.
Lemma int8_enc z y : -128 <= z < 128 -> int8_at 0 (enc 1 z ++ y) = z.
Proof. intros H. unfold int8_at. rewrite field_head by apply enc_length. rewrite sum_enc. now apply (signed_enc 8). Qed.
Lemma int32_enc z y : - 2 ^ 31 <= z < 2 ^ 31 -> int32_at 0 (enc 4 z ++ y) = z.
Proof. intros H. unfold int32_at. rewrite field_head by apply enc_length. rewrite sum_enc. now apply (signed_enc 32). Qed.
Lemma int8_at_app a b x y : length x = a -> int8_at (a + b) (x ++ y) = int8_at b y.
Proof. intros. unfold int8_at. now rewrite field_app_r. Qed.
Lemma int32_at_app a b x y : length x = a -> int32_at (a + b) (x ++ y) = int32_at b y.
Proof. intros. unfold int32_at. now rewrite field_app_r. Qed.
Lemma string_at_app a b n x y : length x = a -> string_at (a + b) n (x ++ y) = string_at b n y.
Proof. intros. unfold string_at. now rewrite field_app_r. Qed.
(** Of shorter inputs, a field is what it is in any longer one. *)
Lemma int8_at_l a x y : (a + 1 <= length x)%nat -> int8_at a (x ++ y) = int8_at a x.
Proof. intros. unfold int8_at. now rewrite field_app_l. Qed.
Lemma int32_at_l a x y : (a + 4 <= length x)%nat -> int32_at a (x ++ y) = int32_at a x.
Proof. intros. unfold int32_at. now rewrite field_app_l. Qed.
Lemma string_at_l a n x y : (a + n <= length x)%nat -> string_at a n (x ++ y) = string_at a n x.
Proof. intros. unfold string_at. now rewrite field_app_l. Qed.
Lemma app_as_firstn_skipn {A} (x y : list A) n : (n <= length x)%nat -> skipn n (x ++ y) = skipn n x ++ y.
Proof. intros. rewrite skipn_app. replace (n - length x)%nat with O by lia. reflexivity. Qed.

Section WithNum.
Context {K : Num} (B : FBits K).

Lemma f64s_nil : f64s B [] = []. Proof. reflexivity. Qed.
Lemma f64s_cons x l : f64s B (x :: l) = enc 8 (to_bits B x) ++ f64s B l. Proof. reflexivity. Qed.
Lemma f64s_app l l' : f64s B (l ++ l') = f64s B l ++ f64s B l'.
Proof. unfold f64s. now rewrite map_app, concat_app. Qed.
Lemma f64s_length l : length (f64s B l) = (8 * length l)%nat.
Proof. induction l as [|x l IH]; [reflexivity|]. rewrite f64s_cons, app_length, enc_length, IH. cbn [length]. lia. Qed.
Lemma f64_at_app a b x y : length x = a -> f64_at B (a + b) (x ++ y) = f64_at B b y.
Proof. intros. unfold f64_at. now rewrite field_app_r. Qed.
Lemma f64_at_l a x y : (a + 8 <= length x)%nat -> f64_at B a (x ++ y) = f64_at B a x.
Proof. intros. unfold f64_at. now rewrite field_app_l. Qed.
Lemma f64_enc (HB : bits_ok B) x y : f64_at B 0 (enc 8 (to_bits B x) ++ y) = x.
Proof.
  destruct (HB x) as [H1 H2]. unfold f64_at. rewrite field_head by apply enc_length. rewrite sum_enc.
  rewrite Z.mod_small; auto.
Qed.
Lemma f64_at_f64s (HB : bits_ok B) l y k : (k < length l)%nat -> f64_at B (8 * k) (f64s B l ++ y) = nth k l f0.
Proof.
  revert k; induction l as [|x l IH]; intros k Hk; [simpl in Hk; lia|]. rewrite f64s_cons, <- app_assoc.
  destruct k as [|k].
  - rewrite Nat.mul_0_r. now apply f64_enc.
  - replace (8 * S k)%nat with (8 + 8 * k)%nat by lia. rewrite f64_at_app by apply enc_length. apply IH. cbn [length] in Hk. lia.
Qed.
(** The entries of a matrix, row by row. *)
Lemma nth_concat (A : pm K) r c : shape r c A -> forall a b, (a < r)%nat -> (b < c)%nat -> nth (a * c + b) (concat A) f0 = entry A a b.
Proof.
  revert r. induction A as [|row A IH]; intros r [HL HF] a b Ha Hb; [simpl in HL; lia|].
  inversion HF as [|? ? HR HF']; subst. cbn [concat]. unfold entry. destruct a as [|a].
  - rewrite app_nth1 by (cbn; lia). reflexivity.
  - rewrite app_nth2 by (rewrite Nat.mul_succ_l; lia). cbn [nth length].
    replace (S a * length row + b - length row)%nat with (a * length row + b)%nat by (rewrite Nat.mul_succ_l; lia).
    apply (IH (length A)); [split; auto|cbn [length] in Ha; lia|exact Hb].
Qed.
Lemma length_concat (A : pm K) r c : shape r c A -> length (concat A) = (r * c)%nat.
Proof.
  intros [HL HF]. subst r. induction HF as [|row A HR HF IH]; [reflexivity|]. cbn [concat length]. rewrite app_length, IH. lia.
Qed.

(** ** The readers *)
Lemma read_full_run s n buf : (n <= length buf)%nat -> read_full (K := K) n buf s = (Ret (field 0 n buf, skipn n buf), s).
Proof. intros H. unfold read_full. apply Nat.leb_le in H. now rewrite H. Qed.
Lemma read_full_fail s n buf : (length buf < n)%nat -> exists e, read_full (K := K) n buf s = (Fail e, s).
Proof. intros H. unfold read_full. apply Nat.leb_gt in H. rewrite H. destruct buf; eexists; reflexivity. Qed.
Lemma get_int8_run s buf : (1 <= length buf)%nat -> get_int8 (K := K) buf s = (Ret (int8_at 0 buf, skipn 1 buf), s).
Proof.
  intros H. unfold get_int8. erewrite bind_eq by now apply read_full_run. cbn [fst snd]. unfold ret, int8_at. do 3 f_equal.
  pose proof (of_le_range (field 0 1 buf)) as HR. rewrite field_length in HR by lia. rewrite wrap8_signed by exact HR. now rewrite of_le_sum.
Qed.
Lemma get_int32_run s buf : (4 <= length buf)%nat -> get_int32 (K := K) buf s = (Ret (int32_at 0 buf, skipn 4 buf), s).
Proof.
  intros H. unfold get_int32. erewrite bind_eq by now apply read_full_run. cbn [fst snd]. unfold ret, int32_at. do 3 f_equal.
  pose proof (of_le_range (field 0 4 buf)) as HR. rewrite field_length in HR by lia. rewrite wrap32_signed by exact HR. now rewrite of_le_sum.
Qed.
Lemma get_f64_run s buf : (8 <= length buf)%nat -> get_f64 B buf s = (Ret (f64_at B 0 buf, skipn 8 buf), s).
Proof.
  intros H. unfold get_f64. erewrite bind_eq by now apply read_full_run. cbn [fst snd]. unfold ret, f64_at. now rewrite of_le_sum.
Qed.
Lemma get_int8_fail s buf : (length buf < 1)%nat -> exists e, get_int8 (K := K) buf s = (Fail e, s).
Proof. intros H. destruct (read_full_fail s 1 buf H) as [e E]. exists e. unfold get_int8. now apply bind_fail. Qed.
Lemma get_int32_fail s buf : (length buf < 4)%nat -> exists e, get_int32 (K := K) buf s = (Fail e, s).
Proof. intros H. destruct (read_full_fail s 4 buf H) as [e E]. exists e. unfold get_int32. now apply bind_fail. Qed.
Lemma get_f64_fail s buf : (length buf < 8)%nat -> exists e, get_f64 B buf s = (Fail e, s).
Proof. intros H. destruct (read_full_fail s 8 buf H) as [e E]. exists e. unfold get_f64. now apply bind_fail. Qed.
Lemma buf_read_run s n buf : (n <= length buf)%nat -> buf_read (K := K) n buf s = (Ret (field 0 n buf, skipn n buf), s).
Proof.
  intros H. unfold buf_read. destruct buf as [|b t].
  - assert (n = O) by (cbn [length] in H; lia). subst. reflexivity.
  - replace (n - length (b :: t))%nat with O by lia. cbn [repeat]. now rewrite app_nil_r.
Qed.
(** A short read: some bytes, the rest zero; nothing is left. *)
Lemma buf_read_short s n buf : (0 < length buf < n)%nat ->
  buf_read (K := K) n buf s = (Ret (buf ++ repeat x00 (n - length buf), []), s).
Proof.
  intros H. unfold buf_read. destruct buf as [|b t]; [cbn [length] in H; lia|]. rewrite firstn_all2, skipn_all2 by lia. reflexivity.
Qed.
End WithNum.
