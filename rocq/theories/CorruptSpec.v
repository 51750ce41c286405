(** * CorruptSpec: damaged model files. *)
From Coq.Strings Require Import Byte.
From Coq Require Import String Ascii ZArith List Bool Arith.
From Verif Require Import Num Heap Spec Matrix Network Loss Optimizers ModelGo LayerData ModelData PureSpec Repr OptSpec ModelSpec CodecSpec.
Import ListNotations.

(** The bytes [buf] with [bs] written over them from offset [a] on. *)
Definition patch (a : nat) (bs buf : list byte) : list byte := firstn a buf ++ bs ++ skipn (a + length bs) buf.
Section WithNum.
Context {K : Num}.
(** The layer [p] with another weight or bias. *)
Definition with_weight (p : player K) (a b : nat) (v : K) : player K :=
  PL (p_kind p) (p_in p) (p_out p) (mk (p_in p) (p_out p) (fun x y => if (x =? a)%nat && (y =? b)%nat then v else entry (p_w p) x y))
    (p_b p) (p_slope p) (p_drop p).
Definition with_bias (p : player K) (b : nat) (v : K) : player K :=
  PL (p_kind p) (p_in p) (p_out p) (p_w p) (mk 1 (p_out p) (fun x y => if (y =? b)%nat then v else entry (p_b p) x y)) (p_slope p) (p_drop p).
(** Where the layer after [ps], its weight [a], [b] and its bias [b] are stored. *)
Definition layer_offset (ord : gomap K) (ps : list (player K)) : nat :=
  (30 + list_total (map (fun kv => 9 + String.length (fst kv)) ord) + list_total (map layer_size ps))%nat.
Definition weight_offset (ord : gomap K) (ps : list (player K)) (p : player K) (a b : nat) : nat :=
  (layer_offset ord ps + 27 + 8 * (a * p_out p + b))%nat.
Definition bias_offset (ord : gomap K) (ps : list (player K)) (p : player K) (b : nat) : nat :=
  (layer_offset ord ps + 27 + 8 * (p_in p * p_out p + b))%nat.
(** Float64bits is onto: every bit pattern is some value. *)
Definition bits_onto (B : FBits K) : Prop := forall z, (0 <= z < 2 ^ 64)%Z -> to_bits B (of_bits B z) = z.
End WithNum.
