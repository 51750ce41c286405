(** * FloatEx: a math library that meets the assumptions of C96, and a case. *)
From Coq Require Import String ZArith List Bool Arith Lia Reals Lra.
From Flocq Require Import IEEE754.Bits IEEE754.BinarySingleNaN IEEE754.Binary.
From Verif Require Import Num NumB64 Heap Spec PureSpec OptSpec SoftFloat FloatSigns FloatRange FloatGlue.
Import ListNotations.
Open Scope Z_scope.

(** exp x = max(x,1) or x, log x = x - 1, pow x y = x * x. *)
Definition fx_lib : libm :=
  MkLibm (fun x => if b64_lt x (b64_ofZ 0) then b64_ofZ 1 else x) (fun x => b64_opp (b64_minus mode_NE (b64_ofZ 1) x)) (fun x _ => b64_mult mode_NE x x).
Lemma opp_nonpos x : nonneg x -> nonpos (b64_opp x).
Proof. unfold nonpos, nonneg. rewrite zero_is. destruct x as [s|s|s pl H|s m e H]; try destruct s; simpl; auto; discriminate. Qed.
Lemma fx_ok : exp_nonneg fx_lib /\ log_nonpos fx_lib /\ square_nonneg fx_lib.
Proof.
  split; [|split].
  - intros x. unfold nonneg. cbn [l_exp fx_lib]. destruct (b64_lt x (b64_ofZ 0)) eqn:E; [reflexivity|exact E].
  - intros x H. cbn [l_log fx_lib]. apply opp_nonpos, unit_nonneg, one_minus_nan, H.
  - intros x. cbn [l_pow fx_lib]. destruct (b64_nan (b64_mult mode_NE x x)) eqn:N; [now apply nan_nonneg|].
    apply sign_nonneg. rewrite mult_sign by exact N. apply xorb_nilpotent.
Qed.
Notation FX := (B64 fx_lib).
Definition fx_y : pm FX := [[f0; f1; f0]; [f1; f0; f0]].
Definition fx_p : pm FX := [[lit_half; lit_1em7; f1]; [f0; lit_half; lit_half]].
Lemma fx_hot : hot fx_lib 2 3 fx_y.
Proof.
  intros i Hi. destruct i as [|[|i]]; [exists 1%nat|exists 0%nat|lia]; (split; [lia|]); intros j Hj; destruct j as [|[|[|j]]]; try lia; reflexivity.
Qed.
Lemma fx_values : b64_lt (b64_ofZ 0) (pce 2 3 fx_p fx_y) = true /\ b64_lt (b64_ofZ 0) (pmse 3 fx_p fx_y) = true /\ b64_lt (b64_ofZ 0) (pmae 3 fx_p fx_y) = true.
Proof. vm_compute. repeat split; reflexivity. Qed.
Lemma fx_adam k c r0 : adam_ok fx_lib (PL Hidden k c [] [] f0 f0, PO Adam f1 f0 f0 lit_1em7 lit_half lit_half f1 r0 false false [] [] (zmat k c) (zmat 1 c)).
Proof.
  split; [cbn [snd po_b2]; apply (lit_unit 1 2); lia|]. split; cbn [fst snd p_in p_out po_wc po_bc]; intros; unfold zmat; rewrite entry_mk by (auto; lia); reflexivity.
Qed.
