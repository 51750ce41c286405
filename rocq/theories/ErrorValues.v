(** * Error values not covered elsewhere: softmax backward passes (for C23) and InitLogger (for C67); NewOptimizerFromType (for C20). *)
From Coq Require Import String ZArith List Bool Lia.
From Verif Require Import Num Heap Matrix Network Optimizers ModelGo.
Import ListNotations.
Open Scope Z_scope.
Open Scope go_scope.

Section WithNum.
Context {K : Num}.
Local Ltac chk := unfold bind, get_layer; repeat (match goal with
  | H : nth_error _ _ = Some _ |- _ => rewrite H
  | H : ?a = ?b |- context [negb (?a =? ?b)] => rewrite (proj2 (Z.eqb_eq a b) H)
  | H : ?a <> ?b |- context [negb (?a =? ?b)] => rewrite (proj2 (Z.eqb_neq a b) H)
  end; cbn [negb]).
Lemma softmax_backward_errors (s : state K) lref l x dv : nth_error (h_layers s) lref = Some l -> l_kind l = SoftmaxK -> mcols x = l_in l ->
  let c := l_cache l in
  (mcols c <> l_out l -> Layer_Backward lref x dv s = (Fail (EMatDims (mrows c) (mcols c)), s)) /\
  (mcols c = l_out l -> mcols dv <> l_out l -> Layer_Backward lref x dv s = (Fail (EMatDims (mrows dv) (mcols dv)), s)) /\
  (mcols c = l_out l -> mcols dv = l_out l -> mrows c <> mrows dv -> Layer_Backward lref x dv s = (Fail (EMatDims (mrows c) (mrows dv)), s)).
Proof.
  intros Hl Hk Hx c. subst c.
  assert (E : Layer_Backward lref x dv s = Softmax_Backward lref x dv s) by (unfold Layer_Backward, bind, get_layer; rewrite Hl, Hk; reflexivity).
  rewrite E. unfold Softmax_Backward. split; [|split]; intros; chk; reflexivity.
Qed.
Lemma fused_backward_errors (s : state K) lref l x y dv : nth_error (h_layers s) lref = Some l ->
  (mcols y <> l_out l -> BackwardCrossEntropy lref x y dv s = (Fail (EMatDims (mrows y) (mcols y)), s)) /\
  (mcols y = l_out l -> mcols dv <> l_out l -> BackwardCrossEntropy lref x y dv s = (Fail (EMatDims (mrows dv) (mcols dv)), s)) /\
  (mcols y = l_out l -> mcols dv = l_out l -> mrows y <> mrows dv -> BackwardCrossEntropy lref x y dv s = (Fail (EMatDims (mrows y) (mrows dv)), s)).
Proof. intros Hl. unfold BackwardCrossEntropy. split; [|split]; intros; chk; reflexivity. Qed.
Lemma init_logger_all (s : state K) verbose useFile open_ok :
  (useFile = false \/ open_ok = true -> InitLogger verbose useFile open_ok s = (Ret tt, with_logger s true)) /\
  (useFile = true -> open_ok = false -> exists e, InitLogger verbose useFile open_ok s = (Fail e, s)).
Proof. split; [intros [->| ->]; unfold InitLogger; [|rewrite andb_false_r]; reflexivity|]. intros -> ->. eexists. reflexivity. Qed.
Lemma optimizer_of_type (s : state K) t (v : gomap K) :
  (t = 0 -> exists o, NewOptimizerFromType t v s = (Ret o, s) /\ o_kind o = SGD /\ o_lr o = mget "learningRate" v /\ o_decay o = mget "decay" v /\
     o_momentum o = mget "momentum" v /\ o_rate o = mget "learningRate" v /\ o_iter o = 0 /\ o_wm o = matrix0 /\ o_bm o = matrix0 /\
     o_usedecay o = negb (feq (mget "decay" v) f0) /\ o_usemom o = negb (feq (mget "momentum" v) f0)) /\
  (t = 1 -> exists o, NewOptimizerFromType t v s = (Ret o, s) /\ o_kind o = Adam /\ o_lr o = mget "learningRate" v /\ o_decay o = mget "decay" v /\
     o_eps o = mget "epsilon" v /\ o_beta1 o = mget "beta1" v /\ o_beta2 o = mget "beta2" v /\ o_rate o = mget "learningRate" v /\ o_iter o = 0 /\
     o_wm o = matrix0 /\ o_bm o = matrix0 /\ o_wc o = matrix0 /\ o_bc o = matrix0 /\ o_usedecay o = negb (feq (mget "decay" v) f0)) /\
  (t <> 0 -> t <> 1 -> NewOptimizerFromType t v s = (Fail (EMsg "nn.Optimizer: Invalid optimizer type."), s)).
Proof.
  split; [|split].
  - intros ->. eexists. split; [reflexivity|]. repeat split.
  - intros ->. eexists. split; [reflexivity|]. repeat split.
  - intros H0 H1. unfold NewOptimizerFromType. cbn [okind_code]. rewrite (proj2 (Z.eqb_neq t 0) H0), (proj2 (Z.eqb_neq t 1) H1). reflexivity.
Qed.
End WithNum.
