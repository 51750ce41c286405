(** * OptSpec: optimizers as plain recurrences, and how an optimizer object represents one. *)
From Coq Require Import String ZArith List Bool Arith.
From Verif Require Import Num Heap Spec Matrix Network PureSpec Repr.
Import ListNotations.
Open Scope Z_scope.

Section WithNum.
Context {K : Num}.

(** ** One parameter *)
(** The learning rate of step t (t = 0, 1, ...). *)
Definition rate_at (lr decay : K) (t : Z) : K := fmul lr (fdiv f1 (fadd f1 (fmul decay (ofZ t)))).
Definition sgd1 (rate p g : K) : K := fsub p (fmul g rate).
Definition vel1 (mu rate v g : K) : K := fsub (fmul v mu) (fmul g rate).
Definition adam_m1 (b1 m g : K) : K := fadd (fmul m b1) (fmul g (fsub f1 b1)).
Definition adam_c1 (b2 c g : K) : K := fadd (fmul c b2) (fmul (fpow g (ofZ 2)) (fsub f1 b2)).
(** Both moments are corrected with [corr]. *)
Definition adam_p1 (rate eps corr p m c : K) : K :=
  fadd p (fdiv (fmul (fneg rate) (fmul m corr)) (fadd (fsqrt (fmul c corr)) eps)).
Definition adam_corr (b1 : K) (t : Z) : K := fdiv f1 (fsub f1 (fpow b1 (ofZ (t + 1)))).

(** Histories: the parameter after the gradients [gs], starting at step [t]. *)
Fixpoint sgd_run (rate : Z -> K) (t : Z) (p : K) (gs : list K) : K :=
  match gs with [] => p | g :: r => sgd_run rate (t + 1) (sgd1 (rate t) p g) r end.
(** (parameter, velocity) *)
Fixpoint mom_run (mu : K) (rate : Z -> K) (t : Z) (p v : K) (gs : list K) : K * K :=
  match gs with
  | [] => (p, v)
  | g :: r => let v' := vel1 mu (rate t) v g in mom_run mu rate (t + 1) (fadd p v') v' r
  end.
(** (parameter, momentum, cache) *)
Fixpoint adam_run (b1 b2 eps : K) (rate : Z -> K) (t : Z) (p m c : K) (gs : list K) : K * K * K :=
  match gs with
  | [] => (p, m, c)
  | g :: r => let m' := adam_m1 b1 m g in let c' := adam_c1 b2 c g in
      adam_run b1 b2 eps rate (t + 1) (adam_p1 (rate t) eps (adam_corr b1 t) p m' c') m' c' r
  end.

(** ** A whole layer *)
Record popt : Type := PO {
  po_kind : okind; po_lr : K; po_decay : K; po_mom : K; po_eps : K; po_b1 : K; po_b2 : K;
  po_rate : K; po_iter : Z; po_usedecay : bool; po_usemom : bool;
  po_wm : pm K; po_bm : pm K; po_wc : pm K; po_bc : pm K
}.
Definition zmat (r c : nat) : pm K := mk r c (fun _ _ => f0).
Definition next_rate (po : popt) : K :=
  if po_usedecay po then rate_at (po_lr po) (po_decay po) (po_iter po) else po_rate po.
(** The optimizer after one update, and the new weights and biases (k x c and 1 x c). *)
Definition po_after (po : popt) (wm bm wc bc : pm K) : popt :=
  PO (po_kind po) (po_lr po) (po_decay po) (po_mom po) (po_eps po) (po_b1 po) (po_b2 po)
     (next_rate po) (po_iter po + 1) (po_usedecay po) (po_usemom po) wm bm wc bc.
Definition pupd1 (po : popt) (r c : nat) (P dP m ch : pm K) : pm K * pm K * pm K :=
  match po_kind po with
  | SGD =>
      if po_usemom po then
        let m' := pmap2 r c (vel1 (po_mom po) (next_rate po)) m dP in (pmap2 r c fadd P m', m', ch)
      else (pmap2 r c (sgd1 (next_rate po)) P dP, m, ch)
  | Adam =>
      let m' := pmap2 r c (adam_m1 (po_b1 po)) m dP in
      let ch' := pmap2 r c (adam_c1 (po_b2 po)) ch dP in
      (mk r c (fun i j => adam_p1 (next_rate po) (po_eps po) (adam_corr (po_b1 po) (po_iter po))
                 (entry P i j) (entry m' i j) (entry ch' i j)), m', ch')
  end.
Definition pupdate (po : popt) (k c : nat) (W B dW dB : pm K) : popt * pm K * pm K :=
  let '(W', wm, wc) := pupd1 po k c W dW (po_wm po) (po_wc po) in
  let '(B', bm, bc) := pupd1 po 1 c B dB (po_bm po) (po_bc po) in
  (po_after po wm bm wc bc, W', B').

(** ** Representation *)
Definition oscal (o : optimizer K) (po : popt) : Prop :=
  o_kind o = po_kind po /\ o_lr o = po_lr po /\ o_decay o = po_decay po /\ o_momentum o = po_mom po /\
  o_eps o = po_eps po /\ o_beta1 o = po_b1 po /\ o_beta2 o = po_b2 po /\ o_rate o = po_rate po /\
  o_iter o = po_iter po /\ o_usedecay o = po_usedecay po /\ o_usemom o = po_usemom po.
(** Before the first update the moment matrices are Matrix{} and stand for zeros. *)
Definition oown (s : state K) (o : optimizer K) (ro : list nat) (k c : nat) (po : popt) : Prop :=
  oscal o po /\
  match po_kind po with
  | SGD =>
      if po_usemom po then
        (mrows (o_wm o) = 0 /\ ro = [] /\ po_wm po = zmat k c /\ po_bm po = zmat 1 c) \/
        (exists r1 r2, ro = r1 ++ r2 /\ own s (o_wm o) r1 k c (po_wm po) /\ own s (o_bm o) r2 1 c (po_bm po))
      else ro = []
  | Adam =>
      (mrows (o_wm o) = 0 /\ ro = [] /\ po_wm po = zmat k c /\ po_bm po = zmat 1 c /\ po_wc po = zmat k c /\ po_bc po = zmat 1 c) \/
      (exists r1 r2 r3 r4, ro = r1 ++ r2 ++ r3 ++ r4 /\
         own s (o_wm o) r1 k c (po_wm po) /\ own s (o_bm o) r2 1 c (po_bm po) /\
         own s (o_wc o) r3 k c (po_wc po) /\ own s (o_bc o) r4 1 c (po_bc po))
  end.
(** Everything but the data heaps and the optimizers is unchanged. *)
Definition rest3 (s s' : state K) : Prop :=
  h_layers s' = h_layers s /\ h_rng s' = h_rng s /\ h_logger s' = h_logger s /\ h_log s' = h_log s.

(** ** Histories of updates *)
Fixpoint pupdates (po : popt) (k c : nat) (W B : pm K) (Gs : list (pm K * pm K)) : popt * pm K * pm K :=
  match Gs with
  | [] => (po, W, B)
  | (dW, dB) :: r => let '(po', W', B') := pupdate po k c W B dW dB in pupdates po' k c W' B' r
  end.
(** The learning rate of step t. *)
Definition po_sched (po : popt) (t : Z) : K :=
  if po_usedecay po then rate_at (po_lr po) (po_decay po) t else po_rate po.
(** The gradients a parameter sees. *)
Definition wgrad (Gs : list (pm K * pm K)) (i j : nat) : list K := map (fun G => entry (fst G) i j) Gs.
Definition bgrad (Gs : list (pm K * pm K)) (i j : nat) : list K := map (fun G => entry (snd G) i j) Gs.
(** The gradient matrices of a history: right shapes, not overlapping the parameters. *)
Definition grads s (rw rb : list nat) (k c : nat) (gs : list (matrix * matrix)) (Gs : list (pm K * pm K)) : Prop :=
  Forall2 (fun g G => exists r1 r2, own s (fst g) r1 k c (fst G) /\ own s (snd g) r2 1 c (snd G) /\
             disjoint (r1 ++ r2) (rw ++ rb)) gs Gs.
(** The parameters of a layer. *)
Definition params s (w b : matrix) rw rb (k c : nat) (W B : pm K) : Prop :=
  own s w rw k c W /\ own s b rb 1 c B /\ NoDup rw /\ NoDup rb /\ disjoint rw rb /\ (1 <= k)%nat /\ (1 <= c)%nat.
(** Only optimizer [oref] and the rows in [W] change. *)
Definition only_params oref s s' (rw rb : list nat) : Prop :=
  frame (among (rw ++ rb)) s s' /\ rest3 s s' /\ (forall o, o <> oref -> nth_error (h_opts s') o = nth_error (h_opts s) o).
End WithNum.
Arguments popt K : clear implicits.
