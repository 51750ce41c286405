(** * optimizers.go *)
From Coq Require Import String ZArith List Bool.
From Verif Require Import Num Heap Matrix.
Import ListNotations.
Open Scope Z_scope.
Open Scope go_scope.

(** Go maps from string to float64, as association lists.  Iteration order is never taken
    from the list: every use that iterates takes the order as a separate argument. *)
Section Map.
Context {V : Type}.
(** m[k] = v. *)
Fixpoint map_set (k : string) (v : V) (m : list (string * V)) : list (string * V) :=
  match m with
  | [] => [(k, v)]
  | (k', v') :: t => if String.eqb k k' then (k, v) :: t else (k', v') :: map_set k v t
  end.
(** m[k], with the zero value for a missing key. *)
Fixpoint map_get (zero : V) (k : string) (m : list (string * V)) : V :=
  match m with
  | [] => zero
  | (k', v') :: t => if String.eqb k k' then v' else map_get zero k t
  end.
(** delete(m, k). *)
Definition map_del (k : string) (m : list (string * V)) : list (string * V) :=
  filter (fun kv => negb (String.eqb k (fst kv))) m.
End Map.

(** OptimizerType codes, model.go:28-31. *)
Definition okind_code (k : okind) : Z := match k with SGD => 0 | Adam => 1 end.

Section WithNum.
Context {K : Num}.

Definition gomap := list (string * K).
Definition mget (k : string) (m : gomap) : K := map_get f0 k m.

(** Field updates. *)
Definition set_rate (o : optimizer K) (r : K) : optimizer K :=
  MkOpt (o_kind o) (o_lr o) (o_decay o) (o_momentum o) (o_eps o) (o_beta1 o) (o_beta2 o)
        r (o_iter o) (o_wm o) (o_bm o) (o_wc o) (o_bc o) (o_usedecay o) (o_usemom o).
Definition set_iter (o : optimizer K) (i : Z) : optimizer K :=
  MkOpt (o_kind o) (o_lr o) (o_decay o) (o_momentum o) (o_eps o) (o_beta1 o) (o_beta2 o)
        (o_rate o) i (o_wm o) (o_bm o) (o_wc o) (o_bc o) (o_usedecay o) (o_usemom o).
Definition set_wm (m : matrix) (o : optimizer K) : optimizer K :=
  MkOpt (o_kind o) (o_lr o) (o_decay o) (o_momentum o) (o_eps o) (o_beta1 o) (o_beta2 o)
        (o_rate o) (o_iter o) m (o_bm o) (o_wc o) (o_bc o) (o_usedecay o) (o_usemom o).
Definition set_bm (m : matrix) (o : optimizer K) : optimizer K :=
  MkOpt (o_kind o) (o_lr o) (o_decay o) (o_momentum o) (o_eps o) (o_beta1 o) (o_beta2 o)
        (o_rate o) (o_iter o) (o_wm o) m (o_wc o) (o_bc o) (o_usedecay o) (o_usemom o).
Definition set_wc (m : matrix) (o : optimizer K) : optimizer K :=
  MkOpt (o_kind o) (o_lr o) (o_decay o) (o_momentum o) (o_eps o) (o_beta1 o) (o_beta2 o)
        (o_rate o) (o_iter o) (o_wm o) (o_bm o) m (o_bc o) (o_usedecay o) (o_usemom o).
Definition set_bc (m : matrix) (o : optimizer K) : optimizer K :=
  MkOpt (o_kind o) (o_lr o) (o_decay o) (o_momentum o) (o_eps o) (o_beta1 o) (o_beta2 o)
        (o_rate o) (o_iter o) (o_wm o) (o_bm o) (o_wc o) m (o_usedecay o) (o_usemom o).

(** The zero struct of each kind. *)
Definition opt_zero (k : okind) : optimizer K :=
  MkOpt k f0 f0 f0 f0 f0 f0 f0 0 matrix0 matrix0 matrix0 matrix0 false false.

(** getValues, optimizers.go:54-61 (SGD) and 181-190 (Adam). *)
Definition opt_getValues (o : optimizer K) : gomap :=
  match o_kind o with
  | SGD => [("learningRate", o_lr o); ("decay", o_decay o); ("momentum", o_momentum o);
            ("type", ofZ (okind_code SGD))]%string
  | Adam => [("learningRate", o_lr o); ("decay", o_decay o); ("epsilon", o_eps o);
             ("beta1", o_beta1 o); ("beta2", o_beta2 o); ("type", ofZ (okind_code Adam))]%string
  end.

(** setValues, optimizers.go:64-68 (SGD) and 193-199 (Adam). *)
Definition opt_setValues (o : optimizer K) (v : gomap) : optimizer K :=
  match o_kind o with
  | SGD =>
      MkOpt SGD (mget "learningRate" v) (mget "decay" v) (mget "momentum" v)
            (o_eps o) (o_beta1 o) (o_beta2 o)
            (o_rate o) (o_iter o) (o_wm o) (o_bm o) (o_wc o) (o_bc o) (o_usedecay o) (o_usemom o)
  | Adam =>
      MkOpt Adam (mget "learningRate" v) (mget "decay" v) (o_momentum o)
            (mget "epsilon" v) (mget "beta1" v) (mget "beta2" v)
            (o_rate o) (o_iter o) (o_wm o) (o_bm o) (o_wc o) (o_bc o) (o_usedecay o) (o_usemom o)
  end.

(** optimizers.go:22-37. *)
Definition NewOptimizerFromType (t : Z) (v : gomap) : M K (optimizer K) :=
  let fresh k :=
    opt_setValues
      (MkOpt k f0 f0 f0 f0 f0 f0 (mget "learningRate" v) 0 matrix0 matrix0 matrix0 matrix0
             (negb (feq (mget "decay" v) f0)) (negb (feq (mget "momentum" v) f0))) v in
  if t =? okind_code SGD then ret (fresh SGD)
  else if t =? okind_code Adam then ret (fresh Adam)
  else fail (EMsg "nn.Optimizer: Invalid optimizer type.").

(** optimizers.go:71-93. *)
Definition NewSGDOptimizer (lr decay momentum : K) : M K (optimizer K) :=
  if fle lr f0 then fail (EMsg "nn.SGDOptimizer: Invalid learning rate")
  else if flt decay f0 then fail (EMsg "nn.SGDOptimizer: Invalid decay")
  else if flt momentum f0 then fail (EMsg "nn.SGDOptimizer: Invalid momentum")
  else ret (MkOpt SGD lr decay momentum f0 f0 f0 lr 0 matrix0 matrix0 matrix0 matrix0
                  (negb (feq decay f0)) (negb (feq momentum f0))).

(** optimizers.go:202-222. *)
Definition NewAdamOptimizer (lr decay eps beta1 beta2 : K) : M K (optimizer K) :=
  if fle lr f0 then fail (EMsg "nn.AdamOptimizer: Invalid learning rate")
  else if flt decay f0 then fail (EMsg "nn.AdamOptimizer: Invalid decay")
  else ret (MkOpt Adam lr decay f0 eps beta1 beta2 lr 0 matrix0 matrix0 matrix0 matrix0
                  (negb (feq decay f0)) false).

(** [optimizer.field, err = expr; if err != nil { return err }]: the field is assigned before
    the error is looked at, and on error it receives Matrix{}. *)
Definition assign_or_fail (oref : nat) (set : matrix -> optimizer K -> optimizer K)
    (expr : M K matrix) : M K unit :=
  r <- catch expr ;;
  o <- get_opt oref ;;
  match r with
  | inl m => put_opt oref (set m o)
  | inr e => put_opt oref (set matrix0 o) ;; fail e
  end.

(** The decayed rate, optimizers.go:98-100 and 227-229. *)
Definition decay_rate (oref : nat) : M K unit :=
  o <- get_opt oref ;;
  if o_usedecay o then
    put_opt oref (set_rate o
      (fmul (o_lr o) (fdiv f1 (fadd f1 (fmul (o_decay o) (ofZ (o_iter o)))))))
  else ret tt.

(** SGDOptimizer.Update, optimizers.go:96-161. *)
Definition SGD_Update (oref : nat) (weights biases dWeights dBiases : matrix) : M K unit :=
  decay_rate oref ;;
  o <- get_opt oref ;;
  (if o_usemom o then
    (if mrows (o_wm o) =? 0 then
       wm <- NewMatrix_ (mrows weights) (mcols weights) ;;
       bm <- NewMatrix_ (mrows biases) (mcols biases) ;;
       put_opt oref (set_bm bm (set_wm wm o))
     else ret tt) ;;
    o <- get_opt oref ;;
    smw <- MulScalar (o_wm o) (o_momentum o) ;;
    sgw <- MulScalar dWeights (o_rate o) ;;
    assign_or_fail oref set_wm (Sub smw sgw) ;;
    smb <- MulScalar (o_bm o) (o_momentum o) ;;
    sgb <- MulScalar dBiases (o_rate o) ;;
    assign_or_fail oref set_bm (Sub smb sgb) ;;
    o <- get_opt oref ;;
    each_cell (mrows weights) (mcols weights) (fun i j =>
      a <- getc weights i j ;;
      b <- getc (o_wm o) i j ;;
      setc weights i j (fadd a b)) ;;
    each_cell (mrows biases) (mcols biases) (fun i j =>
      a <- getc biases i j ;;
      b <- getc (o_bm o) i j ;;
      setc biases i j (fadd a b))
  else
    wu <- MulScalar dWeights (o_rate o) ;;
    bu <- MulScalar dBiases (o_rate o) ;;
    each_cell (mrows weights) (mcols weights) (fun i j =>
      a <- getc weights i j ;;
      b <- getc wu i j ;;
      setc weights i j (fsub a b)) ;;
    each_cell (mrows biases) (mcols biases) (fun i j =>
      a <- getc biases i j ;;
      b <- getc bu i j ;;
      setc biases i j (fsub a b))) ;;
  o <- get_opt oref ;;
  put_opt oref (set_iter o (o_iter o + 1)).

(** float64(1) / (float64(1) - math.Pow(beta, float64(iterations + 1))),
    optimizers.go:256-257, 277-278. *)
Definition correction (beta : K) (iter : Z) : K :=
  fdiv f1 (fsub f1 (fpow beta (ofZ (iter + 1)))).

(** AdamOptimizer.Update, optimizers.go:225-296.  The cache correction (277-278) uses Beta1. *)
Definition Adam_Update (oref : nat) (weights biases dWeights dBiases : matrix) : M K unit :=
  decay_rate oref ;;
  o <- get_opt oref ;;
  (if mrows (o_wm o) =? 0 then
     wm <- NewMatrix_ (mrows weights) (mcols weights) ;;
     bm <- NewMatrix_ (mrows biases) (mcols biases) ;;
     wc <- NewMatrix_ (mrows weights) (mcols weights) ;;
     bc <- NewMatrix_ (mrows biases) (mcols biases) ;;
     put_opt oref (set_bc bc (set_wc wc (set_bm bm (set_wm wm o))))
   else ret tt) ;;
  o <- get_opt oref ;;
  swm <- MulScalar (o_wm o) (o_beta1 o) ;;
  swg <- MulScalar dWeights (fsub f1 (o_beta1 o)) ;;
  assign_or_fail oref set_wm (Add swm swg) ;;
  sbm <- MulScalar (o_bm o) (o_beta1 o) ;;
  sbg <- MulScalar dBiases (fsub f1 (o_beta1 o)) ;;
  assign_or_fail oref set_bm (Add sbm sbg) ;;
  o <- get_opt oref ;;
  cwm <- MulScalar (o_wm o) (correction (o_beta1 o) (o_iter o)) ;;
  cbm <- MulScalar (o_bm o) (correction (o_beta1 o) (o_iter o)) ;;
  swm <- MulScalar (o_wc o) (o_beta2 o) ;;
  swg <- PowScalar dWeights (ofZ 2) ;;
  swg <- MulScalar swg (fsub f1 (o_beta2 o)) ;;
  assign_or_fail oref set_wc (Add swm swg) ;;
  sbm <- MulScalar (o_bc o) (o_beta2 o) ;;
  sbg <- PowScalar dBiases (ofZ 2) ;;
  sbg <- MulScalar sbg (fsub f1 (o_beta2 o)) ;;
  assign_or_fail oref set_bc (Add sbm sbg) ;;
  o <- get_opt oref ;;
  cwc <- MulScalar (o_wc o) (correction (o_beta1 o) (o_iter o)) ;;
  cbc <- MulScalar (o_bc o) (correction (o_beta1 o) (o_iter o)) ;;
  each_cell (mrows weights) (mcols weights) (fun i j =>
    w <- getc weights i j ;;
    m <- getc cwm i j ;;
    c <- getc cwc i j ;;
    setc weights i j
      (fadd w (fdiv (fmul (fneg (o_rate o)) m) (fadd (fsqrt c) (o_eps o))))) ;;
  each_cell (mrows biases) (mcols biases) (fun i j =>
    w <- getc biases i j ;;
    m <- getc cbm i j ;;
    c <- getc cbc i j ;;
    setc biases i j
      (fadd w (fdiv (fmul (fneg (o_rate o)) m) (fadd (fsqrt c) (o_eps o))))) ;;
  o <- get_opt oref ;;
  put_opt oref (set_iter o (o_iter o + 1)).

(** Dynamic dispatch of Optimizer.Update (optimizers.go:17). *)
Definition Opt_Update (oref : nat) (weights biases dWeights dBiases : matrix) : M K unit :=
  o <- get_opt oref ;;
  match o_kind o with
  | SGD => SGD_Update oref weights biases dWeights dBiases
  | Adam => Adam_Update oref weights biases dWeights dBiases
  end.

End WithNum.
Arguments gomap K : clear implicits.
