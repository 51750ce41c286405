(** * FilesSpec: several saved models, one after the other in a buffer. *)
From Coq.Strings Require Import Byte.
From Coq Require Import String ZArith List Bool Arith Permutation.
From Verif Require Import Num Heap Spec Matrix Network Loss Optimizers ModelGo LayerData ModelData PureSpec Repr OptSpec ModelSpec CodecSpec.
Import ListNotations.
Open Scope go_scope.

Section WithNum.
Context {K : Num} (B : FBits K).
(** A model in memory that can be saved, with the order in which its optimizer values are written. *)
Record smodel : Type := SM { sm_m : model K; sm_es : list (lent K); sm_l : losskind; sm_o : optimizer K; sm_ord : gomap K }.
Definition savable s (f : smodel) : Prop :=
  finalized s (sm_m f) (sm_es f) (sm_l f) (sm_o f) /\ storable (sm_m f) (net (sm_es f)) /\ Permutation (sm_ord f) (m_optvals (sm_m f)).
Definition meaning (f : smodel) : plain_model K := described (sm_m f) (net (sm_es f)) (sm_l f) (sm_o f).
(** Two client programs: write models to one buffer; read [n] models from a buffer. *)
Fixpoint save_all (fs : list smodel) (buf : list byte) : M K (list byte) :=
  match fs with
  | [] => ret buf
  | f :: t => d <- NewSavedModelData (sm_m f) ;; buf <- Serialize B d (sm_ord f) buf ;; save_all t buf
  end.
Fixpoint load_all (n : nat) (buf : list byte) : M K (list (model K) * list byte) :=
  match n with
  | O => ret ([], buf)
  | S n' => r <- LoadModel B buf ;; q <- load_all n' (snd r) ;; ret (fst r :: fst q, snd q)
  end.
(** A model that was read: the model, its layers and the position of its first optimizer. *)
Record rmodel : Type := RM { rm_m : model K; rm_es : list (lent K); rm_n : nat }.
End WithNum.
Arguments smodel K : clear implicits.
Arguments rmodel K : clear implicits.
