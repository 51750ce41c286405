(** * IrisData: examples/iris.data, byte for byte, and what reading it yields. *)
From Coq Require Import String ZArith List Bool Arith Lia Ascii.
From Verif Require Import Num Heap ExamplesGo ExamplesSpec.
Import ListNotations.
Open Scope Z_scope.

Definition iris_text : string := "5.1,3.5,1.4,0.2,Iris-setosa
4.9,3.0,1.4,0.2,Iris-setosa
4.7,3.2,1.3,0.2,Iris-setosa
4.6,3.1,1.5,0.2,Iris-setosa
5.0,3.6,1.4,0.2,Iris-setosa
5.4,3.9,1.7,0.4,Iris-setosa
4.6,3.4,1.4,0.3,Iris-setosa
5.0,3.4,1.5,0.2,Iris-setosa
4.4,2.9,1.4,0.2,Iris-setosa
4.9,3.1,1.5,0.1,Iris-setosa
5.4,3.7,1.5,0.2,Iris-setosa
4.8,3.4,1.6,0.2,Iris-setosa
4.8,3.0,1.4,0.1,Iris-setosa
4.3,3.0,1.1,0.1,Iris-setosa
5.8,4.0,1.2,0.2,Iris-setosa
5.7,4.4,1.5,0.4,Iris-setosa
5.4,3.9,1.3,0.4,Iris-setosa
5.1,3.5,1.4,0.3,Iris-setosa
5.7,3.8,1.7,0.3,Iris-setosa
5.1,3.8,1.5,0.3,Iris-setosa
5.4,3.4,1.7,0.2,Iris-setosa
5.1,3.7,1.5,0.4,Iris-setosa
4.6,3.6,1.0,0.2,Iris-setosa
5.1,3.3,1.7,0.5,Iris-setosa
4.8,3.4,1.9,0.2,Iris-setosa
5.0,3.0,1.6,0.2,Iris-setosa
5.0,3.4,1.6,0.4,Iris-setosa
5.2,3.5,1.5,0.2,Iris-setosa
5.2,3.4,1.4,0.2,Iris-setosa
4.7,3.2,1.6,0.2,Iris-setosa
4.8,3.1,1.6,0.2,Iris-setosa
5.4,3.4,1.5,0.4,Iris-setosa
5.2,4.1,1.5,0.1,Iris-setosa
5.5,4.2,1.4,0.2,Iris-setosa
4.9,3.1,1.5,0.1,Iris-setosa
5.0,3.2,1.2,0.2,Iris-setosa
5.5,3.5,1.3,0.2,Iris-setosa
4.9,3.1,1.5,0.1,Iris-setosa
4.4,3.0,1.3,0.2,Iris-setosa
5.1,3.4,1.5,0.2,Iris-setosa
5.0,3.5,1.3,0.3,Iris-setosa
4.5,2.3,1.3,0.3,Iris-setosa
4.4,3.2,1.3,0.2,Iris-setosa
5.0,3.5,1.6,0.6,Iris-setosa
5.1,3.8,1.9,0.4,Iris-setosa
4.8,3.0,1.4,0.3,Iris-setosa
5.1,3.8,1.6,0.2,Iris-setosa
4.6,3.2,1.4,0.2,Iris-setosa
5.3,3.7,1.5,0.2,Iris-setosa
5.0,3.3,1.4,0.2,Iris-setosa
7.0,3.2,4.7,1.4,Iris-versicolor
6.4,3.2,4.5,1.5,Iris-versicolor
6.9,3.1,4.9,1.5,Iris-versicolor
5.5,2.3,4.0,1.3,Iris-versicolor
6.5,2.8,4.6,1.5,Iris-versicolor
5.7,2.8,4.5,1.3,Iris-versicolor
6.3,3.3,4.7,1.6,Iris-versicolor
4.9,2.4,3.3,1.0,Iris-versicolor
6.6,2.9,4.6,1.3,Iris-versicolor
5.2,2.7,3.9,1.4,Iris-versicolor
5.0,2.0,3.5,1.0,Iris-versicolor
5.9,3.0,4.2,1.5,Iris-versicolor
6.0,2.2,4.0,1.0,Iris-versicolor
6.1,2.9,4.7,1.4,Iris-versicolor
5.6,2.9,3.6,1.3,Iris-versicolor
6.7,3.1,4.4,1.4,Iris-versicolor
5.6,3.0,4.5,1.5,Iris-versicolor
5.8,2.7,4.1,1.0,Iris-versicolor
6.2,2.2,4.5,1.5,Iris-versicolor
5.6,2.5,3.9,1.1,Iris-versicolor
5.9,3.2,4.8,1.8,Iris-versicolor
6.1,2.8,4.0,1.3,Iris-versicolor
6.3,2.5,4.9,1.5,Iris-versicolor
6.1,2.8,4.7,1.2,Iris-versicolor
6.4,2.9,4.3,1.3,Iris-versicolor
6.6,3.0,4.4,1.4,Iris-versicolor
6.8,2.8,4.8,1.4,Iris-versicolor
6.7,3.0,5.0,1.7,Iris-versicolor
6.0,2.9,4.5,1.5,Iris-versicolor
5.7,2.6,3.5,1.0,Iris-versicolor
5.5,2.4,3.8,1.1,Iris-versicolor
5.5,2.4,3.7,1.0,Iris-versicolor
5.8,2.7,3.9,1.2,Iris-versicolor
6.0,2.7,5.1,1.6,Iris-versicolor
5.4,3.0,4.5,1.5,Iris-versicolor
6.0,3.4,4.5,1.6,Iris-versicolor
6.7,3.1,4.7,1.5,Iris-versicolor
6.3,2.3,4.4,1.3,Iris-versicolor
5.6,3.0,4.1,1.3,Iris-versicolor
5.5,2.5,4.0,1.3,Iris-versicolor
5.5,2.6,4.4,1.2,Iris-versicolor
6.1,3.0,4.6,1.4,Iris-versicolor
5.8,2.6,4.0,1.2,Iris-versicolor
5.0,2.3,3.3,1.0,Iris-versicolor
5.6,2.7,4.2,1.3,Iris-versicolor
5.7,3.0,4.2,1.2,Iris-versicolor
5.7,2.9,4.2,1.3,Iris-versicolor
6.2,2.9,4.3,1.3,Iris-versicolor
5.1,2.5,3.0,1.1,Iris-versicolor
5.7,2.8,4.1,1.3,Iris-versicolor
6.3,3.3,6.0,2.5,Iris-virginica
5.8,2.7,5.1,1.9,Iris-virginica
7.1,3.0,5.9,2.1,Iris-virginica
6.3,2.9,5.6,1.8,Iris-virginica
6.5,3.0,5.8,2.2,Iris-virginica
7.6,3.0,6.6,2.1,Iris-virginica
4.9,2.5,4.5,1.7,Iris-virginica
7.3,2.9,6.3,1.8,Iris-virginica
6.7,2.5,5.8,1.8,Iris-virginica
7.2,3.6,6.1,2.5,Iris-virginica
6.5,3.2,5.1,2.0,Iris-virginica
6.4,2.7,5.3,1.9,Iris-virginica
6.8,3.0,5.5,2.1,Iris-virginica
5.7,2.5,5.0,2.0,Iris-virginica
5.8,2.8,5.1,2.4,Iris-virginica
6.4,3.2,5.3,2.3,Iris-virginica
6.5,3.0,5.5,1.8,Iris-virginica
7.7,3.8,6.7,2.2,Iris-virginica
7.7,2.6,6.9,2.3,Iris-virginica
6.0,2.2,5.0,1.5,Iris-virginica
6.9,3.2,5.7,2.3,Iris-virginica
5.6,2.8,4.9,2.0,Iris-virginica
7.7,2.8,6.7,2.0,Iris-virginica
6.3,2.7,4.9,1.8,Iris-virginica
6.7,3.3,5.7,2.1,Iris-virginica
7.2,3.2,6.0,1.8,Iris-virginica
6.2,2.8,4.8,1.8,Iris-virginica
6.1,3.0,4.9,1.8,Iris-virginica
6.4,2.8,5.6,2.1,Iris-virginica
7.2,3.0,5.8,1.6,Iris-virginica
7.4,2.8,6.1,1.9,Iris-virginica
7.9,3.8,6.4,2.0,Iris-virginica
6.4,2.8,5.6,2.2,Iris-virginica
6.3,2.8,5.1,1.5,Iris-virginica
6.1,2.6,5.6,1.4,Iris-virginica
7.7,3.0,6.1,2.3,Iris-virginica
6.3,3.4,5.6,2.4,Iris-virginica
6.4,3.1,5.5,1.8,Iris-virginica
6.0,3.0,4.8,1.8,Iris-virginica
6.9,3.1,5.4,2.1,Iris-virginica
6.7,3.1,5.6,2.4,Iris-virginica
6.9,3.1,5.1,2.3,Iris-virginica
5.8,2.7,5.1,1.9,Iris-virginica
6.8,3.2,5.9,2.3,Iris-virginica
6.7,3.3,5.7,2.5,Iris-virginica
6.7,3.0,5.2,2.3,Iris-virginica
6.3,2.5,5.0,1.9,Iris-virginica
6.5,3.0,5.2,2.0,Iris-virginica
6.2,3.4,5.4,2.3,Iris-virginica
5.9,3.0,5.1,1.8,Iris-virginica

"%string.
Definition iris_records : list (list string) := fst (csv_ReadAll iris_text).

Definition plain_char (a : ascii) : bool := negb (Ascii.eqb a """"%char) && negb (Ascii.eqb a (ascii_of_nat 13)).
Lemma plain_check s : forallb plain_char (list_ascii_of_string s) = true -> csv_plain s.
Proof. intros H. rewrite forallb_forall in H. split; intros I; specialize (H _ I); vm_compute in H; discriminate. Qed.
Lemma iris_plain : csv_plain iris_text.
Proof. apply plain_check. vm_compute. reflexivity. Qed.
Lemma width_check (l : list (list string)) : forallb (fun r => (length r =? 5)%nat) l = true -> Forall (fun r => length r = 5%nat) l.
Proof. intros H. rewrite forallb_forall in H. apply Forall_forall. intros r Hr. apply Nat.eqb_eq, H, Hr. Qed.
Lemma iris_read : snd (csv_ReadAll iris_text) = true /\ length iris_records = 150%nat /\ Forall (fun r => length r = 5%nat) iris_records.
Proof. split; [vm_compute; reflexivity|]. split; [vm_compute; reflexivity|]. apply width_check. vm_compute. reflexivity. Qed.
(** Four measurements with one digit before and one after the point, between 0.1 and 7.9. *)
Definition tenths (s : string) (n : Z) : Prop := decimal s 0 0 None = Some (n, 2%nat, 1%nat).
Definition measured (s : string) : bool := match decimal s 0 0 None with Some (n, 2%nat, 1%nat) => (1 <=? n) && (n <=? 79) | _ => false end.
Lemma measured_check (l : list (list string)) : forallb (fun r => forallb (fun j => measured (nth j r EmptyString)) (seq 0 4)) l = true ->
  forall r j, In r l -> (j < 4)%nat -> exists n, tenths (nth j r EmptyString) n /\ 1 <= n <= 79.
Proof.
  intros H. rewrite forallb_forall in H. intros r j Hr Hj. specialize (H r Hr). rewrite forallb_forall in H. specialize (H j ltac:(apply in_seq; lia)). unfold tenths, measured in *.
  destruct (decimal _ 0 0 None) as [[[n d] f]|]; [|discriminate]. destruct d as [|[|[|d]]]; try discriminate. destruct f as [|[|f]]; try discriminate. exists n. split; [reflexivity|lia].
Qed.
Lemma iris_measured : forall r j, In r iris_records -> (j < 4)%nat -> exists n, tenths (nth j r EmptyString) n /\ 1 <= n <= 79.
Proof. apply measured_check. vm_compute. reflexivity. Qed.
(** Fifty flowers of each class, in three blocks, each with its own name. *)
Lemma names_check (l : list (list string)) : forallb (fun r => negb (iris_class r =? 2)%nat || String.eqb (nth 4 r EmptyString) "Iris-virginica"%string) l = true ->
  Forall (fun r => iris_class r = 2%nat -> nth 4 r EmptyString = "Iris-virginica"%string) l.
Proof. intros H. rewrite forallb_forall in H. apply Forall_forall. intros r Hr E. specialize (H r Hr). rewrite E in H. cbn in H. now apply String.eqb_eq. Qed.
Lemma iris_classes : map iris_class iris_records = repeat 0%nat 50 ++ repeat 1%nat 50 ++ repeat 2%nat 50 /\
  Forall (fun r => iris_class r = 2%nat -> nth 4 r EmptyString = "Iris-virginica"%string) iris_records.
Proof. split; [vm_compute; reflexivity|]. apply names_check. vm_compute. reflexivity. Qed.
