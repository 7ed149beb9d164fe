(* Common definitions shared by the models: Python/C++ exceptions as values
   and a few list facts.  Nothing here mirrors a particular /repo function. *)
From Coq Require Import ZArith List Lia Bool.
Import ListNotations.

(** Exceptions raised by the modelled code. *)
Inductive exn : Type :=
| TypeError
| ValueError
| IndexError
| KeyError
| NameError
| ZeroDivisionError
| AttributeError
| RuntimeError
| OrderError           (* triumvirate._arrayops.OrderError *)
| ShapeError           (* triumvirate._arrayops.ShapeError *)
| SpacingError         (* triumvirate._arrayops.SpacingError *)
| MixedSignError       (* triumvirate._arrayops.MixedSignError *)
| NonParameterError    (* triumvirate.parameters.NonParameterError *)
| InvalidParameter     (* trv::sys::InvalidParameterError *)
| InvalidData          (* trv::sys::InvalidDataError *)
| IOErr                (* trv::sys::IOError / OSError *)
| NotANumber           (* an IEEE NaN/inf produced by x/0 *)
| OutOfBounds          (* C++ out-of-range memory access *)
| Terminated           (* a C++ exception nothing catches: std::terminate *)
| OutOfFuel.           (* non-termination *)

Inductive res (A : Type) : Type :=
| Ok : A -> res A
| Err : exn -> res A.
Arguments Ok {A} _.
Arguments Err {A} _.

Definition bind {A B} (x : res A) (f : A -> res B) : res B :=
  match x with
  | Ok a => f a
  | Err e => Err e
  end.

Notation "x <- e1 ;; e2" := (bind e1 (fun x => e2))
  (at level 61, e1 at next level, right associativity).

Definition is_ok {A} (x : res A) : Prop := exists a, x = Ok a.

Lemma bind_ok {A B} (x : res A) (f : A -> res B) b :
  bind x f = Ok b -> exists a, x = Ok a /\ f a = Ok b.
Proof. destruct x; simpl; intros H; [eauto | discriminate]. Qed.

(** Evaluate a list of possibly failing computations left to right. *)
Fixpoint sequence {A} (l : list (res A)) : res (list A) :=
  match l with
  | [] => Ok []
  | x :: t => a <- x ;; r <- sequence t ;; Ok (a :: r)
  end.

Lemma sequence_ok_map {A} (l : list A) : sequence (map Ok l) = Ok l.
Proof. induction l as [|a l IH]; simpl; [reflexivity|]. now rewrite IH. Qed.

Definition zsum (l : list Z) : Z := fold_right Z.add 0%Z l.

Lemma zsum_app l1 l2 : zsum (l1 ++ l2) = (zsum l1 + zsum l2)%Z.
Proof. unfold zsum. induction l1; simpl; lia. Qed.

Lemma NoDup_app_intro {A} (l1 l2 : list A) : NoDup l1 -> NoDup l2 ->
  (forall x, In x l1 -> ~ In x l2) -> NoDup (l1 ++ l2).
Proof.
  induction l1 as [|x l1 IH]; simpl; intros H1 H2 D; [exact H2|].
  inversion H1 as [|? ? N1 N2]; subst. constructor.
  - rewrite in_app_iff. intros [H|H]; [contradiction|]. apply (D x); [now left|exact H].
  - apply IH; [exact N2|exact H2|]. intros y Hy. apply D. now right.
Qed.
