(** Base.v -- outcomes, the fault alphabet and list helpers shared by the model.
    No code of /repo is modelled here; these are the meta-level notions the model
    files are written with. *)
From Coq Require Import List Arith ZArith Lia Bool.
Import ListNotations.
Set Implicit Arguments.

(** Everything that is undefined behaviour, an abort or a non-termination in C is a
    distinct outcome of the model. *)
Inductive fault : Set :=
| OutOfBounds      (* access outside of the object *)
| Misaligned       (* aligned SIMD access at an address that is not a multiple of the width *)
| Uninit           (* read of a float that was never written *)
| BadPointer       (* NULL or dangling pointer *)
| AssertFailed     (* assert() of the C code fails: abort *)
| IntOverflow      (* signed integer overflow *)
| BadFree          (* free of a pointer not obtained by malloc *)
| DivByZero        (* integer division by zero *)
| OutOfFuel.       (* the loop of the model did not end within its fuel *)

Inductive res (A : Type) : Type :=
| Ok : A -> res A
| Fault : fault -> res A.
Arguments Ok {A} _.
Arguments Fault {A} _.

Definition rbind {A B} (x : res A) (f : A -> res B) : res B :=
  match x with Ok a => f a | Fault e => Fault e end.

Definition is_ok {A} (x : res A) : bool :=
  match x with Ok _ => true | Fault _ => false end.

(** ** List helpers *)

Definition slice {A} (i w : nat) (l : list A) : list A := firstn w (skipn i l).

Fixpoint mapi_from {A B} (k : nat) (f : nat -> A -> B) (l : list A) : list B :=
  match l with
  | [] => []
  | x :: r => f k x :: mapi_from (S k) f r
  end.
Definition mapi {A B} (f : nat -> A -> B) (l : list A) : list B := mapi_from 0 f l.

Fixpoint map2 {A B C} (f : A -> B -> C) (l1 : list A) (l2 : list B) : list C :=
  match l1, l2 with
  | x :: r1, y :: r2 => f x y :: map2 f r1 r2
  | _, _ => []
  end.

Fixpoint mapi2_from {A B C} (k : nat) (f : nat -> A -> B -> C) (l1 : list A) (l2 : list B) : list C :=
  match l1, l2 with
  | x :: r1, y :: r2 => f k x y :: mapi2_from (S k) f r1 r2
  | _, _ => []
  end.
Definition mapi2 {A B C} (f : nat -> A -> B -> C) l1 l2 := mapi2_from (A:=A) (B:=B) (C:=C) 0 f l1 l2.

Fixpoint all_some {A} (l : list (option A)) : option (list A) :=
  match l with
  | [] => Some []
  | Some x :: r => match all_some r with Some xs => Some (x :: xs) | None => None end
  | None :: _ => None
  end.

(** Overwrite [length xs] elements of [l] from position [i]; [l] unchanged beyond. *)
Definition overwrite {A} (l : list A) (i : nat) (xs : list A) : list A :=
  firstn i l ++ xs ++ skipn (i + length xs) l.

(** Replace element [i] *)
Fixpoint set_nth {A} (l : list A) (i : nat) (x : A) : list A :=
  match l, i with
  | [], _ => []
  | _ :: r, O => x :: r
  | y :: r, S k => y :: set_nth r k x
  end.
