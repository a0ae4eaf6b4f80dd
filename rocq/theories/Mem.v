(** Mem.v -- memory of float arrays with bounds, initialisation and alignment.

    Models the C object model as far as the numeric code uses it: an object (malloc'ed
    block, stack array) is a block with a byte address and cells; a cell is a float or
    uninitialised.  Simplification: structs and arrays of pointers are Gallina data. *)
From Coq Require Import List Arith ZArith Lia Bool.
From Verif Require Import Base Ops.
Import ListNotations.
Set Implicit Arguments.

Section Mem.
Context {FO : fops}.

Record block := mkblock { base : Z; cells : list (option F) }.
Definition mem := list block.

(** A float pointer: block and offset in floats. *)
Record ptr : Set := mkptr { blk : nat; off : nat }.
Definition padd (p : ptr) (i : nat) : ptr := mkptr (blk p) (off p + i).

Definition addr (m : mem) (p : ptr) : Z :=
  match nth_error m (blk p) with
  | Some b => base b + 4 * Z.of_nat (off p)
  | None => 0
  end.

(** Computations over memory *)
Definition M (A : Type) := mem -> res (A * mem).
Definition ret {A} (x : A) : M A := fun m => Ok (x, m).
Definition bind {A B} (x : M A) (f : A -> M B) : M B :=
  fun m => match x m with Ok (a, m') => f a m' | Fault e => Fault e end.
Definition fail {A} (e : fault) : M A := fun _ => Fault e.

(** [loadv w p]: read w floats *)
Definition loadv (w : nat) (p : ptr) : M (list F) := fun m =>
  match nth_error m (blk p) with
  | None => Fault BadPointer
  | Some b =>
    if off p + w <=? length (cells b) then
      match all_some (slice (off p) w (cells b)) with
      | Some xs => Ok (xs, m)
      | None => Fault Uninit
      end
    else Fault OutOfBounds
  end.

(** [writem m p xs]: the memory with [xs] stored at [p] *)
Definition writem (m : mem) (p : ptr) (xs : list F) : mem :=
  match nth_error m (blk p) with
  | None => m
  | Some b => set_nth m (blk p) (mkblock (base b) (overwrite (cells b) (off p) (map Some xs)))
  end.

Definition storev (p : ptr) (xs : list F) : M unit := fun m =>
  match nth_error m (blk p) with
  | None => Fault BadPointer
  | Some b =>
    if off p + length xs <=? length (cells b) then Ok (tt, writem m p xs)
    else Fault OutOfBounds
  end.

Definition load (p : ptr) : M F :=
  bind (loadv 1 p) (fun xs => match xs with [x] => ret x | _ => fail OutOfBounds end).
Definition store (p : ptr) (x : F) : M unit := storev p [x].

(** aligned SIMD accesses (_mm256_load_ps/_mm256_store_ps with w = 8, _mm512_* with w = 16):
    the address has to be a multiple of 4*w *)
Definition aligned_to (w : nat) (m : mem) (p : ptr) : bool :=
  Z.eqb (Z.modulo (addr m p) (4 * Z.of_nat w)) 0.
Definition loadv_al (w : nat) (p : ptr) : M (list F) := fun m =>
  if aligned_to w m p then loadv w p m else Fault Misaligned.
Definition storev_al (p : ptr) (xs : list F) : M unit := fun m =>
  if aligned_to (length xs) m p then storev p xs m else Fault Misaligned.

(** src/simd.h:38-39 is_aligned(POINTER) *)
Definition is_aligned (c : cfg) (p : ptr) : M bool := fun m =>
  Ok (Z.eqb (Z.modulo (addr m p) (align_size c)) 0, m).

Definition assertM (b : bool) : M unit := if b then ret tt else fail AssertFailed.

(** Stack array float SIMD_ALIGN(a[n]): a fresh uninitialised block at address [b] *)
Definition alloca (b : Z) (n : nat) : M ptr := fun m =>
  Ok (mkptr (length m) 0, m ++ [mkblock b (repeat None n)]).
(** end of the lifetime of the most recent stack array *)
Definition freea : M unit := fun m => Ok (tt, removelast m).

(** [for( ; cond(i); i += w ) body(i)]; returns the final i.  [fuel] bounds the number of
    tests of the condition, exhaustion is a fault. *)
Fixpoint for_loop (fuel : nat) (cond : nat -> bool) (w : nat) (i : nat) (body : nat -> M unit) : M nat :=
  match fuel with
  | O => fail OutOfFuel
  | S k => if cond i then bind (body i) (fun _ => for_loop k cond w (i + w) body) else ret i
  end.

(** for( ; i <= n-w; i += w ).  n - w is computed in int; for 0 <= n it is negative exactly if
    n < w, so the test is i + w <= n. *)
Definition loop_le (w n i : nat) (body : nat -> M unit) : M nat :=
  for_loop (S n) (fun i => i + w <=? n) w i body.
(** for( ; i < n-w; i += w ) *)
Definition loop_lt (w n i : nat) (body : nat -> M unit) : M nat :=
  for_loop (S n) (fun i => i + w <? n) w i body.
(** for( ; i < n; i++ ) *)
Definition loop1 (n i : nat) (body : nat -> M unit) : M unit :=
  bind (for_loop (S n) (fun i => i <? n) 1 i body) (fun _ => ret tt).

(** the same with a loop-carried value (e.g. an accumulator register) *)
Fixpoint for_loop_acc {A} (fuel : nat) (cond : nat -> bool) (w : nat) (i : nat) (a : A)
    (body : nat -> A -> M A) : M (nat * A) :=
  match fuel with
  | O => fail OutOfFuel
  | S k => if cond i then bind (body i a) (fun a' => for_loop_acc k cond w (i + w) a' body)
           else ret (i, a)
  end.

(** [when b x d]: code inside #ifdef *)
Definition when {A} (b : bool) (x : M A) (d : A) : M A := if b then x else ret d.

End Mem.

Declare Scope mem_scope.
Notation "x <- a ;; b" := (bind a (fun x => b)) (at level 100, a at next level, right associativity) : mem_scope.
Notation "'let_pair' ( x , y ) <- a ;; b" := (bind a (fun '(x, y) => b)) (at level 100, a at next level, right associativity) : mem_scope.
Notation "a ;;; b" := (bind a (fun _ => b)) (at level 100, right associativity) : mem_scope.
Notation "p +! i" := (padd p i) (at level 50, left associativity) : mem_scope.
