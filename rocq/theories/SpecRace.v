(** SpecRace.v -- what it means that two pieces of code do not interfere *)
From Coq Require Import List Arith ZArith Lia Bool.
From Verif Require Import Base Ops Mem SpecMem.
Import ListNotations.

(** a region: a pointer and a number of floats *)
Definition region : Type := ptr * nat.
(** cell i of block b lies in one of the regions *)
Definition inside (rs : list region) (b i : nat) : Prop :=
  exists p n, In (p, n) rs /\ b = blk p /\ off p <= i < off p + n.
(** no cell lies in both *)
Definition no_overlap (rs ws : list region) : Prop := forall b i, inside rs b i -> inside ws b i -> False.

Section SpecRace.
Context {FO : fops}.

(** m2 has the same blocks (number, addresses, sizes) as m and the same content in the regions; the content
    of every other cell is arbitrary, it may also be uninitialised *)
Definition agree_on (rs : list region) (m m2 : mem) : Prop :=
  length m2 = length m /\
  (forall b, option_map base (nth_error m2 b) = option_map base (nth_error m b)) /\
  (forall b, option_map (fun x => length (cells x)) (nth_error m2 b) = option_map (fun x => length (cells x)) (nth_error m b)) /\
  (forall b i, inside rs b i -> cell_at m2 b i = cell_at m b i).

(** Started in m, [run] reads at most [reads] and writes at most [writes]: in every memory that agrees
    with m on the regions [reads] -- whatever another thread has done to the rest; reading an uninitialised
    cell is a fault -- it ends without a fault, leaves the same numbers in [writes] and nothing else changes. *)
Definition accesses_only (run : M unit) (m : mem) (reads writes : list region) : Prop :=
  exists m', run m = Ok (tt, m') /\
    forall m2, agree_on reads m m2 ->
      exists m2', run m2 = Ok (tt, m2') /\ only_changes_in m2 m2' writes /\ agree_on writes m' m2'.

(** Two pieces of code started in m: neither writes what the other one reads or writes. *)
Definition race_free (run1 run2 : M unit) (m : mem) : Prop :=
  exists r1 w1 r2 w2, accesses_only run1 m r1 w1 /\ accesses_only run2 m r2 w2 /\
    no_overlap w1 r2 /\ no_overlap w1 w2 /\ no_overlap w2 r1.
End SpecRace.
