(** SpecNpyMore.v -- what npy_array_dump should print, and what a mapping is.  Nothing here refers to the code. *)
From Coq Require Import ZArith Bool String Ascii List.
From Verif Require Import SpecLog.
Import ListNotations.
Local Open Scope nat_scope.

(** z in decimal without superfluous zeros *)
Definition decimal (z : Z) (s : list ascii) : Prop := numeral z s /\ (s = ["0"%char] \/ hd "0"%char s <> "0"%char).
Definition decimals (l : list Z) (t : list (list ascii)) : Prop := Forall2 decimal l t.
(** texts with a separator in between *)
Fixpoint join (sep : list ascii) (l : list (list ascii)) : list ascii :=
  match l with [] => [] | [x] => x | x :: r => x ++ sep ++ join sep r end.
(** the four lines; all numbers as text *)
Definition dump_text (ndim : list ascii) (dims : list (list ascii)) (type : ascii) (elem : list ascii) (fortran : bool) : list ascii :=
  txt "Dimensions   : " ++ ndim ++ [newline]
  ++ txt "Shape        : ( " ++ join (txt ", ") dims ++ txt " )" ++ [newline]
  ++ txt "Type         : '" ++ [type] ++ txt "' (" ++ elem ++ txt " bytes each element)" ++ [newline]
  ++ txt "Fortran order: " ++ txt (if fortran then "True" else "False") ++ [newline].

(** the number of pages of 4096 bytes that n bytes need *)
Definition pages_for (n k : Z) : Prop := (4096 * (k - 1) < n <= 4096 * k)%Z.
(** the pages p, ..., p + k - 1 are not in use *)
Definition unused (used : Z -> bool) (p k : Z) : Prop := forall q, (p <= q < p + k)%Z -> used q = false.
Definition same_pages (a b : Z -> bool) : Prop := forall q, a q = b q.
(** the end of the user addresses, 2^47, in pages *)
Definition page_limit : Z := 34359738368.
