(** Progress.v -- the text progress bar, src/progress.c (the Linux branch).
    Simplified: the label is given as the text that vsnprintf makes of the format and its arguments; the calls
    of printf are collected in one list of characters; fflush is ignored. *)
From Coq Require Import ZArith Bool String Ascii List.
From Flocq Require Import Core BinarySingleNaN.
From Verif Require Import Base Ops OpsB32 Logger.
Import ListNotations.
Local Open Scope Z_scope.

(** progress.c:20-59 getcols( fd ): tty = None: fd is not a terminal; Some c: ioctl reports c columns, 0 if
    it fails *)
Definition getcols (tty : option Z) : Z :=
  match tty with None => 0 | Some c => if c =? 0 then 80 else c end.

(** conversion of a float to int: undefined if it does not fit *)
Definition int_of_float (f : b32) : res Z :=
  match f with
  | B754_zero _ => Ok 0
  | B754_finite _ _ _ _ => to_int (Btrunc f)
  | _ => Fault IntOverflow
  end.

Definition cr : ascii := "013"%char.

(** progress.c:61-93 progress_ascii( x, n, ... ) with the label already formatted; the characters printed *)
Definition progress_ascii (tty : option Z) (x n : Z) (label : bytes) : res bytes :=
  let w := getcols tty - 7 - Z.of_nat (length label) in                        (* 75 *)
  if w <? 1 then Ok []                                                         (* 76 *)
  else
    let ratio := Bdiv mode_NE (b32_ofZ x) (b32_ofZ n) in                       (* 79 *)
    rbind (int_of_float (Bmult mode_NE ratio (b32_ofZ w))) (fun c =>           (* 80 *)
    rbind (int_of_float (Bmult mode_NE ratio (b32_ofZ 100))) (fun pct =>       (* 90 *)
    Ok (label ++ chars "["                                                     (* 82 *)
        ++ repeat "#"%char (Z.to_nat c)                                        (* 84 *)
        ++ repeat "-"%char (Z.to_nat (w - c))                                  (* 86 *)
        ++ chars "] " ++ fmt_3d pct ++ chars "%"
        ++ [if x =? n then nl else cr]))).                                     (* 91 *)
