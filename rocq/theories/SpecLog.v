(** SpecLog.v -- the log file as a reader sees it (no reference to the model of the logger). *)
From Coq Require Import ZArith Bool String Ascii List.
Import ListNotations.
Local Open Scope nat_scope.

Definition newline : ascii := "010"%char.

(** a character that may occur within a line *)
Definition inline (c : ascii) : Prop := c <> newline /\ c <> "000"%char.

(** the number a sequence of decimal digits stands for *)
Fixpoint digits_value (acc : Z) (s : list ascii) : option Z :=
  match s with
  | [] => Some acc
  | c :: r => let n := nat_of_ascii c in
              if (48 <=? n) && (n <=? 57) then digits_value (10 * acc + Z.of_nat n - 48) r else None
  end.
(** s is the number z in decimal *)
Definition numeral (z : Z) (s : list ascii) : Prop :=
  ((0 <= z)%Z /\ s <> [] /\ digits_value 0 s = Some z)
  \/ ((z < 0)%Z /\ exists r, s = "-"%char :: r /\ r <> [] /\ digits_value 0 r = Some (- z)%Z).

(** a line of the log, with its newline, for epoch number e: some time stamp (it contains no letter E), the
    word Epoch, the number and the results *)
Definition log_entry (e : Z) (line : list ascii) : Prop :=
  exists stamp k num rest,
    line = stamp ++ list_ascii_of_string "Epoch " ++ repeat " "%char k ++ num ++ " "%char :: rest ++ [newline]
    /\ numeral e num /\ Forall inline rest /\ Forall (fun c => inline c /\ c <> "E"%char) stamp.

(** ** the text of one line *)
Definition txt := list_ascii_of_string.
(** one result: "mean_squared_error: 1.00000e+00 " *)
Definition result_text (prefix : string) (p : string * list ascii) : list ascii :=
  txt prefix ++ txt (fst p) ++ txt ": " ++ snd p ++ txt " ".
(** a whole line; hh, mm, ss and epoch are numbers in decimal, train and valid pairs of a metric's name and
    the text of its value *)
Definition line_text (hh mm ss epoch : list ascii) (train valid : list (string * list ascii)) : list ascii :=
  txt "[" ++ hh ++ txt ":" ++ mm ++ txt ":" ++ ss ++ txt "] Epoch " ++ epoch ++ txt " "
  ++ concat (map (result_text "") train) ++ concat (map (result_text "val_") valid) ++ [newline].

(** s is z in decimal with padding characters pad in front, if necessary, to make it w characters *)
Definition padded (w : nat) (pad : ascii) (z : Z) (s : list ascii) : Prop :=
  exists num, numeral z num /\ s = repeat pad (w - length num) ++ num.
