(** Logger.v -- the logger callback, src/logger.c, at the level of bytes.

    Simplified: the stdout copy of a line is not modelled (its content is the same line); the line buffer is
    modelled by the characters written so far, every sprintf checks that its characters and the NUL fit
    into the 256 bytes; localtime gives hour, minute and second; the text sprintf makes of a float with
    %5.5e is a parameter; assert is switched on.  A file is the list of its bytes; access, fopen, fread
    and fclose work on it as POSIX says; fopen may fail. *)
From Coq Require Import ZArith Bool String Ascii List.
From Verif Require Import Base Ops Loss Names.
Import ListNotations.
Local Open Scope nat_scope.

Definition bytes := list ascii.
Definition chars (s : string) : bytes := list_ascii_of_string s.
Definition nl : ascii := ascii_of_nat 10.
Definition nul : ascii := ascii_of_nat 0.

(** logger.c:26 *)
Definition max_buffer : nat := 255.

(** ** sprintf conversions for int *)
Fixpoint digits (fuel : nat) (z : Z) : bytes :=
  match fuel with
  | 0 => []
  | S f => (if (z <? 10)%Z then [] else digits f (z / 10)) ++ [ascii_of_nat (48 + Z.to_nat (z mod 10))]
  end.
(** %d of an int: at most 10 digits *)
Definition fmt_d (z : Z) : bytes :=
  if (z <? 0)%Z then "-"%char :: digits 11 (- z) else digits 11 z.
(** %3d *)
Definition fmt_3d (z : Z) : bytes := let d := fmt_d z in repeat " "%char (3 - length d) ++ d.
(** %02d of a number that is not negative *)
Definition fmt_02d (n : nat) : bytes := let d := fmt_d (Z.of_nat n) in repeat "0"%char (2 - length d) ++ d.

(** ** <string.h> and <stdlib.h> *)
(** the C string that starts a buffer: the characters before the first NUL; None: there is no NUL *)
Fixpoint cstr (buf : bytes) : option bytes :=
  match buf with
  | [] => None
  | c :: r => if Ascii.eqb c nul then Some [] else option_map (cons c) (cstr r)
  end.
(** strrchr( s, c ): the index of the last c *)
Fixpoint strrchr (s : bytes) (c : ascii) : option nat :=
  match s with
  | [] => None
  | d :: r => match strrchr r c with Some i => Some (S i) | None => if Ascii.eqb d c then Some 0 else None end
  end.
Fixpoint is_prefix (p s : bytes) : bool :=
  match p, s with
  | [], _ => true
  | a :: p', b :: s' => Ascii.eqb a b && is_prefix p' s'
  | _ :: _, [] => false
  end.
(** strstr( s, p ): the index of the first p *)
Fixpoint strstr (s p : bytes) : option nat :=
  if is_prefix p s then Some 0
  else match s with [] => None | _ :: r => option_map S (strstr r p) end.

Definition is_space (c : ascii) : bool :=
  let n := nat_of_ascii c in (n =? 32) || ((9 <=? n) && (n <=? 13)).
Definition digit_of (c : ascii) : option Z :=
  let n := nat_of_ascii c in if (48 <=? n) && (n <=? 57) then Some (Z.of_nat (n - 48)) else None.
Fixpoint skip_space (s : bytes) : bytes :=
  match s with c :: r => if is_space c then skip_space r else s | [] => [] end.
Fixpoint parse (acc : Z) (s : bytes) : Z :=
  match s with c :: r => match digit_of c with Some d => parse (acc * 10 + d) r | None => acc end | [] => acc end.
(** a value of type int *)
Definition to_int (z : Z) : res Z :=
  if ((-2147483648 <=? z) && (z <=? 2147483647))%Z then Ok z else Fault IntOverflow.
(** atoi: undefined if the value is not an int *)
Definition atoi (s : bytes) : res Z :=
  match skip_space s with
  | c :: r => if Ascii.eqb c "-" then to_int (- parse 0 r)
              else if Ascii.eqb c "+" then to_int (parse 0 r) else to_int (parse 0 (c :: r))
  | [] => Ok 0%Z
  end.

(** ** the logger *)

(** logger.c:14-21: the callback object; the file name is the name of the one file of the model *)
Record logger := mk_logger { lg_epoch : Z; lg_filename : bool }.

(** logger.c:47-48: fseek( fp, -255, SEEK_END ) fails for shorter files and leaves the position 0;
    fread reads up to 255 bytes *)
Definition window (file : bytes) : bytes :=
  if length file <? max_buffer then file else skipn (length file - max_buffer) file.

(** logger.c:46-60 on an opened file *)
Definition scan_log (epoch_count : Z) (file : bytes) : res Z :=
  let w := window file in
  let len := length w in
  let buf := w ++ [nul] in                                                   (* 50 *)
  if len =? 0 then Fault OutOfBounds                                         (* 51: buf[-1] *)
  else
    let buf := match nth_error buf (len - 1) with                            (* 51-52 *)
               | Some c => if Ascii.eqb c nl then set_nth buf (len - 1) nul else buf
               | None => buf end in
    match cstr buf with
    | None => Fault OutOfBounds
    | Some s =>
        match strrchr s nl with                                              (* 53-55 *)
        | None => Ok epoch_count
        | Some i =>
            let buf := match nth_error buf (len - 1) with                    (* 57-58 *)
                       | Some c => if Ascii.eqb c nul then set_nth buf (len - 1) nl else buf
                       | None => buf end in
            match cstr (skipn (S i) buf) with                                (* 56 *)
            | None => Fault OutOfBounds
            | Some line =>
                match strstr line (chars "Epoch") with                       (* 59 *)
                | None => Fault BadPointer
                | Some k => rbind (atoi (skipn (k + 5) line)) (fun z => to_int (z + 1))  (* 60 *)
                end
            end
        end
    end.

(** logger.c:37-63; file = None: there is no file of this name (access fails) *)
Definition find_last_epoch (log : logger) (file : option bytes) (fopen_ok : bool) : res Z :=
  if (lg_epoch log =? 0)%Z && lg_filename log then
    match file with
    | None => Ok (lg_epoch log)
    | Some f => if fopen_ok then scan_log (lg_epoch log) f else Ok (lg_epoch log)
    end
  else Ok (lg_epoch log).

(** logger.c:28-34: logger_callback_new *)
Definition logger_new (epoch_count : Z) (filename : bool) (file : option bytes) (fopen_ok : bool) : res logger :=
  rbind (find_last_epoch (mk_logger epoch_count filename) file fopen_ok)
        (fun e => Ok (mk_logger e filename)).

Section Run.
  Context {FO : fops}.
  (** what sprintf writes for "%5.5e" *)
  Variable fmt_e : F -> bytes.

  (** ptr += sprintf( ptr, ... ) into char buffer[MAX_BUFFER + 1]: line is what was written so far *)
  Definition put (line s : bytes) : res bytes :=
    if length line + length s + 1 <=? max_buffer + 1 then Ok (line ++ s) else Fault OutOfBounds.

  (** logger.c:86-89: the loop over the metrics of one phase *)
  Fixpoint put_metrics (line : bytes) (phase : nat) (metrics : list metric) (results : list F) (k : nat) : res bytes :=
    match metrics with
    | [] => Ok line
    | t :: rest =>
        match nth_error results k with
        | None => Fault OutOfBounds
        | Some x =>
            rbind (put line ((if phase =? 1 then chars "val_" else []) ++ chars (get_metric_name t) ++ chars ": "
                             ++ fmt_e x ++ chars " "))
                  (fun line => put_metrics line phase rest results (S k))
        end
    end.

  (** logger.c:65-109: logger_callback_run; h m s is the time of day; the new logger and the new file *)
  Definition logger_run (log : logger) (metrics : list metric) (h m s : nat) (results : list F) (validation : bool)
      (file : option bytes) (fopen_ok : bool) : res (logger * option bytes) :=
    rbind (put [] (chars "[" ++ fmt_02d h ++ chars ":" ++ fmt_02d m ++ chars ":" ++ fmt_02d s ++ chars "] ")) (fun line =>
    rbind (put line (chars "Epoch" ++ chars " " ++ fmt_3d (lg_epoch log) ++ chars " ")) (fun line =>
    rbind (to_int (lg_epoch log + 1)) (fun e =>
    rbind (put_metrics line 0 metrics results 0) (fun line =>
    rbind (if validation then put_metrics line 1 metrics results (length metrics) else Ok line) (fun line =>
    rbind (put line [nl]) (fun line =>
    if length line <? max_buffer then
      Ok (mk_logger e (lg_filename log),
          if lg_filename log && fopen_ok
          then Some (match file with Some f => f | None => [] end ++ line) else file)
    else Fault AssertFailed)))))).

  (** a logger called after several epochs: the time, the results and whether there was a validation set *)
  Fixpoint logger_runs (log : logger) (metrics : list metric) (epochs : list (nat * nat * nat * list F * bool))
      (file : option bytes) : res (logger * option bytes) :=
    match epochs with
    | [] => Ok (log, file)
    | (h, m, s, r, v) :: rest =>
        rbind (logger_run log metrics h m s r v file true) (fun p => logger_runs (fst p) metrics rest (snd p))
    end.
End Run.
