(** Npy.v -- reading and writing .npy files, npy_array/npy_array.c, at the level of bytes.

    A file is the list of its bytes; a C string is the part of a buffer before the first NUL.  size_t is 64 bit,
    char is signed (x86-64 Linux), the machine is little endian.
    Simplified: messages to stderr are not modelled; whether an allocation of n bytes succeeds is the parameter
    alloc; fopen, fread and fwrite do not fail (fread returns fewer bytes only at the end of the file);
    isdigit of a negative char, undefined in C, is false as in glibc; a mapped header that is not
    complete counts as a read of uninitialised memory. *)
From Coq Require Import ZArith Bool String Ascii List.
From Verif Require Import Base Logger.
Import ListNotations.
Local Open Scope nat_scope.

(** size_t arithmetic *)
Definition size_max1 : Z := 18446744073709551616.
Definition to_size (z : Z) : Z := (z mod size_max1)%Z.

(** npy_array.h:47-57: npy_array_t; np_data is the object data points to; the array shape has 8 entries *)
Record npy := mk_npy {
  np_data : bytes; np_shape : list Z; np_ndim : nat; np_endian : ascii; np_type : ascii;
  np_elem : Z; np_fortran : bool; np_mapped : bool }.

(** npy_array.h:45 *)
Definition max_dims : nat := 8.

Definition quote : ascii := "'"%char.

(** strchr( "<>|", c ) is not NULL: also true for the NUL at the end of the string *)
Definition in_endian (c : ascii) : bool :=
  Ascii.eqb c "<" || Ascii.eqb c ">" || Ascii.eqb c "|" || Ascii.eqb c nul.

(** npy_array.c:72-81 _guess_endianness *)
Definition guess_endianness (m : npy) : ascii :=
  if negb (in_endian (np_endian m)) || Ascii.eqb (np_endian m) nul then
    if (np_elem m =? 1)%Z then "|"%char
    else if Ascii.eqb (np_type m) "S" then "|"%char
    else "<"%char
  else np_endian m.

(** (int) x for a size_t x *)
Definition int_of_size (z : Z) : Z := let r := (z mod 4294967296)%Z in if (r <? 2147483648)%Z then r else (r - 4294967296)%Z.

(** npy_array.c:99-100: the loop that prints the dimensions *)
Fixpoint print_shape (n : nat) (i : nat) (shape : list Z) : res bytes :=
  match n with
  | 0 => Ok []
  | S n' => match nth_error shape i with
            | None => Fault OutOfBounds
            | Some d => rbind (print_shape n' (S i) shape) (fun s => Ok (fmt_d (int_of_size d) ++ chars "," ++ s))
            end
  end.

(** %zu *)
Definition fmt_zu (z : Z) : bytes := digits 20 z.

(** npy_array.c:52-53, 86 *)
Definition magic : bytes := map ascii_of_nat [147; 78; 85; 77; 80; 89].

(** npy_array.c:116-121: the dictionary *)
Definition dict_text (m : npy) (shape : bytes) : bytes :=
  chars "{'descr': '" ++ [guess_endianness m; np_type m] ++ fmt_zu (np_elem m)
  ++ chars "', 'fortran_order': " ++ chars (if np_fortran m then "True" else "False")
  ++ chars ", 'shape': (" ++ shape ++ chars "), }".

(** npy_array.c:83-133 npy_array_get_header: the bytes written to buf; the buffers dict and shape are large
    enough for 8 dimensions *)
Definition npy_get_header (m : npy) : res bytes :=
  rbind (print_shape (np_ndim m) 0 (np_shape m)) (fun shape =>
  let dict := dict_text m shape in
  let len := length dict in
  if len <? 108 then                                                             (* 123 *)
    let dict := dict ++ repeat " "%char (Nat.max 1 (108 - len + 10 - 1)) ++ [nl] in  (* 124 *)
    let len := length dict in
    Ok (magic ++ [ascii_of_nat 1; ascii_of_nat 0]
        ++ [ascii_of_nat (len mod 256); ascii_of_nat (len / 256 mod 256)]        (* 126-128 *)
        ++ dict)
  else Fault AssertFailed).

(** npy_array.c:135-142 npy_array_calculate_datasize: shape[idx] is read before idx is compared with ndim *)
Fixpoint datasize_from (fuel : nat) (m : npy) (idx : nat) (n : Z) : res Z :=
  match fuel with
  | 0 => Fault OutOfFuel
  | S f => match nth_error (np_shape m) idx with
           | None => Fault OutOfBounds
           | Some d => if (0 <? d)%Z && (idx <? np_ndim m) then datasize_from f m (S idx) (to_size (n * d)) else Ok n
           end
  end.
Definition npy_datasize (m : npy) : res Z :=
  rbind (datasize_from (S (length (np_shape m))) m 0 1) (fun n => Ok (to_size (n * np_elem m))).

(** npy_array.c:348-376 npy_array_save: the content of the file *)
Definition npy_save (m : npy) : res bytes :=
  rbind (npy_get_header m) (fun header =>
  rbind (npy_datasize m) (fun n =>
  if (n <=? Z.of_nat (length (np_data m)))%Z then Ok (header ++ firstn (Z.to_nat n) (np_data m))
  else Fault OutOfBounds)).

(** ** reading *)

(** npy_array.c:145-149 find_header_item: the index behind the item *)
Definition find_header_item (item : string) (header : bytes) : res (option nat) :=
  match cstr header with
  | None => Fault OutOfBounds
  | Some h => Ok (option_map (fun k => k + String.length item) (strstr h (chars item)))
  end.

Fixpoint take_digits (s : bytes) : bytes :=
  match s with c :: r => match digit_of c with Some _ => c :: take_digits r | None => [] end | [] => [] end.
(** strtol and strtoll of a string of digits, saturating *)
Definition clamp (z : Z) : Z := Z.max (-9223372036854775808) (Z.min z 9223372036854775807).
Definition strtol (s : bytes) : Z :=
  match skip_space s with
  | c :: r => if Ascii.eqb c "-" then clamp (- parse 0 r)
              else if Ascii.eqb c "+" then clamp (parse 0 r) else clamp (parse 0 (c :: r))
  | [] => 0%Z
  end.

Definition char_at (buf : bytes) (i : nat) : res ascii :=
  match nth_error buf i with Some c => Ok c | None => Fault OutOfBounds end.

(** npy_array.c:234-242: the loop over the shape; s is the rest of the header *)
Fixpoint scan_shape (fuel : nat) (s : bytes) (dims : list Z) : res (list Z) :=
  match fuel with
  | 0 => Fault OutOfFuel
  | S f =>
      match s with
      | [] => Fault OutOfBounds
      | c :: r =>
          if Ascii.eqb c ")" then Ok dims
          else match digit_of c with
               | None => scan_shape f r dims
               | Some _ =>
                   let dims := dims ++ [clamp (parse 0 (take_digits s))] in
                   if length dims <? max_dims then scan_shape f (skipn (length (take_digits s)) s) dims
                   else Fault AssertFailed
               end
      end
  end.

(** npy_array.c:244-247: the number of elements *)
Fixpoint count_elements (shape : list Z) (n : Z) : Z :=
  match shape with d :: r => if (0 <? d)%Z then count_elements r (to_size (n * d)) else n | [] => n end.

(** a char converted to int *)
Definition schar (c : ascii) : Z := let n := Z.of_nat (nat_of_ascii c) in if (n <? 128)%Z then n else (n - 256)%Z.

(** npy_array.c:181-183 (and 388-391): header_length, an uint16_t; shifting a negative int is undefined *)
Definition header_length (low high : ascii) : res Z :=
  if (schar high <? 0)%Z then Fault IntOverflow
  else Ok (Z.lor (schar low mod 65536) (schar high * 256) mod 65536)%Z.

Section Read.
  Variable alloc : Z -> bool.
  (** sizeof( npy_array_t ) *)
  Definition sizeof_npy : Z := 104.

  (** the pre-header: fewer bytes than asked for are left uninitialised in the mapped case *)
  Definition pre_at (pre : bytes) (i : nat) : res ascii :=
    match nth_error pre i with Some c => Ok c | None => Fault Uninit end.
  (** npy_array.c:165-171 *)
  Fixpoint check_magic (mg : bytes) (i : nat) (pre : bytes) : res bool :=
    match mg with
    | [] => Ok true
    | c :: r => rbind (pre_at pre i) (fun d => if Ascii.eqb c d then check_magic r (S i) pre else Ok false)
    end.

  (** npy_array.c:202-242: the dictionary; the header ends with a NUL *)
  Definition parse_header (header : bytes) : res (ascii * ascii * Z * bool * list Z) :=
    rbind (find_header_item "'descr': '" header) (fun o =>                         (* 202 *)
    match o with None => Fault AssertFailed | Some d =>
    rbind (char_at header d) (fun e =>
    let endian := if in_endian e then e else nul in                                (* 204-211 *)
    rbind (char_at header (d + 1)) (fun t =>                                       (* 214 *)
    match cstr (skipn (d + 2) header) with None => Fault OutOfBounds | Some s =>
    let es := to_size (strtol s) in                                                (* 217 *)
    if (es =? 0)%Z then Fault AssertFailed else
    rbind (find_header_item "'fortran_order': " header) (fun o =>                  (* 221-229 *)
    match o with None => Fault AssertFailed | Some f =>
    let fortran := is_prefix (chars "True") (skipn f header) in
    rbind (find_header_item "'shape': " header) (fun o =>                          (* 232-233 *)
    match o with None => Fault AssertFailed | Some p =>
    rbind (scan_shape (S (length header)) (skipn p header) []) (fun dims =>
    Ok (endian, t, es, fortran, dims))
    end) end) end)) end).

  (** npy_array.c:157-275 _read_matrix with read_file, read_zip (mapped = false) or read_mapped; None is NULL *)
  Definition read_matrix (mapped : bool) (content : bytes) : res (option npy) :=
    let pre := firstn 10 content in
    if negb mapped && (length pre <? 10) then Ok None                              (* 161-164 *)
    else
    rbind (check_magic magic 0 pre) (fun ok => if negb ok then Ok None else
    rbind (pre_at pre 6) (fun major =>
    rbind (pre_at pre 7) (fun _ =>
    if negb (schar major =? 1)%Z then Ok None else                                 (* 175-178 *)
    rbind (pre_at pre 8) (fun low =>
    rbind (pre_at pre 9) (fun high =>
    rbind (header_length low high) (fun hl =>
    let hl := Z.to_nat hl in
    let header := firstn hl (skipn 10 content) in
    let rest := skipn hl (skipn 10 content) in
    if length header <? hl then (if mapped then Fault Uninit else Ok None)         (* 186-190 *)
    else
    if negb (alloc sizeof_npy) then Ok None                                        (* 196-200 *)
    else
    rbind (parse_header (header ++ [nul])) (fun q =>
    match q with (endian, t, es, fortran, dims) =>
      let shape := dims ++ repeat 0%Z (max_dims - length dims) in
      if mapped then Ok (Some (mk_npy rest shape (length dims) endian t es fortran true))   (* 253-258 *)
      else
        let size := to_size (count_elements shape 1 * es) in
        if negb (alloc size) then Ok None                                          (* 260-265 *)
        else
        if (size <=? Z.of_nat (length rest))%Z
        then Ok (Some (mk_npy (firstn (Z.to_nat size) rest) shape (length dims) endian t es fortran false))
        else Ok None                                                               (* 267-273 *)
    end))))))).

  (** npy_array.c:277-292 npy_array_load of a file that exists *)
  Definition npy_load (content : bytes) : res (option npy) := read_matrix false content.

  (** npy_array.c:305-330 npy_array_mmap of a file that exists; mmap of length 0 fails *)
  Definition npy_mmap (content : bytes) : res (option npy) :=
    match content with [] => Ok None | _ => read_matrix true content end.
End Read.
