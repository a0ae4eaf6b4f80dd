(** NpyMore.v -- npy_array_dump, and npy_array_mmap and npy_array_free with the address space of the process.

    The address space is a set of pages of 4096 bytes; user space ends at 2^47.  mmap without a wanted address puts the file at
    some free place, the parameter base.  The file does not change while it is mapped.
    Simplified: messages to stderr are not modelled; printf does not fail. *)
From Coq Require Import ZArith Bool String Ascii List.
From Verif Require Import Base Logger Npy.
Import ListNotations.
Local Open Scope nat_scope.

(** npy_array.c:340: the loop over all dimensions but the last *)
Fixpoint dump_dims (n : nat) (i : nat) (shape : list Z) : res bytes :=
  match n with
  | 0 => Ok []
  | S n' => match nth_error shape i with
            | None => Fault OutOfBounds
            | Some d => rbind (dump_dims n' (S i) shape) (fun s => Ok (fmt_d (int_of_size d) ++ chars ", " ++ s))
            end
  end.
(** npy_array.c:332-346 npy_array_dump: what is written to stdout; None is a NULL pointer.  m->shape[m->ndim-1] of an array without
    dimensions is m->shape[-1]. *)
Definition npy_dump (o : option npy) : res bytes :=
  match o with
  | None => Ok []                                                                  (* 334-337 *)
  | Some m =>
      rbind (dump_dims (np_ndim m - 1) 0 (np_shape m)) (fun s =>                   (* 340 *)
      rbind (match np_ndim m with
             | 0 => Fault OutOfBounds
             | S k => match nth_error (np_shape m) k with None => Fault OutOfBounds | Some d => Ok (fmt_d (int_of_size d)) end
             end) (fun last =>                                                     (* 341 *)
      Ok (chars "Dimensions   : " ++ fmt_d (Z.of_nat (np_ndim m)) ++ [nl]          (* 338 *)
          ++ chars "Shape        : ( " ++ s ++ last ++ chars " )" ++ [nl]
          ++ chars "Type         : '" ++ [np_type m] ++ chars "' "                 (* 342 *)
          ++ chars "(" ++ fmt_d (int_of_size (np_elem m)) ++ chars " bytes each element)" ++ [nl]
          ++ chars "Fortran order: " ++ chars (if np_fortran m then "True" else "False") ++ [nl])))
  end.

(** ** the address space *)
Definition space : Type := Z -> bool.
Definition n_pages (len : Z) : Z := ((len + 4095) / 4096)%Z.
Definition in_pages (p len q : Z) : bool := (p <=? q)%Z && (q <? p + n_pages len)%Z.
Definition last_page : Z := 34359738368.
(** mmap( 0, len, ... ) at the page p *)
Definition map_pages (p len : Z) (s : space) : space := fun q => if in_pages p len q then true else s q.
(** munmap( page p, len ): removes all pages of the range, whoever mapped them; refuses a length of 0 and ranges beyond the end *)
Definition munmap (p len : Z) (s : space) : space :=
  if (len <=? 0)%Z || (last_page <? p + n_pages len)%Z then s else fun q => if in_pages p len q then false else s q.

Section Map.
  Variable alloc : Z -> bool.
  (** npy_array.c:305-330 npy_array_mmap of a file that exists; mmap of length 0 fails *)
  Definition npy_mmap_at (content : bytes) (p : Z) (s : space) : res (option npy * space) :=
    match content with
    | [] => Ok (None, s)                                                           (* 317-320 *)
    | _ =>
        let len := Z.of_nat (length content) in
        let s1 := map_pages p len s in
        rbind (read_matrix alloc true content) (fun o =>
        match o with
        | None => Ok (None, munmap p len s1)                                       (* 325-328 *)
        | Some m => Ok (Some m, s1)
        end)
    end.
  (** npy_array.c:378-399 npy_array_free: the part about the mapping; p is the page of map_addr *)
  Definition npy_free_at (content : bytes) (m : npy) (p : Z) (s : space) : res space :=
    if np_mapped m then
      rbind (pre_at content 8) (fun low =>
      rbind (pre_at content 9) (fun high =>
      rbind (header_length low high) (fun hl =>                                    (* 388-391 *)
      rbind (npy_datasize m) (fun d =>
      Ok (munmap p (to_size (10 + hl + d)) s)))))                                  (* 393-394 *)
    else Ok s.
End Map.
