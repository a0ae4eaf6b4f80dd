(** NpyList.v -- lists of arrays and .npz archives, npy_array/npy_array_list.c.

    The heap is a list of blocks, one for each allocation so far; a freed block is None; an address is an index, a
    pointer is an option, None being NULL.  Blocks: a list element, a string, an array descriptor (np_data is the
    content of the data block it points to), and a data block.  BMem is memory of a network, see Create.v.
    An archive is the list of its members: name, content and compression method.
    libzip is modelled by what its documentation promises: zip_file_add appends a member and fails if the name is
    taken or not UTF-8; zip_set_file_compression fails if there is no such index; new members have the default
    method ZIP_CM_DEFAULT; zip_close writes the members.  Opening, reading and closing do not fail.
    Simplified: whether malloc of n bytes succeeds is a function of n; printf formats know only %d and %%, any other
    conversion (and %d without an argument) is undefined; the uninitialised string behind a failed name is not modelled. *)
From Coq Require Import ZArith Bool String Ascii List.
From Verif Require Import Base Logger Npy.
Import ListNotations.
Local Open Scope nat_scope.

Definition ptr := option nat.

(** npy_array_list.h:43-47 npy_array_list_t is BNode array filename next *)
Inductive block :=
| BNode (array name next : ptr)
| BName (s : bytes)
| BArr (m : npy) (data : nat)
| BData
| BMem (l : list (option ascii)).
Definition heap := list (option block).

Definition h_get (h : heap) (a : nat) : res block :=
  match nth_error h a with Some (Some b) => Ok b | _ => Fault BadPointer end.
Definition h_free (h : heap) (a : nat) : res heap :=
  match nth_error h a with Some (Some _) => Ok (set_nth h a None) | _ => Fault BadFree end.
Definition h_new (h : heap) (b : block) : heap * nat := (h ++ [Some b], length h).
Definition get_node (h : heap) (a : nat) : res (ptr * ptr * ptr) :=
  rbind (h_get h a) (fun b => match b with BNode x y z => Ok (x, y, z) | _ => Fault BadPointer end).
Definition get_name (h : heap) (a : nat) : res bytes :=
  rbind (h_get h a) (fun b => match b with BName s => Ok s | _ => Fault BadPointer end).
Definition get_arr (h : heap) (a : nat) : res (npy * nat) :=
  rbind (h_get h a) (fun b => match b with BArr m d => Ok (m, d) | _ => Fault BadPointer end).

(** npy_array.c:378-399 npy_array_free of an array: the data (or the mapping), then the descriptor *)
Definition array_free (h : heap) (a : nat) : res heap :=
  rbind (get_arr h a) (fun md => rbind (h_free h (snd md)) (fun h => h_free h a)).

(** npy_array_list.c:59-70 npy_array_list_free *)
Fixpoint list_free (fuel : nat) (h : heap) (p : ptr) : res heap :=
  match fuel with
  | 0 => Fault OutOfFuel
  | S f =>
      match p with
      | None => Ok h
      | Some n =>
          rbind (get_node h n) (fun nd => match nd with (arr, name, next) =>
          rbind (match arr with Some a => array_free h a | None => Ok h end) (fun h =>
          rbind (match name with Some s => h_free h s | None => Ok h end) (fun h =>
          rbind (match next with Some _ => list_free f h next | None => Ok h end) (fun h =>
          h_free h n))) end)
      end
  end.

(** vsprintf for %d and %% *)
Fixpoint vformat (fmt : bytes) (args : list Z) : res bytes :=
  match fmt with
  | [] => Ok []
  | c :: r =>
      if Ascii.eqb c "%" then
        match r with
        | d :: r' =>
            if Ascii.eqb d "%" then rbind (vformat r' args) (fun s => Ok ("%"%char :: s))
            else if Ascii.eqb d "d" then
              match args with z :: zs => rbind (vformat r' zs) (fun s => Ok (fmt_d z ++ s)) | [] => Fault Uninit end
            else Fault Uninit
        | [] => Fault Uninit
        end
      else rbind (vformat r args) (fun s => Ok (c :: s))
  end.

(** npy_array_list.c:46 *)
Definition max_filename : nat := 80.

(** npy_array_list.c:98-109: the element at the end *)
Fixpoint last_node (fuel : nat) (h : heap) (n : nat) : res nat :=
  match fuel with
  | 0 => Fault OutOfFuel
  | S f => rbind (get_node h n) (fun nd => match nd with (_, _, Some n') => last_node f h n' | _ => Ok n end)
  end.
Definition set_next (h : heap) (n : nat) (p : ptr) : res heap :=
  rbind (get_node h n) (fun nd => match nd with (a, s, _) => Ok (set_nth h n (Some (BNode a s p))) end).
Definition list_append_node (h : heap) (p : ptr) (n : nat) : res (heap * ptr) :=
  match p with
  | Some q => rbind (last_node (S (length h)) h q) (fun l => rbind (set_next h l (Some n)) (fun h => Ok (h, p)))
  | None => rbind (set_next h n None) (fun h => Ok (h, Some n))
  end.
(** npy_array_list.c:111-115 *)
Definition list_prepend_node (h : heap) (p : ptr) (n : nat) : res (heap * ptr) :=
  rbind (set_next h n p) (fun h => Ok (h, Some n)).

Section List.
  Variable alloc : Z -> bool.
  (** zip_file_add refuses names that are not UTF-8 *)
  Variable utf8 : bytes -> bool.

  (** npy_array_list.c:72-96 _va_args_filename; a length of more than 80 or no memory ends in an assertion *)
  Definition va_args_filename (h : heap) (fmt : bytes) (args : list Z) : res (heap * nat) :=
    rbind (vformat fmt args) (fun s =>
    if max_filename <? length s then Fault AssertFailed                            (* 81-87, 127 *)
    else if negb (alloc (Z.of_nat (length s + 1))) then Fault AssertFailed         (* 89-90 *)
    else Ok (h_new h (BName s))).

  (** npy_array_list.c:117-135 npy_array_list_append and npy_array_list_prepend *)
  Definition list_extend (oper : heap -> ptr -> nat -> res (heap * ptr))
      (h : heap) (p : ptr) (a : ptr) (fmt : bytes) (args : list Z) : res (heap * ptr) :=
    if negb (alloc 24) then Ok (h, p)                                              (* 120-121 *)
    else
    let (h, n) := h_new h (BNode a None None) in
    rbind (va_args_filename h fmt args) (fun hs => let (h, s) := hs in
    oper (set_nth h n (Some (BNode a (Some s) None))) p n).
  Definition list_append := list_extend list_append_node.
  Definition list_prepend := list_extend list_prepend_node.

  (** npy_array_list.c:231-243 npy_array_list_length *)
  Fixpoint list_length_from (fuel : nat) (h : heap) (p : ptr) (len : Z) : res Z :=
    match fuel with
    | 0 => Fault OutOfFuel
    | S f => match p with
             | None => Ok len
             | Some n => rbind (get_node h n) (fun nd => list_length_from f h (snd nd) (to_size (len + 1)))
             end
    end.
  Definition list_length (h : heap) (p : ptr) : res Z := list_length_from (S (length h)) h p 0.

  (** ** archives *)
  Record member := mk_member { mb_name : bytes; mb_content : bytes; mb_method : Z }.
  (** ZIP_CM_DEFAULT *)
  Definition cm_default : Z := -1.

  (** zip_set_file_compression *)
  Definition zip_set_compression (ar : list member) (i : nat) (comp : Z) : option (list member) :=
    match nth_error ar i with
    | Some m => Some (set_nth ar i (mk_member (mb_name m) (mb_content m) comp))
    | None => None
    end.
  (** zip_file_add without ZIP_FL_OVERWRITE *)
  Definition bytes_eqb (s t : bytes) : bool := if list_eq_dec ascii_dec s t then true else false.
  Definition zip_file_add (ar : list member) (name content : bytes) : option (list member) :=
    if negb (utf8 name) || existsb (fun m => bytes_eqb (mb_name m) name) ar then None
    else Some (ar ++ [mk_member name content cm_default]).

  (** npy_array_list.c:137-143 _new_internal_filename *)
  Definition internal_filename (n : nat) : bytes := chars "arr_" ++ fmt_d (Z.of_nat n) ++ chars ".npy".

  (** npy_array_list.c:160-193: the loop over the list; n is counted whether or not the member was added *)
  Fixpoint save_loop (fuel : nat) (h : heap) (p : ptr) (comp : Z) (ar : list member) (n : nat) : res (heap * list member * nat) :=
    match fuel with
    | 0 => Fault OutOfFuel
    | S f =>
        match p with
        | None => Ok (h, ar, n)
        | Some q =>
            let ar := match zip_set_compression ar n comp with Some ar => ar | None => ar end in   (* 162-164 *)
            rbind (get_node h q) (fun nd => match nd with (arr, name, next) =>
            rbind (match name with                                                 (* 167-168 *)
                   | Some s => rbind (get_name h s) (fun str => Ok (h, str))
                   | None => if alloc 80 then
                               let (h', s) := h_new h (BName (internal_filename n)) in
                               Ok (set_nth h' q (Some (BNode arr (Some s) next)), internal_filename n)
                             else Fault BadPointer
                   end) (fun hs => let (h, str) := hs in
            match arr with None => Fault BadPointer | Some a =>
            rbind (get_arr h a) (fun md =>
            rbind (npy_get_header (fst md)) (fun header =>                         (* 174 *)
            rbind (npy_datasize (fst md)) (fun size =>                             (* 175 *)
            if negb (alloc (Z.of_nat (length header) + size)) then Fault AssertFailed else   (* 177-178 *)
            if negb (size <=? Z.of_nat (length (np_data (fst md))))%Z then Fault OutOfBounds else  (* 180 *)
            let content := header ++ firstn (Z.to_nat size) (np_data (fst md)) in
            let ar := match zip_file_add ar str content with Some ar => ar | None => ar end in     (* 186 *)
            save_loop f h next comp ar (S n)))) end) end)
        end
    end.
  (** npy_array_list.c:151-199 npy_array_list_save_compressed: the archive that is written (None: the file is not
      touched) and the value returned *)
  Definition list_save_compressed (h : heap) (p : ptr) (comp : Z) : res (heap * option (list member) * nat) :=
    match p with
    | None => Ok (h, None, 0)                                                      (* 153-154 *)
    | Some _ => rbind (save_loop (S (length h)) h p comp [] 0) (fun r => match r with (h, ar, n) => Ok (h, Some ar, n) end)
    end.
  (** npy_array_list.c:145-148 npy_array_list_save; ZIP_CM_STORE is 0 *)
  Definition list_save (h : heap) (p : ptr) := list_save_compressed h p 0.

  (** npy_array_list.c:210-224: the loop of npy_array_list_load; the name of the member is the format of append *)
  Fixpoint load_loop (ar : list member) (h : heap) (p : ptr) : res (heap * ptr) :=
    match ar with
    | [] => Ok (h, p)
    | m :: ar =>
        rbind (read_matrix alloc false (mb_content m)) (fun o =>
        match o with
        | None => load_loop ar h p                                                 (* 219-222 *)
        | Some arr =>
            let (h, d) := h_new h BData in
            let (h, a) := h_new h (BArr arr d) in
            rbind (list_append h p (Some a) (mb_name m) []) (fun hp => load_loop ar (fst hp) (snd hp))
        end)
    end.
  (** npy_array_list.c:201-229 npy_array_list_load of an archive that can be opened *)
  Definition list_load (h : heap) (ar : list member) : res (heap * ptr) := load_loop ar h None.
End List.
