(** NetFile.v -- saving and loading networks, src/neuralnet.c:95-215 and 310-410.

    The parameters of a network are the bytes of its blocks (Create.v), archives and lists of arrays are those of
    NpyList.v.  Simplified: the file name (src/neuralnet.c:322-341) is not modelled, the file can be opened; the data
    of an array that is saved is copied into its descriptor when the descriptor is made, nothing is written in
    between; the array of names on the stack is a block that is freed on return; a loop with an unsigned counter up
    to shape[0] (101-107) ends, that is, shape[0] is below 2^32; the warnings of load are not modelled. *)
From Coq Require Import ZArith Bool String Ascii List.
From Verif Require Import Base Logger Npy NpyList Registry Create.
Import ListNotations.
Local Open Scope nat_scope.

Section NetFile.
  Variable alloc : Z -> bool.
  Variable utf8 : bytes -> bool.
  Variable mem : nat -> Z -> bool.
  Variable lib_opens : bytes -> bool.
  Variable dlsym : bytes -> bytes -> option (option nat).

  (** ** saving *)
  Fixpoint all_written (l : list (option ascii)) : res bytes :=
    match l with
    | [] => Ok []
    | Some c :: l => rbind (all_written l) (fun s => Ok (c :: s))
    | None :: _ => Fault Uninit
    end.
  Definition field_addr (p : fptr) : res nat :=
    match p with FUninit => Fault Uninit | FNull => Fault BadPointer | FPtr a => Ok a end.
  Definition get_mem (h : heap) (a : nat) : res (list (option ascii)) :=
    rbind (h_get h a) (fun b => match b with BMem l => Ok l | _ => Fault BadPointer end).

  (** npy_array.h:82-84 NPY_ARRAY_BUILDER( data, SHAPE(dims), typechar, elem_size ) *)
  Definition builder (data : bytes) (dims : list Z) (type : ascii) (elem : Z) : npy :=
    mk_npy data (dims ++ repeat 0%Z (max_dims - length dims)) (length dims) nul type elem false false.

  (** src/neuralnet.c:347-354 and 356-363: one array of floats *)
  Definition save_array (h : heap) (p : ptr) (f : fptr) (dims : list Z) (fmt : string) (i : Z) : res (heap * ptr) :=
    if negb (alloc sizeof_npy) then Fault AssertFailed else
    rbind (field_addr f) (fun d => rbind (get_mem h d) (fun l => rbind (all_written l) (fun data =>
    let (h, a) := h_new h (BArr (builder data dims "f" 4) d) in
    list_append alloc h p (Some a) (chars fmt) [i]))).
  Fixpoint save_layers (h : heap) (p : ptr) (ls : list clayer) (i : Z) : res (heap * ptr) :=
    match ls with
    | [] => Ok (h, p)
    | l :: ls =>
        rbind (save_array h p (cl_w l) [cl_in l; cl_out l] "weight_%d" i) (fun r =>
        rbind (save_array (fst r) (snd r) (cl_b l) [cl_out l] "bias_%d" i) (fun r =>
        save_layers (fst r) (snd r) ls (i + 1)%Z))
    end.

  (** the names of the functions *)
  Fixpoint layer_names (st : records) (ls : list clayer) : res (list bytes) :=
    match ls with
    | [] => Ok []
    | l :: ls => match cl_func l with
                 | None => Fault Uninit
                 | Some f => rbind (layer_names st ls) (fun r => Ok (get_activation_name st f :: r))
                 end
    end.
  (** src/neuralnet.c:369-374 *)
  Definition longest (names : list bytes) : nat := fold_left (fun m s => if m <? length s then length s else m) names 0.
  (** src/neuralnet.c:377-386: rows of n bytes *)
  Definition name_rows (n : nat) (names : list bytes) : bytes := flat_map (fun s => s ++ repeat nul (n - length s)) names.

  (** src/neuralnet.c:403-409: the names, descriptors and elements of the list *)
  Fixpoint cleanup (fuel : nat) (h : heap) (p : ptr) : res heap :=
    match fuel with
    | 0 => Fault OutOfFuel
    | S f =>
        match p with
        | None => Ok h
        | Some n =>
            rbind (get_node h n) (fun nd => match nd with (arr, name, next) =>
            rbind (match name with Some s => h_free h s | None => Ok h end) (fun h =>
            rbind (match arr with Some a => h_free h a | None => Ok h end) (fun h =>
            rbind (h_free h n) (fun h => cleanup f h next))) end)
        end
    end.

  (** src/neuralnet.c:343-410 neuralnet_save: the heap and the archive (None: the file is not touched) *)
  Definition net_save (h : heap) (st : records) (nn : cnet) : res (heap * option (list member)) :=
    rbind (save_layers h None (cn_layers nn) 0) (fun r => let (h, p) := r in
    rbind (layer_names st (cn_layers nn)) (fun names =>
    let n := longest names in
    rbind (mul_int (Z.of_nat n) (Z.of_nat (length names))) (fun _ =>              (* 377 *)
    let rows := name_rows n names in
    let (h, d) := h_new h (BMem (map Some rows)) in
    if negb (alloc sizeof_npy) then Fault AssertFailed else                        (* 388-389 *)
    let (h, a) := h_new h (BArr (builder rows [Z.of_nat (length names)] "S" (Z.of_nat n)) d) in
    rbind (list_append alloc h p (Some a) (chars "activations") []) (fun r =>
    rbind (list_save alloc utf8 (fst r) (snd r)) (fun q => match q with (h, ar, _) =>
    rbind (cleanup (S (length h)) h (snd r)) (fun h =>
    rbind (h_free h d) (fun h => Ok (h, ar))) end))))).

  (** ** loading *)

  (** src/neuralnet.c:95-109 _activation_names_from_npy: the two blocks and the strings; row i of the array is copied
      to a row of zeros that is one byte longer *)
  Fixpoint rows_of (n : nat) (elem : nat) (data : bytes) : res (list bytes) :=
    match n with
    | 0 => Ok []
    | S n => if length data <? elem then Fault OutOfBounds
             else rbind (rows_of n elem (skipn elem data)) (fun r => Ok (firstn elem data :: r))
    end.
  Fixpoint upto_nul (s : bytes) : bytes :=
    match s with [] => [] | c :: s => if Ascii.eqb c nul then [] else c :: upto_nul s end.
  (** m->shape[i] of a loaded array: the descriptor is zeroed by calloc (npy_array.c:196), so the entries behind the
      dimensions of the array are 0 *)
  Definition shape_at (m : npy) (i : nat) : res Z :=
    match nth_error (np_shape m) i with Some z => Ok z | None => if i <? max_dims then Ok 0%Z else Fault OutOfBounds end.
  Definition names_from_npy (h : heap) (m : npy) : res (heap * (nat * nat * list bytes)) :=
    rbind (shape_at m 0) (fun n =>
    if (size_max1 <=? n * 8)%Z then Fault AssertFailed else                        (* calloc fails, 98 *)
    match malloc mem h (n * 8) with (h, None) => Fault AssertFailed | (h, Some ret) =>
    if (n <? 1)%Z then Fault OutOfBounds else                                      (* 99 *)
    match malloc mem h (to_size (n * (np_elem m + 1))) with (h, None) => Fault AssertFailed | (h, Some ret0) =>
    if negb (n * (np_elem m + 1) =? to_size (n * (np_elem m + 1)))%Z then Fault OutOfBounds else
    rbind (rows_of (Z.to_nat n) (Z.to_nat (np_elem m)) (np_data m)) (fun rows =>
    Ok (h, (ret, ret0, map upto_nul rows)))
    end end).

  (** src/neuralnet.c:141-151: the loop over the list; wb are the arrays of floats so far; the flag is false if an
      array has another type *)
  Fixpoint scan (fuel : nat) (h : heap) (p : ptr) (wb : list npy) (names : option (nat * nat * list bytes))
    : res (heap * list npy * option (nat * nat * list bytes) * bool) :=
    match fuel with
    | 0 => Fault OutOfFuel
    | S f =>
        match p with
        | None => Ok (h, wb, names, true)
        | Some n =>
            rbind (get_node h n) (fun nd => match nd with (arr, _, next) =>
            match arr with None => Fault BadPointer | Some a =>
            rbind (get_arr h a) (fun md => let m := fst md in
            if Ascii.eqb (np_type m) "f" then scan f h next (wb ++ [m]) names
            else if Ascii.eqb (np_type m) "S" then rbind (names_from_npy h m) (fun r => scan f (fst r) next wb (Some (snd r)))
            else Ok (h, wb, names, false))
            end end)
        end
    end.

  (** reading an element of weights_and_biases that has not been written *)
  Definition wb_at (wb : list npy) (i : nat) : res npy := match nth_error wb i with Some m => Ok m | None => Fault Uninit end.
  (** a size_t converted to int *)
  Definition int_of_size (z : Z) : Z := ((z + 2147483648) mod 4294967296 - 2147483648)%Z.
  (** src/neuralnet.c:159-161 sizearray[1] to sizearray[n] *)
  Fixpoint out_sizes (n : nat) (wb : list npy) : res (list Z) :=
    match n with
    | 0 => Ok []
    | S n => rbind (wb_at wb 0) (fun m => rbind (shape_at m 1) (fun z =>
             rbind (out_sizes n (skipn 2 wb)) (fun r => Ok (int_of_size z :: r))))
    end.

  (** memcpy of n bytes to a block *)
  Definition mem_write (h : heap) (a : nat) (src : bytes) (n : Z) : res heap :=
    rbind (get_mem h a) (fun l =>
    if (n <=? Z.of_nat (length src))%Z && (n <=? Z.of_nat (length l))%Z
    then Ok (set_nth h a (Some (BMem (map Some (firstn (Z.to_nat n) src) ++ skipn (Z.to_nat n) l))))
    else Fault OutOfBounds).
  (** src/neuralnet.c:172-202: the parameters of the layers *)
  Fixpoint copy_layers (h : heap) (ls : list clayer) (wb : list npy) : res heap :=
    match ls with
    | [] => Ok h
    | l :: ls =>
        rbind (wb_at wb 0) (fun w => rbind (wb_at wb 1) (fun b =>
        rbind (shape_at w 0) (fun s0 => rbind (shape_at w 1) (fun s1 => rbind (shape_at b 0) (fun t0 =>
        rbind (field_addr (cl_w l)) (fun wa => rbind (field_addr (cl_b l)) (fun ba =>
        rbind (mem_write h wa (np_data w) (to_size (s0 * s1 * 4))) (fun h =>                          (* 190 *)
        rbind (mem_write h ba (repeat nul (Z.to_nat (cl_out l * 4))) (cl_out l * 4)) (fun h =>        (* 195 *)
        rbind (mem_write h ba (np_data b) (to_size (t0 * 4))) (fun h =>                               (* 196 *)
        if np_fortran w || np_fortran b then Fault AssertFailed else                                  (* 199-200 *)
        copy_layers h ls (skipn 2 wb)))))))))))
    end.

  (** src/neuralnet.c:204-214: cleaning up *)
  Definition load_end (h : heap) (p : ptr) (wba : ptr) (names : option (nat * nat * list bytes)) : res heap :=
    rbind (list_free (S (length h)) h p) (fun h =>
    rbind (match wba with Some a => h_free h a | None => Ok h end) (fun h =>
    match names with
    | Some (ret, ret0, _) => rbind (h_free h ret0) (fun h => h_free h ret)
    | None => Ok h
    end)).

  (** src/neuralnet.c:116-215 neuralnet_load of an archive that can be opened *)
  Definition net_load (h : heap) (st : records) (ar : list member) : res (heap * records * option cnet) :=
    rbind (list_load alloc h ar) (fun r => let (h, p) := r in
    match p with
    | None => Ok (h, st, None)                                                     (* 126-131 *)
    | Some _ =>
        rbind (list_length h p) (fun len =>
        match malloc mem h (to_size (len * 8)) with
        | (h, None) => rbind (load_end h p None None) (fun h => Ok (h, st, None))  (* 135-138 *)
        | (h, Some wba) =>
            rbind (scan (S (length h)) h p [] None) (fun q => match q with (h, wb, names, ok) =>
            if negb ok then rbind (load_end h p (Some wba) names) (fun h => Ok (h, st, None)) else
            if negb (Nat.even (length wb)) then Fault AssertFailed else            (* 153 *)
            let n := length wb / 2 in
            rbind (wb_at wb 0) (fun m => rbind (shape_at m 0) (fun s0 =>
            rbind (out_sizes n wb) (fun outs =>
            rbind (create mem lib_opens dlsym h st (Z.of_nat n) (int_of_size s0 :: outs)
                     (option_map (fun q => map Some (snd q)) names)) (fun r => match r with (h, st, nn) =>
            match nn with
            | None => rbind (load_end h p (Some wba) names) (fun h => Ok (h, st, None))
            | Some nn => rbind (copy_layers h (cn_layers nn) wb) (fun h =>
                         rbind (load_end h p (Some wba) names) (fun h => Ok (h, st, Some nn)))
            end end)))) end)
        end)
    end).
End NetFile.
