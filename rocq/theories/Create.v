(** Create.v -- creating and freeing networks, src/neuralnet.c:59-93, 221-227, 624-686, src/simd.h, src/neuralnet.h:49-56.

    The blocks of a network are on the heap of NpyList.v: memory is BMem, a list of bytes, None being a byte that has
    not been written.  The fields of neuralnet_t and layer_t are kept in the records below; their blocks are only
    there to be freed.  Whether an allocation succeeds depends on the number of allocations so far and on its size.
    Simplified: _mm_malloc/_mm_free and malloc/free are one allocator; the alignment of blocks is not modelled here
    (in the model of prediction blocks are aligned); memory of size_t bytes and pointers of 8 bytes (64 bit). *)
From Coq Require Import ZArith Bool String Ascii List.
From Verif Require Import Base Logger Npy NpyList Registry.
Import ListNotations.
Local Open Scope nat_scope.

(** a field of type float*: not written yet, NULL, or the address of a block *)
Inductive fptr := FUninit | FNull | FPtr (a : nat).
(** src/neuralnet.h:11-19 layer_t; the derivative is set by neuralnet_set_loss only *)
Record clayer := mk_clayer { cl_in : Z; cl_out : Z; cl_w : fptr; cl_b : fptr; cl_func : option fn }.
(** src/neuralnet.h:21-28 neuralnet_t: its block, the block of the layers, the layers, the loss *)
Record cnet := mk_cnet { cn_self : nat; cn_arr : nat; cn_layers : list clayer; cn_loss : ptr }.

(** multiplication of two ints *)
Definition mul_int (a b : Z) : res Z := to_int (a * b).

(** src/neuralnet.c:59-65 _weights_memory_free; testing a field that was not written is undefined *)
Definition free_field (h : heap) (p : fptr) : res heap :=
  match p with FUninit => Fault Uninit | FNull => Ok h | FPtr a => h_free h a end.
Fixpoint weights_free (h : heap) (ls : list clayer) : res heap :=
  match ls with
  | [] => Ok h
  | l :: ls => rbind (free_field h (cl_w l)) (fun h => rbind (free_field h (cl_b l)) (fun h => weights_free h ls))
  end.

(** src/neuralnet.c:221-227 neuralnet_free of a network that is not NULL *)
Definition net_free (h : heap) (nn : cnet) : res heap :=
  rbind (weights_free h (cn_layers nn)) (fun h =>
  rbind (h_free h (cn_arr nn)) (fun h => h_free h (cn_self nn))).

(** src/neuralnet.h:49-56 neuralnet_total_n_parameters *)
Fixpoint total_params (ls : list clayer) (count : Z) : res Z :=
  match ls with
  | [] => Ok count
  | l :: ls => rbind (to_int (cl_in l + 1)) (fun a => rbind (mul_int a (cl_out l)) (fun n =>
               total_params ls ((count + n) mod 4294967296)%Z))
  end.

Definition set_w (l : clayer) (p : fptr) : clayer := mk_clayer (cl_in l) (cl_out l) p (cl_b l) (cl_func l).
Definition set_b (l : clayer) (p : fptr) : clayer := mk_clayer (cl_in l) (cl_out l) (cl_w l) p (cl_func l).
Definition set_f (l : clayer) (f : fn) : clayer := mk_clayer (cl_in l) (cl_out l) (cl_w l) (cl_b l) (Some f).

Section Create.
  Variable mem : nat -> Z -> bool.
  Variable lib_opens : bytes -> bool.
  Variable dlsym : bytes -> bytes -> option (option nat).

  (** malloc and simd_malloc *)
  Definition malloc (h : heap) (size : Z) : heap * ptr :=
    if mem (length h) size then (h ++ [Some (BMem (repeat None (Z.to_nat size)))], Some (length h)) else (h, None).

  (** src/neuralnet.c:76-79 and 81-84; the flag is false if there was no memory *)
  Fixpoint alloc_weights (h : heap) (ls : list clayer) : res (heap * list clayer * bool) :=
    match ls with
    | [] => Ok (h, [], true)
    | l :: ls =>
        rbind (mul_int (cl_in l) (cl_out l)) (fun n =>
        match malloc h (to_size (n * 4)) with
        | (h, None) => Ok (h, set_w l FNull :: ls, false)
        | (h, Some a) => rbind (alloc_weights h ls) (fun r => match r with (h, ls, ok) => Ok (h, set_w l (FPtr a) :: ls, ok) end)
        end)
    end.
  Fixpoint alloc_biases (h : heap) (ls : list clayer) : res (heap * list clayer * bool) :=
    match ls with
    | [] => Ok (h, [], true)
    | l :: ls =>
        match malloc h (to_size (cl_out l * 4)) with
        | (h, None) => Ok (h, set_b l FNull :: ls, false)
        | (h, Some a) => rbind (alloc_biases h ls) (fun r => match r with (h, ls, ok) => Ok (h, set_b l (FPtr a) :: ls, ok) end)
        end
    end.
  (** src/neuralnet.c:67-93 _weights_memory_allocate *)
  Definition weights_allocate (h : heap) (ls : list clayer) : res (heap * list clayer * bool) :=
    if existsb (fun l => (cl_in l <? 1) || (cl_out l <? 1))%Z ls then Ok (h, ls, false) else
    rbind (alloc_weights h ls) (fun r => match r with
    | (h, ls, false) => rbind (weights_free h ls) (fun h => Ok (h, ls, false))
    | (h, ls, true) =>
        rbind (alloc_biases h ls) (fun r => match r with
        | (h, ls, false) => rbind (weights_free h ls) (fun h => Ok (h, ls, false))
        | (h, ls, true) => Ok (h, ls, true)
        end)
    end).

  (** src/neuralnet.c:631-639: sizes[0] to sizes[n] are at least 1 *)
  Fixpoint sizes_ok (n : nat) (sizes : list Z) : res bool :=
    match sizes with
    | [] => Fault OutOfBounds
    | s :: r => if (s <? 1)%Z then Ok false else match n with 0 => Ok true | S n => sizes_ok n r end
    end.
  (** src/neuralnet.c:657-660 *)
  Fixpoint init_layers (n : nat) (sizes : list Z) : list clayer :=
    match n, sizes with
    | S n, a :: ((b :: _) as r) => mk_clayer a b FUninit FUninit None :: init_layers n r
    | _, _ => []
    end.

  (** src/neuralnet.c:670-680; names is the array, or NULL *)
  Fixpoint set_funcs (st : records) (ls : list clayer) (names : option (list (option bytes))) (i : nat) : res (records * list clayer) :=
    match ls with
    | [] => Ok (st, [])
    | l :: ls =>
        rbind (match names with
               | None => Fault BadPointer
               | Some a => match nth_error a i with Some s => Ok s | None => Fault OutOfBounds end
               end) (fun s =>
        rbind (get_activation_func lib_opens dlsym st (match s with Some s => s | None => chars "linear" end)) (fun r =>
        rbind (match snd r with
               | Some f => Ok (fst r, f)
               | None => rbind (get_activation_func lib_opens dlsym (fst r) (chars "linear")) (fun r =>
                         match snd r with Some f => Ok (fst r, f) | None => Fault BadPointer end)
               end) (fun r =>
        rbind (set_funcs (fst r) ls names (S i)) (fun r' => Ok (fst r', set_f l (snd r) :: snd r')))))
    end.

  (** src/neuralnet.c:624-686 neuralnet_create; sizeof(neuralnet_t) is 24, sizeof(layer_t) 40 *)
  Definition create (h : heap) (st : records) (n_layers : Z) (sizes : list Z) (names : option (list (option bytes)))
    : res (heap * records * option cnet) :=
    if (n_layers <? 1)%Z then Ok (h, st, None) else
    let n := Z.to_nat n_layers in
    rbind (sizes_ok n sizes) (fun ok =>
    if negb ok then Ok (h, st, None) else
    match malloc h 24 with
    | (h, None) => Ok (h, st, None)                                               (* 643-646 *)
    | (h, Some self) =>
        match malloc h (to_size (n_layers * 40)) with
        | (h, None) => rbind (h_free h self) (fun h => Ok (h, st, None))          (* 651-655 *)
        | (h, Some arr) =>
            rbind (weights_allocate h (init_layers n sizes)) (fun r => match r with
            | (h, ls, false) => rbind (h_free h arr) (fun h => rbind (h_free h self) (fun h => Ok (h, st, None)))
            | (h, ls, true) => rbind (set_funcs st ls names 0) (fun r => Ok (h, fst r, Some (mk_cnet self arr (snd r) None)))
            end)
        end
    end).
End Create.
