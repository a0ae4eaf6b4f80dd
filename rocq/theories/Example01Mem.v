(** Example01Mem.v -- the memory of examples/example_01.c:13-82 main: what is allocated and what is freed at the end.
    As Example02Mem.v: [floats] stands for what lines 35-56 write into the blocks of the network.  The
    gradient and the outputs are on the stack; what is computed is Example01.v.  Simplified: numbers that do not fit into an int count as an error. *)
From Coq Require Import ZArith Bool String Ascii List.
From Verif Require Import Base Logger Npy NpyList Registry Create NetFile OptCreate Trainer Example02Mem.
Import ListNotations.
Local Open Scope nat_scope.

Section Example01.
  Variable mem : nat -> Z -> bool.
  Variable lib_opens : bytes -> bool.
  Variable dlsym : bytes -> bytes -> option (option nat).
  Variable floats : heap -> cnet -> heap.

  (** lines 14-82; lines 14-27 are the same as lines 18-31 of example_02.c *)
  Definition main_01_memory (h : heap) (st : records) (filelist : ptr) : res heap :=
    rbind (four_arrays h filelist) (fun X =>
    rbind (rbind (shape_at (fst X) 1) as_int) (fun n_in =>
    rbind (create mem lib_opens dlsym h st 3 [n_in; 64; 32; 1]%Z
             (Some [Some (list_ascii_of_string "relu"); Some (list_ascii_of_string "relu"); Some (list_ascii_of_string "sigmoid")]))
      (fun r => let '(h, _, nn) := r in
    match nn with
    | None => Fault AssertFailed                                                                (* 33 *)
    | Some nn =>
        rbind (rbind (shape_at (fst X) 0) as_int) (fun _ =>                                     (* 40 *)
        rbind (rbind (total_params (cn_layers nn) 0) as_int) (fun _ =>                          (* 42 *)
        rbind (rbind (shape_at (snd X) 0) as_int) (fun _ =>                                     (* 61 *)
        rbind (net_free (floats h nn) nn) (fun h =>                                             (* 80 *)
        list_free (S (length h)) h filelist))))                                                 (* 81 *)
    end))).
  (** line 13 as well, with an archive that can be opened and the malloc of NpyList.v *)
  Definition main_01_whole (alloc : Z -> bool) (h : heap) (st : records) (archive : list member) : res heap :=
    rbind (list_load alloc h archive) (fun r => main_01_memory (fst r) st (snd r)).
End Example01.
