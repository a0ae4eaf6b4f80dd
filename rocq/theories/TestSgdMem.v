(** TestSgdMem.v -- the memory of examples/test_sgd.c:100-184: what is allocated and what is freed at the end.
    As Example02Mem.v; the program does not check the list, runs ten epochs and frees the structure of the optimizer with free(). *)
From Coq Require Import ZArith Bool String Ascii List.
From Verif Require Import Base Logger Npy NpyList Registry Create NetFile Loss Names Evaluate OptCreate Trainer Example03 Example02Mem TestSgd.
Import ListNotations.
Local Open Scope nat_scope.

Section TestSgd.
  Variable mem : nat -> Z -> bool.
  Variable lib_opens : bytes -> bool.
  Variable dlsym : bytes -> bytes -> option (option nat).
  Variable alloc : Z -> bool.
  Variable utf8 : bytes -> bool.
  Variable floats : heap -> cnet -> heap.

  (** lines 102-183: the heap at the end and the optimizer *)
  Definition test_sgd_memory (h : heap) (st : records) (filelist : ptr) : res (heap * ropt) :=
    rbind (arrays_of_list h filelist) (fun X =>
    rbind (rbind (shape_at (fst X) 0) as_int) (fun n =>                                         (* 115 *)
    rbind (rbind (shape_at (snd X) 0) as_int) (fun _ =>                                         (* 116 *)
    rbind (rbind (shape_at (fst X) 1) as_int) (fun n_in =>
    rbind (create mem lib_opens dlsym h st 3 [n_in; 61; 28; 1]%Z
             (Some [Some (list_ascii_of_string "relu"); Some (list_ascii_of_string "relu"); Some (list_ascii_of_string "sigmoid")]))
      (fun r => let '(h, st, nn) := r in
    match nn with
    | None => Fault AssertFailed                                                                (* 128 *)
    | Some nn =>
        rbind (optimizer_new mem K_SGD h statics0 (cn_layers nn) (get_loss_func "binary_crossentropy") (mk_oconf 16 test_sgd_metrics))
          (fun r => let '(h, _, o) := r in
        match o with
        | None => Fault BadPointer                                                              (* 145 *)
        | Some o =>
            rbind (epochs_memory mem 10 h o 0 n) (fun r => let '(h, o, _) := r in               (* 168-176 *)
            rbind (net_save alloc utf8 (floats h nn) st nn) (fun r => let h := fst r in         (* 179 *)
            rbind (net_free h nn) (fun h =>                                                     (* 180 *)
            rbind (h_free h (ro_self o)) (fun h =>                                              (* 181 *)
            rbind (list_free (S (length h)) h filelist) (fun h => Ok (h, o))))))                (* 182 *)
        end)
    end))))).
End TestSgd.
