(** Example02Mem.v -- the memory of examples/example_02.c:14-89 main and examples/example_02b.c:44-84 main: what is allocated and what is freed
    at the end.
    The blocks are on the heap of NpyList.v; constructors and destructors are those of NpyList.v, Create.v and OptCreate.v, the memory of an
    epoch is in Example03.v.

    Parameters: malloc, libraries, the list that npy_array_list_load returned (line 17, see NpyList.v), and the floats that neuralnet_initialize and the
    epoch write into the blocks of the network ([floats], applied in front of neuralnet_save, which reads them).
    Simplified: sizes that do not fit into an int count as an error. *)
From Coq Require Import ZArith Bool String Ascii List.
From Verif Require Import Base Logger Npy NpyList Registry Create NetFile Loss Names Evaluate OptCreate Trainer Example03.
Import ListNotations.
Local Open Scope nat_scope.

Section Example02.
  Variable mem : nat -> Z -> bool.
  Variable lib_opens : bytes -> bool.
  Variable dlsym : bytes -> bytes -> option (option nat).
  Variable alloc : Z -> bool.
  Variable utf8 : bytes -> bool.
  Variable floats : heap -> cnet -> heap.

  (** lines 44 and 35: a size_t as an int *)
  Definition as_int (z : Z) : res Z := if (z <? 2147483648)%Z then Ok z else Fault IntOverflow.

  (** lines 20-31: the four arrays; the first and the third are the features *)
  Definition arrays_of_list (h : heap) (filelist : ptr) : res (npy * npy) :=
    rbind (next_array h filelist) (fun a => rbind (next_array h (snd a)) (fun b =>
    rbind (next_array h (snd b)) (fun c => rbind (next_array h (snd c)) (fun d =>
    rbind (check (negb (np_fortran (fst a)))) (fun _ => rbind (check (negb (np_fortran (fst b)))) (fun _ =>
    rbind (check (negb (np_fortran (fst c)))) (fun _ => rbind (check (negb (np_fortran (fst d)))) (fun _ =>
    Ok (fst a, fst c))))))))).
  (** lines 18-31 *)
  Definition four_arrays (h : heap) (filelist : ptr) : res (npy * npy) :=
    rbind (check (match filelist with Some _ => true | None => false end)) (fun _ => arrays_of_list h filelist).

  (** lines 18-88: the heap at the end and the optimizer, which is not freed *)
  Definition main_02 (h : heap) (st : records) (filelist : ptr) : res (heap * ropt) :=
    rbind (four_arrays h filelist) (fun X =>
    rbind (rbind (shape_at (fst X) 1) as_int) (fun n_in =>
    rbind (create mem lib_opens dlsym h st 3 [n_in; 64; 32; 1]%Z
             (Some [Some (list_ascii_of_string "relu"); Some (list_ascii_of_string "relu"); Some (list_ascii_of_string "sigmoid")]))
      (fun r => let '(h, st, nn) := r in
    match nn with
    | None => Fault AssertFailed                                                                (* 37 *)
    | Some nn =>
        let lf := get_loss_func "binary_crossentropy" in                                        (* 40 *)
        let ms := [get_metric_func (match lf with Some l => get_loss_name l | None => "(unknown)"%string end);
                   get_metric_func "mean_absolute_error"; get_metric_func "binary_accuracy"; None] in
        rbind (rbind (shape_at (fst X) 0) as_int) (fun n =>                                     (* 44 *)
        rbind (rbind (shape_at (snd X) 0) as_int) (fun _ =>                                     (* 45 *)
        rbind (optimizer_new mem K_SGD h statics0 (cn_layers nn) lf (mk_oconf 1 (Some ms))) (fun r => let '(h, _, o) := r in
        match o with
        | None => Fault BadPointer                                                              (* 65 *)
        | Some o =>
            rbind (epochs_memory mem 1 h o 0 n) (fun r => let '(h, o, _) := r in                (* 68 *)
            rbind (net_save alloc utf8 (floats h nn) st nn) (fun r => let h := fst r in         (* 83 *)
            rbind (net_free h nn) (fun h =>                                                     (* 86 *)
            rbind (list_free (S (length h)) h filelist) (fun h => Ok (h, o)))))                 (* 87 *)
        end)))
    end))).
End Example02.

(** examples/example_02b.c:46-84, from the list that line 46 returned on (lines 47-60 are the same as in example_02.c): the heap at the end.  [archive] is the
    content of mushroom-neuralnet.npz; local_evaluate takes no memory from the heap (Example02.v) *)
Definition main_02b_memory (alloc : Z -> bool) (mem : nat -> Z -> bool) (lib_opens : bytes -> bool) (dlsym : bytes -> bytes -> option (option nat))
  (h : heap) (st : records) (filelist : ptr) (archive : list member) : res heap :=
  rbind (four_arrays h filelist) (fun X =>
  rbind (net_load alloc mem lib_opens dlsym h st archive) (fun r => let '(h, _, nn) := r in    (* 63 *)
  match nn with
  | None => Fault AssertFailed                                                                  (* 64 *)
  | Some nn =>
      rbind (rbind (shape_at (fst X) 0) as_int) (fun _ =>                                       (* 66 *)
      rbind (rbind (shape_at (snd X) 0) as_int) (fun _ =>                                       (* 67 *)
      rbind (net_free h nn) (fun h => list_free (S (length h)) h filelist)))                    (* 81-82 *)
  end)).
