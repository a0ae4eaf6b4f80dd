(** Example03.v -- the memory of examples/example_03.c:143-229 main: what is allocated, in which order, and what is freed at the end.
    The blocks are on the heap of NpyList.v; constructors and destructors are those of Create.v, OptCreate.v and CbInit.v.

    Parameters: malloc, libraries, the log file of the logger, the numbers of floats in the four arrays of the readers (None: a
    reader returns NULL).  Not modelled here: what the readers compute (Idx.v; their raw data are freed before they return, lines 85
    and 138), neuralnet_initialize (Init.v), the computations of an epoch (OptEpochs.v: its other arrays are on the stack) and of
    the logger (Logger.v), which leave the heap as it is.  Simplified: realloc takes a new block and frees the old one. *)
From Coq Require Import ZArith Bool String Ascii List.
From Verif Require Import Base Logger Npy NpyList Registry Create Loss Names Evaluate OptCreate CbInit.
Import ListNotations.
Local Open Scope nat_scope.

Section Example03.
  Variable mem : nat -> Z -> bool.
  Variable lib_opens : bytes -> bool.
  Variable dlsym : bytes -> bytes -> option (option nat).

  (** lines 78 and 131: the array that a reader returns *)
  Definition data_array (h : heap) (floats : option Z) : heap * ptr :=
    match floats with None => (h, None) | Some n => malloc mem h (n * 4) end.

  (** src/optimizer.c:16-32 prepare_shuffle_pivot, the memory; [old] is the static variable _n_sample *)
  Definition prepare_pivot (h : heap) (o : ropt) (old n : Z) : res (heap * ropt * Z) :=
    let with_pivot p := mk_ropt (ro_kind o) (ro_self o) (ro_arrays o) (ro_loss o) (ro_batchsize o) (ro_metrics o) p in
    if (n =? old)%Z then Ok (h, o, old) else
    match malloc mem h (n * 4) with
    | (h, None) => Ok (h, with_pivot None, n)
    | (h, Some a) =>
        rbind (match ro_pivot o with Some q => h_free h q | None => Ok h end) (fun h => Ok (h, with_pivot (Some a), n))
    end.
  (** lines 205-210: the epochs; they read the pivot array *)
  Fixpoint epochs_memory (k : nat) (h : heap) (o : ropt) (old n : Z) : res (heap * ropt * Z) :=
    match k with
    | 0 => Ok (h, o, old)
    | S k => rbind (prepare_pivot h o old n) (fun r => let '(h, o, old) := r in
             match ro_pivot o with None => Fault BadPointer | Some p => rbind (h_get h p) (fun _ => epochs_memory k h o old n) end)
    end.

  (** lines 219-228 *)
  Definition clean_up_03 (h : heap) (nn : cnet) (o : ropt) (cb : ptr) (data : list nat) : res heap :=
    rbind (net_free h nn) (fun h =>
    rbind (optimizer_free h o) (fun h =>
    rbind (match cb with Some a => callback_free h (Some a) | None => Ok h end) (fun h =>
    free_all h data))).

  (** lines 143-229; the flag is false if the program ends in line 157.  [st]: the records of the registry, [n_in] and [n]: the numbers of
      features and of training samples *)
  Definition main_03 (h : heap) (st : records) (X Y vX vY : option Z) (n_in n : Z) (file : option bytes) (log_ok : bool) : res (heap * bool) :=
    let (h, p1) := data_array h X in
    let (h, p2) := data_array h Y in
    let (h, p3) := data_array h vX in
    let (h, p4) := data_array h vY in
    match p1, p2, p3, p4 with
    | Some p1, Some p2, Some p3, Some p4 =>
        rbind (create mem lib_opens dlsym h st 3 [n_in; 256; 128; 10]%Z
                 (Some [Some (list_ascii_of_string "relu"); Some (list_ascii_of_string "relu"); Some (list_ascii_of_string "softmax")]))
          (fun r => let '(h, st, nn) := r in
        match nn with
        | None => Fault AssertFailed                                                            (* 164 *)
        | Some nn =>
            let lf := get_loss_func "categorical_crossentropy" in                               (* 167 *)
            let ms := [get_metric_func (match lf with Some l => get_loss_name l | None => "(unknown)"%string end);
                       get_metric_func "categorical_accuracy"; None] in                         (* 189-190 *)
            rbind (optimizer_new mem K_Adam h statics0 (cn_layers nn) lf (mk_oconf 16 (Some ms))) (fun r => let '(h, _, o) := r in
            rbind (log_new mem (lg_settings []) file log_ok h) (fun r => let (h, cb) := r in    (* 198 *)
            match o with
            | None => Fault BadPointer                                                          (* 203 *)
            | Some o =>
                rbind (epochs_memory 2 h o 0 n) (fun r => let '(h, o, _) := r in
                rbind (clean_up_03 h nn o (option_map fst cb) [p1; p2; p3; p4]) (fun h => Ok (h, true)))
            end))
        end)
    | _, _, _, _ => Ok (h, false)
    end.
End Example03.
