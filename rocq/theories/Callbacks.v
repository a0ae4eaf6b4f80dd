(** Callbacks.v -- the early stopping and the model checkpoint callback.

    earlystopping.c and modelcheckpoint.c keep "the best score so far" in function-static variables,
    that is, once per process and not once per callback.  The model has these variables in a record
    of their own (es_static, mcp_static) and passes it through every call; the fields of a callback
    object are in es_cb and mcp_cb.  Scores are IEEE binary32 (OpsB32.v), because the comparisons
    with NaN and with the sentinel FLT_MAX matter.
    Simplified: the progress text printed by modelcheckpoint with verbose set is not modelled;
    neuralnet_save is a parameter (the file system after saving a network under a name). *)
From Coq Require Import ZArith Bool List String.
From Flocq Require Import Core BinarySingleNaN.
From Verif Require Import Base Ops OpsB32.
Import ListNotations.
Local Open Scope Z_scope.

(** <float.h>: FLT_MAX = (2^24 - 1) * 2^104 *)
Definition flt_max : b32 := b32_of 16777215 104.
(** <limits.h>: INT_MAX *)
Definition int_max : Z := 2147483647.

(** epoch_results[idx], an array of exactly the listed length (earlystopping.c:44, modelcheckpoint.c:46) *)
Definition result_at (results : list b32) (idx : Z) : res b32 :=
  if idx <? 0 then Fault OutOfBounds
  else match nth_error results (Z.to_nat idx) with Some s => Ok s | None => Fault OutOfBounds end.

(** which index? (earlystopping.c:38-41, modelcheckpoint.c:40-43) *)
Definition monitored (monitor_idx : Z) (n_metrics : nat) (validation_set_given : bool) : Z :=
  if monitor_idx <? 0 then (if validation_set_given then Z.of_nat n_metrics else 0) else monitor_idx.

(** the two comparisons (earlystopping.c:45-55, modelcheckpoint.c:47-61): improvement? *)
Definition improved (greater_is_better : bool) (best score : b32) : bool :=
  if greater_is_better then Bltb best score || Beqb best flt_max else Bltb score best.

(** earlystopping.c:32-33: the static variables, and their values at program start *)
Record es_static := mk_es_static { es_best : b32; es_since : Z }.
Definition es_start : es_static := mk_es_static flt_max 0.

(** earlystopping.c:11-18: the callback object (without the function pointers) *)
Record es_cb := mk_es { es_patience : Z; es_monitor_idx : Z; es_greater : bool; es_flag : bool }.

(** earlystopping.c:20-26: earlystopping_callback_new *)
Definition es_new (patience monitor_idx : Z) (greater : bool) : es_cb :=
  mk_es patience monitor_idx greater false.

(** earlystopping.c:28-66: earlystopping_callback_run; signed overflow of the counter is undefined *)
Definition es_run (cb : es_cb) (st : es_static) (n_metrics : nat) (results : list b32) (validation : bool)
  : res (es_cb * es_static) :=
  rbind (result_at results (monitored (es_monitor_idx cb) n_metrics validation)) (fun score =>
  if improved (es_greater cb) (es_best st) score then Ok (cb, mk_es_static score 0)
  else if es_since st =? int_max then Fault IntOverflow
  else
    let since := es_since st + 1 in
    Ok (if es_patience cb <? since then mk_es (es_patience cb) (es_monitor_idx cb) (es_greater cb) true else cb,
        mk_es_static (es_best st) since)).

(** earlystopping.c:68-71: earlystopping_do_stop; None is a NULL pointer *)
Definition es_do_stop (es : option es_cb) : bool :=
  match es with Some cb => es_flag cb | None => false end.

(** one callback called once per epoch: the results and whether there was a validation set
    (the callbacks are called by the main program after optimizer_run_epoch, callback.h) *)
Fixpoint es_runs (cb : es_cb) (st : es_static) (n_metrics : nat) (epochs : list (list b32 * bool))
  : res (es_cb * es_static) :=
  match epochs with
  | [] => Ok (cb, st)
  | (r, v) :: rest => rbind (es_run cb st n_metrics r v) (fun p => es_runs (fst p) (snd p) n_metrics rest)
  end.

(** several callbacks in one process: the calls in program order, each with the number of the callback *)
Fixpoint es_calls (cbs : list es_cb) (st : es_static) (n_metrics : nat) (calls : list (nat * (list b32 * bool)))
  : res (list es_cb * es_static) :=
  match calls with
  | [] => Ok (cbs, st)
  | (k, (r, v)) :: rest =>
      match nth_error cbs k with
      | None => Fault BadPointer
      | Some cb => rbind (es_run cb st n_metrics r v) (fun p => es_calls (set_nth cbs k (fst p)) (snd p) n_metrics rest)
      end
  end.

(** ---- model checkpoint ---- *)

Section Checkpoint.
  (** the network as neuralnet_save sees it, and the file system; save nn name fs is the file system after
      neuralnet_save(nn, name) (modelcheckpoint.c:64; neuralnet_save itself is modelled elsewhere) *)
  Context {Net FS : Type}.
  Variable save : Net -> string -> FS -> FS.

  (** modelcheckpoint.c:13-21: the callback object *)
  Record mcp_cb := mk_mcp { mcp_filename : option string; mcp_monitor_idx : Z; mcp_greater : bool }.

  (** modelcheckpoint.c:32-66: modelcheckpoint_callback_run; best is the static variable of line 36
      (flt_max at program start) *)
  Definition mcp_run (cb : mcp_cb) (best : b32) (fs : FS) (nn : Net) (n_metrics : nat) (results : list b32)
      (validation : bool) : res (b32 * FS) :=
    rbind (result_at results (monitored (mcp_monitor_idx cb) n_metrics validation)) (fun score =>
    if improved (mcp_greater cb) best score
    then Ok (score, save nn (match mcp_filename cb with Some f => f | None => "checkpoint.npz"%string end) fs)
    else Ok (best, fs)).

  (** one callback called once per epoch, with the network as it is after that epoch *)
  Fixpoint mcp_runs (cb : mcp_cb) (best : b32) (fs : FS) (n_metrics : nat)
      (epochs : list (Net * (list b32 * bool))) : res (b32 * FS) :=
    match epochs with
    | [] => Ok (best, fs)
    | (nn, (r, v)) :: rest => rbind (mcp_run cb best fs nn n_metrics r v)
                                   (fun p => mcp_runs cb (fst p) (snd p) n_metrics rest)
    end.

  (** several callbacks in one process: the calls in program order, each with the number of the callback *)
  Fixpoint mcp_calls (cbs : list mcp_cb) (best : b32) (fs : FS) (n_metrics : nat)
      (calls : list (nat * (Net * (list b32 * bool)))) : res (b32 * FS) :=
    match calls with
    | [] => Ok (best, fs)
    | (k, (nn, (r, v))) :: rest =>
        match nth_error cbs k with
        | None => Fault BadPointer
        | Some cb => rbind (mcp_run cb best fs nn n_metrics r v) (fun p => mcp_calls cbs (fst p) (snd p) n_metrics rest)
        end
    end.
End Checkpoint.
