(** CbInit.v -- construction and destruction of the three callbacks: CALLBACK_DEFINE, callback_free (src/callback.h:51-54,
    68-81), the macros EARLYSTOPPING_SETTINGS, MODELCHECKPOINT_SETTINGS and LOGGER_SETTINGS with their default values
    (src/earlystopping.h, src/modelcheckpoint.h, src/logger.h) and the initializations in src/earlystopping.c:20-26,
    src/modelcheckpoint.c:24-30 and src/logger.c:28-34.

    Blocks are on the heap of NpyList.v, as in OptCreate.v.  The fields are kept in the records of Callbacks.v and Logger.v;
    the members verbose and no_stdout, which only switch printing, are kept beside them. *)
From Coq Require Import ZArith Bool String List.
From Verif Require Import Base Logger Npy NpyList Create Callbacks.
Import ListNotations.
Local Open Scope Z_scope.

(** src/earlystopping.h:12-17 (earlystopping_config) *)
Record es_conf := { ec_patience : Z; ec_monitor_idx : Z; ec_greater : bool }.
Inductive es_arg := ES_patience (x : Z) | ES_monitor_idx (x : Z) | ES_greater (x : bool).
Definition es_set (p : es_conf) (a : es_arg) : es_conf :=
  match a with
  | ES_patience x => {| ec_patience := x; ec_monitor_idx := ec_monitor_idx p; ec_greater := ec_greater p |}
  | ES_monitor_idx x => {| ec_patience := ec_patience p; ec_monitor_idx := x; ec_greater := ec_greater p |}
  | ES_greater x => {| ec_patience := ec_patience p; ec_monitor_idx := ec_monitor_idx p; ec_greater := x |}
  end.
(** src/earlystopping.h:21-22 *)
Definition es_settings (args : list es_arg) : es_conf :=
  fold_left es_set args {| ec_patience := 10; ec_monitor_idx := -1; ec_greater := false |}.

(** src/modelcheckpoint.h:11-17 (modelcheckpoint_config) *)
Record mcp_conf := { mc_filename : option string; mc_monitor_idx : Z; mc_greater : bool; mc_verbose : bool }.
Inductive mcp_arg := MC_filename (x : option string) | MC_monitor_idx (x : Z) | MC_greater (x : bool) | MC_verbose (x : bool).
Definition mcp_set (p : mcp_conf) (a : mcp_arg) : mcp_conf :=
  match a with
  | MC_filename x => {| mc_filename := x; mc_monitor_idx := mc_monitor_idx p; mc_greater := mc_greater p; mc_verbose := mc_verbose p |}
  | MC_monitor_idx x => {| mc_filename := mc_filename p; mc_monitor_idx := x; mc_greater := mc_greater p; mc_verbose := mc_verbose p |}
  | MC_greater x => {| mc_filename := mc_filename p; mc_monitor_idx := mc_monitor_idx p; mc_greater := x; mc_verbose := mc_verbose p |}
  | MC_verbose x => {| mc_filename := mc_filename p; mc_monitor_idx := mc_monitor_idx p; mc_greater := mc_greater p; mc_verbose := x |}
  end.
(** src/modelcheckpoint.h:21-22 *)
Definition mcp_settings (args : list mcp_arg) : mcp_conf :=
  fold_left mcp_set args {| mc_filename := None; mc_monitor_idx := -1; mc_greater := false; mc_verbose := false |}.

(** src/logger.h:11-16 (logger_config); the file name is the name of the one file of Logger.v *)
Record lg_conf := { lc_epoch : Z; lc_filename : bool; lc_no_stdout : bool }.
Inductive lg_arg := LG_epoch_count (x : Z) | LG_filename (x : bool) | LG_no_stdout (x : bool).
Definition lg_set (p : lg_conf) (a : lg_arg) : lg_conf :=
  match a with
  | LG_epoch_count x => {| lc_epoch := x; lc_filename := lc_filename p; lc_no_stdout := lc_no_stdout p |}
  | LG_filename x => {| lc_epoch := lc_epoch p; lc_filename := x; lc_no_stdout := lc_no_stdout p |}
  | LG_no_stdout x => {| lc_epoch := lc_epoch p; lc_filename := lc_filename p; lc_no_stdout := x |}
  end.
(** src/logger.h:20-21 *)
Definition lg_settings (args : list lg_arg) : lg_conf :=
  fold_left lg_set args {| lc_epoch := 0; lc_filename := false; lc_no_stdout := false |}.

Section New.
  Variable mem : nat -> Z -> bool.

  (** src/callback.h:68-81 with the initialization [init]; None: NULL.  The block is given with the fields. *)
  Definition callback_new {A} (size : Z) (init : res A) (h : heap) : res (heap * option (nat * A)) :=
    match malloc mem h size with
    | (h, None) => Ok (h, None)
    | (h, Some a) => rbind init (fun fields => Ok (h, Some (a, fields)))
    end.

  (** src/earlystopping.c:9-26 *)
  Definition earlystopping_new (c : es_conf) : heap -> res (heap * option (nat * es_cb)) :=
    callback_new 32 (Ok (es_new (ec_patience c) (ec_monitor_idx c) (ec_greater c))).
  (** src/modelcheckpoint.c:13-30; with the member verbose *)
  Definition modelcheckpoint_new (c : mcp_conf) : heap -> res (heap * option (nat * (mcp_cb * bool))) :=
    callback_new 32 (Ok (mk_mcp (mc_filename c) (mc_monitor_idx c) (mc_greater c), mc_verbose c)).
  (** src/logger.c:14-34; file: the log file, if there is one; with the member no_stdout *)
  Definition log_new (c : lg_conf) (file : option bytes) (fopen_ok : bool) : heap -> res (heap * option (nat * (logger * bool))) :=
    callback_new 40 (rbind (logger_new (lc_epoch c) (lc_filename c) file fopen_ok) (fun l => Ok (l, lc_no_stdout c))).
End New.

(** src/callback.h:51-54: self->free is free (line 78); None is a NULL pointer *)
Definition callback_free (h : heap) (self : ptr) : res heap :=
  match self with None => Fault BadPointer | Some a => h_free h a end.
