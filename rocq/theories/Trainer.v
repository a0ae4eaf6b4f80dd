(** Trainer.v -- the program examples/general-trainer.c: command line, reading of the data and the network, creation of the
    optimizer and the callbacks, main loop.

    The library functions it calls are those of NpyList.v, NetFile.v, Names.v, OptCreate.v, OptInit.v, Callbacks.v, Logger.v and
    CbInit.v.  Parameters: the archives in the file system, strtof, the time, malloc, an epoch of training (optimizer_run_epoch, see
    Optimizer.v and Evaluate.v), neuralnet_save.
    Simplified: what is printed is not modelled (lines 121-132 print the indeterminate values of patience, early_stopping_idx and
    metric_idx if the options are not given, and NULL with %s); the derivatives that neuralnet_set_loss chooses are in Neuralnet.v; a number of
    samples that does not fit into an int counts as an error; that an epoch reads all samples is a test in front of it ([reads]).
    The library zip_open refuses NULL. *)
From Coq Require Import ZArith Bool String Ascii List.
From Flocq Require Import Core BinarySingleNaN.
From Verif Require Import Base Ops OpsB32 Mem Logger Npy NpyList Registry Create NetFile Loss Names Evaluate OptCreate OptInit Callbacks CbInit.
Import ListNotations.
Local Open Scope nat_scope.

(** ** the command line *)

(** examples/general-trainer.c:48-61: the long options with the characters they stand for; all have a required argument *)
Definition long_options : list (bytes * ascii) :=
  [ (chars "trainset", "t"); (chars "verificationset", "v"); (chars "neuralnet", "n"); (chars "loss", "l"); (chars "metrics", "m");
    (chars "optimizer", "o"); (chars "learning-rate", "a"); (chars "batch-size", "b"); (chars "log", "q");
    (chars "early-stopping", "e"); (chars "model-checkpoint", "s") ]%char.
(** examples/general-trainer.c:63 *)
Definition short_options : bytes := chars "t:v:n:l:o:a:b:q:e:s:".

(** getopt_long of glibc, with these tables.  What it returns, call by call, with optarg; 'Ques' is '?', after which the
    program ends.  Options may be abbreviated, arguments that are no options are skipped, "--" ends the options.
    (POSIXLY_CORRECT is not set.) *)
Inductive event := Opt (c : ascii) (arg : bytes) | Ques.
Definition same (a b : bytes) : bool := if list_eq_dec ascii_dec a b then true else false.
Fixpoint split_eq (s : bytes) : bytes * option bytes :=
  match s with
  | [] => ([], None)
  | c :: r => if Ascii.eqb c "=" then ([], Some r) else let (a, b) := split_eq r in (c :: a, b)
  end.
Definition find_long (name : bytes) : option ascii :=
  match find (fun p => same (fst p) name) long_options with
  | Some p => Some (snd p)
  | None => match filter (fun p => is_prefix name (fst p)) long_options with [p] => Some (snd p) | _ => None end
  end.
Fixpoint takes_arg (s : bytes) (c : ascii) : bool :=
  match s with
  | [] => false
  | x :: r => if Ascii.eqb x c then (match r with y :: _ => Ascii.eqb y ":" | [] => false end) else takes_arg r c
  end.
Definition find_short (c : ascii) : bool := negb (Ascii.eqb c ":") && negb (Ascii.eqb c ";") && takes_arg short_options c.
Fixpoint getopt (argv : list bytes) : list event :=
  match argv with
  | [] => []
  | a :: rest =>
      let with_arg c v := match v with
        | Some v => Opt c v :: getopt rest
        | None => match rest with v :: rest => Opt c v :: getopt rest | [] => [Ques] end
        end in
      match a with
      | d :: x :: s =>
          if negb (Ascii.eqb d "-") then getopt rest
          else if Ascii.eqb x "-" then
            match s with
            | [] => []
            | _ => let (name, v) := split_eq s in
                   match find_long name with Some c => with_arg c v | None => [Ques] end
            end
          else if find_short x then with_arg x (match s with [] => None | _ => Some s end)
          else [Ques]
      | _ => getopt rest
      end
  end.

(** sscanf %d: the number and what follows; None: no number *)
Definition scan_int (s : bytes) : option (res Z * bytes) :=
  let num sign r := match take_digits r with
    | [] => None
    | d => Some (to_int (sign * parse 0 d), skipn (length d) r)
    end in
  match skip_space s with
  | c :: r => if Ascii.eqb c "-" then num (-1)%Z r else if Ascii.eqb c "+" then num 1%Z r else num 1%Z (c :: r)
  | [] => None
  end.
(** a literal comma of the format *)
Definition comma (s : bytes) : option bytes :=
  match s with c :: r => if Ascii.eqb c "," then Some r else None | [] => None end.
(** line 99: sscanf( s, "%d,%d,%d", ... ): the numbers that are stored *)
Definition scan3 (s : bytes) : res (list Z) :=
  match scan_int s with
  | None => Ok []
  | Some (a, s) => rbind a (fun a =>
      match comma s with None => Ok [a] | Some s =>
      match scan_int s with
      | None => Ok [a]
      | Some (b, s) => rbind b (fun b =>
          match comma s with None => Ok [a; b] | Some s =>
          match scan_int s with None => Ok [a; b] | Some (c, _) => rbind c (fun c => Ok [a; b; c]) end end)
      end end)
  end.

(** examples/general-trainer.c:28-45: the variables; None: NULL, or no value *)
Record topts := mk_topts {
  to_train : option bytes; to_verif : option bytes; to_net : option bytes; to_loss : option bytes; to_metrics : option bytes;
  to_optimizer : bytes; to_lr : b32; to_batch : Z; to_log : option bytes;
  to_patience : option Z; to_es_idx : option Z; to_greater : Z }.
(** the pointers to the variables as arguments of sscanf in line 99 *)
Definition store3 (o : topts) (v : list Z) : topts :=
  match o with mk_topts tr ve ne lo me op lr ba lg pa ei gr =>
    match v with
    | [] => o
    | [a] => mk_topts tr ve ne lo me op lr ba lg (Some a) ei gr
    | [a; b] => mk_topts tr ve ne lo me op lr ba lg (Some a) (Some b) gr
    | a :: b :: c :: _ => mk_topts tr ve ne lo me op lr ba lg (Some a) (Some b) c
    end
  end.

Section Program.
  Variable lm : libm.
  Notation OP := (opsB32 lm).
  Variable strtof : bytes -> b32.

  (** examples/general-trainer.c:28-45; float learning_rate = 0.001f *)
  Definition topts0 : topts :=
    mk_topts None None None None None (chars "adamw") (@flit OP 1 1000) 32 None None None 1.

  (** lines 67-117: one option; inr: exit *)
  Definition set_opt (o : topts) (e : event) : res (topts + Z) :=
    match o with mk_topts tr ve ne lo me op lr ba lg pa ei gr =>
    match e with
    | Ques => Ok (inr 1%Z)                                                                          (* 114-116 *)
    | Opt c a =>
        if Ascii.eqb c "t" then Ok (inl (mk_topts (Some a) ve ne lo me op lr ba lg pa ei gr))
        else if Ascii.eqb c "v" then Ok (inl (mk_topts tr (Some a) ne lo me op lr ba lg pa ei gr))
        else if Ascii.eqb c "n" then Ok (inl (mk_topts tr ve (Some a) lo me op lr ba lg pa ei gr))
        else if Ascii.eqb c "l" then Ok (inl (mk_topts tr ve ne (Some a) me op lr ba lg pa ei gr))
        else if Ascii.eqb c "m" then Ok (inl (mk_topts tr ve ne lo (Some a) op lr ba lg pa ei gr))
        else if Ascii.eqb c "o" then Ok (inl (mk_topts tr ve ne lo me a lr ba lg pa ei gr))
        else if Ascii.eqb c "a" then Ok (inl (mk_topts tr ve ne lo me op (strtof a) ba lg pa ei gr))
        else if Ascii.eqb c "b" then rbind (atoi a) (fun n => Ok (inl (mk_topts tr ve ne lo me op lr n lg pa ei gr)))
        else if Ascii.eqb c "q" then Ok (inl (mk_topts tr ve ne lo me op lr ba (Some a) pa ei gr))
        else if Ascii.eqb c "e" then rbind (scan3 a) (fun v => Ok (inl (store3 o v)))               (* 98-100 *)
        else if Ascii.eqb c "s" then                                                                (* 101-103 *)
          (* %s stores at model_checkpoint, which is NULL, unless there are only spaces *)
          match skip_space a with [] => Ok (inl o) | _ => Fault BadPointer end
        else if Ascii.eqb c "g" then Ok (inr 0%Z)                                                   (* 104-113 *)
        else Ok (inl o)
    end end.
  Fixpoint set_opts (o : topts) (es : list event) : res (topts + Z) :=
    match es with
    | [] => Ok (inl o)
    | e :: es => rbind (set_opt o e) (fun r => match r with inl o => set_opts o es | inr z => Ok (inr z) end)
    end.

  (** ** data and network *)
  Variable archive : bytes -> option (list member).
  Variable alloc : Z -> bool.
  Variable mem : nat -> Z -> bool.
  Variable lib_opens : bytes -> bool.
  Variable dlsym : bytes -> bytes -> option (option nat).

  (** npy_array_list_load( name ) *)
  Definition load_file (h : heap) (name : option bytes) : res (heap * ptr) :=
    match name with
    | None => Ok (h, None)
    | Some f => match archive f with None => Ok (h, None) | Some ar => list_load alloc h ar end
    end.
  (** iter->array; iter = iter->next *)
  Definition next_array (h : heap) (p : ptr) : res (npy * ptr) :=
    match p with
    | None => Fault BadPointer
    | Some n => rbind (get_node h n) (fun nd => match nd with (arr, _, next) =>
        match arr with None => Fault BadPointer | Some a => rbind (get_arr h a) (fun md => Ok (fst md, next)) end end)
    end.
  Definition check (b : bool) : res unit := if b then Ok tt else Fault AssertFailed.
  (** lines 135-145, and 148-158 for the second file: the list and its first two arrays *)
  Definition load_pair (h : heap) (name : option bytes) : res (heap * ptr * npy * npy) :=
    rbind (load_file h name) (fun r => let (h, p) := r in
    rbind (check (match p with Some _ => true | None => false end)) (fun _ =>
    rbind (next_array h p) (fun a => rbind (next_array h (snd a)) (fun b =>
    let X := fst a in let Y := fst b in
    rbind (check (negb (np_fortran X))) (fun _ =>
    rbind (check (negb (np_fortran Y))) (fun _ =>
    rbind (shape_at X 0) (fun nx => rbind (shape_at Y 0) (fun ny =>
    rbind (check (nx =? ny)%Z) (fun _ => Ok (h, p, X, Y)))))))))).

  (** ** optimizer *)
  Inductive settings := S_SGD (p : @sgd_props OP) | S_RMS (p : @rms_props OP) | S_Adagrad (p : @ag_props OP) | S_Adam (p : @ad_props OP).
  Definition kind_of (s : settings) : okind :=
    match s with S_SGD _ => K_SGD | S_RMS _ => K_RMSprop | S_Adagrad _ => K_Adagrad | S_Adam _ => K_Adam end.
  (** lines 184-253: the five names; None: none of them, the pointer stays NULL *)
  Definition choose (name : bytes) (lr : b32) : option settings :=
    if same name (chars "SGD") then Some (S_SGD (@sgd_properties OP [@SA_lr OP lr]))
    else if same name (chars "RMSprop") then Some (S_RMS (@rms_properties OP [@RA_lr OP lr]))
    else if same name (chars "adagrad") then Some (S_Adagrad (@ag_properties OP [@GA_lr OP lr]))
    else if same name (chars "adam") then Some (S_Adam (@ad_properties OP [@DA_lr OP lr; @DA_wd OP (@f0 OP)]))
    else if same name (chars "adamw") then Some (S_Adam (@ad_properties OP [@DA_lr OP lr]))
    else None.

  (** get_loss_func and get_metric_func, called with a string or with NULL *)
  Definition lookup {A} (f : string -> option A) (name : option bytes) : res (option A) :=
    match name with None => Fault BadPointer | Some s => Ok (f (string_of_list_ascii s)) end.

  (** ** the main loop *)
  Context {Net FS : Type}.
  Variable save : Net -> string -> FS -> FS.
  Variable fmt_e : b32 -> bytes.
  Variable time : nat -> nat * nat * nat.        (* the time of day after epoch i *)
  Variable log_opens : nat -> bool.              (* fopen of the log file after epoch i *)
  (** the callbacks (NULL: None), their static variables and files *)
  Record cbs := mk_cbs {
    cb_mcp : option mcp_cb; cb_best : b32; cb_fs : FS;
    cb_log : option logger; cb_file : option bytes;
    cb_es : option es_cb; cb_est : es_static }.
  (** lines 283-287, callback_run with validation_set_given = true *)
  Definition run_callbacks (i : nat) (nn : Net) (metrics : list metric) (results : list b32) (t : cbs) : res cbs :=
    let n := length metrics in
    rbind (match cb_mcp t with
           | None => Ok (cb_best t, cb_fs t)
           | Some cb => mcp_run save cb (cb_best t) (cb_fs t) nn n results true
           end) (fun b =>
    rbind (match cb_log t with
           | None => Ok (None, cb_file t)
           | Some l => let '(hh, mm, ss) := time i in
               rbind (@logger_run OP fmt_e l metrics hh mm ss results true (cb_file t) (log_opens i)) (fun r => Ok (Some (fst r), snd r))
           end) (fun l =>
    rbind (match cb_es t with
           | None => Ok (None, cb_est t)
           | Some es => rbind (es_run es (cb_est t) n results true) (fun r => Ok (Some (fst r), snd r))
           end) (fun e =>
    Ok (mk_cbs (cb_mcp t) (fst b) (snd b) (fst l) (snd l) (fst e) (snd e))))).
  (** lines 278-290: k more epochs at most; the network, the callbacks and the number of the epochs that were run.  valid: there are
      validation samples, otherwise the callbacks read results that were not written.  epoch is
      optimizer_run_epoch: the network (with the state of the optimizer) behind it, the results of the training set and of
      the validation set *)
  Fixpoint main_loop (epoch : Net -> res (Net * list b32 * list b32)) (valid : bool) (k i : nat) (nn : Net) (metrics : list metric) (t : cbs) : res (Net * cbs * nat) :=
    match k with
    | 0 => Ok (nn, t, i)
    | S k =>
        rbind (epoch nn) (fun r => let '(nn, train, val) := r in
        if negb valid then Fault Uninit else
        rbind (run_callbacks i nn metrics (train ++ val) t) (fun t =>
        if es_do_stop (cb_es t) then Ok (nn, t, S i) else main_loop epoch valid k (S i) nn metrics t))
    end.
  (** line 40; no option changes it *)
  Definition n_epochs : nat := 10.

  (** lines 270-275: the callbacks are made with the default settings, except for the name of the log file.  file, log_ok: the log
      file and whether it can be opened now; best and est: the static variables *)
  Definition make_callbacks (h : heap) (o : topts) (fs : FS) (file : option bytes) (log_ok : bool) : res (heap * cbs) :=
    rbind (modelcheckpoint_new mem (mcp_settings []) h) (fun m =>
    rbind (log_new mem (lg_settings [LG_filename (match to_log o with Some _ => true | None => false end)]) file log_ok (fst m)) (fun l =>
    rbind (earlystopping_new mem (es_settings []) (fst l)) (fun e =>
    Ok (fst e, mk_cbs (option_map (fun x => fst (snd x)) (snd m)) flt_max fs
                      (option_map (fun x => fst (snd x)) (snd l)) file
                      (option_map snd (snd e)) es_start)))).

  (** an array of n rows with k floats is read *)
  Definition reads (m : npy) (n k : Z) : res unit :=
    if (n * k * 4 <=? Z.of_nat (length (np_data m)))%Z then Ok tt else Fault OutOfBounds.
  (** the number of samples for optimizer_run_epoch; without samples, shuffling divides by 0 *)
  Definition count (z : Z) : res Z :=
    let n := NetFile.int_of_size z in if (n <? 0)%Z then Fault IntOverflow else Ok n.

  (** what the program has found out before the loop *)
  Record job := mk_job {
    jb_X : npy; jb_Y : npy; jb_vX : npy; jb_vY : npy; jb_net : cnet; jb_metrics : list metric; jb_opt : ropt; jb_settings : settings;
    jb_n : Z; jb_nv : Z; jb_lists : ptr * ptr }.
  (** lines 134-264 *)
  Definition prepare (h : heap) (st : records) (o : topts) : res (heap * records * job) :=
    rbind (load_pair h (to_train o)) (fun r => let '(h, p, X, Y) := r in
    rbind (load_pair h (to_verif o)) (fun r => let '(h, q, vX, vY) := r in
    rbind (shape_at X 0) (fun n => rbind (shape_at vX 0) (fun nv =>
    rbind (shape_at X 1) (fun x1 => rbind (shape_at Y 1) (fun y1 =>
    rbind (shape_at vX 1) (fun vx1 => rbind (shape_at vY 1) (fun vy1 =>
    rbind (check (x1 =? vx1)%Z) (fun _ => rbind (check (y1 =? vy1)%Z) (fun _ =>
    rbind (match to_net o with                                                                       (* 168 *)
           | None => Ok (h, st, None)
           | Some f => match archive f with None => Ok (h, st, None) | Some ar => net_load alloc mem lib_opens dlsym h st ar end
           end) (fun r => let '(h, st, nn) := r in
    match nn with
    | None => Fault AssertFailed                                                                     (* 169 *)
    | Some nn =>
        rbind (lookup get_loss_func (to_loss o)) (fun lf =>                                          (* 170 *)
        match cn_layers nn with
        | [] => Fault OutOfBounds
        | l :: _ =>
            rbind (check (cl_in l =? NetFile.int_of_size x1)%Z) (fun _ =>                            (* 172 *)
            rbind (check (cl_out (last (cn_layers nn) l) =? NetFile.int_of_size y1)%Z) (fun _ =>     (* 173 *)
            rbind (lookup get_metric_func (to_metrics o)) (fun m2 =>                                 (* 177 *)
            let ms := [get_metric_func (match lf with Some lf => get_loss_name lf | None => "(unknown)"%string end); m2; None] in
            match choose (to_optimizer o) (to_lr o) with
            | None => Fault BadPointer                                                               (* 256: optim is NULL *)
            | Some s =>
                rbind (optimizer_new mem (kind_of s) h statics0 (cn_layers nn) lf (mk_oconf (to_batch o) (Some ms))) (fun r =>
                match r with (h, _, opt) =>
                match opt with
                | None => Fault BadPointer
                | Some opt =>
                    rbind (metric_list ms) (fun metrics =>
                    rbind (count n) (fun n => rbind (count nv) (fun nv =>
                    Ok (h, st, mk_job X Y vX vY nn metrics opt s n nv (p, q)))))
                end end)
            end)))
        end)
    end))))))))))).

  (** the first call of optimizer_run_epoch needs samples and reads all of them *)
  Definition data_ok (j : job) : res unit :=
    if (jb_n j =? 0)%Z then Fault DivByZero else
    match cn_layers (jb_net j) with
    | [] => Fault OutOfBounds
    | l :: _ =>
        let k := cl_in l in let k' := cl_out (last (cn_layers (jb_net j)) l) in
        rbind (reads (jb_X j) (jb_n j) k) (fun _ => rbind (reads (jb_Y j) (jb_n j) k') (fun _ =>
        rbind (reads (jb_vX j) (jb_nv j) k) (fun _ => reads (jb_vY j) (jb_nv j) k')))
    end.

  (** lines 292-296 *)
  Definition clean_up (h : heap) (j : job) : res heap :=
    rbind (net_free h (jb_net j)) (fun h =>
    rbind (h_free h (ro_self (jb_opt j))) (fun h =>
    rbind (list_free (S (length h)) h (fst (jb_lists j))) (fun h => list_free (S (length h)) h (snd (jb_lists j))))).

  (** what the program did: it ended with exit, or the loop was run *)
  Inductive outcome := Exit (code : Z) | Done (h : heap) (nn : Net) (t : cbs) (epochs : nat).
  (** the main program; nn0 makes the network and the optimizer, as the epochs see them *)
  Definition trainer (h : heap) (st : records) (fs : FS) (file : option bytes) (log_ok : bool) (nn0 : job -> Net)
      (epoch : job -> Net -> res (Net * list b32 * list b32)) (argv : list bytes) : res outcome :=
    rbind (set_opts topts0 (getopt argv)) (fun r =>
    match r with
    | inr z => Ok (Exit z)
    | inl o =>
        rbind (prepare h st o) (fun r => let '(h, st, j) := r in
        rbind (make_callbacks h o fs file log_ok) (fun r => let (h, t) := r in
        rbind (data_ok j) (fun _ =>
        rbind (main_loop (epoch j) (0 <? jb_nv j)%Z n_epochs 0 (nn0 j) (jb_metrics j) t) (fun r => let '(nn, t, n) := r in
        rbind (clean_up h j) (fun h => Ok (Done h nn t n))))))
    end).
End Program.
Arguments jb_X {lm}. Arguments jb_Y {lm}. Arguments jb_vX {lm}. Arguments jb_vY {lm}. Arguments jb_net {lm}. Arguments jb_metrics {lm}.
Arguments jb_opt {lm}. Arguments jb_settings {lm}. Arguments jb_n {lm}. Arguments jb_nv {lm}. Arguments jb_lists {lm}.
Arguments data_ok {lm}. Arguments clean_up {lm}.
