(** Prop_CbInit.v -- C76: a new callback works with the settings that were given, and with the defaults for the others. *)
From Flocq Require Import Core BinarySingleNaN.
From Coq Require Import ZArith Bool String Ascii List Lia.
From Verif Require Import Base BaseProofs OpsB32 SpecCallback Callbacks Prop_Callbacks SpecLog Logger Npy NpyList SpecList Create
  SpecSettings CbInit Prop_Logger.
Import ListNotations.
Local Open Scope nat_scope.

(** ** Specification *)

(** the settings among the arguments of the macros *)
Definition es_patience_of args := given (fun a => match a with ES_patience x => Some x | _ => None end) args 10%Z.
Definition es_index_of args := given (fun a => match a with ES_monitor_idx x => Some x | _ => None end) args (-1)%Z.
Definition es_greater_of args := given (fun a => match a with ES_greater x => Some x | _ => None end) args false.
Definition mc_name_of args := given (fun a => match a with MC_filename x => Some x | _ => None end) args None.
Definition mc_index_of args := given (fun a => match a with MC_monitor_idx x => Some x | _ => None end) args (-1)%Z.
Definition mc_greater_of args := given (fun a => match a with MC_greater x => Some x | _ => None end) args false.
Definition mc_verbose_of args := given (fun a => match a with MC_verbose x => Some x | _ => None end) args false.
Definition lg_epoch_of args := given (fun a => match a with LG_epoch_count x => Some x | _ => None end) args 0%Z.
Definition lg_file_of args := given (fun a => match a with LG_filename x => Some x | _ => None end) args false.
Definition lg_quiet_of args := given (fun a => match a with LG_no_stdout x => Some x | _ => None end) args false.

(** one more block, a, of the given size, and nothing else changed *)
Definition one_block (size : nat) (h h' : heap) (a : nat) : Prop :=
  nth_error h a = None /\ (exists b, nth_error h' a = Some (Some (BMem b)) /\ length b = size)
  /\ forall x, x <> a -> nth_error h' x = nth_error h x.
(** block a is released, and nothing else changed *)
Definition released (h h' : heap) (a : nat) : Prop :=
  nth_error h' a = Some None /\ forall x, x <> a -> nth_error h' x = nth_error h x.

(** ** Proofs *)
Lemma es_settings_ok args : es_settings args =
  {| ec_patience := es_patience_of args; ec_monitor_idx := es_index_of args; ec_greater := es_greater_of args |}.
Proof.
  unfold es_settings. set (p0 := {| ec_patience := _; ec_monitor_idx := _; ec_greater := _ |}).
  transitivity {| ec_patience := ec_patience (fold_left es_set args p0); ec_monitor_idx := ec_monitor_idx (fold_left es_set args p0);
                  ec_greater := ec_greater (fold_left es_set args p0) |}; [destruct (fold_left es_set args p0); reflexivity|].
  f_equal; [rewrite (member _ _ _ es_set p0 ec_patience (fun a => match a with ES_patience x => Some x | _ => None end))
           |rewrite (member _ _ _ es_set p0 ec_monitor_idx (fun a => match a with ES_monitor_idx x => Some x | _ => None end))
           |rewrite (member _ _ _ es_set p0 ec_greater (fun a => match a with ES_greater x => Some x | _ => None end))];
    reflexivity || intros p []; reflexivity.
Qed.
Lemma mcp_settings_ok args : mcp_settings args =
  {| mc_filename := mc_name_of args; mc_monitor_idx := mc_index_of args; mc_greater := mc_greater_of args; mc_verbose := mc_verbose_of args |}.
Proof.
  unfold mcp_settings. set (p0 := {| mc_filename := _; mc_monitor_idx := _; mc_greater := _; mc_verbose := _ |}).
  transitivity {| mc_filename := mc_filename (fold_left mcp_set args p0); mc_monitor_idx := mc_monitor_idx (fold_left mcp_set args p0);
                  mc_greater := mc_greater (fold_left mcp_set args p0); mc_verbose := mc_verbose (fold_left mcp_set args p0) |};
    [destruct (fold_left mcp_set args p0); reflexivity|].
  f_equal; [rewrite (member _ _ _ mcp_set p0 mc_filename (fun a => match a with MC_filename x => Some x | _ => None end))
           |rewrite (member _ _ _ mcp_set p0 mc_monitor_idx (fun a => match a with MC_monitor_idx x => Some x | _ => None end))
           |rewrite (member _ _ _ mcp_set p0 mc_greater (fun a => match a with MC_greater x => Some x | _ => None end))
           |rewrite (member _ _ _ mcp_set p0 mc_verbose (fun a => match a with MC_verbose x => Some x | _ => None end))];
    reflexivity || intros p []; reflexivity.
Qed.
Lemma lg_settings_ok args : lg_settings args =
  {| lc_epoch := lg_epoch_of args; lc_filename := lg_file_of args; lc_no_stdout := lg_quiet_of args |}.
Proof.
  unfold lg_settings. set (p0 := {| lc_epoch := _; lc_filename := _; lc_no_stdout := _ |}).
  transitivity {| lc_epoch := lc_epoch (fold_left lg_set args p0); lc_filename := lc_filename (fold_left lg_set args p0);
                  lc_no_stdout := lc_no_stdout (fold_left lg_set args p0) |}; [destruct (fold_left lg_set args p0); reflexivity|].
  f_equal; [rewrite (member _ _ _ lg_set p0 lc_epoch (fun a => match a with LG_epoch_count x => Some x | _ => None end))
           |rewrite (member _ _ _ lg_set p0 lc_filename (fun a => match a with LG_filename x => Some x | _ => None end))
           |rewrite (member _ _ _ lg_set p0 lc_no_stdout (fun a => match a with LG_no_stdout x => Some x | _ => None end))];
    reflexivity || intros p []; reflexivity.
Qed.

Lemma new_ok A mem size (x : A) h : mem (length h) size = true ->
  exists h', callback_new mem size (Ok x) h = Ok (h', Some (length h, x)) /\ one_block (Z.to_nat size) h h' (length h).
Proof.
  intros M. unfold callback_new, malloc. rewrite M. cbn [rbind]. eexists. split; [reflexivity|]. split; [|split].
  - apply nth_error_None. lia.
  - eexists. split; [rewrite nth_error_app2, Nat.sub_diag by lia; reflexivity|apply repeat_length].
  - intros y Hy. destruct (lt_dec y (length h)) as [L|L]; [apply nth_error_app1; exact L|].
    rewrite nth_error_app2 by lia. destruct (y - length h) as [|k] eqn:Q; [lia|]. simpl.
    rewrite (proj2 (nth_error_None h y)) by lia. destruct k; reflexivity.
Qed.
Lemma new_fail A mem size (x : res A) h : mem (length h) size = false -> callback_new mem size x h = Ok (h, None).
Proof. intros M. unfold callback_new, malloc. rewrite M. reflexivity. Qed.

(** C76: early stopping with any settings *)
Theorem earlystopping_from_settings : forall mem h args n epochs s,
  let p := es_patience_of args in let m := es_index_of args in let g := es_greater_of args in
  (forall k, mem (length h) k = true) ->
  Forall2 (monitored_score m n) epochs s -> Forall (usable g) s -> (Z.of_nat (length s) <= 2147483647)%Z ->
  exists h' a cb cb' st, earlystopping_new mem (es_settings args) h = Ok (h', Some (a, cb)) /\ one_block 32 h h' a
    /\ es_runs cb es_start n epochs = Ok (cb', st)
    /\ (es_do_stop (Some cb') = true <-> must_stop (improves g s) (length s) p).
Proof.
  intros mem h args n epochs s p m g M HM HF HL.
  destruct (early_stopping_partial g p m n epochs s HM HF HL) as (cb' & st & E & F).
  unfold earlystopping_new. rewrite es_settings_ok. cbn [ec_patience ec_monitor_idx ec_greater].
  destruct (new_ok _ mem 32 (es_new (es_patience_of args) (es_index_of args) (es_greater_of args)) h (M _)) as (h' & E' & B).
  exists h', (length h), (es_new p m g), cb', st. split; [exact E'|]. split; [exact B|]. split; [exact E|exact F].
Qed.
Print Assumptions earlystopping_from_settings.

(** C76: the model checkpoint with any settings *)
Theorem checkpoint_from_settings : forall mem h args (Net : Type) n (epochs : list (Net * (list b32 * bool))) s,
  let f := match mc_name_of args with Some f => f | None => "checkpoint.npz"%string end in
  let m := mc_index_of args in let g := mc_greater_of args in
  (forall k, mem (length h) k = true) ->
  Forall2 (monitored_score m n) (map snd epochs) s -> Forall (usable g) s ->
  exists h' a cb best, modelcheckpoint_new mem (mcp_settings args) h = Ok (h', Some (a, (cb, mc_verbose_of args))) /\ one_block 32 h h' a
    /\ mcp_runs record_write cb flt_max [] n epochs
       = Ok (best, map (fun q => (f, fst (snd q))) (filter (fun q => improves g s (fst q)) (combine (seq 0 (length epochs)) epochs))).
Proof.
  intros mem h args Net n epochs s f m g M HM HF.
  destruct (checkpoint_writes_partial Net g m n (mc_name_of args) epochs s HM HF) as (best & tr & E & ->).
  unfold modelcheckpoint_new. rewrite mcp_settings_ok. cbn [mc_filename mc_monitor_idx mc_greater mc_verbose].
  destruct (new_ok _ mem 32 (mk_mcp (mc_name_of args) (mc_index_of args) (mc_greater_of args), mc_verbose_of args) h (M _)) as (h' & E' & B).
  exists h', (length h), (mk_mcp (mc_name_of args) m g), best. split; [exact E'|]. split; [exact B|exact E].
Qed.
Print Assumptions checkpoint_from_settings.

(** C76: the logger.  It starts with the epoch in the settings, except that with a file name, no epoch and a log file
    it goes on behind the last entry (any entry as in C38). *)
Theorem logger_from_settings : forall mem h args file ok,
  (forall k, mem (length h) k = true) ->
  let made e := exists h' a, log_new mem (lg_settings args) file ok h = Ok (h', Some (a, (mk_logger e (lg_file_of args), lg_quiet_of args)))
                  /\ one_block 40 h h' a in
  (lg_epoch_of args <> 0%Z \/ lg_file_of args = false \/ file = None \/ ok = false -> made (lg_epoch_of args))
  /\ (forall pre e line, lg_epoch_of args = 0%Z -> lg_file_of args = true -> ok = true ->
       file = Some (pre ++ newline :: line) -> Forall (fun c => c <> "000"%char) pre -> log_entry e line -> length line <= 254 ->
       (-2147483648 <= e < 2147483647)%Z -> made (e + 1)%Z).
Proof.
  intros mem h args file ok M made.
  assert (K : forall e, logger_new (lg_epoch_of args) (lg_file_of args) file ok = Ok (mk_logger e (lg_file_of args)) -> made e).
  { intros e E. unfold made, log_new. rewrite lg_settings_ok. cbn [lc_epoch lc_filename lc_no_stdout]. rewrite E. cbn [rbind].
    destruct (new_ok _ mem 40 (mk_logger e (lg_file_of args), lg_quiet_of args) h (M _)) as (h' & E' & B).
    exists h', (length h). split; [exact E'|exact B]. }
  split.
  - intros H. apply K. destruct H as [H|[H|[H| -> ]]]; [apply logger_no_resume; auto| | |].
    + apply logger_no_resume. auto.
    + apply logger_no_resume. auto.
    + unfold logger_new, find_last_epoch. cbn [lg_epoch lg_filename]. destruct (_ && _); [destruct file|]; reflexivity.
  - intros pre e line E0 F0 -> -> HP HE HL HR. apply K. rewrite E0, F0. apply logger_resumes_partial; assumption.
Qed.
Print Assumptions logger_from_settings.

(** C76: memory.  Without memory the constructors return NULL and change nothing; freeing a callback releases exactly its
    block and can be done once. *)
Theorem callbacks_memory : forall mem h,
  ((forall k, mem (length h) k = false) -> forall es mc lg file ok,
     earlystopping_new mem es h = Ok (h, None) /\ modelcheckpoint_new mem mc h = Ok (h, None) /\ log_new mem lg file ok h = Ok (h, None))
  /\ (forall size h' a, one_block size h h' a -> exists h2, callback_free h' (Some a) = Ok h2 /\ released h' h2 a
       /\ (forall x, x <> a -> nth_error h2 x = nth_error h x) /\ callback_free h2 (Some a) = Fault BadFree)
  /\ callback_free h None = Fault BadPointer.
Proof.
  intros mem h. split; [|split; [|reflexivity]].
  - intros M es mc lg file ok. split; [|split]; apply new_fail; apply M.
  - intros size h' a (N & (b & E & _) & K). exists (set_nth h' a None).
    assert (L : a < length h') by (apply nth_error_Some; rewrite E; discriminate). apply Nat.ltb_lt in L.
    assert (D : nth_error (set_nth h' a None) a = Some None) by (rewrite nth_error_set_nth, Nat.eqb_refl, L; reflexivity).
    assert (S : forall x, x <> a -> nth_error (set_nth h' a None) x = nth_error h' x).
    { intros x Hx. rewrite nth_error_set_nth. destruct (Nat.eqb_spec x a); [congruence|reflexivity]. }
    split; [unfold callback_free, h_free; rewrite E; reflexivity|]. split; [split; assumption|]. split.
    + intros x Hx. rewrite S by exact Hx. apply K. exact Hx.
    + unfold callback_free, h_free. rewrite D. reflexivity.
Qed.
Print Assumptions callbacks_memory.

(** the theorems apply: patience 1 given twice (the second counts), results 3, 2, 2, 5 *)
Example cb_settings_case :
  let z := b32_ofZ in let args := [ES_patience 7; ES_greater false; ES_patience 1] in
  let epochs := [([z 9; z 3], true); ([z 8; z 2], true); ([z 7; z 2], true); ([z 6; z 5], true)]%Z in
  es_patience_of args = 1%Z /\ es_patience_of [] = 10%Z
  /\ Forall2 (monitored_score (es_index_of args) 1) epochs [z 3; z 2; z 2; z 5]%Z
  /\ Forall (usable (es_greater_of args)) [z 3; z 2; z 2; z 5]%Z
  /\ (exists h a cb, earlystopping_new (fun _ _ => true) (es_settings args) [] = Ok (h, Some (a, cb))
       /\ match es_runs cb es_start 1 epochs with Ok (cb', _) => es_do_stop (Some cb') = true | Fault _ => False end).
Proof.
  cbv zeta. split; [reflexivity|]. split; [reflexivity|]. split; [|split].
  - repeat (constructor; [right; left; repeat split; vm_compute; reflexivity|]). constructor.
  - repeat constructor; vm_compute; reflexivity.
  - eexists. eexists. eexists. split; [reflexivity|]. vm_compute. reflexivity.
Qed.
