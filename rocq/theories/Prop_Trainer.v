(** Prop_Trainer.v -- C89, C90, C91: the training program, its command line, its main loop and what it writes. *)
From Coq Require Import ZArith Bool String Ascii List Lia.
From Flocq Require Import Core BinarySingleNaN.
From Verif Require Import Base BaseProofs Ops OpsB32 Mem Logger Npy NpyList Registry Create NetFile Loss Names Evaluate OptCreate OptInit Callbacks CbInit.
From Verif Require Import SpecLog LoggerProofs NpyProofs SpecCallback CallbackProofs Prop_Callbacks Prop_Callbacks2 Prop_Logger Prop_CbInit SpecOptCreate Prop_OptCreate.
From Verif Require Import Trainer SpecTrainer TrainerProofs.
Import ListNotations.
Local Open Scope nat_scope.

Lemma rbind_inv {A B} (x : res A) (f : A -> res B) y : rbind x f = Ok y -> exists a, x = Ok a /\ f a = Ok y.
Proof. destruct x as [a|]; [|discriminate]. intros E. exists a. split; [reflexivity|exact E]. Qed.

(** ** C89 *)
Lemma writes_option c v ws : writes c v ws -> In c (map fst options).
Proof.
  assert (L : forall c, In c letters -> In c (map fst options)).
  { intros d I. unfold letters in I. cbn in I. cbn. tauto. }
  assert (N : forall c p, names p c -> In c (map fst options)).
  { intros d p ((n & r & I & _) & _). apply in_map_iff. exists (d, n). split; [reflexivity|exact I]. }
  intros W. destruct W; eauto.
Qed.
Lemma line_options tail ps argv : command_line tail ps argv -> Forall (fun p => In (fst p) (map fst options)) ps.
Proof. induction 1 as [|c v ws ps l W C IH|w ps l N C IH]; [constructor| |exact IH]. constructor; [exact (writes_option c v ws W)|exact IH]. Qed.

(** what the variables of the program hold behind the options: the last value given, otherwise the default; for all ways to write
    the options, in any order, with other words in between; -s excepted *)
Theorem options_read_partial : forall lm strtof tail ps argv,
  command_line tail ps argv -> finished tail -> Forall sensible ps -> last_value "s" ps = None ->
  exists o, set_opts strtof (topts0 lm) (getopt argv) = Ok (inl o)
    /\ to_train o = last_value "t" ps /\ to_verif o = last_value "v" ps /\ to_net o = last_value "n" ps
    /\ to_loss o = last_value "l" ps /\ to_metrics o = last_value "m" ps /\ to_log o = last_value "q" ps
    /\ to_optimizer o = match last_value "o" ps with Some v => v | None => txt "adamw" end
    /\ to_lr o = match last_value "a" ps with Some v => strtof v | None => @flit (opsB32 lm) 1 1000 end
    /\ match last_value "b" ps with Some v => numeral (to_batch o) v /\ is_int (to_batch o) | None => to_batch o = 32%Z end
    /\ match last_value "e" ps with
       | Some v => exists a b, to_patience o = Some a /\ to_es_idx o = Some b /\ triple v a b (to_greater o)
       | None => to_patience o = None /\ to_es_idx o = None /\ to_greater o = 1%Z
       end.
Proof.
  intros lm strtof tail ps argv C FI S NS. rewrite (getopt_line _ _ _ C), (getopt_finished _ FI), app_nil_r.
  assert (F : Forall (fun p => In (fst p) (map fst options) /\ fst p <> "s"%char /\ sensible p) ps).
  { pose proof (line_options _ _ _ C) as L. clear C FI. revert S L NS. induction ps as [|[c v] ps IH]; intros S L NS; [constructor|].
    cbn [last_value] in NS. destruct (last_value "s" ps) as [w|]; [discriminate|]. destruct (ascii_dec c "s") as [Q|Q]; [discriminate|].
    constructor; [split; [exact (Forall_inv L)|split; [exact Q|exact (Forall_inv S)]]|].
    apply IH; [exact (Forall_inv_tail S)|exact (Forall_inv_tail L)|reflexivity]. }
  destruct (set_opts_after strtof ps F (topts0 lm)) as (o & E & A1 & A2 & A3 & A4 & A5 & A6 & A7 & A8 & A9 & A10).
  exists o. split; [exact E|]. cbn in A1, A2, A3, A4, A5, A9. unfold or_else in *.
  assert (ID : forall x : option word, match x with Some _ => x | None => None end = x) by (intros [?|]; reflexivity).
  rewrite ID in A1, A2, A3, A4, A5, A9.
  repeat (split; [assumption|]). exact A10.
Qed.
Print Assumptions options_read_partial.

(** -e with one or two numbers only: what is not given keeps its default; patience and index have none.  Behind the numbers there may be
    text which is no comma with a further number. *)
Definition letter (c : ascii) : Prop := ~ In (nat_of_ascii c) [9; 10; 11; 12; 13; 32; 43; 45] /\ ~ 48 <= nat_of_ascii c <= 57.
Definition no_further_number (r : word) : Prop :=
  match r with
  | [] => True
  | c :: r => ~ 48 <= nat_of_ascii c <= 57 /\ (c = ","%char -> match r with [] => True | d :: _ => letter d end)
  end.
Lemma no_digit c : ~ 48 <= nat_of_ascii c <= 57 -> is_digit c = false.
Proof. intros H. unfold is_digit. apply andb_false_iff. destruct (Nat.leb_spec 48 (nat_of_ascii c)); [right|left; reflexivity]. apply Nat.leb_gt. lia. Qed.
Lemma scan_letter r : match r with [] => True | d :: _ => letter d end -> scan_int r = None.
Proof.
  destruct r as [|d r]; intros H; [reflexivity|]. destruct H as (H1 & H2). unfold scan_int. cbn [skip_space].
  assert (S : is_space d = false).
  { unfold is_space. cbv zeta. apply orb_false_iff. cbn [In] in H1. split; [apply Nat.eqb_neq; lia|].
    apply andb_false_iff. destruct (Nat.leb_spec 9 (nat_of_ascii d)); [right; apply Nat.leb_gt; lia|left; reflexivity]. }
  rewrite S. destruct (Ascii.eqb_spec d "-") as [-> |_]; [exfalso; apply H1; cbn; tauto|]. destruct (Ascii.eqb_spec d "+") as [-> |_]; [exfalso; apply H1; cbn; tauto|].
  cbn [take_digits]. pose proof (no_digit d H2) as D. unfold is_digit in D. unfold digit_of. cbv zeta in *. rewrite D. reflexivity.
Qed.
Lemma no_further r : no_further_number r -> match r with c :: _ => is_digit c = false | [] => True end
  /\ match comma r with None => True | Some s => scan_int s = None end.
Proof.
  destruct r as [|c r]; [split; exact I|]. intros (H1 & H2). split; [apply no_digit; exact H1|]. cbn [comma].
  destruct (Ascii.eqb_spec c ",") as [E|_]; [|exact I]. apply scan_letter, H2, E.
Qed.
Theorem early_stopping_given_in_part : forall lm strtof tail ps v argv,
  command_line tail (ps ++ [("e"%char, v)]) argv -> finished tail -> Forall sensible ps -> last_value "s" ps = None -> last_value "e" ps = None ->
  (forall a x r, v = x ++ r -> numeral a x -> is_int a -> no_further_number r ->
     exists o, set_opts strtof (topts0 lm) (getopt argv) = Ok (inl o) /\ to_patience o = Some a /\ to_es_idx o = None /\ to_greater o = 1%Z
       /\ to_train o = last_value "t" ps /\ to_log o = last_value "q" ps)
  /\ (forall a b x y r, v = x ++ ","%char :: y ++ r -> numeral a x -> numeral b y -> is_int a -> is_int b -> no_further_number r ->
     exists o, set_opts strtof (topts0 lm) (getopt argv) = Ok (inl o) /\ to_patience o = Some a /\ to_es_idx o = Some b /\ to_greater o = 1%Z
       /\ to_train o = last_value "t" ps /\ to_log o = last_value "q" ps).
Proof.
  intros lm strtof tail ps v argv C FI S NS NE.
  assert (F : Forall (fun p => In (fst p) (map fst options) /\ fst p <> "s"%char /\ sensible p) ps).
  { pose proof (line_options _ _ _ C) as L. apply Forall_app in L. destruct L as (L & _). clear C FI NE. revert S L NS. induction ps as [|[c w] ps IH]; intros S L NS; [constructor|].
    cbn [last_value] in NS. destruct (last_value "s" ps) as [u|]; [discriminate|]. destruct (ascii_dec c "s") as [Q|Q]; [discriminate|].
    constructor; [split; [exact (Forall_inv L)|split; [exact Q|exact (Forall_inv S)]]|].
    apply IH; [exact (Forall_inv_tail S)|exact (Forall_inv_tail L)|reflexivity]. }
  destruct (set_opts_after strtof ps F (topts0 lm)) as (o & E & A1 & A2 & A3 & A4 & A5 & A6 & A7 & A8 & A9 & A10).
  rewrite NE in A10. destruct A10 as (P1 & P2 & P3). cbn in A1, A9, P1, P2, P3. unfold or_else in *.
  assert (ID : forall x : option word, match x with Some _ => x | None => None end = x) by (intros [?|]; reflexivity).
  rewrite ID in A1, A9.
  assert (G : forall l, scan3 v = Ok l -> set_opts strtof (topts0 lm) (getopt argv) = Ok (inl (store3 o l))).
  { intros l Q. rewrite (getopt_line _ _ _ C), (getopt_finished _ FI), app_nil_r. unfold opts. rewrite map_app.
    change (map (fun p => Opt (fst p) (snd p)) ps) with (opts ps). rewrite set_opts_app, E. cbn [rbind map fst snd set_opts].
    destruct o. cbn [set_opt Ascii.eqb Bool.eqb]. rewrite Q. reflexivity. }
  clear E. split.
  - intros a x r -> NA IA NR. destruct (no_further r NR) as (R1 & R2). exists (store3 o [a]). split.
    { apply G. unfold scan3. rewrite (scan_numeral a x r IA NA R1). cbn [rbind]. destruct (comma r) as [t|]; [rewrite R2|]; reflexivity. }
    destruct o; cbn in *. tauto.
  - intros a b x y r -> NX NY IA IB NR. destruct (no_further r NR) as (R1 & R2). exists (store3 o [a; b]). split.
    { apply G. unfold scan3. rewrite (scan_numeral a x _ IA NX) by reflexivity. cbn [rbind comma Ascii.eqb Bool.eqb].
      rewrite (scan_numeral b y r IB NY R1). cbn [rbind]. destruct (comma r) as [t|]; [rewrite R2|]; reflexivity. }
    destruct o; cbn in *. tauto.
Qed.
Print Assumptions early_stopping_given_in_part.
Example early_stopping_in_part_case :
  let v := [("t"%char, txt "tr.npz"); ("e"%char, txt "5,2,x")] in
  command_line [] v [txt "-t"; txt "tr.npz"; txt "-e5,2,x"] /\ no_further_number (txt ",x") /\ no_further_number [].
Proof.
  cbv zeta. split; [apply (line_option [] "t" (txt "tr.npz") [txt "-t"; txt "tr.npz"]); [|apply (line_option [] "e" (txt "5,2,x") [txt "-e5,2,x"]); [|constructor]]|].
  - constructor; cbn; tauto || discriminate.
  - constructor; cbn; tauto || discriminate.
  - split; [|exact I]. split; [cbn; lia|]. intros _. split; [cbn; lia|cbn; lia].
Qed.

(** a word that is not accepted ends the program with its usage, exit code 1; whatever follows *)
Theorem options_rejected : forall lm strtof tail ps argv,
  command_line tail ps argv -> rejected tail -> Forall sensible ps -> last_value "s" ps = None ->
  set_opts strtof (topts0 lm) (getopt argv) = Ok (inr 1%Z).
Proof.
  intros lm strtof tail ps argv C R S NS.
  assert (X : exists o, set_opts strtof (topts0 lm) (opts ps) = Ok (inl o)).
  { assert (W : exists argv', command_line [] ps argv').
    { clear -C. induction C as [|c v ws ps l W C (a & IH)|w ps l N C (a & IH)]; [exists []; constructor| |exists a; exact IH].
      exists (ws ++ a). constructor; assumption. }
    destruct W as (argv' & C'). destruct (options_read_partial lm strtof [] ps argv' C' (or_introl eq_refl) S NS) as (o & E & _).
    exists o. rewrite (getopt_line _ _ _ C') in E. cbn [getopt] in E. rewrite app_nil_r in E. exact E. }
  destruct X as (o & E). rewrite (getopt_line _ _ _ C), (getopt_rejected _ R), set_opts_app, E. destruct o. reflexivity.
Qed.
Print Assumptions options_rejected.

(** -s with anything but spaces stores through a NULL pointer *)
Definition blank (c : ascii) : Prop := In (nat_of_ascii c) [9; 10; 11; 12; 13; 32].
Lemma skip_blank v : Exists (fun c => ~ blank c) v -> skip_space v <> [].
Proof.
  induction v as [|c v IH]; intros E; [inversion E|]. cbn [skip_space]. destruct (is_space c) eqn:S; [|discriminate].
  apply IH. inversion E as [? ? Q|? ? Q]; subst; [|exact Q]. exfalso. apply Q. unfold blank, is_space in *. cbv zeta in S.
  apply orb_true_iff in S. destruct S as [S|S]; [apply Nat.eqb_eq in S; rewrite S; cbn; tauto|].
  apply andb_true_iff in S. destruct S as (S1 & S2). apply Nat.leb_le in S1, S2. cbn. lia.
Qed.
Theorem checkpoint_option_crashes : forall lm strtof tail ps1 v ps2 argv,
  command_line tail (ps1 ++ ("s"%char, v) :: ps2) argv -> Forall sensible ps1 -> last_value "s" ps1 = None ->
  Exists (fun c => ~ blank c) v ->
  set_opts strtof (topts0 lm) (getopt argv) = Fault BadPointer.
Proof.
  intros lm strtof tail ps1 v ps2 argv C S NS E. rewrite (getopt_line _ _ _ C).
  assert (OA : opts (ps1 ++ ("s"%char, v) :: ps2) = opts ps1 ++ Opt "s" v :: opts ps2) by apply map_app. rewrite OA, <- app_assoc, set_opts_app.
  assert (F : Forall (fun p => In (fst p) (map fst options) /\ fst p <> "s"%char /\ sensible p) ps1).
  { pose proof (line_options _ _ _ C) as L. apply Forall_app in L. destruct L as (L & _). clear C OA. revert S L NS.
    induction ps1 as [|[c w] ps IH]; intros S L NS; [constructor|].
    cbn [last_value] in NS. destruct (last_value "s" ps) as [x|]; [discriminate|]. destruct (ascii_dec c "s") as [Q|Q]; [discriminate|].
    constructor; [split; [exact (Forall_inv L)|split; [exact Q|exact (Forall_inv S)]]|].
    apply IH; [exact (Forall_inv_tail S)|exact (Forall_inv_tail L)|reflexivity]. }
  destruct (set_opts_after strtof ps1 F (topts0 lm)) as (o & E1 & _). rewrite E1. cbn [rbind app set_opts].
  destruct o. cbn [set_opt Ascii.eqb Bool.eqb]. pose proof (skip_blank v E) as NE. destruct (skip_space v); [congruence|reflexivity].
Qed.
Print Assumptions checkpoint_option_crashes.

(** so not every option of the usage message works *)
Theorem options_refuted : exists ps argv, command_line [] ps argv /\ Forall sensible ps /\ ps = [("s"%char, txt "best.npz,0,0")]
  /\ forall lm strtof, set_opts strtof (topts0 lm) (getopt argv) = Fault BadPointer.
Proof.
  exists [("s"%char, txt "best.npz,0,0")], ([txt "-s"; txt "best.npz,0,0"] ++ []).
  assert (C : command_line [] [("s"%char, txt "best.npz,0,0")] ([txt "-s"; txt "best.npz,0,0"] ++ [])).
  { apply line_option; [|constructor]. apply writes_apart. cbn. tauto. }
  split; [exact C|]. split; [repeat constructor; cbn [fst]; discriminate|]. split; [reflexivity|].
  intros lm strtof. apply (checkpoint_option_crashes lm strtof [] [] (txt "best.npz,0,0") [] _ C); [constructor|reflexivity|].
  constructor. cbn. lia.
Qed.
Print Assumptions options_refuted.

Section Program.
  Variable lm : libm.
  Notation OP := (opsB32 lm).
  Variable strtof : bytes -> b32.
  Variable archive : bytes -> option (list member).
  Variable alloc : Z -> bool.
  Variable mem : nat -> Z -> bool.
  Variable lib_opens : bytes -> bool.
  Variable dlsym : bytes -> bytes -> option (option nat).
  Context {Net FS : Type}.
  Variable save : Net -> string -> FS -> FS.
  Variable fmt_e : b32 -> bytes.
  Variable time : nat -> nat * nat * nat.
  Variable log_opens : nat -> bool.
  Notation job := (Trainer.job lm).
  Notation trainer := (trainer lm strtof archive alloc mem lib_opens dlsym save fmt_e time log_opens).

  (** the run depends on the last values of the options only, and not at all on -e *)
  Theorem early_stopping_option_ignored : forall h st (fs : FS) file log_ok nn0 epoch tail ps argv tail' ps' argv',
    command_line tail ps argv -> finished tail -> Forall sensible ps -> last_value "s" ps = None ->
    command_line tail' ps' argv' -> finished tail' -> Forall sensible ps' -> last_value "s" ps' = None ->
    (forall c, c <> "e"%char -> last_value c ps = last_value c ps') ->
    trainer h st fs file log_ok nn0 epoch argv = trainer h st fs file log_ok nn0 epoch argv'.
  Proof.
    intros h st fs file log_ok nn0 epoch tail ps argv tail' ps' argv' C1 F1 S1 N1 C2 F2 S2 N2 EQ.
    destruct (options_read_partial lm strtof _ _ _ C1 F1 S1 N1) as (o & E & A1 & A2 & A3 & A4 & A5 & A6 & A7 & A8 & A9 & _).
    destruct (options_read_partial lm strtof _ _ _ C2 F2 S2 N2) as (o' & E' & B1 & B2 & B3 & B4 & B5 & B6 & B7 & B8 & B9 & _).
    unfold Trainer.trainer. rewrite E, E'. cbn [rbind].
    rewrite <- (EQ "t"%char) in B1 by discriminate. rewrite <- (EQ "v"%char) in B2 by discriminate. rewrite <- (EQ "n"%char) in B3 by discriminate. rewrite <- (EQ "l"%char) in B4 by discriminate. rewrite <- (EQ "m"%char) in B5 by discriminate. rewrite <- (EQ "q"%char) in B6 by discriminate. rewrite <- (EQ "o"%char) in B7 by discriminate. rewrite <- (EQ "a"%char) in B8 by discriminate. rewrite <- (EQ "b"%char) in B9 by discriminate.
    assert (EB : to_batch o = to_batch o').
    { destruct (last_value "b" ps) as [v|]; [|congruence]. destruct A9 as (A9 & I1). destruct B9 as (B9 & I2).
      pose proof (atoi_exact _ _ I1 A9) as X. pose proof (atoi_exact _ _ I2 B9) as Y. congruence. }
    rewrite <- B1 in A1. rewrite <- B2 in A2. rewrite <- B3 in A3. rewrite <- B4 in A4. rewrite <- B5 in A5. rewrite <- B6 in A6.
    rewrite <- B7 in A7. rewrite <- B8 in A8. clear -A1 A2 A3 A4 A5 A6 A7 A8 EB.
    destruct o, o'. cbn in *. subst. reflexivity.
  Qed.

  (** ** C90 *)
  Lemma main_inv epoch (valid : bool) ms k i nn t r :
    main_loop lm save fmt_e time log_opens epoch valid (S k) i nn ms (t : @cbs FS) = Ok r -> valid = true.
  Proof.
    cbn [main_loop]. intros E. destruct (epoch nn) as [[[nn1 tr] va]|]; [|discriminate]. cbn [rbind] in E. destruct valid; [reflexivity|discriminate].
  Qed.
  Definition ran (h : heap) (st : records) (fs : FS) file log_ok (nn0 : job -> Net) epoch argv (o : topts) (j : job) (t0 : @cbs FS) nn t n : Prop :=
    set_opts strtof (topts0 lm) (getopt argv) = Ok (inl o)
    /\ (exists h1 st1, prepare lm archive alloc mem lib_opens dlsym h st o = Ok (h1, st1, j)
        /\ exists h2, make_callbacks mem h1 o fs file log_ok = Ok (h2, t0))
    /\ main_loop lm save fmt_e time log_opens (epoch j) true n_epochs 0 (nn0 j) (jb_metrics j) t0 = Ok (nn, t, n).
  Lemma trainer_inv h st fs file log_ok nn0 epoch argv h' nn t n :
    trainer h st fs file log_ok nn0 epoch argv = Ok (Done h' nn t n) ->
    exists o j t0, ran h st fs file log_ok nn0 epoch argv o j t0 nn t n.
  Proof.
    unfold Trainer.trainer, ran. intros E. destruct (set_opts _ _ _) as [[o|z]|]; cbn [rbind] in E; [|discriminate..].
    destruct (prepare _ _ _ _ _ _ _ _ _) as [[[h1 st1] j]|] eqn:E1; [|discriminate]. cbn [rbind] in E.
    destruct (make_callbacks _ _ _ _ _ _) as [[h2 t0]|] eqn:E2; [|discriminate]. cbn [rbind] in E.
    destruct (data_ok _) as [[]|]; [|discriminate]. cbn [rbind] in E.
    destruct (main_loop _ _ _ _ _ _ _ _ _ _ _ _) as [[[nn1 t1] n1]|] eqn:E3; [|discriminate]. cbn [rbind] in E.
    destruct (clean_up _ _) as [h3|]; [|discriminate]. cbn [rbind] in E. injection E as <- <- <- <-.
    exists o, j, t0. split; [reflexivity|]. split; [exists h1, st1; split; [exact E1|exists h2; exact E2]|].
    pose proof (main_inv _ _ _ _ _ _ _ _ E3) as V. rewrite V in E3. exact E3.
  Qed.
  Lemma made_quiet h o fs file log_ok h' t : make_callbacks mem h o fs file log_ok = Ok (h', t) -> es_quiet 0 (t : @cbs FS).
  Proof.
    unfold make_callbacks, es_quiet. intros E.
    destruct (modelcheckpoint_new _ _ _) as [m|]; [|discriminate]. cbn [rbind] in E.
    destruct (log_new _ _ _ _ _) as [l|]; [|discriminate]. cbn [rbind] in E.
    destruct (earlystopping_new _ _ _) as [e|] eqn:EE; [|discriminate]. cbn [rbind] in E. injection E as <- <-. cbn [cb_es cb_est].
    unfold earlystopping_new, callback_new in EE. destruct (malloc mem (fst l) 32) as [h1 [a|]]; cbn [rbind] in EE; injection EE as <-; cbn [snd option_map]; [|exact I].
    cbn. repeat split. lia.
  Qed.

  (** every run that gets as far as the end of the loop has exactly ten epochs, whatever the options and the results are *)
  Theorem ten_epochs : forall h st fs file log_ok nn0 epoch argv h' nn t n,
    trainer h st fs file log_ok nn0 epoch argv = Ok (Done h' nn t n) -> n = 10.
  Proof.
    intros h st fs file log_ok nn0 epoch argv h' nn t n E. destruct (trainer_inv _ _ _ _ _ _ _ _ _ _ _ _ E) as (o & j & t0 & _ & (h1 & st1 & _ & h2 & MC) & ML).
    destruct (loop_inv lm save fmt_e time log_opens _ _ _ _ _ _ _ _ _ (made_quiet _ _ _ _ _ _ _ MC) (le_n 10) ML) as (-> & _). reflexivity.
  Qed.

  (** ** C91 *)
  (** the number of results is that of the metrics *)
  Definition epoch_fits (epoch : job -> Net -> res (Net * list b32 * list b32)) : Prop :=
    forall j nn nn' tr va, epoch j nn = Ok (nn', tr, va) -> length tr = length (jb_metrics j) /\ length va = length (jb_metrics j).
  Lemma follows_fit epoch j : epoch_fits epoch -> forall es nn, follows (epoch j) nn es ->
    Forall (fun e => length (snd (fst e)) = length (jb_metrics j) /\ length (snd e) = length (jb_metrics j)) es.
  Proof.
    intros F. induction es as [|[[nn1 tr] va] es IH]; intros nn H; [constructor|]. destruct H as (H1 & H2). constructor; [exact (F _ _ _ _ _ H1)|exact (IH _ H2)].
  Qed.
  Lemma metrics_some (ms : list (option metric)) l : metric_list ms = Ok l -> forall m, hd None ms = Some m -> exists r, l = m :: r.
  Proof.
    intros E m H. destruct ms as [|[x|] ms]; cbn in H; [discriminate| |discriminate]. injection H as ->. cbn [metric_list] in E.
    destruct (metric_list ms) as [r|]; [|discriminate]. cbn [rbind] in E. injection E as <-. exists r. reflexivity.
  Qed.
  (** the metrics of a run: the loss first, then the metric of the option if there is one of this name *)
  Lemma prepared_metrics h st o h1 st1 j : prepare lm archive alloc mem lib_opens dlsym h st o = Ok (h1, st1, j) ->
    exists lname mname lf, to_loss o = Some lname /\ to_metrics o = Some mname /\ get_loss_func (string_of_list_ascii lname) = Some lf
      /\ jb_metrics j = match get_metric_func (string_of_list_ascii mname) with Some m => [metric_for lf; m] | None => [metric_for lf] end.
  Proof.
    unfold prepare. intros E.
    apply rbind_inv in E. destruct E as ([[[h2 p] X] Y] & _ & E). apply rbind_inv in E. destruct E as ([[[h3 q] vX] vY] & _ & E).
    do 6 (apply rbind_inv in E; destruct E as (? & _ & E)). do 2 (apply rbind_inv in E; destruct E as (? & _ & E)).
    apply rbind_inv in E. destruct E as ([[h4 st4] [nn|]] & _ & E); [|discriminate].
    apply rbind_inv in E. destruct E as (lf & EL & E). destruct (cn_layers nn) as [|l ls]; [discriminate|].
    apply rbind_inv in E. destruct E as (? & _ & E). apply rbind_inv in E. destruct E as (? & _ & E).
    apply rbind_inv in E. destruct E as (m2 & EM & E). destruct (choose _ _ _) as [s|]; [|discriminate].
    apply rbind_inv in E. destruct E as ([[h5 st5] [opt|]] & EO & E); [|discriminate].
    apply rbind_inv in E. destruct E as (metrics & EML & E). apply rbind_inv in E. destruct E as (? & _ & E). apply rbind_inv in E. destruct E as (? & _ & E).
    injection E as <- <- <-. cbn [jb_metrics].
    unfold lookup in EL, EM. destruct (to_loss o) as [lname|]; [|discriminate]. destruct (to_metrics o) as [mname|]; [|discriminate].
    injection EL as EL. injection EM as EM. destruct lf as [lf|].
    - exists lname, mname, lf. split; [reflexivity|]. split; [reflexivity|]. split; [exact EL|].
      rewrite metric_name in EML. rewrite EM. destruct m2; cbn in EML; injection EML as <-; reflexivity.
    - exfalso. unfold optimizer_new in EO. destruct (malloc _ _ _) as [h6 [self|]]; [|discriminate].
      apply rbind_inv in EO. destruct EO as (r & _ & EO). discriminate.
  Qed.

  Lemma made h o fs file log_ok h' t : (forall k s, mem k s = true) -> make_callbacks mem h o fs file log_ok = Ok (h', t : @cbs FS) ->
    cb_mcp t = Some (mk_mcp None (-1) false) /\ cb_best t = flt_max /\ cb_fs t = fs /\ cb_file t = file
    /\ exists l, cb_log t = Some l /\ logger_new 0 (match to_log o with Some _ => true | None => false end) file log_ok = Ok l.
  Proof.
    intros HM E. unfold make_callbacks, modelcheckpoint_new, log_new, earlystopping_new, callback_new in E.
    unfold malloc in E. rewrite !HM in E. cbn [rbind fst snd] in E.
    apply rbind_inv in E. destruct E as (l & EL & E). rewrite HM in EL. apply rbind_inv in EL. destruct EL as ([l0 ns] & EL & Q). injection Q as <-.
    cbn [rbind fst snd option_map] in E. rewrite HM in E. cbn [rbind fst snd option_map] in E. injection E as <- <-. cbn.
    apply rbind_inv in EL. destruct EL as (l1 & EL & Q). injection Q as <- <-. repeat split. exists l1. split; [reflexivity|]. exact EL.
  Qed.

  (** the network is saved, in this order, behind the epochs whose first validation result (that of the loss) is below FLT_MAX and
      below all earlier ones that are numbers; always to checkpoint.npz *)
  Theorem trainer_checkpoints : forall h st fs file log_ok nn0 epoch argv h' nn t n,
    (forall k s, mem k s = true) -> epoch_fits epoch ->
    trainer h st fs file log_ok nn0 epoch argv = Ok (Done h' nn t n) ->
    exists j es s, length es = 10 /\ follows (epoch j) (nn0 j) es /\ nn = final (nn0 j) es
      /\ Forall2 (fun e x => nth_error (snd e) 0 = Some x) es s
      /\ cb_fs t = fold_left (fun fs nn => save nn "checkpoint.npz"%string fs)
           (map (fun q => fst (fst (snd q))) (filter (fun q => improves_any s (fst q)) (combine (seq 0 10) es))) fs.
  Proof.
    intros h st fs file log_ok nn0 epoch argv h' nn t n HM HF E.
    destruct (trainer_inv _ _ _ _ _ _ _ _ _ _ _ _ E) as (o & j & t0 & SO & (h1 & st1 & PR & h2 & MC) & ML).
    destruct (loop_inv lm save fmt_e time log_opens _ _ _ _ _ _ _ _ _ (made_quiet _ _ _ _ _ _ _ MC) (le_n 10) ML) as (_ & es & LE & FO & FI & CK & _ & _).
    destruct (made _ _ _ _ _ _ _ HM MC) as (M1 & M2 & M3 & _). rewrite M2, M3 in CK. specialize (CK _ M1).
    pose proof (follows_fit epoch j HF es _ FO) as FF.
    destruct (prepared_metrics _ _ _ _ _ _ PR) as (lname & mname & lf & _ & _ & _ & EM).
    assert (LM : 1 <= length (jb_metrics j)) by (rewrite EM; destruct (get_metric_func _); cbn; lia).
    assert (X : exists s, Forall2 (fun e x => nth_error (snd e) 0 = Some x) es s
              /\ Forall2 (monitored_score (-1) (length (jb_metrics j))) (map snd (map (@seen Net) es)) s).
    { clear -FF LM. induction FF as [|[[nn tr] va] es (L1 & L2) FF (s & S1 & S2)]; [exists []; split; constructor|]. cbn [fst snd] in *.
      destruct va as [|x va]; [cbn in L2; lia|]. exists (x :: s). split; [constructor; [reflexivity|exact S1]|].
      cbn [map seen fst snd]. constructor; [|exact S2]. right. left. split; [lia|]. split; [reflexivity|]. cbn [fst].
      rewrite nth_error_app2 by lia. rewrite L1, Nat.sub_diag. reflexivity. }
    destruct X as (s & S1 & S2). exists j, es, s. split; [exact LE|]. split; [exact FO|]. split; [exact FI|]. split; [exact S1|].
    assert (HT : Forall (fun _ : b32 => True) s) by (apply Forall_forall; intros; exact I).
    destruct (mcp_runs_spec false improves_any (fun _ => True) best_any (fun s x i => improves_any_snoc s x i) best_any_nil
                (fun s b x B _ => best_any_step s b x B) save (length (jb_metrics j)) (-1)%Z None fs (map (@seen Net) es) s S2 HT) as (best & R & _).
    rewrite R in CK. injection CK as _ <-. f_equal.
    assert (LS : length s = 10). { rewrite <- LE. clear -S1. induction S1; cbn; congruence. }
    rewrite LS. clear.
    assert (G : forall k es i, map (fun q => fst (fst (snd q))) (filter (fun q => improves_any s (fst q)) (combine (seq i k) es))
              = map fst (map snd (filter (fun q => improves_any s (fst q)) (combine (seq i k) (map (@seen Net) es))))).
    { induction k as [|k IH]; intros es' i; [reflexivity|]. destruct es' as [|e es']; [reflexivity|]. cbn [seq combine map filter fst].
      destruct (improves_any s i); cbn [map]; rewrite IH; reflexivity. }
    symmetry. apply G.
  Qed.

  (** the log file: one line for each of the ten epochs, with the results of both sets; e0 is the number of the first epoch, 0 if there
      is no such file yet *)
  Lemma logger_new_range fn file ok l : logger_new 0 fn file ok = Ok l -> (-2147483648 <= lg_epoch l)%Z /\ lg_filename l = fn /\ (file = None -> lg_epoch l = 0%Z).
  Proof.
    unfold logger_new. intros E. apply rbind_inv in E. destruct E as (e & E & Q). injection Q as <-. cbn [lg_epoch lg_filename].
    unfold find_last_epoch in E. cbn [lg_epoch lg_filename] in E.
    destruct (_ && _); [|injection E as <-; repeat split; lia]. destruct file as [f|]; [|injection E as <-; repeat split; lia].
    split; [|split; [reflexivity|discriminate]]. destruct ok; [|injection E as <-; lia]. unfold scan_log in E. cbv zeta in E.
    destruct (_ =? 0); [discriminate|]. destruct (cstr _) as [sx|]; [|discriminate]. destruct (strrchr _ _); [|injection E as <-; lia].
    destruct (cstr _); [|discriminate]. destruct (strstr _ _); [|discriminate]. apply rbind_inv in E. destruct E as (z & _ & E).
    unfold to_int in E. destruct (_ && _) eqn:B; [|discriminate]. injection E as <-. apply andb_true_iff in B. destruct B as (B & _). apply Z.leb_le in B. exact B.
  Qed.
  Lemma log_lines ms : (forall i, let '(hh, mm, ss) := time i in hh < 100 /\ mm < 100 /\ ss < 100) -> (forall i, log_opens i = true) ->
    forall es i l file l' file', (-2147483648 <= lg_epoch l)%Z -> lg_filename l = true ->
    Forall (fun e : Net * list b32 * list b32 => length (snd (fst e)) = length ms /\ length (snd e) = length ms) es -> es <> [] ->
    log_runs lm fmt_e time log_opens i l ms es file = Ok (l', file') ->
    exists lines, length lines = length es /\ file' = Some (match file with Some f => f | None => [] end ++ concat lines)
      /\ forall k e, nth_error es k = Some e -> exists hh mm ss ep,
           let '(a, b, c) := time (i + k) in
           padded 2 "0" (Z.of_nat a) hh /\ padded 2 "0" (Z.of_nat b) mm /\ padded 2 "0" (Z.of_nat c) ss
           /\ padded 3 " " (lg_epoch l + Z.of_nat k) ep
           /\ nth_error lines k = Some (line_text hh mm ss ep (text_pairs fmt_e ms (snd (fst e))) (text_pairs fmt_e ms (snd e))).
  Proof.
    intros HT HO. induction es as [|[[nn tr] va] es IH]; intros i l file l' file' LE LF FF NE E; [congruence|].
    destruct (Forall_inv FF) as (L1 & L2). cbn [fst snd] in L1, L2. cbn [log_runs fst snd] in E.
    pose proof (HT i) as HTi. destruct (time i) as [[a b] c] eqn:ET. destruct HTi as (Ha & Hb & Hc).
    apply rbind_inv in E. destruct E as ([l1 f1] & R & E). cbn [fst snd] in E. rewrite (HO i) in R.
    assert (RG : (lg_epoch l < 2147483647)%Z).
    { unfold logger_run in R. apply rbind_inv in R. destruct R as (? & _ & R). apply rbind_inv in R. destruct R as (? & _ & R).
      apply rbind_inv in R. destruct R as (z & R & _). unfold to_int in R. destruct (_ && _) eqn:B; [|discriminate].
      apply andb_true_iff in B. destruct B as (_ & B). apply Z.leb_le in B. lia. }
    destruct (@logger_line_exact OP fmt_e l ms a b c tr va true file true Ha Hb Hc (conj LE RG) L1 L2)
      as (hh & mm & ss & ep & P1 & P2 & P3 & P4 & _ & _ & _ & _ & X). cbv zeta in X.
    assert (X' := eq_trans (eq_sym R) X). clear X R. rename X' into X.
    set (line := line_text _ _ _ _ _ _) in X. destruct (length line <=? 254); [|destruct (_ =? _); discriminate].
    injection X as -> X. rewrite LF in X. cbn [andb] in X.
    assert (H0 : forall e, nth_error ((nn, tr, va) :: es) 0 = Some e -> exists hh mm ss ep,
           let '(a, b, c) := time (i + 0) in
           padded 2 "0" (Z.of_nat a) hh /\ padded 2 "0" (Z.of_nat b) mm /\ padded 2 "0" (Z.of_nat c) ss
           /\ padded 3 " " (lg_epoch l + Z.of_nat 0) ep
           /\ Some line = Some (line_text hh mm ss ep (text_pairs fmt_e ms (snd (fst e))) (text_pairs fmt_e ms (snd e)))).
    { intros e He. injection He as <-. exists hh, mm, ss, ep. rewrite Nat.add_0_r, ET. cbn [fst snd]. rewrite Z.add_0_r. repeat split; assumption. }
    destruct es as [|e1 es].
    - cbn [log_runs] in E. injection E as _ <-. exists [line]. split; [reflexivity|]. split; [rewrite X; cbn [concat]; rewrite app_nil_r; reflexivity|].
      intros [|k] e He; [exact (H0 e He)|]. destruct k; discriminate.
    - destruct (IH (S i) (mk_logger (lg_epoch l + 1) (lg_filename l)) f1 l' file' ltac:(cbn [lg_epoch]; lia) LF (Forall_inv_tail FF) ltac:(discriminate) E) as (lines & LL & FI & LK).
      exists (line :: lines). split; [cbn [length] in *; congruence|]. split; [rewrite FI, X; cbn [concat]; rewrite app_assoc; reflexivity|].
      intros [|k] e He; [exact (H0 e He)|]. cbn [nth_error] in He. destruct (LK k e He) as (hh' & mm' & ss' & ep' & Q).
      exists hh', mm', ss', ep'. cbn [lg_epoch nth_error] in *. replace (i + S k) with (S i + k) by lia. destruct (time (S i + k)) as [[a' b'] c'].
      replace (lg_epoch l + Z.of_nat (S k))%Z with (lg_epoch l + 1 + Z.of_nat k)%Z by lia. exact Q.
  Qed.
  Theorem trainer_log : forall h st fs file log_ok nn0 epoch tail ps argv h' nn t n name,
    (forall k s, mem k s = true) -> epoch_fits epoch ->
    (forall i, let '(hh, mm, ss) := time i in hh < 100 /\ mm < 100 /\ ss < 100) -> (forall i, log_opens i = true) ->
    command_line tail ps argv -> finished tail -> Forall sensible ps -> last_value "s" ps = None -> last_value "q" ps = Some name ->
    trainer h st fs file log_ok nn0 epoch argv = Ok (Done h' nn t n) ->
    exists j es lines e0, length es = 10 /\ follows (epoch j) (nn0 j) es /\ length lines = 10
      /\ cb_file t = Some (match file with Some f => f | None => [] end ++ concat lines) /\ (file = None -> e0 = 0%Z)
      /\ (exists lname mname lf, last_value "l" ps = Some lname /\ last_value "m" ps = Some mname /\ get_loss_func (string_of_list_ascii lname) = Some lf
          /\ jb_metrics j = match get_metric_func (string_of_list_ascii mname) with Some m => [metric_for lf; m] | None => [metric_for lf] end)
      /\ forall k e, nth_error es k = Some e -> exists hh mm ss ep,
           let '(a, b, c) := time k in
           padded 2 "0" (Z.of_nat a) hh /\ padded 2 "0" (Z.of_nat b) mm /\ padded 2 "0" (Z.of_nat c) ss
           /\ padded 3 " " (e0 + Z.of_nat k) ep
           /\ nth_error lines k = Some (line_text hh mm ss ep (text_pairs fmt_e (jb_metrics j) (snd (fst e))) (text_pairs fmt_e (jb_metrics j) (snd e))).
  Proof.
    intros h st fs file log_ok nn0 epoch tail ps argv h' nn t n name HM HF HT HO C FI S NS LQ E.
    destruct (trainer_inv _ _ _ _ _ _ _ _ _ _ _ _ E) as (o & j & t0 & SO & (h1 & st1 & PR & h2 & MC) & ML).
    destruct (options_read_partial lm strtof _ _ _ C FI S NS) as (o' & SO' & _ & _ & _ & OL & OM & OQ & _). rewrite SO in SO'. injection SO' as <-.
    destruct (loop_inv lm save fmt_e time log_opens _ _ _ _ _ _ _ _ _ (made_quiet _ _ _ _ _ _ _ MC) (le_n 10) ML) as (_ & es & LE & FO & _ & _ & LG & _).
    destruct (made _ _ _ _ _ _ _ HM MC) as (_ & _ & _ & M4 & l & ML' & LN). rewrite OQ, LQ in LN. destruct (LG l ML') as (l' & LR). rewrite M4 in LR.
    destruct (logger_new_range _ _ _ _ LN) as (R1 & R2 & R3).
    destruct (log_lines (jb_metrics j) HT HO es 0 l file l' (cb_file t) R1 R2 (follows_fit epoch j HF es _ FO)) as (lines & LL & LF & LK);
      [destruct es; [discriminate LE|discriminate]|exact LR|].
    exists j, es, lines, (lg_epoch l). split; [exact LE|]. split; [exact FO|]. split; [congruence|]. split; [exact LF|]. split; [exact R3|].
    split; [|exact LK]. destruct (prepared_metrics _ _ _ _ _ _ PR) as (lname & mname & lf & P1 & P2 & P3 & P4).
    exists lname, mname, lf. rewrite <- OL, <- OM. repeat split; assumption.
  Qed.
End Program.
Print Assumptions early_stopping_option_ignored.
Print Assumptions ten_epochs.
Print Assumptions trainer_checkpoints.
Print Assumptions trainer_log.
