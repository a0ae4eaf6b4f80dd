(** TrainerProofs.v -- lemmas about the command line of the training program. *)
From Coq Require Import ZArith Bool String Ascii List Lia.
From Flocq Require Import Core BinarySingleNaN.
From Verif Require Import Base BaseProofs Ops OpsB32 Mem Logger Npy NpyList Registry Create NetFile Loss Names Evaluate OptCreate OptInit Callbacks CbInit.
From Verif Require Import SpecLog LoggerProofs NpyProofs Trainer SpecTrainer.
Import ListNotations.
Local Open Scope nat_scope.

(** ** long names *)
Lemma same_spec a b : same a b = true <-> a = b.
Proof. unfold same. destruct (list_eq_dec ascii_dec a b); split; congruence. Qed.
Lemma prefix_spec p : forall s, is_prefix p s = true <-> exists r, s = p ++ r.
Proof.
  induction p as [|a p IH]; intros s; [split; [intros _; exists s; reflexivity|reflexivity]|].
  destruct s as [|c s]; cbn [is_prefix]; [split; [discriminate|intros (r & Q); discriminate]|].
  rewrite andb_true_iff, IH. split.
  - intros (E & r & ->). apply Ascii.eqb_eq in E. subst. exists r. reflexivity.
  - intros (r & E). injection E as -> ->. split; [apply Ascii.eqb_refl|exists r; reflexivity].
Qed.
Lemma tables : long_options = map (fun x => (txt (snd x), fst x)) options.
Proof. reflexivity. Qed.
(** every beginning of a name is either found or is a beginning of two names *)
Definition beginnings : list (word * ascii) :=
  flat_map (fun x => map (fun k => (firstn k (txt (snd x)), fst x)) (seq 0 (S (length (txt (snd x)))))) options.
Definition known (x : word * ascii) : bool :=
  match find_long (fst x) with
  | Some c => Ascii.eqb c (snd x) && forallb (fun y => negb (is_prefix (fst x) (txt (snd y))) || Ascii.eqb (fst y) (snd x)) options
  | None => existsb (fun y => is_prefix (fst x) (txt (snd y)) && negb (Ascii.eqb (fst y) (snd x))) options
  end.
Lemma all_known : forallb known beginnings = true.
Proof. vm_compute. reflexivity. Qed.
Lemma in_beginnings c n p r : In (c, n) options -> txt n = p ++ r -> In (p, c) beginnings.
Proof.
  intros I E. unfold beginnings. apply in_flat_map. exists (c, n). split; [exact I|]. apply in_map_iff. exists (length p).
  cbn [fst snd]. split; [rewrite E, firstn_app, firstn_all, Nat.sub_diag, app_nil_r; reflexivity|].
  apply in_seq. rewrite E, app_length. lia.
Qed.
Lemma find_names p c : names p c -> find_long p = Some c.
Proof.
  intros ((n & r & I & E) & U). pose proof all_known as K. rewrite forallb_forall in K.
  specialize (K (p, c) (in_beginnings c n p r I E)). unfold known in K. cbn [fst snd] in K.
  destruct (find_long p) as [d|].
  - apply andb_true_iff in K. destruct K as (K & _). apply Ascii.eqb_eq in K. congruence.
  - exfalso. apply existsb_exists in K. destruct K as ([c' n'] & I' & K). cbn [fst snd] in K. apply andb_true_iff in K. destruct K as (K1 & K2).
    apply prefix_spec in K1. destruct K1 as (r' & E'). rewrite (U c' n' r' I' E'), Ascii.eqb_refl in K2. discriminate.
Qed.
Lemma found_names p c : find_long p = Some c -> names p c.
Proof.
  intros F.
  assert (X : exists n r, In (c, n) options /\ txt n = p ++ r).
  { unfold find_long in F. rewrite tables in F. destruct (find _ _) as [x|] eqn:E.
    - injection F as <-. apply find_some in E. destruct E as (I & S). apply in_map_iff in I. destruct I as ([c n] & <- & I).
      cbn [fst snd] in *. apply same_spec in S. exists n, []. split; [exact I|]. rewrite app_nil_r. exact S.
    - destruct (filter _ _) as [|x [|y l]] eqn:G; [discriminate| |discriminate]. injection F as <-.
      assert (I : In x [x]) by (left; reflexivity). rewrite <- G in I. apply filter_In in I. destruct I as (I & S).
      apply in_map_iff in I. destruct I as ([c n] & <- & I). cbn [fst snd] in *. apply prefix_spec in S. destruct S as (r & S).
      exists n, r. split; [exact I|exact S]. }
  split; [exact X|]. destruct X as (n & r & I & E). pose proof all_known as K. rewrite forallb_forall in K.
  specialize (K (p, c) (in_beginnings c n p r I E)). unfold known in K. cbn [fst snd] in K. rewrite F in K.
  apply andb_true_iff in K. destruct K as (_ & K). rewrite forallb_forall in K. intros c' n' r' I' E'. specialize (K (c', n') I').
  cbn [fst snd] in K. apply orb_true_iff in K. destruct K as [K|K]; [|apply Ascii.eqb_eq; exact K].
  exfalso. apply negb_true_iff in K. assert (Q : is_prefix p (txt n') = true) by (apply prefix_spec; exists r'; exact E'). congruence.
Qed.
Lemma names_plain p c : names p c -> p <> [] /\ ~ In "="%char p.
Proof.
  intros ((n & r & I & E) & U). split.
  - intros ->. assert (T : "t"%char = c) by (apply (U "t"%char "trainset"%string (txt "trainset")); [left; reflexivity|reflexivity]).
    assert (V : "v"%char = c) by (apply (U "v"%char "verificationset"%string (txt "verificationset")); [right; left; reflexivity|reflexivity]). congruence.
  - intros Q. assert (X : In "="%char (txt n)) by (rewrite E; apply in_or_app; left; exact Q).
    clear -I X. unfold options in I. cbn in I. repeat (destruct I as [I|I]; [injection I as <- <-; cbn in X; repeat (destruct X as [X|X]; [discriminate|]); destruct X|]). destruct I.
Qed.
Lemma split_plain p : ~ In "="%char p -> split_eq p = (p, None).
Proof.
  induction p as [|c p IH]; intros N; [reflexivity|]. cbn [split_eq]. destruct (Ascii.eqb_spec c "=") as [-> |NE]; [exfalso; apply N; left; reflexivity|].
  rewrite IH; [reflexivity|]. intros Q. apply N. right. exact Q.
Qed.
Lemma split_value p v : ~ In "="%char p -> split_eq (p ++ "="%char :: v) = (p, Some v).
Proof.
  induction p as [|c p IH]; intros N; [reflexivity|]. cbn [split_eq app]. destruct (Ascii.eqb_spec c "=") as [-> |NE]; [exfalso; apply N; left; reflexivity|].
  rewrite IH; [reflexivity|]. intros Q. apply N. right. exact Q.
Qed.

(** ** letters *)
Lemma find_short_spec c : find_short c = true <-> In c letters.
Proof.
  split.
  - destruct c as [[] [] [] [] [] [] [] []]; vm_compute; intros; try discriminate; tauto.
  - intros I. unfold letters in I. cbn in I. repeat (destruct I as [<-|I]; [reflexivity|]). destruct I.
Qed.
Lemma letter_not_dash c : In c letters -> Ascii.eqb c "-" = false.
Proof. intros I. cbn in I. repeat (destruct I as [<-|I]; [reflexivity|]). destruct I. Qed.

(** ** what getopt returns *)
Definition opts (ps : list (ascii * word)) : list event := map (fun p => Opt (fst p) (snd p)) ps.
Lemma getopt_writes c v ws l : writes c v ws -> getopt (ws ++ l) = Opt c v :: getopt l.
Proof.
  intros W. destruct W as [c v I|c x v I|c p v N|c p v N].
  - cbn [app getopt]. cbn [Ascii.eqb Bool.eqb negb]. rewrite (letter_not_dash c I). apply find_short_spec in I. rewrite I. reflexivity.
  - cbn [app getopt]. cbn [Ascii.eqb Bool.eqb negb]. rewrite (letter_not_dash c I). apply find_short_spec in I. rewrite I. reflexivity.
  - destruct (names_plain p c N) as (NE & NQ). destruct p as [|x p]; [congruence|]. cbn [txt list_ascii_of_string app getopt]. cbn [Ascii.eqb Bool.eqb negb].
    rewrite (split_plain _ NQ), (find_names _ _ N). reflexivity.
  - destruct (names_plain p c N) as (NE & NQ). destruct p as [|x p]; [congruence|]. cbn [txt list_ascii_of_string app getopt]. cbn [Ascii.eqb Bool.eqb negb].
    change (x :: p ++ "="%char :: v) with ((x :: p) ++ "="%char :: v). rewrite (split_value _ _ NQ), (find_names _ _ N). reflexivity.
Qed.
Lemma getopt_line tail ps argv : command_line tail ps argv -> getopt argv = opts ps ++ getopt tail.
Proof.
  induction 1 as [|c v ws ps l W C IH|w ps l N C IH]; [reflexivity| |].
  - rewrite (getopt_writes c v ws l W), IH. reflexivity.
  - destruct w as [|a [|b w]]; cbn [getopt]; [exact IH..|]. destruct N as [N|N]; [|discriminate].
    destruct (Ascii.eqb_spec a "-") as [-> |NE]; [exfalso; exact (N _ eq_refl)|exact IH].
Qed.
Lemma getopt_finished tail : finished tail -> getopt tail = [].
Proof. intros [-> |(rest & ->)]; reflexivity. Qed.
Lemma getopt_rejected tail : rejected tail -> getopt tail = [Ques].
Proof.
  intros R. destruct R as [c s rest NI ND|p s rest NN NQ S|c I|c p N].
  - cbn [getopt]. cbn [Ascii.eqb Bool.eqb negb]. apply Ascii.eqb_neq in ND. rewrite ND.
    destruct (find_short c) eqn:E; [apply find_short_spec in E; contradiction|reflexivity].
  - assert (F : find_long p = None). { destruct (find_long p) as [c|] eqn:E; [|reflexivity]. exfalso. exact (NN c (found_names p c E)). }
    destruct S as [(NE & ->)|(v & ->)].
    + destruct p as [|x p]; [congruence|]. rewrite app_nil_r. cbn [txt list_ascii_of_string app getopt]. cbn [Ascii.eqb Bool.eqb negb].
      rewrite (split_plain _ NQ), F. reflexivity.
    + pose proof (split_value p v NQ) as SV. cbn [txt list_ascii_of_string app getopt]. cbn [Ascii.eqb Bool.eqb negb].
      rewrite SV, F. destruct p; reflexivity.
  - cbn [getopt]. cbn [Ascii.eqb Bool.eqb negb]. rewrite (letter_not_dash c I). apply find_short_spec in I. rewrite I. reflexivity.
  - destruct (names_plain p c N) as (NE & NQ). destruct p as [|x p]; [congruence|]. cbn [txt list_ascii_of_string app getopt]. cbn [Ascii.eqb Bool.eqb negb].
    rewrite (split_plain _ NQ), (find_names _ _ N). reflexivity.
Qed.

(** ** numbers *)
Lemma to_int_ok z : is_int z -> to_int z = Ok z.
Proof. intros (H1 & H2). unfold to_int. apply Z.leb_le in H1, H2. rewrite H1, H2. reflexivity. Qed.
Lemma parse_all : forall s acc v, digits_value acc s = Some v -> parse acc s = v.
Proof.
  induction s as [|c s IH]; intros acc v H; [simpl in *; congruence|].
  cbn [parse]. cbn [digits_value] in H. cbv zeta in H. unfold digit_of. cbv zeta.
  destruct ((48 <=? nat_of_ascii c) && (nat_of_ascii c <=? 57)) eqn:E; [|discriminate].
  apply IH. rewrite <- H. f_equal. apply andb_prop in E. destruct E as [E _]. apply Nat.leb_le in E. lia.
Qed.
Lemma atoi_exact z num : is_int z -> numeral z num -> atoi num = Ok z.
Proof.
  intros HZ [(Hz & NE & V)|(Hz & s & -> & NE & V)]; unfold atoi.
  - destruct num as [|c num]; [congruence|]. destruct (digit_not c (value_digit _ _ _ _ V)) as (S1 & S2 & S3).
    cbn [skip_space]. rewrite S1, S2, S3, (parse_all _ _ _ V). apply to_int_ok. exact HZ.
  - cbn [skip_space]. change (is_space "-") with false. cbv iota. change (Ascii.eqb "-" "-") with true. cbv iota.
    rewrite (parse_all _ _ _ V), Z.opp_involutive. apply to_int_ok. exact HZ.
Qed.
Lemma digits_take : forall s acc v r, digits_value acc s = Some v -> (match r with c :: _ => is_digit c = false | [] => True end) -> take_digits (s ++ r) = s.
Proof.
  induction s as [|c s IH]; intros acc v r H R.
  - destruct r as [|c r]; [reflexivity|]. cbn [app take_digits]. unfold is_digit in R. cbv zeta in R. unfold digit_of. cbv zeta. rewrite R. reflexivity.
  - pose proof (value_digit _ _ _ _ H) as D. cbn [app take_digits]. unfold is_digit in D. cbv zeta in D. unfold digit_of. cbv zeta. rewrite D.
    f_equal. cbn [digits_value] in H. cbv zeta in H. rewrite D in H. eapply IH; eassumption.
Qed.
Lemma scan_numeral z num r : is_int z -> numeral z num -> (match r with c :: _ => is_digit c = false | [] => True end) ->
  scan_int (num ++ r) = Some (Ok z, r).
Proof.
  intros HZ [(Hz & NE & V)|(Hz & s & -> & NE & V)] R; unfold scan_int.
  - destruct num as [|c num]; [congruence|]. destruct (digit_not c (value_digit _ _ _ _ V)) as (S1 & S2 & S3).
    cbn [app skip_space]. rewrite S1, S2, S3. change (c :: num ++ r) with ((c :: num) ++ r). rewrite (digits_take _ _ _ _ V R).
    rewrite (parse_all _ _ _ V), Z.mul_1_l, (to_int_ok _ HZ), skipn_app, skipn_all, Nat.sub_diag. reflexivity.
  - cbn [app skip_space]. change (is_space "-") with false. cbv iota. change (Ascii.eqb "-" "-") with true. cbv iota.
    rewrite (digits_take _ _ _ _ V R). destruct s as [|c s]; [congruence|].
    rewrite (parse_all _ _ _ V). replace (-1 * - z)%Z with z by lia. rewrite (to_int_ok _ HZ), skipn_app, skipn_all, Nat.sub_diag. reflexivity.
Qed.
Lemma scan3_triple v a b c : triple v a b c -> scan3 v = Ok [a; b; c].
Proof.
  intros (x & y & z & -> & X & Y & Z & IA & IB & IC). unfold scan3. rewrite (scan_numeral a x _ IA X) by reflexivity. cbn [rbind comma Ascii.eqb Bool.eqb].
  rewrite (scan_numeral b y _ IB Y) by reflexivity. cbn [rbind comma Ascii.eqb Bool.eqb].
  rewrite <- (app_nil_r z), (scan_numeral c z [] IC Z I). reflexivity.
Qed.

(** ** the variables *)
Section Vars.
  Variable lm : libm.
  Variable strtof : bytes -> b32.
  Definition or_else {A} (x y : option A) : option A := match x with Some _ => x | None => y end.

  (** o' is o after the options ps *)
  Definition after (o : topts) (ps : list (ascii * word)) (o' : topts) : Prop :=
    to_train o' = or_else (last_value "t" ps) (to_train o) /\ to_verif o' = or_else (last_value "v" ps) (to_verif o)
    /\ to_net o' = or_else (last_value "n" ps) (to_net o) /\ to_loss o' = or_else (last_value "l" ps) (to_loss o)
    /\ to_metrics o' = or_else (last_value "m" ps) (to_metrics o)
    /\ to_optimizer o' = match last_value "o" ps with Some v => v | None => to_optimizer o end
    /\ to_lr o' = match last_value "a" ps with Some v => strtof v | None => to_lr o end
    /\ match last_value "b" ps with Some v => numeral (to_batch o') v /\ is_int (to_batch o') | None => to_batch o' = to_batch o end
    /\ to_log o' = or_else (last_value "q" ps) (to_log o)
    /\ match last_value "e" ps with
       | Some v => exists a b, to_patience o' = Some a /\ to_es_idx o' = Some b /\ triple v a b (to_greater o')
       | None => to_patience o' = to_patience o /\ to_es_idx o' = to_es_idx o /\ to_greater o' = to_greater o
       end.
  Lemma set_opts_app es1 es2 : forall o, set_opts strtof o (es1 ++ es2) =
    rbind (set_opts strtof o es1) (fun r => match r with inl o => set_opts strtof o es2 | inr z => Ok (inr z) end).
  Proof.
    induction es1 as [|e es1 IH]; intros o; [reflexivity|]. cbn [app set_opts]. destruct (set_opt strtof o e) as [[o'|z]|f]; cbn [rbind]; [apply IH|reflexivity..].
  Qed.
  Lemma set_opts_after ps : Forall (fun p => In (fst p) (map fst options) /\ fst p <> "s"%char /\ sensible p) ps ->
    forall o, exists o', set_opts strtof o (opts ps) = Ok (inl o') /\ after o ps o'.
  Proof.
    induction ps as [|[c v] ps IH]; intros F o.
    - exists o. split; [reflexivity|]. unfold after. cbn [last_value or_else]. repeat split.
    - destruct (Forall_inv F) as (I & NS & SB & SE). cbn [fst snd] in *. specialize (IH (Forall_inv_tail F)).
      cbn [opts map set_opts fst snd]. change (map (fun p => Opt (fst p) (snd p)) ps) with (opts ps).
      destruct o as [tr ve ne lo me op lr ba lg pa ei gr].
      assert (ST : exists o1, set_opt strtof (mk_topts tr ve ne lo me op lr ba lg pa ei gr) (Opt c v) = Ok (inl o1)
                   /\ after (mk_topts tr ve ne lo me op lr ba lg pa ei gr) [(c, v)] o1).
      { unfold options in I. cbn in I. clear IH F.
        repeat (destruct I as [<-|I];
          [try (eexists; split; [reflexivity|]; unfold after; cbn; repeat split; reflexivity)|]).
        - destruct (SB eq_refl) as (z & NZ & IZ). cbn [set_opt Ascii.eqb Bool.eqb]. rewrite (atoi_exact z v IZ NZ). cbn [rbind].
          eexists. split; [reflexivity|]. unfold after. cbn. repeat split; try assumption; apply IZ.
        - destruct (SE eq_refl) as (a & b & d & T). cbn [set_opt Ascii.eqb Bool.eqb]. rewrite (scan3_triple v a b d T). cbn [rbind store3].
          eexists. split; [reflexivity|]. unfold after. cbn. repeat split. exists a, b. repeat split. exact T.
        - congruence.
        - destruct I. }
      destruct ST as (o1 & E1 & A1). rewrite E1. cbn [rbind]. destruct (IH o1) as (o2 & E2 & A2). exists o2. split; [exact E2|].
      set (o := mk_topts tr ve ne lo me op lr ba lg pa ei gr) in *. clearbody o. clear -A1 A2.
      unfold after in *. cbn [last_value] in *.
      destruct A1 as (B1 & B2 & B3 & B4 & B5 & B6 & B7 & B8 & B9 & B10). destruct A2 as (C1 & C2 & C3 & C4 & C5 & C6 & C7 & C8 & C9 & C10).
      repeat split.
      + rewrite C1, B1. destruct (last_value "t" ps); reflexivity.
      + rewrite C2, B2. destruct (last_value "v" ps); reflexivity.
      + rewrite C3, B3. destruct (last_value "n" ps); reflexivity.
      + rewrite C4, B4. destruct (last_value "l" ps); reflexivity.
      + rewrite C5, B5. destruct (last_value "m" ps); reflexivity.
      + rewrite C6. destruct (last_value "o" ps); [reflexivity|exact B6].
      + rewrite C7. destruct (last_value "a" ps); [reflexivity|exact B7].
      + destruct (last_value "b" ps); [exact C8|]. destruct (ascii_dec c "b"); rewrite C8; exact B8.
      + rewrite C9, B9. destruct (last_value "q" ps); reflexivity.
      + destruct (last_value "e" ps); [exact C10|]. destruct C10 as (-> & -> & ->). exact B10.
  Qed.
End Vars.

(** ** the main loop *)
Lemma last_shift {A} (l : list A) : forall a d, last (a :: l) d = last l a.
Proof. induction l as [|b l IH]; intros a d; [reflexivity|]. change (last (a :: b :: l) d) with (last (b :: l) d). rewrite !IH. reflexivity. Qed.
Section Loop.
  Variable lm : libm.
  Notation OP := (opsB32 lm).
  Context {Net FS : Type}.
  Variable save : Net -> string -> FS -> FS.
  Variable fmt_e : b32 -> bytes.
  Variable time : nat -> nat * nat * nat.
  Variable log_opens : nat -> bool.
  Notation run_callbacks := (run_callbacks lm save fmt_e time log_opens).
  Notation main_loop := (main_loop lm save fmt_e time log_opens).

  (** the early stopping callback before epoch i: it cannot have stopped the training *)
  Definition es_quiet (i : nat) (t : @cbs FS) : Prop :=
    match cb_es t with None => True | Some es => es_patience es = 10%Z /\ es_flag es = false /\ (es_since (cb_est t) <= Z.of_nat i)%Z end.
  (** the calls of the logger, from epoch i on *)
  Fixpoint log_runs (i : nat) (l : logger) (ms : list metric) (es : list (Net * list b32 * list b32)) (file : option bytes) : res (logger * option bytes) :=
    match es with
    | [] => Ok (l, file)
    | e :: es => let '(hh, mm, ss) := time i in
        rbind (@logger_run OP fmt_e l ms hh mm ss (snd (fst e) ++ snd e) true file (log_opens i)) (fun r => log_runs (S i) (fst r) ms es (snd r))
    end.
  Definition seen (e : Net * list b32 * list b32) : Net * (list b32 * bool) := (fst (fst e), (snd (fst e) ++ snd e, true)).

  Lemma run_inv i nn ms r t t' : run_callbacks i nn ms r t = Ok t' ->
    (cb_mcp t' = cb_mcp t /\ forall cb, cb_mcp t = Some cb -> mcp_run save cb (cb_best t) (cb_fs t) nn (length ms) r true = Ok (cb_best t', cb_fs t'))
    /\ (cb_mcp t = None -> cb_best t' = cb_best t /\ cb_fs t' = cb_fs t)
    /\ (forall l, cb_log t = Some l -> exists l', cb_log t' = Some l' /\
          (let '(hh, mm, ss) := time i in @logger_run OP fmt_e l ms hh mm ss r true (cb_file t) (log_opens i)) = Ok (l', cb_file t'))
    /\ (cb_log t = None -> cb_log t' = None /\ cb_file t' = cb_file t)
    /\ (forall es, cb_es t = Some es -> exists es', cb_es t' = Some es' /\ es_run es (cb_est t) (length ms) r true = Ok (es', cb_est t'))
    /\ (cb_es t = None -> cb_es t' = None).
  Proof.
    intros E. destruct t as [mcp best fs log file es est]. unfold Trainer.run_callbacks in E. cbn [cb_mcp cb_best cb_fs cb_log cb_file cb_es cb_est] in *.
    match type of E with rbind ?X _ = _ => destruct X as [[b fs1]|] eqn:E1; [|discriminate] end. cbn [rbind] in E.
    match type of E with rbind ?X _ = _ => destruct X as [[l1 f1]|] eqn:E2; [|discriminate] end. cbn [rbind] in E.
    match type of E with rbind ?X _ = _ => destruct X as [[e1 s1]|] eqn:E3; [|discriminate] end. cbn [rbind] in E.
    injection E as <-. cbn [cb_mcp cb_best cb_fs cb_log cb_file cb_es cb_est fst snd].
    split; [split; [reflexivity|intros cb ->; exact E1]|]. split; [intros ->; injection E1 as <- <-; split; reflexivity|].
    split; [|split; [intros ->; injection E2 as <- <-; split; reflexivity|split]].
    - intros l ->. destruct (time i) as [[hh mm] ss].
      match type of E2 with rbind ?X _ = _ => destruct X as [[l' f']|] eqn:E4; [|discriminate] end. cbn [rbind fst snd] in E2. injection E2 as <- <-.
      exists l'. split; reflexivity.
    - intros es' ->. match type of E3 with rbind ?X _ = _ => destruct X as [[e' s']|] eqn:E4; [|discriminate] end. cbn [rbind fst snd] in E3.
      injection E3 as <- <-. exists e'. split; reflexivity.
    - intros ->. injection E3 as <- <-. reflexivity.
  Qed.
  Lemma quiet_step i nn ms r t t' : es_quiet i t -> i < 10 -> run_callbacks i nn ms r t = Ok t' ->
    es_quiet (S i) t' /\ es_do_stop (cb_es t') = false.
  Proof.
    intros Q LI E. destruct (run_inv _ _ _ _ _ _ E) as (_ & _ & _ & _ & ES & EN). unfold es_quiet in *.
    destruct (cb_es t) as [es|]; [|rewrite (EN eq_refl); split; [exact I|reflexivity]].
    destruct (ES es eq_refl) as (es' & -> & R). destruct Q as (P & F & S). unfold es_run in R.
    match type of R with rbind ?X _ = _ => destruct X as [x|]; [|discriminate] end. cbn [rbind] in R.
    destruct (improved _ _ _).
    - injection R as <- <-. cbn [es_since es_do_stop]. repeat split; try assumption. lia.
    - destruct (_ =? _)%Z; [discriminate|]. rewrite P in R.
      destruct (Z.ltb_spec 10 (es_since (cb_est t) + 1)) as [L|L]; [lia|]. injection R as <- <-. cbn [es_since es_do_stop]. repeat split; try assumption. lia.
  Qed.

  Lemma loop_inv epoch ms : forall k i nn t nn' t' n, es_quiet i t -> i + k <= 10 ->
    main_loop epoch true k i nn ms t = Ok (nn', t', n) ->
    n = i + k /\ exists es, length es = k /\ follows epoch nn es /\ nn' = final nn es
      /\ (forall cb, cb_mcp t = Some cb -> mcp_runs save cb (cb_best t) (cb_fs t) (length ms) (map seen es) = Ok (cb_best t', cb_fs t'))
      /\ (forall l, cb_log t = Some l -> exists l', log_runs i l ms es (cb_file t) = Ok (l', cb_file t'))
      /\ (cb_log t = None -> cb_file t' = cb_file t).
  Proof.
    induction k as [|k IH]; intros i nn t nn' t' n Q L E; cbn [Trainer.main_loop] in E.
    - injection E as <- <- <-. split; [lia|]. exists []. repeat split.
      intros l Hl. exists l. reflexivity.
    - destruct (epoch nn) as [[[nn1 tr] va]|] eqn:EP; [|discriminate]. cbn [rbind negb] in E.
      destruct (run_callbacks i nn1 ms (tr ++ va) t) as [t1|] eqn:ER; [|discriminate]. cbn [rbind] in E.
      destruct (quiet_step _ _ _ _ _ _ Q ltac:(lia) ER) as (Q1 & S1). rewrite S1 in E.
      destruct (IH (S i) nn1 t1 nn' t' n Q1 ltac:(lia) E) as (-> & es & LE & FO & FI & MC & LO & LN).
      destruct (run_inv _ _ _ _ _ _ ER) as ((M0 & M1) & _ & L1 & L2 & _ & _).
      split; [lia|]. exists ((nn1, tr, va) :: es). split; [cbn; lia|]. split; [split; assumption|]. split.
      { rewrite FI. unfold final. cbn [map fst]. rewrite last_shift. reflexivity. }
      split; [|split].
      + intros cb Hcb. cbn [map seen fst snd mcp_runs]. rewrite (M1 cb Hcb). cbn [rbind fst snd]. apply MC. congruence.
      + intros l Hl. destruct (L1 l Hl) as (l1 & H1 & R1). destruct (LO l1 H1) as (l' & R2). exists l'. cbn [log_runs fst snd].
        destruct (time i) as [[hh mm] ss]. rewrite R1. cbn [rbind fst snd]. exact R2.
      + intros Hl. destruct (L2 Hl) as (H1 & H2). rewrite (LN H1). exact H2.
  Qed.
End Loop.
