(** Prop_Logger.v -- C38 and C39: the log file. *)
From Coq Require Import ZArith Bool String Ascii List Lia.
From Verif Require Import Base BaseProofs Ops Loss Names Logger SpecLog LoggerProofs Ex_Mem.
Import ListNotations.
Local Open Scope nat_scope.

(** ** C38 *)

(** A new logger on a file that ends with a log line for epoch e, preceded by a newline, continues with e + 1. *)
Theorem logger_resumes_partial : forall pre e line,
  Forall (fun c => c <> "000"%char) pre -> log_entry e line -> length line <= 254 ->
  (-2147483648 <= e < 2147483647)%Z ->
  logger_new 0 true (Some (pre ++ newline :: line)) true = Ok (mk_logger (e + 1) true).
Proof.
  intros pre e line HP HE HL HR. unfold logger_new, find_last_epoch. cbn [lg_epoch lg_filename Z.eqb andb].
  pose proof (scan_entry 0 pre e line HP HE ltac:(unfold max_buffer; lia) HR) as S. unfold nl in S.
  change (ascii_of_nat 10) with newline in S. rewrite S. reflexivity.
Qed.
Print Assumptions logger_resumes_partial.

(** A log file as the logger writes it: start with any file f0 that is missing or complete lines, log any number
    of epochs; a new logger continues where the old one stopped -- provided the file has two lines or more. *)
Theorem logger_resumes_runs_partial : forall {FO : fops} (fmt_e : F -> bytes) log metrics epochs f0 log' f',
  (forall x, Forall inline (fmt_e x)) ->
  (-2147483648 <= lg_epoch log)%Z -> lg_filename log = true ->
  Forall (fun c => c <> "000"%char) (match f0 with Some f => f | None => [] end) ->
  epochs <> [] -> (2 <= length epochs \/ exists p, f0 = Some (p ++ [newline])) ->
  logger_runs fmt_e log metrics epochs f0 = Ok (log', Some f') ->
  logger_new 0 true (Some f') true = Ok (mk_logger (lg_epoch log') true)
  /\ lg_epoch log' = (lg_epoch log + Z.of_nat (length epochs))%Z.
Proof.
  intros FO fmt_e log metrics epochs f0 log' f' HE HI HF NF NE H2 E.
  destruct (runs_append fmt_e HE metrics epochs log f0 log' (Some f') HI HF E) as (A & B & C & D).
  split; [|exact A]. destruct epochs as [|e0 es]; [congruence|].
  destruct (D e0 es eq_refl) as (pre & line & Ef & EN & LL & LE & NP & P1 & P2).
  assert (Ef' := f_equal (fun o => match o with Some x => x | None => [] end) Ef). cbv beta iota in Ef'. clear Ef.
  assert (Q : exists p, match f0 with Some f => f | None => [] end ++ pre = p ++ [newline] /\ Forall (fun c => c <> nul) p).
  { destruct es as [|e1 es].
    - destruct H2 as [H2|(p & ->)]; [simpl in H2; lia|]. rewrite (P2 eq_refl), app_nil_r. exists p. split; [reflexivity|].
      apply Forall_app in NF. exact (proj1 NF).
    - destruct (P1 ltac:(discriminate)) as (q & ->). eexists. split; [rewrite app_assoc; reflexivity|].
      apply Forall_app. split; [exact NF|]. apply Forall_app in NP. exact (proj1 NP). }
  destruct Q as (p & Q & NQ).
  assert (EF : f' = p ++ newline :: line).
  { rewrite Ef', app_assoc. etransitivity; [exact (f_equal (fun z => z ++ line) Q)|]. rewrite <- app_assoc. reflexivity. }
  clear Ef'. subst f'.
  assert (LB : (-2147483648 <= lg_epoch log' - 1)%Z).
  { rewrite A. simpl length. lia. }
  etransitivity; [exact (logger_resumes_partial p (lg_epoch log' - 1) line NQ EN ltac:(unfold max_buffer in LL; lia) ltac:(lia))|].
  f_equal. f_equal. lia.
Qed.
Print Assumptions logger_resumes_runs_partial.

(** as stated the property is false: after one logged epoch a new logger starts again at 0 *)
Definition fmt_zero (_ : Z) : bytes := chars "0.00000e+00".

Theorem logger_resumes_refuted : exists log metrics epochs log' f',
  lg_epoch log = 0%Z /\ length epochs = 1
  /\ logger_runs (FO := opsZ) fmt_zero log metrics epochs None = Ok (log', Some f')
  /\ lg_epoch log' = 1%Z
  /\ logger_new 0 true (Some f') true = Ok (mk_logger 0 true).
Proof.
  exists (mk_logger 0 true), [M_MSE], [(12, 34, 56, [0%Z], false)], (mk_logger 1 true),
    (chars "[12:34:56] Epoch   0 mean_squared_error: 0.00000e+00 " ++ [nl]).
  repeat split; vm_compute; reflexivity.
Qed.
Print Assumptions logger_resumes_refuted.

(** an existing file without any content is read before its start *)
Theorem logger_empty_file_refuted : logger_new 0 true (Some []) true = Fault OutOfBounds.
Proof. reflexivity. Qed.
Print Assumptions logger_empty_file_refuted.

(** with an epoch number in the settings, without a file name or without a file the count is not changed *)
Theorem logger_no_resume : forall e fn file ok,
  e <> 0%Z \/ fn = false \/ file = None -> logger_new e fn file ok = Ok (mk_logger e fn).
Proof.
  intros e fn file ok H. unfold logger_new, find_last_epoch. cbn [lg_epoch lg_filename].
  destruct H as [H|[-> | -> ]].
  - apply Z.eqb_neq in H. rewrite H. reflexivity.
  - rewrite andb_false_r. reflexivity.
  - destruct (_ && _); reflexivity.
Qed.
Print Assumptions logger_no_resume.

Example logger_resumes_case :
  let run := logger_runs (FO := opsZ) fmt_zero (mk_logger 998 true) [M_MSE; M_CatAcc]
               [(1, 2, 3, [0; 0; 0; 0]%Z, true); (23, 59, 60, [0; 0; 0; 0]%Z, true)] None in
  exists f, run = Ok (mk_logger 1000 true, Some f) /\ length f = 324
    /\ logger_new 0 true (Some f) true = Ok (mk_logger 1000 true).
Proof.
  cbv zeta. eexists. split; [vm_compute; reflexivity|]. split; vm_compute; reflexivity.
Qed.

(** ** C39 *)

Definition text_pairs {V} (fmt_e : V -> bytes) (metrics : list metric) (vals : list V) : list (string * list ascii) :=
  combine (map get_metric_name metrics) (map fmt_e vals).

(** the line is written if it has at most 254 characters; with 255 characters the assertion fails; with more
    the buffer is overrun *)
Theorem logger_line_exact : forall {FO : fops} (fmt_e : F -> bytes) log metrics h m s train valid (v : bool) file ok,
  h < 100 -> m < 100 -> s < 100 -> (-2147483648 <= lg_epoch log < 2147483647)%Z ->
  length train = length metrics -> length valid = (if v then length metrics else 0) ->
  exists hh mm ss ep,
    padded 2 "0" (Z.of_nat h) hh /\ padded 2 "0" (Z.of_nat m) mm /\ padded 2 "0" (Z.of_nat s) ss
    /\ padded 3 " " (lg_epoch log) ep
    /\ length hh = 2 /\ length mm = 2 /\ length ss = 2 /\ length ep <= 11
    /\ let line := line_text hh mm ss ep (text_pairs fmt_e metrics train) (text_pairs fmt_e metrics valid) in
       logger_run fmt_e log metrics h m s (train ++ valid) v file ok
       = if length line <=? 254 then
           Ok (mk_logger (lg_epoch log + 1) (lg_filename log),
               if lg_filename log && ok then Some (match file with Some f => f | None => [] end ++ line) else file)
         else if length line =? 255 then Fault AssertFailed else Fault OutOfBounds.
Proof.
  intros FO fmt_e log metrics h m s train valid v file ok Hh Hm Hs He LT LV.
  assert (PD : forall n, n < 100 -> padded 2 "0" (Z.of_nat n) (fmt_02d n)).
  { intros n Hn. exists (fmt_d (Z.of_nat n)). split; [apply fmt_d_numeral; lia|reflexivity]. }
  exists (fmt_02d h), (fmt_02d m), (fmt_02d s), (fmt_3d (lg_epoch log)).
  split; [exact (PD h Hh)|]. split; [exact (PD m Hm)|]. split; [exact (PD s Hs)|].
  split; [exists (fmt_d (lg_epoch log)); split; [apply fmt_d_numeral; lia|reflexivity]|].
  pose proof (fmt_02d_len h Hh) as Lh. pose proof (fmt_02d_len m Hm) as Lm. pose proof (fmt_02d_len s Hs) as Ls.
  pose proof (fmt_3d_len (lg_epoch log) ltac:(lia)) as Le.
  split; [exact Lh|]. split; [exact Lm|]. split; [exact Ls|]. split; [exact Le|]. cbv zeta.
  unfold logger_run.
  set (a := chars "[" ++ _). set (b := chars "Epoch" ++ _).
  assert (La : length a = 11).
  { unfold a. rewrite !app_length, Lh, Lm, Ls. reflexivity. }
  assert (Lb : length b <= 18).
  { unfold b. rewrite !app_length. change (length (chars "Epoch")) with 5. change (length (chars " ")) with 1. lia. }
  rewrite put_if. cbn [length app Nat.add]. replace (length a <=? 255) with true by (symmetry; apply Nat.leb_le; lia). cbn [rbind].
  rewrite put_if. replace (_ <=? 255) with true by (symmetry; apply Nat.leb_le; lia). cbn [rbind].
  unfold to_int. replace ((_ <=? _)%Z && (_ <=? _)%Z) with true.
  2:{ symmetry. apply andb_true_intro. split; apply Z.leb_le; lia. }
  cbn [rbind].
  set (t1 := concat (map (result_text "") (text_pairs fmt_e metrics train))).
  set (t2 := concat (map (result_text "val_") (text_pairs fmt_e metrics valid))).
  assert (EL : line_text (fmt_02d h) (fmt_02d m) (fmt_02d s) (fmt_3d (lg_epoch log)) (text_pairs fmt_e metrics train)
                 (text_pairs fmt_e metrics valid) = (((a ++ b) ++ t1) ++ t2) ++ [nl]).
  { unfold line_text. fold t1. fold t2. unfold a, b. rewrite <- !app_assoc. cbn [app chars txt list_ascii_of_string]. reflexivity. }
  rewrite EL. clear EL.
  assert (P1 := put_metrics_exact fmt_e 0 metrics train (a ++ b) (train ++ valid) 0 LT
    (fun i Hi => nth_error_app1 train valid Hi) ltac:(rewrite app_length; lia)).
  cbv zeta in P1. cbn [Nat.eqb] in P1. fold (text_pairs fmt_e metrics train) in P1. fold t1 in P1. rewrite P1. clear P1.
  rewrite !app_length. cbn [length].
  destruct (length a + length b + length t1 <=? 255) eqn:E1.
  2:{ apply Nat.leb_gt in E1. cbn [rbind]. destruct (Nat.leb_spec (length a + length b + length t1 + length t2 + 1) 254); [lia|].
      destruct (Nat.eqb_spec (length a + length b + length t1 + length t2 + 1) 255); [lia|reflexivity]. }
  apply Nat.leb_le in E1. cbn [rbind].
  assert (P2 : (if v then put_metrics fmt_e ((a ++ b) ++ t1) 1 metrics (train ++ valid) (length metrics) else Ok ((a ++ b) ++ t1))
             = if length a + length b + length t1 + length t2 <=? 255 then Ok (((a ++ b) ++ t1) ++ t2) else Fault OutOfBounds).
  { destruct v.
    - assert (P2 := put_metrics_exact fmt_e 1 metrics valid ((a ++ b) ++ t1) (train ++ valid) (length metrics) LV).
      cbv zeta in P2. cbn [Nat.eqb] in P2. fold (text_pairs fmt_e metrics valid) in P2. fold t2 in P2. rewrite P2.
      + rewrite !app_length. reflexivity.
      + intros i Hi. rewrite nth_error_app2 by lia. f_equal. lia.
      + rewrite !app_length. lia.
    - destruct valid; [|discriminate]. assert (t2 = []) as ->. { unfold t2, text_pairs. destruct (map get_metric_name metrics); reflexivity. }
      rewrite app_nil_r. cbn [length]. rewrite Nat.add_0_r. apply Nat.leb_le in E1. rewrite E1. reflexivity. }
  match goal with |- context[rbind (if v then ?x else ?y) _] => replace (if v then x else y) with
     (if length a + length b + length t1 + length t2 <=? 255 then Ok ((((a ++ b) ++ t1) ++ t2) : bytes) else Fault OutOfBounds) by (symmetry; exact P2) end.
  destruct (length a + length b + length t1 + length t2 <=? 255) eqn:E2.
  2:{ apply Nat.leb_gt in E2. cbn [rbind]. destruct (Nat.leb_spec (length a + length b + length t1 + length t2 + 1) 254); [lia|].
      destruct (Nat.eqb_spec (length a + length b + length t1 + length t2 + 1) 255); [lia|reflexivity]. }
  apply Nat.leb_le in E2. cbn [rbind]. rewrite put_if. rewrite !app_length. cbn [length].
  destruct (Nat.leb_spec (length a + length b + length t1 + length t2 + 1) 255) as [L3|L3]; cbn [rbind].
  - rewrite !app_length. cbn [length]. unfold max_buffer.
    destruct (Nat.leb_spec (length a + length b + length t1 + length t2 + 1) 254) as [L4|L4];
      destruct (Nat.ltb_spec (length a + length b + length t1 + length t2 + 1) 255) as [L5|L5]; try lia; [reflexivity|].
    destruct (Nat.eqb_spec (length a + length b + length t1 + length t2 + 1) 255); [reflexivity|lia].
  - destruct (Nat.leb_spec (length a + length b + length t1 + length t2 + 1) 254); [lia|].
    destruct (Nat.eqb_spec (length a + length b + length t1 + length t2 + 1) 255); [lia|reflexivity].
Qed.
Print Assumptions logger_line_exact.

(** refuted: three metrics with validation are enough to write past the end of the buffer *)
Theorem logger_overrun_refuted : exists metrics results,
  length metrics = 3 /\ length results = 6
  /\ logger_run (FO := opsZ) fmt_zero (mk_logger 0 true) metrics 12 34 56 results true None true = Fault OutOfBounds.
Proof.
  exists [M_MAPE; M_MSE; M_CCE], (repeat 0%Z 6). repeat split; vm_compute; reflexivity.
Qed.
Print Assumptions logger_overrun_refuted.

Lemma text_len {V} (fmt_e : V -> bytes) prefix : (forall x, length (fmt_e x) <= 12) -> forall metrics vals,
  length (concat (map (result_text prefix) (text_pairs fmt_e metrics vals))) <= length vals * (String.length prefix + 45).
Proof.
  intros HE. assert (TL : forall x, length (txt x) = String.length x).
  { unfold txt. induction x; simpl; congruence. }
  assert (NL : forall t, String.length (get_metric_name t) <= 30) by (destruct t; vm_compute; lia).
  induction metrics as [|t metrics IH]; intros vals; [unfold text_pairs; simpl; lia|].
  destruct vals as [|x vals]; [simpl; lia|]. unfold text_pairs in *. cbn [map combine concat length].
  rewrite app_length. specialize (IH vals). unfold result_text at 1. rewrite !app_length, !TL. cbn [fst snd].
  specialize (HE x). specialize (NL t). change (String.length ": ") with 2. change (String.length " ") with 1. lia.
Qed.

(** a line always fits, if there are at most four metrics, or at most two with a validation set *)
Theorem logger_fits_partial : forall {FO : fops} (fmt_e : F -> bytes) log metrics h m s train valid (v : bool) file ok,
  (forall x, length (fmt_e x) <= 12) ->
  h < 100 -> m < 100 -> s < 100 -> (-2147483648 <= lg_epoch log < 2147483647)%Z ->
  length train = length metrics -> length valid = (if v then length metrics else 0) ->
  length metrics <= (if v then 2 else 4) ->
  exists log' file', logger_run fmt_e log metrics h m s (train ++ valid) v file ok = Ok (log', file').
Proof.
  intros FO fmt_e log metrics h m s train valid v file ok HF Hh Hm Hs He LT LV LM.
  destruct (logger_line_exact fmt_e log metrics h m s train valid v file ok Hh Hm Hs He LT LV)
    as (hh & mm & ss & ep & _ & _ & _ & _ & Lh & Lm & Ls & Le & E). cbv zeta in E.
  set (line := line_text _ _ _ _ _ _) in E.
  assert (LL : length line <= 254).
  { unfold line, line_text. rewrite !app_length, Lh, Lm, Ls. change (length (txt "[")) with 1. change (length (txt ":")) with 1.
    change (length (txt "] Epoch ")) with 8. change (length (txt " ")) with 1. change (length [newline]) with 1.
    pose proof (text_len fmt_e "" HF metrics train) as T1. pose proof (text_len fmt_e "val_" HF metrics valid) as T2.
    change (String.length "") with 0 in T1. change (String.length "val_") with 4 in T2. destruct v; lia. }
  apply Nat.leb_le in LL. rewrite LL in E. rewrite E. eauto.
Qed.
Print Assumptions logger_fits_partial.

Example logger_fits_case :
  exists p, logger_run (FO := opsZ) fmt_zero (mk_logger 123456 true) [M_MAPE; M_MAPE] 1 2 3 ([0; 0] ++ [0; 0])%Z true None true = Ok p
    /\ option_map (@length ascii) (snd p) = Some 209.
Proof. eexists. split; vm_compute; reflexivity. Qed.
