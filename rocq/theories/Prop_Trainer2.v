(** Prop_Trainer2.v -- C92, C93, C94: which runs of the training program end normally, what they leave behind, and data files that
    do not fit. *)
From Coq Require Import ZArith Bool String Ascii List Lia.
From Flocq Require Import Core BinarySingleNaN.
From Verif Require Import Base BaseProofs Ops OpsB32 Mem Logger Npy NpyList Registry Create NetFile Loss Names Evaluate OptCreate OptInit Callbacks CbInit.
From Verif Require Import SpecLog LoggerProofs SpecNpy NpyProofs NpyProofs2 Prop_Npy Prop_Npy2 SpecList ListProofs Prop_List SpecRegistry SpecCreate CreateProofs Prop_Create
  SpecNetFile LoadProofs SaveProofs Prop_NetFile SpecNames NamesProofs Prop_Names SpecCallback CallbackProofs Prop_Callbacks Prop_Callbacks2 Prop_Logger Prop_CbInit SpecOptCreate Prop_OptCreate.
From Verif Require Import Trainer SpecTrainer TrainerProofs Prop_Trainer.
Import ListNotations.
Local Open Scope nat_scope.

Lemma product2 n a : product [n; a] = (n * a)%Z.
Proof. unfold product. cbn [fold_right]. ring. Qed.
Lemma int_small z : (0 <= z < 2147483648)%Z -> NetFile.int_of_size z = z.
Proof. intros H. unfold NetFile.int_of_size. rewrite Z.mod_small by lia. lia. Qed.

(** ** sizes of a network *)
Definition net_sizes (ds : list ndesc) : list Z := net_inputs ds :: map d_out ds.
Lemma net_steps ds : chained ds -> steps (net_sizes ds) = map (fun d => (d_in d, d_out d)) ds.
Proof.
  unfold net_sizes. destruct ds as [|d ds]; [reflexivity|]. revert d. induction ds as [|e ds IH]; intros d C; [reflexivity|].
  destruct C as (C1 & C2). specialize (IH e C2). cbn [net_inputs map steps] in *. rewrite C1. f_equal. exact IH.
Qed.
Lemma has_is_net h ds nn : network ds -> net_has h ds nn -> is_net h (net_sizes ds) nn.
Proof.
  intros (_ & DO & CH & _) (F & L1 & L2 & ND). split; [|split; [exact L1|split; [exact L2|exact ND]]].
  rewrite (net_steps ds CH). clear -F DO. induction F as [|d l ds ls H F IH]; [constructor|]. cbn [map]. constructor; [|apply IH; exact (Forall_inv_tail DO)].
  destruct (Forall_inv DO) as (_ & _ & _ & W & B). destruct H as (H1 & H2 & (a & H3 & H4) & (b & H5 & H6) & _). cbn [fst snd].
  split; [exact H1|]. split; [exact H2|]. split; [exists a, (map Some (d_w d))|exists b, (map Some (d_b d))]; rewrite map_length; repeat split; assumption.
Qed.
Lemma net_pars ds : parameters (map (fun d => (d_in d, d_out d)) ds) = net_parameters ds.
Proof. induction ds as [|d ds IH]; [reflexivity|]. cbn [map parameters net_parameters fst snd]. rewrite IH. reflexivity. Qed.
Lemma net_first h ds nn : network ds -> net_has h ds nn -> exists l ls, cn_layers nn = l :: ls /\ cl_in l = net_inputs ds /\ cl_out (last (cn_layers nn) l) = net_outputs ds.
Proof.
  intros (NE & _) (F & _). destruct F as [|d l ds ls H F]; [congruence|]. exists l, ls. split; [reflexivity|]. destruct H as (H1 & H2 & _). split; [exact H1|].
  unfold net_outputs. cbn [map].
  assert (G : forall ds ls d l x y, Forall2 (layer_has h) ds ls -> cl_out l = d_out d -> cl_out (last (l :: ls) x) = last (d_out d :: map d_out ds) y).
  { clear. induction ds as [|e ds IH]; intros ls d l x y F E; inversion F as [|? m ? ls' H F']; subst; [exact E|].
    change (last (l :: m :: ls') x) with (last (m :: ls') x). change (last (d_out d :: map d_out (e :: ds)) y) with (last (d_out e :: map d_out ds) y).
    apply IH; [exact F'|]. apply H. }
  apply G; assumption.
Qed.

Lemma chain_inv h p c cs : chain h p (c :: cs) -> exists next, p = Some (c_node c)
  /\ holds h (c_node c) (BNode (Some (c_arr c)) (Some (c_name c)) next) /\ holds h (c_arr c) (BArr (c_m c) (c_data c)) /\ chain h next cs.
Proof. intros H. inversion H; subst. eexists. repeat split; eassumption. Qed.

(** the settings that a run has to use: the learning rate [lr], and the default values of the library for everything else; adam is adamw
    without weight decay *)
Definition settings_are {lm : libm} (name : option word) (lr : b32) (s : settings lm) : Prop :=
  match s with
  | S_SGD _ p => name = Some (txt "SGD") /\ sp_lr p = lr /\ sp_decay p = b32_zero /\ sp_mu p = b32_zero /\ sp_nesterov p = false
  | S_RMS _ p => name = Some (txt "RMSprop") /\ rp_lr p = lr /\ rp_rho p = b32_lit 9 10 /\ rp_decay p = b32_zero /\ rp_mu p = b32_zero /\ rp_nesterov p = false
  | S_Adagrad _ p => name = Some (txt "adagrad") /\ gp_lr p = lr /\ gp_decay p = b32_zero
  | S_Adam _ p => dp_lr p = lr /\ dp_beta1 p = b32_lit 9 10 /\ dp_beta2 p = b32_lit 999 1000
      /\ (name = Some (txt "adam") /\ dp_wd p = b32_zero \/ (name = Some (txt "adamw") \/ name = None) /\ dp_wd p = b32_lit 1 10000)
  end.
(** the metrics of a run: the one of the loss, and the one with the given name if there is one *)
Definition metrics_are (l : loss) (name : option word) (ms : list metric) : Prop :=
  (exists m, ms = [metric_for l; m] /\ exists s, name = Some (txt s) /\ In s (metric_names m))
  \/ ms = [metric_for l] /\ forall m s, name = Some (txt s) -> ~ In s (metric_names m).

Section Program.
  Variable lm : libm.
  Notation OP := (opsB32 lm).
  Variable strtof : bytes -> b32.
  Variable archive : bytes -> option (list member).
  Variable alloc : Z -> bool.
  Variable mem : nat -> Z -> bool.
  Variable lib_opens : bytes -> bool.
  Variable dlsym : bytes -> bytes -> option (option nat).
  Context {Net FS : Type}.
  Variable save : Net -> string -> FS -> FS.
  Variable fmt_e : b32 -> bytes.
  Variable time : nat -> nat * nat * nat.
  Variable log_opens : nat -> bool.
  Notation job := (Trainer.job lm).
  Notation trainer := (trainer lm strtof archive alloc mem lib_opens dlsym save fmt_e time log_opens).
  Hypothesis HA : forall s, alloc s = true.
  Hypothesis HM : forall k s, mem k s = true.

  (** ** the data *)
  Lemma load_samples h name ar n a b dx dy : archive name = Some ar -> samples ar n a b dx dy -> (1 <= a)%Z -> (1 <= b)%Z ->
    exists h' p X Y cs, load_pair archive alloc h (Some name) = Ok (h', p, X, Y)
      /\ shape_at X 0 = Ok n /\ shape_at X 1 = Ok a /\ shape_at Y 0 = Ok n /\ shape_at Y 1 = Ok b
      /\ np_data X = dx /\ np_data Y = dy /\ (Z.of_nat (length dx) = n * a * 4)%Z /\ (Z.of_nat (length dy) = n * b * 4)%Z /\ (1 <= n < 2147483648)%Z
      /\ is_list h' p cs /\ (forall x, In x (blocks_of cs) <-> length h <= x < length h')
      /\ length h <= length h' /\ (forall x, x < length h -> nth_error h' x = nth_error h x).
  Proof.
    intros EA (x & y & rest & -> & SX & (LX & BX) & SY & (LY & BY) & N & PR & PN) A1 B1.
    assert (RX : exists X, read_matrix alloc false (mb_content x) = Ok (Some X) /\ np_shape X = [n; a; 0; 0; 0; 0; 0; 0]%Z /\ np_data X = dx /\ np_fortran X = false).
    { destruct (npy_stores_read alloc _ _ _ _ _ HA SX) as (e & R); [lia|cbn; lia|repeat constructor; lia|rewrite product2; exact LX|rewrite product2; lia|].
      eexists. split; [exact R|]. repeat split. }
    assert (RY : exists Y, read_matrix alloc false (mb_content y) = Ok (Some Y) /\ np_shape Y = [n; b; 0; 0; 0; 0; 0; 0]%Z /\ np_data Y = dy /\ np_fortran Y = false).
    { destruct (npy_stores_read alloc _ _ _ _ _ HA SY) as (e & R); [lia|cbn; lia|repeat constructor; lia|rewrite product2; exact LY|rewrite product2; lia|].
      eexists. split; [exact R|]. repeat split. }
    destruct RX as (X & RX & SHX & DX & FX). destruct RY as (Y & RY & SHY & DY & FY).
    assert (RR : exists ms, Forall2 (fun mb m => read_matrix alloc false (mb_content mb) = Ok (Some m)) rest ms).
    { clear -PR HA. induction PR as [|m rest (t & el & dims & data & P1 & P2 & P3 & P4 & P5 & P6) PR (ms & IH)]; [exists []; constructor|].
      destruct (npy_stores_read alloc _ _ _ _ _ HA P1 P2 P3 P4 P5 P6) as (e & R). eexists (_ :: ms). constructor; [exact R|exact IH]. }
    destruct RR as (ms & RR).
    set (ar := x :: y :: rest) in *.
    destruct (load_members alloc (combine ar (X :: Y :: ms)) h None []) as (h1 & p & cs & EL & IL & NM & AR & O & LH & B).
    { split; constructor. }
    { assert (ALL : Forall2 (fun mb m => read_matrix alloc false (mb_content mb) = Ok (Some m)) ar (X :: Y :: ms)) by (unfold ar; repeat constructor; assumption).
      clear -ALL PN HA. revert PN. induction ALL as [|mb m l l' R F IH]; intros PN; cbn [combine]; constructor.
      - cbn [fst snd]. split; [exact R|]. destruct (Forall_inv PN) as (Q1 & Q2). repeat split; try assumption. apply HA.
      - apply IH. exact (Forall_inv_tail PN). }
    { apply HA. }
    assert (LC : length rest = length ms) by (eapply forall2_len; exact RR).
    assert (MF : map fst (combine rest ms) = rest).
    { revert LC. clear. revert ms. induction rest as [|a l IH]; intros [|b l'] L; try discriminate; [reflexivity|]. cbn [combine map fst]. f_equal. apply IH. cbn in L. congruence. }
    assert (MS : map snd (combine rest ms) = ms).
    { revert LC. clear. revert ms. induction rest as [|a l IH]; intros [|b l'] L; try discriminate; [reflexivity|]. cbn [combine map snd]. f_equal. apply IH. cbn in L. congruence. }
    unfold ar in EL, AR. cbn [combine map fst snd] in EL, AR. rewrite MF in EL. rewrite MS in AR. cbn [app] in IL.
    destruct cs as [|c1 [|c2 cs]]; [discriminate|discriminate|]. cbn [arrays_of map] in AR.
    assert (M1 : c_m c1 = X) by congruence. assert (M2 : c_m c2 = Y) by congruence.
    pose proof IL as (HC & HND). destruct (chain_inv _ _ _ _ HC) as (next & -> & H1 & H2 & HC1). destruct (chain_inv _ _ _ _ HC1) as (next2 & -> & G1 & G2 & HC2).
    exists h1, (Some (c_node c1)), X, Y, (c1 :: c2 :: cs).
    split.
    { unfold load_pair, load_file. rewrite EA. unfold list_load. fold ar. unfold ar. rewrite EL. cbn [rbind check].
      unfold next_array. rewrite (get_node_holds _ _ _ _ _ H1). cbn [rbind]. rewrite (get_arr_holds _ _ _ _ H2). cbn [rbind fst snd].
      rewrite (get_node_holds _ _ _ _ _ G1). cbn [rbind]. rewrite (get_arr_holds _ _ _ _ G2). cbn [rbind fst snd].
      rewrite M1, M2, FX, FY. cbn [negb check rbind]. unfold shape_at. rewrite SHX, SHY. cbn [nth_error rbind]. rewrite Z.eqb_refl. reflexivity. }
    unfold shape_at. rewrite SHX, SHY. cbn [nth_error]. do 4 (split; [reflexivity|]). do 4 (split; [assumption|]). split; [exact N|].
    split; [exact IL|]. split; [exact B|]. split; [lia|]. intros z Hz. apply O; [exact Hz|intros []].
  Qed.

  (** ** the main loop goes through *)
  Lemma callbacks_ok i nn ms tr va (t : @cbs FS) : es_quiet i t -> i < 10 -> length tr = length ms -> length va = length ms -> 1 <= length ms <= 2 ->
    (forall x, length (fmt_e x) <= 12) -> (let '(hh, mm, ss) := time i in hh < 100 /\ mm < 100 /\ ss < 100) ->
    (forall l, cb_log t = Some l -> (-2147483648 <= lg_epoch l < 2147483647)%Z) -> (forall m, cb_mcp t = Some m -> mcp_monitor_idx m = (-1)%Z) ->
    (forall e, cb_es t = Some e -> es_monitor_idx e = (-1)%Z) ->
    exists t', run_callbacks lm save fmt_e time log_opens i nn ms (tr ++ va) t = Ok t'
      /\ (forall l', cb_log t' = Some l' -> exists l, cb_log t = Some l /\ lg_epoch l' = (lg_epoch l + 1)%Z)
      /\ cb_mcp t' = cb_mcp t /\ (forall e, cb_es t' = Some e -> es_monitor_idx e = (-1)%Z).
  Proof.
    intros Q LI L1 L2 LM HF HT HL HC HE. destruct t as [mcp best fs log file es est]. unfold es_quiet in Q. cbn [cb_mcp cb_best cb_fs cb_log cb_file cb_es cb_est] in *.
    destruct va as [|x va]; [cbn in L2; lia|].
    assert (RA : result_at (tr ++ x :: va) (monitored (-1) (length ms) true) = Ok x).
    { unfold result_at, monitored. cbn [Z.ltb Z.compare]. destruct (Z.ltb_spec (Z.of_nat (length ms)) 0); [lia|]. rewrite Nat2Z.id, nth_error_app2 by lia.
      rewrite L1, Nat.sub_diag. reflexivity. }
    assert (R1 : exists b, match mcp with None => Ok (best, fs) | Some cb => mcp_run save cb best fs nn (length ms) (tr ++ x :: va) true end = Ok b).
    { destruct mcp as [cb|]; [|eexists; reflexivity]. unfold mcp_run. rewrite (HC cb eq_refl), RA. cbn [rbind]. destruct (improved _ _ _); eexists; reflexivity. }
    assert (R2 : exists r, match log with None => Ok (None, file) | Some l => let '(hh, mm, ss) := time i in
               rbind (@logger_run OP fmt_e l ms hh mm ss (tr ++ x :: va) true file (log_opens i)) (fun r => Ok (Some (fst r), snd r)) end = Ok r
               /\ (forall l', fst r = Some l' -> exists l, log = Some l /\ lg_epoch l' = (lg_epoch l + 1)%Z)).
    { destruct log as [l|]; [|eexists; split; [reflexivity|discriminate]]. destruct (time i) as [[hh mm] ss]. destruct HT as (T1 & T2 & T3).
      destruct (@logger_fits_partial OP fmt_e l ms hh mm ss tr (x :: va) true file (log_opens i) HF T1 T2 T3 (HL l eq_refl) L1 L2 (proj2 LM)) as (l' & f' & R).
      assert (RE : lg_epoch l' = (lg_epoch l + 1)%Z).
      { destruct (@logger_line_exact OP fmt_e l ms hh mm ss tr (x :: va) true file (log_opens i) T1 T2 T3 (HL l eq_refl) L1 L2)
          as (? & ? & ? & ? & _ & _ & _ & _ & _ & _ & _ & _ & X). cbv zeta in X. assert (X' := eq_trans (eq_sym R) X). clear X.
        destruct (_ <=? 254); [|destruct (_ =? 255); discriminate]. injection X' as -> _. reflexivity. }
      exists (Some l', f'). split; [|intros ? Q'; injection Q' as <-; exists l; split; [reflexivity|exact RE]].
      change (@F OP) with b32 in *. rewrite R. reflexivity. }
    assert (R3 : exists e, match es with None => Ok (None, est) | Some es => rbind (es_run es est (length ms) (tr ++ x :: va) true) (fun r => Ok (Some (fst r), snd r)) end = Ok e
               /\ forall e', fst e = Some e' -> es_monitor_idx e' = (-1)%Z).
    { destruct es as [es|]; [|eexists; split; [reflexivity|discriminate]]. destruct Q as (Q1 & Q2 & Q3). unfold es_run. rewrite (HE es eq_refl), RA. cbn [rbind].
      destruct (improved _ _ _); [eexists; split; [reflexivity|]; intros ? Q'; injection Q' as <-; exact (HE es eq_refl)|].
      destruct (Z.eqb_spec (es_since est) int_max) as [E|_]; [unfold int_max in E; lia|].
      eexists; split; [reflexivity|]. intros ? Q'. injection Q' as <-. destruct (_ <? _)%Z; [reflexivity|exact (HE es eq_refl)]. }
    destruct R1 as (b & R1). destruct R2 as (r & R2 & R2'). destruct R3 as (e & R3 & R3').
    eexists. split; [unfold run_callbacks; cbn [cb_mcp cb_best cb_fs cb_log cb_file cb_es cb_est]; rewrite R1; cbn [rbind]; rewrite R2; cbn [rbind]; rewrite R3; reflexivity|].
    cbn [cb_log cb_mcp cb_es]. split; [exact R2'|]. split; [reflexivity|exact R3'].
  Qed.
  Lemma loop_ok epoch ms : (forall nn, exists nn' tr va, epoch nn = Ok (nn', tr, va) /\ length tr = length ms /\ length va = length ms) -> 1 <= length ms <= 2 ->
    (forall x, length (fmt_e x) <= 12) -> (forall i, let '(hh, mm, ss) := time i in hh < 100 /\ mm < 100 /\ ss < 100) ->
    forall k i nn (t : @cbs FS), es_quiet i t -> i + k <= 10 ->
    (forall l, cb_log t = Some l -> (-2147483648 <= lg_epoch l)%Z /\ (lg_epoch l + Z.of_nat k <= 2147483647)%Z) ->
    (forall m, cb_mcp t = Some m -> mcp_monitor_idx m = (-1)%Z) -> (forall e, cb_es t = Some e -> es_monitor_idx e = (-1)%Z) ->
    exists r, main_loop lm save fmt_e time log_opens epoch true k i nn ms t = Ok r.
  Proof.
    intros HE LM HF HT. induction k as [|k IH]; intros i nn t Q L HL HC HS; [eexists; reflexivity|]. cbn [main_loop].
    destruct (HE nn) as (nn' & tr & va & EP & L1 & L2). rewrite EP. cbn [rbind negb].
    destruct (callbacks_ok i nn' ms tr va t Q ltac:(lia) L1 L2 LM HF (HT i)) as (t1 & R & H1 & H2 & H3).
    { intros l Hl. destruct (HL l Hl). lia. } { exact HC. } { exact HS. }
    rewrite R. cbn [rbind]. destruct (quiet_step lm save fmt_e time log_opens _ _ _ _ _ _ Q ltac:(lia) R) as (Q1 & S1). rewrite S1.
    apply IH; [exact Q1|lia| | |exact H3].
    - intros l' Hl'. destruct (H1 l' Hl') as (l & Hl & ->). destruct (HL l Hl). lia.
    - rewrite H2. exact HC.
  Qed.

  Lemma choose_ok name k lr : optimizer_is name k ->
    exists s, choose lm (match name with Some v => v | None => txt "adamw" end) lr = Some s /\ kind_of lm s = k /\ settings_are name lr s.
  Proof.
    unfold optimizer_is. destruct name as [v|]; [intros (s & I & ->)|intros ->]; [|eexists; split; [reflexivity|]; split; [reflexivity|]; cbn; tauto].
    destruct k; cbn in I; repeat (destruct I as [<-|I]; [eexists; split; [reflexivity|]; split; [reflexivity|]; cbn; tauto|]); destruct I.
  Qed.

  (** ** creating the callbacks *)
  Lemma make_ok h o fs file log_ok : to_log o = None \/ file = None ->
    exists b1 b2 b3 l e, make_callbacks mem h o fs file log_ok
      = Ok (h ++ [Some b1; Some b2; Some b3], mk_cbs (Some (mk_mcp None (-1) false)) flt_max (fs : FS) (Some l) file (Some e) es_start)
      /\ lg_epoch l = 0%Z /\ es_monitor_idx e = (-1)%Z.
  Proof.
    intros H. unfold make_callbacks, modelcheckpoint_new, log_new, earlystopping_new, callback_new.
    rewrite malloc_ok by apply HM. cbn [rbind fst snd].
    assert (EL : logger_new (lc_epoch (lg_settings [LG_filename (match to_log o with Some _ => true | None => false end)])) 
                            (lc_filename (lg_settings [LG_filename (match to_log o with Some _ => true | None => false end)])) file log_ok
                 = Ok (mk_logger 0 (match to_log o with Some _ => true | None => false end))).
    { destruct H as [-> | ->]; [reflexivity|]. destruct (to_log o); reflexivity. }
    rewrite malloc_ok by apply HM. rewrite EL. cbn [rbind fst snd]. rewrite malloc_ok by apply HM. cbn [rbind fst snd option_map].
    do 5 eexists. split; [rewrite <- !app_assoc; reflexivity|]. split; reflexivity.
  Qed.

  Lemma net_frame h h' ds nn : net_has h ds nn -> (forall x, In x (net_blocks nn) -> nth_error h' x = nth_error h x) -> net_has h' ds nn.
  Proof.
    intros (F & L1 & L2 & ND) S. unfold net_blocks in *. split; [|split; [|split; [|exact ND]]].
    - assert (S' : forall x, In x (flat_map layer_blocks (cn_layers nn)) -> nth_error h' x = nth_error h x) by (intros x Hx; apply S; right; right; exact Hx).
      clear -F S'. induction F as [|d l ds ls H F IH]; constructor.
      + destruct H as (H1 & H2 & (a & Ea & Ha) & (b & Eb & Hb) & H3). cbn [flat_map] in S'. unfold layer_blocks in S' at 1. rewrite Ea, Eb in S'.
        split; [exact H1|]. split; [exact H2|]. split; [exists a; split; [exact Ea|unfold holds in *; rewrite S'; [exact Ha|cbn; tauto]]|].
        split; [exists b; split; [exact Eb|unfold holds in *; rewrite S'; [exact Hb|cbn; tauto]]|exact H3].
      + apply IH. intros x Hx. apply S'. cbn [flat_map]. apply in_or_app. right. exact Hx.
    - eapply live_same; [|exact L1]. apply S. left. reflexivity.
    - eapply live_same; [|exact L2]. apply S. right. left. reflexivity.
  Qed.

  (** ** C92, C93: a run with proper files, a proper command line and enough memory does all ten epochs, on the data and the network of the
      files, and ends normally.  Behind the end some blocks are still alive: the arrays of the optimizer and the three callbacks. *)
  Theorem trainer_works : forall h st (fs : FS) file log_ok nn0 epoch tail ps argv tf art n dx dy vf arv nv vx vy nf arn ds s l k,
    command_line tail ps argv -> finished tail -> Forall sensible ps -> last_value "s" ps = None ->
    last_value "t" ps = Some tf -> archive tf = Some art -> samples art n (net_inputs ds) (net_outputs ds) dx dy ->
    last_value "v" ps = Some vf -> archive vf = Some arv -> samples arv nv (net_inputs ds) (net_outputs ds) vx vy ->
    last_value "n" ps = Some nf -> archive nf = Some arn -> stores_network lib_opens dlsym arn ds -> countable ds ->
    last_value "l" ps = Some (txt s) -> In s (loss_names l) -> last_value "m" ps <> None ->
    optimizer_is (last_value "o" ps) k ->
    (forall v z, last_value "b" ps = Some v -> numeral z v -> (1 <= z)%Z) ->
    last_value "q" ps = None \/ file = None ->
    (forall j nn, exists nn' tr va, epoch j nn = Ok (nn', tr, va) /\ length tr = length (jb_metrics j) /\ length va = length (jb_metrics j)) ->
    (forall x, length (fmt_e x) <= 12) -> (forall i, let '(hh, mm, ss) := time i in hh < 100 /\ mm < 100 /\ ss < 100) ->
    exists h' nn t j es left, trainer h st fs file log_ok nn0 epoch argv = Ok (Done h' nn t 10)
      /\ length es = 10 /\ follows (epoch j) (nn0 j) es /\ nn = final (nn0 j) es
      /\ jb_n j = n /\ np_data (jb_X j) = dx /\ np_data (jb_Y j) = dy /\ jb_nv j = nv /\ np_data (jb_vX j) = vx /\ np_data (jb_vY j) = vy
      /\ (exists h1, net_has h1 ds (jb_net j)) /\ kind_of lm (jb_settings j) = k /\ metrics_are l (last_value "m" ps) (jb_metrics j)
      /\ settings_are (last_value "o" ps) (match last_value "a" ps with Some v => strtof v | None => b32_lit 1 1000 end) (jb_settings j)
      /\ match last_value "b" ps with Some v => numeral (ro_batchsize (jb_opt j)) v | None => ro_batchsize (jb_opt j) = 32%Z end
      /\ (forall x, x < length h -> nth_error h' x = nth_error h x)
      /\ length left = n_arrays k + 3 /\ NoDup left /\ (forall x, length h <= x -> (live h' x <-> In x left)).
  Proof.
    intros h st fs file log_ok nn0 epoch tail ps argv tf art n dx dy vf arv nv vx vy nf arn ds s l k
      C FI S NS LT AT ST LV AV SV LN AN SN (CN1 & CN2) LL IL LM OI BS LQ HE HF HT.
    destruct (options_read_partial lm strtof _ _ _ C FI S NS) as (o & SO & O1 & O2 & O3 & O4 & O5 & O6 & O7 & O8 & O9 & _).
    destruct SN as (pre & nm & post & names & -> & PN & NW & SP & SNM & N1 & N2 & SH & FF).
    pose proof NW as (NE & DO & CH & NL).
    assert (SZ : (1 <= net_inputs ds < 2147483648)%Z /\ (1 <= net_outputs ds < 2147483648)%Z).
    { clear -NE DO. destruct DO as [|d ds H DO]; [congruence|]. unfold net_outputs. cbn [net_inputs map]. split; [apply H|].
      clear NE. revert d H. induction DO as [|e ds H' DO IH]; intros d H; [apply H|]. cbn [map] in *. apply (IH e H'). }
    destruct SZ as (SZ1 & SZ2).
    destruct (load_samples h tf art n _ _ dx dy AT ST ltac:(lia) ltac:(lia)) as (h1 & p & X & Y & cs & LD1 & X0 & X1 & Y0 & Y1 & DX & DY & LX & LY & RN & IL1 & B1 & G1 & S1).
    destruct (load_samples h1 vf arv nv _ _ vx vy AV SV ltac:(lia) ltac:(lia)) as (h2 & q & VX & VY & cs' & LD2 & VX0 & VX1 & VY0 & VY1 & DVX & DVY & LVX & LVY & RNV & IL2 & B2 & G2 & S2).
    destruct (net_names_anywhere alloc mem lib_opens dlsym h2 st pre nm post ds names HA HM PN NW SP SNM N1 N2 SH FF) as (h3 & st3 & nn & LD3 & NH & _ & S3 & B3 & B3').
    assert (G3 : length h2 <= length h3).
    { destruct (Nat.le_gt_cases (length h2) (length h3)) as [Q|Q]; [exact Q|]. exfalso. pose proof (S3 (length h3) Q) as Q'.
      rewrite (proj2 (nth_error_None h3 (length h3)) (le_n _)) in Q'. symmetry in Q'. apply nth_error_None in Q'. lia. }
    pose proof (has_is_net _ _ _ NW NH) as IN.
    assert (GL : get_loss_func (string_of_list_ascii (txt s)) = Some l).
    { unfold txt. rewrite string_of_list_ascii_of_string. apply get_loss_iff. exact IL. }
    destruct (last_value "m" ps) as [mname|] eqn:EM; [|congruence].
    destruct (choose_ok _ k (to_lr o) OI) as (sg & CO & KO & SA).
    assert (BT : (1 <= to_batch o)%Z).
    { destruct (last_value "b" ps) as [v|]; [destruct O9 as (O9 & _); exact (BS v _ eq_refl O9)|lia]. }
    set (ms := [get_metric_func (get_loss_name l); get_metric_func (string_of_list_ascii mname); None]).
    assert (NO : net_of h3 (net_sizes ds) nn (net_parameters ds)).
    { split; [exact IN|]. split; [|split; [|exact CN2]].
      - rewrite (net_steps ds CH). clear -DO CN1. induction DO as [|d ds H DO IH]; cbn [map]; constructor; [|apply IH; exact (Forall_inv_tail CN1)].
        pose proof (Forall_inv CN1) as Q. cbv beta in Q. destruct H as ((H1 & _) & (H2 & _) & _). cbn [fst snd]. lia.
      - rewrite (net_steps ds CH). symmetry. apply net_pars. }
    destruct (optimizer_new_ok mem k h3 statics0 h3 (net_sizes ds) nn (net_parameters ds) l (mk_oconf (to_batch o) (Some ms)) NO BT HM)
      as (h4 & st4 & opt & LD4 & ISO & KOP & BOP & B4 & S4). cbn [oc_batchsize] in BOP.
    assert (G4 : length h3 <= length h4).
    { pose proof (proj1 (B4 (ro_self opt)) (or_introl eq_refl)). lia. }
    destruct (net_first h3 ds nn NW NH) as (la & ls & CL & CI & COU).
    set (metrics := match get_metric_func (string_of_list_ascii mname) with Some m => [metric_for l; m] | None => [metric_for l] end).
    assert (LMM : 1 <= length metrics <= 2 /\ metrics_are l (Some mname) metrics).
    { unfold metrics. destruct (get_metric_func (string_of_list_ascii mname)) as [m|] eqn:EG; (split; [cbn; lia|]).
      - left. exists m. split; [reflexivity|]. exists (string_of_list_ascii mname). split; [unfold txt; rewrite list_ascii_of_string_of_list_ascii; reflexivity|apply get_metric_iff; exact EG].
      - right. split; [reflexivity|]. intros m s' Q I'. injection Q as ->. unfold txt in EG. rewrite string_of_list_ascii_of_string in EG. apply get_metric_iff in I'. congruence. }
    destruct LMM as (LMM & HDM).
    set (j := mk_job lm X Y VX VY nn metrics opt sg n nv (p, q)).
    assert (PR : prepare lm archive alloc mem lib_opens dlsym h st o = Ok (h4, st3, j)).
    { unfold prepare. change word with bytes in *. rewrite (eq_trans O1 LT : to_train o = @Some bytes tf), LD1. cbn [rbind]. rewrite (eq_trans O2 LV : to_verif o = @Some bytes vf), LD2. cbn [rbind]. rewrite X0, VX0, X1, Y1, VX1, VY1. cbn [rbind].
      rewrite !Z.eqb_refl. cbn [check rbind]. rewrite (eq_trans O3 LN : to_net o = @Some bytes nf), AN, LD3. cbn [rbind]. rewrite (eq_trans O4 LL : to_loss o = @Some bytes (txt s)). unfold lookup at 1. rewrite GL. cbn [rbind].
      destruct (cn_layers nn) as [|la' ls'] eqn:ECL; [discriminate|]. injection CL as -> ->.
      rewrite CI, COU, !int_small by lia. rewrite !Z.eqb_refl. cbn [check rbind]. rewrite (O5 : to_metrics o = @Some bytes mname). unfold lookup. cbn [rbind].
      rewrite O7, CO, KO. fold ms. rewrite LD4. cbn [rbind].
      assert (EML : metric_list ms = Ok metrics).
      { unfold ms, metrics. rewrite metric_name. generalize (get_metric_func (string_of_list_ascii mname)). intros [m|]; reflexivity. }
      rewrite EML. cbn [rbind]. unfold count. rewrite !int_small by lia.
      destruct (Z.ltb_spec n 0); [lia|]. destruct (Z.ltb_spec nv 0); [lia|]. reflexivity. }
    destruct (make_ok h4 o fs file log_ok) as (b1 & b2 & b3 & lg & es0 & MK & LG0 & ES0).
    { rewrite O6. exact LQ. }
    set (t0 := mk_cbs _ _ _ _ _ _ _) in MK. set (h5 := h4 ++ [Some b1; Some b2; Some b3]) in MK.
    assert (DOK : data_ok j = Ok tt).
    { unfold data_ok, j. cbn [jb_n jb_net jb_X jb_Y jb_vX jb_vY jb_nv]. destruct (Z.eqb_spec n 0); [lia|]. rewrite CL. rewrite <- CL, CI, COU. unfold reads.
      rewrite DX, DY, DVX, DVY, LX, LY, LVX, LVY, !Z.leb_refl. reflexivity. }
    pose proof (made_quiet mem h4 o fs file log_ok h5 t0 MK) as Q0.
    destruct (loop_ok (epoch j) metrics (HE j) LMM HF HT 10 0 (nn0 j) t0 Q0 ltac:(lia)) as ([[nn1 t1] n1] & ML).
    { intros l' Q. injection Q as <-. rewrite LG0. cbn. lia. } { intros m Q. injection Q as <-. reflexivity. } { intros e Q. injection Q as <-. exact ES0. }
    destruct (loop_inv lm save fmt_e time log_opens _ _ _ _ _ _ _ _ _ Q0 (le_n 10) ML) as (-> & es & LE & FO & FIN & _).
    (* the end *)
    assert (L5 : length h5 = length h4 + 3) by (unfold h5; rewrite app_length; reflexivity).
    assert (S5 : forall x, x < length h4 -> nth_error h5 x = nth_error h4 x) by (intros x Hx; unfold h5; apply nth_error_app1; exact Hx).
    assert (NB : forall x, In x (net_blocks nn) -> length h2 <= x < length h3).
    { intros x Hx. split; [exact (B3' x Hx)|]. destruct NH as (F & LS & LA & _). apply live_lt in LS, LA. cbn [net_blocks In] in Hx.
      destruct Hx as [<-|[<-|Hx]]; [exact LS|exact LA|]. clear -F Hx. induction F as [|d l ds ls H F IH]; [destruct Hx|].
      cbn [flat_map] in Hx. apply in_app_or in Hx. destruct Hx as [Hx|Hx]; [|exact (IH Hx)].
      destruct H as (_ & _ & (a & Ea & Ha) & (b & Eb & Hb) & _). unfold layer_blocks in Hx. rewrite Ea, Eb in Hx. cbn in Hx.
      destruct Hx as [<-|[<-|[]]]; eapply holds_lt; eassumption. }
    assert (NH5 : net_has h5 ds nn).
    { apply (net_frame h3); [exact NH|]. intros x Hx. pose proof (NB x Hx). rewrite S5, S4 by lia. reflexivity. }
    destruct (free_network h5 (net_sizes ds) nn (has_is_net _ _ _ NW NH5)) as (h6 & F6 & D6 & S6).
    assert (LEN : forall ha hb : heap, (forall x, length ha <= x -> nth_error hb x = nth_error ha x) -> length hb <= length ha).
    { intros ha hb Q. destruct (Nat.le_gt_cases (length hb) (length ha)) as [L|L]; [exact L|]. exfalso.
      pose proof (Q (length ha) (le_n _)) as Q'. rewrite (proj2 (nth_error_None ha (length ha)) (le_n _)) in Q'. apply nth_error_None in Q'. lia. }
    destruct ISO as (I1 & I2 & I3 & I4 & I5).
    assert (OB : forall x, In x (opt_blocks opt) -> length h3 <= x < length h4) by (intros x Hx; apply B4; exact Hx).
    assert (SELF : length h3 <= ro_self opt < length h4) by (apply OB; left; reflexivity).
    assert (LS6 : live h6 (ro_self opt)).
    { apply (live_same h4); [|exact I3]. rewrite S6 by (intros Q; apply NB in Q; lia). apply S5. lia. }
    set (h7 := set_nth h6 (ro_self opt) None).
    assert (S7 : forall x, x < length h2 -> nth_error h7 x = nth_error h2 x).
    { intros x Hx. unfold h7. rewrite set_other by lia. rewrite S6 by (intros Q; apply NB in Q; lia). rewrite S5, S4, S3 by lia. reflexivity. }
    assert (IL7 : is_list h7 p cs).
    { destruct IL1 as (HC & HND). split; [|exact HND]. eapply chain_frame; [exact HC|]. intros x Hx. apply B1 in Hx. rewrite S7, S2 by lia. reflexivity. }
    destruct (list_free_all h7 p cs IL7) as (h8 & F8 & D8 & S8).
    assert (IL8 : is_list h8 q cs').
    { destruct IL2 as (HC & HND). split; [|exact HND]. eapply chain_frame; [exact HC|]. intros x Hx. apply B2 in Hx.
      rewrite S8 by (rewrite B1; lia). apply S7. lia. }
    destruct (list_free_all h8 q cs' IL8) as (h9 & F9 & D9 & S9).
    exists h9, nn1, t1, j, es, (ro_arrays opt ++ [length h4; 1 + length h4; 2 + length h4]).
    split.
    { unfold Trainer.trainer. rewrite SO. cbn [rbind]. rewrite PR. cbn [rbind]. rewrite MK. cbn [rbind]. rewrite DOK. cbn [rbind].
      cbn [jb_nv jb_metrics j]. destruct (Z.ltb_spec 0 nv); [|lia]. unfold n_epochs. rewrite ML. cbn [rbind].
      unfold clean_up. cbn [jb_net jb_opt jb_lists j fst snd]. rewrite F6. cbn [rbind]. rewrite (live_free _ _ LS6). cbn [rbind]. fold h7. rewrite F8. cbn [rbind].
      rewrite F9. reflexivity. }
    split; [exact LE|]. split; [exact FO|]. split; [exact FIN|]. cbn [jb_n jb_nv jb_X jb_Y jb_vX jb_vY jb_net jb_settings jb_metrics jb_opt j].
    split; [reflexivity|]. split; [exact DX|]. split; [exact DY|]. split; [reflexivity|]. split; [exact DVX|]. split; [exact DVY|].
    split; [exists h3; exact NH|]. split; [exact KO|]. split; [exact HDM|]. split; [rewrite O8 in SA; exact SA|].
    split. { rewrite BOP. destruct (last_value "b" ps); [apply O9|exact O9]. }
    assert (C1 : forall x, In x (blocks_of cs) -> dead h8 x).
    { intros x Hx. unfold blocks_of in Hx. apply in_flat_map in Hx. destruct Hx as (c & Hc & Hx). destruct (D8 c Hc) as (Q1 & Q2 & Q3 & Q4).
      cbn in Hx. destruct Hx as [<-|[<-|[<-|[<-|[]]]]]; assumption. }
    assert (C2 : forall x, In x (blocks_of cs') -> dead h9 x).
    { intros x Hx. unfold blocks_of in Hx. apply in_flat_map in Hx. destruct Hx as (c & Hc & Hx). destruct (D9 c Hc) as (Q1 & Q2 & Q3 & Q4).
      cbn in Hx. destruct Hx as [<-|[<-|[<-|[<-|[]]]]]; assumption. }
    assert (OLD : forall x, x < length h -> nth_error h9 x = nth_error h x).
    { intros x Hx. rewrite S9 by (rewrite B2; lia). rewrite S8 by (rewrite B1; lia). rewrite S7, S2, S1 by lia. reflexivity. }
    split; [exact OLD|]. split; [rewrite app_length, I1, KOP; reflexivity|]. unfold opt_blocks in *. rewrite I4, app_nil_r in *.
    assert (AR : forall x, In x (ro_arrays opt) <-> length h3 <= x < length h4 /\ x <> ro_self opt).
    { intros x. split; [intros Hx; split; [apply OB; right; exact Hx|intros ->; inversion I5; contradiction]|].
      intros (Q1 & Q2). apply B4 in Q1. destruct Q1 as [Q1|Q1]; [congruence|exact Q1]. }
    split.
    { inversion I5 as [|? ? I6 I7]; subst. clear -I7 AR.
      assert (AR' : forall x, In x (ro_arrays opt) -> x < length h4) by (intros x Hx; apply AR in Hx; lia).
      revert I7 AR'. clear. generalize (ro_arrays opt) as l'. induction l' as [|a l' IH]; intros ND AR.
      - cbn [app]. repeat constructor; cbn; lia.
      - inversion ND; subst. cbn [app]. constructor; [|apply IH; [assumption|intros x Hx; apply AR; right; exact Hx]].
        rewrite in_app_iff. intros [Q|Q]; [contradiction|]. pose proof (AR a (or_introl eq_refl)). cbn in Q. lia. }
    intros x Hx. rewrite in_app_iff, AR. cbn [In].
    assert (DL : dead h9 x -> ~ live h9 x) by (intros Q (b & Q'); unfold dead, holds in *; congruence).
    destruct (Nat.lt_ge_cases x (length h2)) as [Q|Q].
    { split; [|lia]. intros LV9. exfalso. revert LV9. apply DL. destruct (Nat.lt_ge_cases x (length h1)) as [Q'|Q'].
      - unfold dead. rewrite S9 by (rewrite B2; lia). apply C1, B1. lia.
      - apply C2, B2. lia. }
    assert (E9 : nth_error h9 x = nth_error h7 x) by (rewrite S9 by (rewrite B2; lia); apply S8; rewrite B1; lia).
    assert (LIVE : live h9 x <-> live h7 x) by (unfold live, holds; rewrite E9; tauto). rewrite LIVE. clear E9 LIVE DL.
    destruct (Nat.lt_ge_cases x (length h3)) as [Q3|Q3].
    { split; [|lia]. intros (b & LV7). exfalso. unfold holds, h7 in LV7. rewrite set_other in LV7 by lia.
      destruct (B3 x (conj Q Q3)) as [Q4|Q4]; [apply D6 in Q4; unfold dead in Q4; congruence|].
      destruct (in_dec Nat.eq_dec x (net_blocks nn)) as [Q5|Q5]; [apply D6 in Q5; unfold dead in Q5; congruence|].
      rewrite S6, S5, S4 in LV7 by (try exact Q5; lia). unfold dead in Q4. congruence. }
    assert (NN : ~ In x (net_blocks nn)) by (intros Q5; apply NB in Q5; lia).
    destruct (Nat.eq_dec x (ro_self opt)) as [-> |NSE].
    { split; [|lia]. intros (b & Q5). unfold holds, h7 in Q5. rewrite set_same in Q5; [discriminate|]. apply live_lt. exact LS6. }
    destruct (Nat.lt_ge_cases x (length h4)) as [Q4|Q4].
    { split; [intros _; left; lia|]. intros _. assert (Q5 : In x (ro_arrays opt)) by (apply AR; lia).
      rewrite Forall_forall in I2. destruct (I2 x Q5) as (bs & Hb & _). exists (BMem bs). unfold holds, h7 in *. rewrite set_other by lia. rewrite S6, S5 by (try exact NN; lia). exact Hb. }
    assert (X7 : nth_error h7 x = nth_error h5 x) by (unfold h7; rewrite set_other by lia; apply S6; exact NN).
    split.
    - intros (b & Q5). unfold holds in Q5. right. assert (x < length h5) by (apply nth_error_Some; congruence). lia.
    - intros [(Q5 & _)|Q5]; [lia|]. unfold live, holds. rewrite X7. unfold h5. rewrite nth_error_app2 by lia.
      destruct Q5 as [<-|[<-|[<-|[]]]]; [exists b1|exists b2|exists b3]; [replace (length h4 - length h4) with 0 by lia|replace (1 + length h4 - length h4) with 1 by lia|replace (2 + length h4 - length h4) with 2 by lia]; reflexivity.
  Qed.
  (** ** C94: files that are missing or do not fit together end the program with a failed assertion *)
  Definition missing (c : ascii) (ps : list (ascii * word)) : Prop := forall f, last_value c ps = Some f -> archive f = None.
  Definition given_as (c : ascii) (ps : list (ascii * word)) (ar : list member) : Prop := exists f, last_value c ps = Some f /\ archive f = Some ar.
  Definition some_samples (c : ascii) (ps : list (ascii * word)) (a b : Z) : Prop :=
    exists ar n dx dy, given_as c ps ar /\ samples ar n a b dx dy /\ (1 <= a < 2147483648)%Z /\ (1 <= b < 2147483648)%Z.
  Definition unsuitable (ps : list (ascii * word)) : Prop :=
    missing "t" ps \/
    exists a b, some_samples "t" ps a b /\ (missing "v" ps \/
    exists a' b', some_samples "v" ps a' b' /\ (a' <> a \/ b' <> b \/ missing "n" ps \/
    exists ar ds, given_as "n" ps ar /\ stores_network lib_opens dlsym ar ds /\ last_value "l" ps <> None /\ (net_inputs ds <> a \/ net_outputs ds <> b))).
  Lemma load_missing c ps h name : missing c ps -> name = last_value c ps -> load_pair archive alloc h name = Fault AssertFailed.
  Proof.
    intros M ->. unfold load_pair, load_file. change word with bytes in *. destruct (last_value c ps) as [f|] eqn:E; [|reflexivity].
    pose proof (M f E) as Q. change word with bytes in *. rewrite Q. reflexivity.
  Qed.
  Theorem unsuitable_rejected : forall h st (fs : FS) file log_ok nn0 epoch tail ps argv,
    command_line tail ps argv -> finished tail -> Forall sensible ps -> last_value "s" ps = None -> unsuitable ps ->
    trainer h st fs file log_ok nn0 epoch argv = Fault AssertFailed.
  Proof.
    intros h st fs file log_ok nn0 epoch tail ps argv C FI S NS U.
    destruct (options_read_partial lm strtof _ _ _ C FI S NS) as (o & SO & O1 & O2 & O3 & O4 & _).
    unfold Trainer.trainer. rewrite SO. cbn [rbind].
    assert (PR : prepare lm archive alloc mem lib_opens dlsym h st o = Fault AssertFailed); [|rewrite PR; reflexivity].
    unfold prepare. destruct U as [M|(a & b & (art & n & dx & dy & (tf & LT & AT) & ST & A1 & B1) & U)].
    { rewrite (load_missing _ _ h _ M O1). reflexivity. }
    destruct (load_samples h tf art n _ _ dx dy AT ST ltac:(lia) ltac:(lia)) as (h1 & p & X & Y & cs & LD1 & X0 & X1 & Y0 & Y1 & _).
    change word with bytes in *. rewrite (eq_trans O1 LT : to_train o = @Some bytes tf), LD1. cbn [rbind].
    destruct U as [M|(a' & b' & (arv & nv & vx & vy & (vf & LV & AV) & SV & A2 & B2) & U)].
    { rewrite (load_missing _ _ h1 _ M O2). reflexivity. }
    destruct (load_samples h1 vf arv nv _ _ vx vy AV SV ltac:(lia) ltac:(lia)) as (h2 & q & VX & VY & cs' & LD2 & VX0 & VX1 & VY0 & VY1 & _).
    change word with bytes in *. rewrite (eq_trans O2 LV : to_verif o = @Some bytes vf), LD2. cbn [rbind]. rewrite X0, VX0, X1, Y1, VX1, VY1. cbn [rbind].
    destruct (Z.eqb_spec a a') as [<-|NA]; [|reflexivity]. cbn [check rbind]. destruct (Z.eqb_spec b b') as [<-|NB]; [|reflexivity]. cbn [check rbind].
    destruct U as [U|[U|[M|(arn & ds & (nf & LN & AN) & SN & LL & NF)]]]; [congruence|congruence| |].
    { unfold missing in M. change word with bytes in *. rewrite O3. destruct (last_value "n" ps) as [f|]; [rewrite (M f eq_refl)|]; reflexivity. }
    destruct SN as (pre & nm & post & names & -> & PN & NW & SP & SNM & N1 & N2 & SH & FF).
    destruct (net_names_anywhere alloc mem lib_opens dlsym h2 st pre nm post ds names HA HM PN NW SP SNM N1 N2 SH FF) as (h3 & st3 & nn & LD3 & NH & _).
    change word with bytes in *. rewrite (eq_trans O3 LN : to_net o = @Some bytes nf), AN, LD3. cbn [rbind].
    destruct (last_value "l" ps) as [ln|]; [|exfalso; apply LL; reflexivity]. rewrite (O4 : to_loss o = @Some bytes ln). unfold lookup at 1. cbn [rbind].
    destruct (net_first h3 ds nn NW NH) as (la & ls & CL & CI & COU).
    destruct (cn_layers nn) as [|la' ls'] eqn:ECL; [discriminate|]. injection CL as -> ->. rewrite CI, COU, !int_small by lia.
    destruct (Z.eqb_spec (net_inputs ds) a) as [<-|NA]; [|reflexivity]. cbn [check rbind].
    destruct (Z.eqb_spec (net_outputs ds) b) as [<-|NB]; [|reflexivity]. destruct NF; congruence.
  Qed.
End Program.
Print Assumptions trainer_works.
Print Assumptions unsuitable_rejected.
