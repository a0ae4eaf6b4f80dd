(** Prop_Trainer3.v -- C90, C93, C94: data files that do not fit the network, and whole runs of the training program on concrete files. *)
From Coq Require Import ZArith Bool String Ascii List Lia.
From Flocq Require Import Core BinarySingleNaN.
From Verif Require Import Base BaseProofs Ops OpsB32 Mem Logger Npy NpyList Registry Create NetFile Loss Names Activation Evaluate OptCreate OptInit Callbacks CbInit.
From Verif Require Import SpecLog LoggerProofs SpecNpy NpyProofs NpyProofs2 Prop_Npy Prop_Npy2 SpecList ListProofs Prop_List SpecRegistry SpecCreate CreateProofs Prop_Create
  SpecNetFile LoadProofs SaveProofs Prop_NetFile SpecNames NamesProofs Prop_Names SpecCallback CallbackProofs Prop_Callbacks Prop_Callbacks2 Prop_Logger Prop_CbInit SpecOptCreate Prop_OptCreate.
From Verif Require Import Trainer SpecTrainer TrainerProofs Prop_Trainer Prop_Trainer2.
Import ListNotations.
Local Open Scope nat_scope.

(** ** C94: which data files are safe *)
(** all arrays in memory have been read from files *)
Definition arrays_read (h : heap) : Prop :=
  forall x m d, holds h x (BArr m d) -> exists alloc content, npy_load alloc content = Ok (Some m).

Lemma arrays_new h b : arrays_read h -> (forall m d, b <> BArr m d) -> arrays_read (h ++ [Some b]).
Proof.
  intros R N x m d H. unfold holds in H. destruct (Nat.lt_ge_cases x (length h)) as [L|L].
  - rewrite nth_error_app1 in H by exact L. exact (R x m d H).
  - rewrite nth_error_app2 in H by exact L. destruct (x - length h) as [|k]; cbn in H; [|destruct k; discriminate]. injection H as H. destruct (N m d H).
Qed.
Lemma arrays_set h i b : arrays_read h -> (forall m d, b <> BArr m d) -> arrays_read (set_nth h i (Some b)).
Proof.
  intros R N x m d H. unfold holds in H. destruct (Nat.eq_dec i x) as [-> |NE].
  - destruct (Nat.lt_ge_cases x (length h)) as [L|L].
    + rewrite set_same in H by exact L. injection H as H. destruct (N m d H).
    + assert (Q : nth_error (set_nth h x (Some b)) x = None) by (apply nth_error_None; rewrite length_set_nth; exact L). congruence.
  - rewrite set_other in H by exact NE. exact (R x m d H).
Qed.
Lemma arrays_set_next h n v h' : arrays_read h -> set_next h n v = Ok h' -> arrays_read h'.
Proof.
  unfold set_next. intros R E. apply rbind_inv in E. destruct E as ([[a s] nx] & _ & E). injection E as <-. apply arrays_set; [exact R|discriminate].
Qed.
Lemma arrays_append alloc h p a fmt args r : arrays_read h -> list_append alloc h p a fmt args = Ok r -> arrays_read (fst r).
Proof.
  intros R E. unfold list_append, list_extend in E. destruct (negb _); [injection E as <-; exact R|].
  cbn [h_new] in E. apply rbind_inv in E. destruct E as ([h1 s] & E1 & E).
  assert (R1 : arrays_read h1).
  { unfold va_args_filename in E1. apply rbind_inv in E1. destruct E1 as (str & _ & E1). destruct (_ <? _); [discriminate|]. destruct (negb _); [discriminate|].
    unfold h_new in E1. injection E1 as <- <-. apply arrays_new; [apply arrays_new; [exact R|discriminate]|discriminate]. }
  unfold list_append_node in E. destruct p as [q|].
  - apply rbind_inv in E. destruct E as (l & _ & E). apply rbind_inv in E. destruct E as (h2 & E2 & E). injection E as <-. cbn [fst].
    eapply arrays_set_next; [|exact E2]. apply arrays_set; [exact R1|discriminate].
  - apply rbind_inv in E. destruct E as (h2 & E2 & E). injection E as <-. cbn [fst]. eapply arrays_set_next; [|exact E2]. apply arrays_set; [exact R1|discriminate].
Qed.
Lemma arrays_load alloc ar : forall h p r, arrays_read h -> load_loop alloc ar h p = Ok r -> arrays_read (fst r).
Proof.
  induction ar as [|m ar IH]; intros h p r R E; cbn [load_loop] in E; [injection E as <-; exact R|].
  apply rbind_inv in E. destruct E as ([arr|] & EM & E); [|exact (IH _ _ _ R E)]. unfold h_new in E. cbn [fst snd] in E.
  apply rbind_inv in E. destruct E as ([h1 p1] & EA & E). apply (IH _ _ _) in E; [exact E|]. cbn [fst].
  refine (arrays_append alloc _ _ _ _ _ _ _ EA). intros x mm d H. unfold holds in H.
  set (h0 := h ++ [Some BData]) in *. destruct (Nat.lt_ge_cases x (length h0)) as [L|L].
  - rewrite nth_error_app1 in H by exact L. exact (arrays_new h BData R ltac:(discriminate) x mm d H).
  - rewrite nth_error_app2 in H by exact L. destruct (x - length h0) as [|k]; cbn in H; [|destruct k; discriminate]. injection H as <- _.
    exists alloc, (mb_content m). exact EM.
Qed.

Lemma int_le z : (0 <= z)%Z -> (NetFile.int_of_size z <= z)%Z.
Proof. intros H. unfold NetFile.int_of_size. pose proof (Z.mod_le (z + 2147483648) 4294967296 ltac:(lia) ltac:(lia)). lia. Qed.
(** two dimensions of 4 byte elements, as many as an address can count *)
Definition float_matrix (m : npy) : Prop := np_ndim m = 2 /\ np_elem m = 4%Z /\ (product (stored_dims m) * 4 < 18446744073709551616)%Z.
Lemma reads_ok alloc content m n k a b : npy_load alloc content = Ok (Some m) -> float_matrix m -> shape_at m 0 = Ok a -> shape_at m 1 = Ok b ->
  (0 <= n <= a)%Z -> (k <= b)%Z -> reads m n k = Ok tt.
Proof.
  intros R (ND & EL & BD) A B N K. destruct (npy_load_data _ _ _ R) as (_ & _ & L8 & _ & FD & _ & _ & LD & _).
  unfold shape_at in A, B. unfold stored_dims in *. rewrite ND, EL in *.
  destruct (np_shape m) as [|d0 [|d1 rest]]; try discriminate. cbn [nth_error firstn] in *. injection A as ->. injection B as ->.
  pose proof (Forall_inv FD) as F0. pose proof (Forall_inv (Forall_inv_tail FD)) as F1. cbv beta in F0, F1. rewrite product2 in BD.
  unfold reads. destruct (Z.leb_spec (n * k * 4) (Z.of_nat (length (np_data m)))) as [_|Q]; [reflexivity|]. exfalso.
  assert (NK : (n * k <= a * b)%Z) by nia.
  destruct (Z.eq_dec (a * b) 0) as [Z0|Z0]; [lia|]. assert (1 <= a /\ 1 <= b)%Z by nia.
  assert (E : leading [a; b] = [a; b]) by (apply leading_positive; repeat constructor; lia).
  rewrite E, product2, Z.mod_small in LD by nia. lia.
Qed.

Section Program.
  Variable lm : libm.
  Variable archive : bytes -> option (list member).
  Variable alloc : Z -> bool.
  Variable mem : nat -> Z -> bool.
  Variable lib_opens : bytes -> bool.
  Variable dlsym : bytes -> bytes -> option (option nat).

  Lemma check_inv b x : check b = Ok x -> b = true.
  Proof. destruct b; [reflexivity|discriminate]. Qed.
  Lemma pair_inv h name h' p X Y : arrays_read h -> load_pair archive alloc h name = Ok (h', p, X, Y) -> arrays_read h'
    /\ (exists al content, npy_load al content = Ok (Some X)) /\ (exists al content, npy_load al content = Ok (Some Y))
    /\ exists n, shape_at X 0 = Ok n /\ shape_at Y 0 = Ok n.
  Proof.
    intros R E. unfold load_pair in E. apply rbind_inv in E. destruct E as ([h1 p1] & EL & E).
    assert (R1 : arrays_read h1).
    { unfold load_file in EL. destruct name as [f|]; [|injection EL as <- _; exact R]. destruct (archive f) as [ar|]; [|injection EL as <- _; exact R].
      exact (arrays_load alloc ar h None (h1, p1) R EL). }
    apply rbind_inv in E. destruct E as (? & _ & E). apply rbind_inv in E. destruct E as ([A q1] & EA & E). apply rbind_inv in E. destruct E as ([B q2] & EB & E).
    cbn [fst snd] in *. do 2 (apply rbind_inv in E; destruct E as (? & _ & E)).
    apply rbind_inv in E. destruct E as (nx & EX & E). apply rbind_inv in E. destruct E as (ny & EY & E). apply rbind_inv in E. destruct E as (? & EC & E).
    injection E as <- <- <- <-. apply check_inv in EC. apply Z.eqb_eq in EC. subst ny.
    assert (G : forall q m q', next_array h1 q = Ok (m, q') -> exists al content, npy_load al content = Ok (Some m)).
    { intros q m q' H. unfold next_array in H. destruct q as [z|]; [|discriminate]. apply rbind_inv in H. destruct H as ([[arr s] nxt] & _ & H).
      destruct arr as [a|]; [|discriminate]. apply rbind_inv in H. destruct H as ([m' d] & H' & H). injection H as <- _. cbn [fst].
      apply (R1 a m' d). unfold get_arr in H'. apply rbind_inv in H'. destruct H' as (b & H1 & H2). unfold h_get in H1. unfold holds.
      destruct (nth_error h1 a) as [[b'|]|]; try discriminate. injection H1 as ->. destruct b; try discriminate. injection H2 as <- <-. reflexivity. }
    split; [exact R1|]. split; [exact (G _ _ _ EA)|]. split; [exact (G _ _ _ EB)|]. exists nx. split; assumption.
  Qed.

  (** whatever the archives contain and whatever memory there is: if the checks of the program succeed and the four arrays are
      float matrices, the epochs stay within the arrays *)
  Theorem checks_suffice_partial : forall h st o h1 st1 j, arrays_read h -> prepare lm archive alloc mem lib_opens dlsym h st o = Ok (h1, st1, j) ->
    Forall float_matrix [jb_X j; jb_Y j; jb_vX j; jb_vY j] -> jb_n j <> 0%Z -> data_ok j = Ok tt.
  Proof.
    intros h st o h1 st1 j R E FM NZ. unfold prepare in E.
    apply rbind_inv in E. destruct E as ([[[h2 p] X] Y] & E1 & E). apply rbind_inv in E. destruct E as ([[[h3 q] vX] vY] & E2 & E).
    destruct (pair_inv _ _ _ _ _ _ R E1) as (R2 & (a1 & c1 & LX) & (a2 & c2 & LY) & n & NX & NY).
    destruct (pair_inv _ _ _ _ _ _ R2 E2) as (R3 & (a3 & c3 & LVX) & (a4 & c4 & LVY) & nv & NVX & NVY).
    rewrite NX, NVX in E. cbn [rbind] in E.
    apply rbind_inv in E. destruct E as (x1 & X1 & E). apply rbind_inv in E. destruct E as (y1 & Y1 & E).
    apply rbind_inv in E. destruct E as (vx1 & VX1 & E). apply rbind_inv in E. destruct E as (vy1 & VY1 & E).
    apply rbind_inv in E. destruct E as (? & C1 & E). apply rbind_inv in E. destruct E as (? & C2 & E).
    apply check_inv in C1, C2. apply Z.eqb_eq in C1, C2. subst vx1 vy1.
    apply rbind_inv in E. destruct E as ([[h4 st4] [nn|]] & _ & E); [|discriminate].
    apply rbind_inv in E. destruct E as (lf & EL & E). destruct (cn_layers nn) as [|l ls] eqn:CL; [discriminate|].
    apply rbind_inv in E. destruct E as (? & C3 & E). apply rbind_inv in E. destruct E as (? & C4 & E). apply check_inv in C3, C4. apply Z.eqb_eq in C3, C4.
    apply rbind_inv in E. destruct E as (m2 & EM & E). destruct (choose _ _ _) as [s|]; [|discriminate].
    apply rbind_inv in E. destruct E as ([[h5 st5] [opt|]] & EO & E); [|discriminate].
    apply rbind_inv in E. destruct E as (metrics & EML & E). apply rbind_inv in E. destruct E as (n' & EN & E). apply rbind_inv in E. destruct E as (nv' & ENV & E).
    injection E as <- <- <-. cbn [jb_X jb_Y jb_vX jb_vY jb_n] in *. unfold data_ok. cbn [jb_X jb_Y jb_vX jb_vY jb_n jb_net jb_nv].
    destruct (Z.eqb_spec n' 0); [contradiction|]. rewrite CL. rewrite C3, C4.
    assert (P : forall al c m i d, npy_load al c = Ok (Some m) -> np_ndim m = 2 -> i < 2 -> shape_at m i = Ok d -> (0 <= d)%Z).
    { intros al c m i d L ND I S. destruct (npy_load_data _ _ _ L) as (_ & _ & L8 & _ & FD & _). unfold shape_at in S. unfold stored_dims in FD. rewrite ND in FD.
      destruct (np_shape m) as [|d0 [|d1 rest]]; try discriminate. cbn [firstn] in FD. pose proof (Forall_inv FD) as F0. pose proof (Forall_inv (Forall_inv_tail FD)) as F1. cbv beta in F0, F1.
      destruct i as [|[|i]]; cbn in S; [injection S as <-; lia|injection S as <-; lia|lia]. }
    pose proof (Forall_inv FM) as M1. apply Forall_inv_tail in FM. pose proof (Forall_inv FM) as M2. apply Forall_inv_tail in FM.
    pose proof (Forall_inv FM) as M3. apply Forall_inv_tail in FM. pose proof (Forall_inv FM) as M4.
    assert (Pn : (0 <= n)%Z) by (eapply P; [exact LX|apply M1| |exact NX]; lia). assert (Pv : (0 <= nv)%Z) by (eapply P; [exact LVX|apply M3| |exact NVX]; lia).
    assert (Px : (0 <= x1)%Z) by (eapply P; [exact LX|apply M1| |exact X1]; lia). assert (Py : (0 <= y1)%Z) by (eapply P; [exact LY|apply M2| |exact Y1]; lia).
    assert (Cn : (0 <= n' <= n)%Z).
    { unfold count in EN. pose proof (int_le n Pn). destruct (Z.ltb_spec (NetFile.int_of_size n) 0); [discriminate|]. injection EN as <-. lia. }
    assert (Cv : (0 <= nv' <= nv)%Z).
    { unfold count in ENV. pose proof (int_le nv Pv). destruct (Z.ltb_spec (NetFile.int_of_size nv) 0); [discriminate|]. injection ENV as <-. lia. }
    pose proof (int_le x1 Px). pose proof (int_le y1 Py).
    rewrite (reads_ok a1 c1 X n' _ n x1 LX M1 NX X1 Cn) by assumption. cbn [rbind].
    rewrite (reads_ok a2 c2 Y n' _ n y1 LY M2 NY Y1 Cn) by assumption. cbn [rbind].
    rewrite (reads_ok a3 c3 vX nv' _ nv x1 LVX M3 NVX VX1 Cv) by assumption. cbn [rbind].
    rewrite (reads_ok a4 c4 vY nv' _ nv y1 LVY M4 NVY VY1 Cv) by assumption. reflexivity.
  Qed.
End Program.
Print Assumptions checks_suffice_partial.

(** ** concrete runs *)
Definition ex_x := ex_member "x" (ex_floats [3; 2]%Z 24).
Definition ex_y := ex_member "y" (ex_floats [3; 1]%Z 12).
Definition ex_files (s : bytes) : option (list member) :=
  if same s (txt "data.npz") then Some [ex_x; ex_y]
  else if same s (txt "net.npz") then Some [ex_weight; ex_bias; ex_tanh]
  else if same s (txt "one.npz") then Some [ex_x]                                                       (* one array *)
  else if same s (txt "bytes.npz") then Some [ex_member "x" (builder (repeat "A"%char 6) [3; 2]%Z "i" 1); ex_y]   (* bytes instead of floats *)
  else if same s (txt "double.npz") then Some [ex_member "x" (builder (repeat "A"%char 48) [3; 2]%Z "f" 8); ex_member "y" (builder (repeat "A"%char 24) [3; 1]%Z "f" 8)]
  else if same s (txt "short.npz") then Some [ex_x; ex_member "y" (ex_floats [2; 1]%Z 8)]               (* fewer targets than inputs *)
  else if same s (txt "wide.npz") then Some [ex_member "x" (ex_floats [2; 3]%Z 24); ex_member "y" (ex_floats [2; 1]%Z 8)]
  else if same s (txt "empty.npz") then Some [mk_member (txt "x") (npy_file "000" (txt "{'descr': '<f4', 'fortran_order': False, 'shape': (0, 2), }" ++ [newline]) (repeat "A"%char 4)) cm_default;
                                              mk_member (txt "y") (npy_file "000" (txt "{'descr': '<f4', 'fortran_order': False, 'shape': (0, 1), }" ++ [newline]) (repeat "A"%char 4)) cm_default]
  else None.
(** an epoch that counts; the results are always 1 *)
Definition ex_epoch {lm} (j : Trainer.job lm) (n : nat) : res (nat * list b32 * list b32) :=
  Ok (S n, map (fun _ => b32_ofZ 1) (jb_metrics j), map (fun _ => b32_ofZ 1) (jb_metrics j)).
Definition ex_save (n : nat) (name : string) (fs : list (nat * string)) : list (nat * string) := fs ++ [(n, name)].
Definition ex_run (lm : libm) (argv : list string) : res (@outcome nat (list (nat * string))) :=
  trainer lm (fun _ => b32_zero) ex_files yes all_mem no_lib no_sym ex_save (fun _ => txt "1.00000e+00") (fun _ => (12, 34, 56)) (fun _ => true)
    [Some BData] [] [] None true (fun _ => 0) ex_epoch (map txt argv).
Definition ex_argv : list string := ["-t"; "data.npz"; "--veri=data.npz"; "-nnet.npz"; "--loss"; "mse"; "--metrics"; "none"; "-o"; "SGD"; "other"; "-b"; "2"; "--log=run.log"]%string.
Definition ex_ps : list (ascii * word) :=
  [("t"%char, txt "data.npz"); ("v"%char, txt "data.npz"); ("n"%char, txt "net.npz"); ("l"%char, txt "mse"); ("m"%char, txt "none"); ("o"%char, txt "SGD");
   ("b"%char, txt "2"); ("q"%char, txt "run.log")].
(** what can be seen of a run: an exit, or the last network, the number of epochs, the saved networks, the length of the log file and
    the number of live blocks *)
Definition ex_seen (r : res (@outcome nat (list (nat * string)))) : res (Z + nat * nat * list (nat * string) * option nat * nat) :=
  match r with
  | Fault f => Fault f
  | Ok (Exit z) => Ok (inl z)
  | Ok (Done h nn t n) => Ok (inr (nn, n, cb_fs t, option_map (@length ascii) (cb_file t), length (filter (fun b => match b with Some _ => true | None => false end) h)))
  end.

(** the command line is one *)
Ltac solve_names name rest := split; [exists name, (txt rest); split; [cbn; tauto|reflexivity]|];
  let c := fresh in let n := fresh in let r := fresh in let I := fresh in let E := fresh in
  intros c n r I E; cbn in I; repeat (destruct I as [I|I]; [injection I as <- <-; first [reflexivity|discriminate E]|]); destruct I.
Example ex_line : command_line [] ex_ps (map txt ex_argv) /\ finished [] /\ Forall sensible ex_ps /\ last_value "s" ex_ps = None.
Proof.
  split; [|split; [left; reflexivity|split; [|reflexivity]]].
  - apply (line_option [] "t"%char (txt "data.npz") [txt "-t"; txt "data.npz"]); [apply writes_apart; cbn; tauto|].
    apply (line_option [] "v"%char (txt "data.npz") [txt "--veri=data.npz"]); [apply (writes_equals "v" (txt "veri")); solve_names "verificationset"%string "ficationset"%string|].
    apply (line_option [] "n"%char (txt "net.npz") [txt "-nnet.npz"]); [apply writes_joined; cbn; tauto|].
    apply (line_option [] "l"%char (txt "mse") [txt "--loss"; txt "mse"]); [apply (writes_long "l" (txt "loss")); solve_names "loss"%string ""%string|].
    apply (line_option [] "m"%char (txt "none") [txt "--metrics"; txt "none"]); [apply (writes_long "m" (txt "metrics")); solve_names "metrics"%string ""%string|].
    apply (line_option [] "o"%char (txt "SGD") [txt "-o"; txt "SGD"]); [apply writes_apart; cbn; tauto|].
    apply line_other; [left; discriminate|].
    apply (line_option [] "b"%char (txt "2") [txt "-b"; txt "2"]); [apply writes_apart; cbn; tauto|].
    apply (line_option [] "q"%char (txt "run.log") [txt "--log=run.log"]); [apply (writes_equals "q" (txt "log")); solve_names "log"%string ""%string|].
    constructor.
  - repeat constructor; cbn [fst snd]; try discriminate. intros _. exists 2%Z. split; [|split; discriminate].
    left. split; [discriminate|]. split; [discriminate|reflexivity].
Qed.
(** words that are rejected: an unknown letter, an ambiguous name, a missing value *)
Example ex_rejected : rejected [txt "-m"; txt "mse"] /\ rejected [txt "--l"; txt "mse"] /\ rejected [txt "-t"].
Proof.
  split; [apply (rejected_letter "m"); [cbn; intros H; repeat (destruct H as [H|H]; [discriminate|]); exact H|discriminate]|]. split.
  - apply (rejected_name (txt "l") []).
    + intros c (_ & H). assert (A := H "l"%char "loss"%string (txt "oss") ltac:(cbn; tauto) eq_refl). assert (B := H "a"%char "learning-rate"%string (txt "earning-rate") ltac:(cbn; tauto) eq_refl). congruence.
    + cbn. intros [H|[]]. discriminate.
    + left. split; [discriminate|reflexivity].
  - apply rejected_no_value. cbn. tauto.
Qed.

Lemma stored m : storable m -> np_fortran m = false -> guess_endianness m <> ">"%char ->
  (let t := header_text m (shape_bytes (stored_dims m)) in length t mod 256 < 128 /\ length t / 256 < 128) ->
  npy_stores (npy_bytes m) (np_type m) (np_elem m) (stored_dims m) (np_data m).
Proof.
  intros S F E (L1 & L2). exists "000"%char, (header_text m (shape_bytes (stored_dims m))), [], (guess_endianness m).
  split; [unfold npy_bytes; rewrite app_nil_r; reflexivity|]. pose proof (header_describes m S) as H. rewrite F in H. repeat split; assumption.
Qed.
Ltac solve_stored m := refine (stored m _ eq_refl _ _);
  [split; [reflexivity|split; [cbn; lia|split; [repeat constructor; cbn; lia|split; [reflexivity|split; [discriminate|split; [reflexivity|reflexivity]]]]]]|discriminate|
   split; apply Nat.ltb_lt; vm_compute; reflexivity].
Definition ex_desc : list ndesc := [mk_ndesc 2 1 (repeat "A"%char 8) (repeat "A"%char 4) (Builtin Tanh)]%Z.
Example ex_samples : samples [ex_x; ex_y] 3 (net_inputs ex_desc) (net_outputs ex_desc) (repeat "A"%char 24) (repeat "A"%char 12).
Proof.
  exists ex_x, ex_y, []. split; [reflexivity|]. split; [solve_stored (ex_floats [3; 2]%Z 24)|]. split; [split; reflexivity|].
  split; [solve_stored (ex_floats [3; 1]%Z 12)|]. split; [split; reflexivity|]. split; [lia|]. split; [constructor|].
  repeat constructor; cbn; lia || (intros H; repeat (destruct H as [H|H]; [discriminate|]); exact H) || discriminate.
Qed.
Example ex_stores : stores_network no_lib no_sym [ex_weight; ex_bias; ex_tanh] ex_desc /\ countable ex_desc.
Proof.
  split; [|split; [repeat constructor|reflexivity]].
  exists [ex_weight; ex_bias], ex_tanh, [], [txt "tanh"]. split; [reflexivity|].
  split; [repeat constructor; cbn; lia || (intros H; repeat (destruct H as [H|H]; [discriminate|]); exact H) || discriminate|].
  split; [split; [discriminate|split; [repeat constructor; cbn; lia|split; [exact I|reflexivity]]]|].
  split; [constructor; [solve_stored (ex_floats [2; 1]%Z 8)|constructor; [solve_stored (ex_floats [1]%Z 4)|constructor]]|].
  split.
  { exists 4. split; [lia|]. split; [solve_stored (ex_strings ["tanh"%string] 4)|]. split; [|reflexivity].
    repeat constructor. cbn. intros H; repeat (destruct H as [H|H]; [discriminate|]); exact H. }
  split; [reflexivity|]. split; [reflexivity|]. split; [constructor; [intros sy li _ Q; discriminate Q|constructor]|].
  constructor; [left; constructor|constructor].
Qed.
(** a run, computed: behind the end five blocks are alive, one of them from before *)
Example trainer_run_ex : forall lm, ex_seen (ex_run lm ex_argv) = Ok (inr (10, 10, [(1, "checkpoint.npz"%string)], Some 900, 5)).
Proof. intros lm. vm_compute. reflexivity. Qed.
(** all hypotheses of trainer_works are met, and with them those of ten_epochs, trainer_checkpoints and trainer_log *)
Example trainer_works_ex : forall lm, exists h' nn t, ex_run lm ex_argv = Ok (Done h' nn t 10) /\ nn = 10 /\ holds h' 0 BData.
Proof.
  intros lm. destruct ex_line as (C & FI & S & NS). destruct ex_stores as (ST & CN).
  destruct (trainer_works lm (fun _ => b32_zero) ex_files yes all_mem no_lib no_sym ex_save (fun _ => txt "1.00000e+00") (fun _ => (12, 34, 56)) (fun _ => true)
              (fun _ => eq_refl) (fun _ _ => eq_refl) [Some BData] [] [] None true (fun _ => 0) ex_epoch [] ex_ps (map txt ex_argv)
              (txt "data.npz") [ex_x; ex_y] 3 _ _ (txt "data.npz") [ex_x; ex_y] 3 _ _ (txt "net.npz") [ex_weight; ex_bias; ex_tanh] ex_desc "mse" MSE K_SGD
              C FI S NS eq_refl eq_refl ex_samples eq_refl eq_refl ex_samples eq_refl eq_refl ST CN eq_refl) as (h' & nn & t & j & es & left & E & LE & FO & FN & _ & _ & _ & _ & _ & _ & _ & _ & _ & _ & _ & O & _).
  { right. left. reflexivity. } { discriminate. } { exists "SGD"%string. split; [left; reflexivity|reflexivity]. }
  { intros v z Q N. injection Q as <-. destruct N as [(_ & _ & N)|(N & r & Q & _)]; [injection N as <-; lia|discriminate]. }
  { right. reflexivity. } { intros j nn. do 3 eexists. split; [reflexivity|]. rewrite map_length. split; reflexivity. }
  { intros x. cbn. lia. } { intros i. repeat split; apply Nat.ltb_lt; reflexivity. }
  exists h', nn, t. split; [exact E|]. split; [|unfold holds; rewrite O; [reflexivity|cbn; lia]].
  pose proof (trainer_run_ex lm) as R. unfold ex_run in R. rewrite E in R. injection R as R _ _ _. exact R.
Qed.

(** C93, REFUTED: after a run that ends normally nothing of the memory it took is left *)
Theorem trainer_frees_refuted : exists argv, forall lm, exists h' nn t n, ex_run lm argv = Ok (Done h' nn t n)
  /\ exists x, 1 <= x /\ live h' x.
Proof.
  exists ex_argv. intros lm. pose proof (trainer_run_ex lm) as E. destruct (ex_run lm ex_argv) as [[z|h' nn t n]|] eqn:R; [discriminate| |discriminate].
  exists h', nn, t, n. split; [reflexivity|]. unfold ex_seen in E. injection E as _ _ _ _ E.
  destruct h' as [|b0 h']; [discriminate|]. cbn [filter] in E.
  assert (P : exists x, nth_error h' x <> None /\ nth_error h' x <> Some None).
  { assert (L : 1 <= length (filter (fun b : option block => match b with Some _ => true | None => false end) h')).
    { destruct b0; cbn [length] in E; lia. }
    clear -L. induction h' as [|[b|] h' IH]; cbn [filter length] in L; [lia| |].
    - exists 0. split; discriminate.
    - destruct (IH L) as (x & Hx). exists (S x). exact Hx. }
  destruct P as (x & P1 & P2). exists (S x). split; [lia|]. unfold live, holds. cbn [nth_error]. destruct (nth_error h' x) as [[b|]|]; [exists b; reflexivity|congruence|congruence].
Qed.
Print Assumptions trainer_frees_refuted.

(** C90, REFUTED: the option -e 3,0,0 stops the training when the results do not improve for three epochs *)
Theorem early_stopping_option_refuted : exists argv, forall lm,
  ex_seen (ex_run lm (argv ++ ["-e"; "3,0,0"]%string)) = ex_seen (ex_run lm argv) /\ exists nn fs log k, ex_seen (ex_run lm argv) = Ok (inr (nn, 10, fs, log, k)) /\ fs = [(1, "checkpoint.npz"%string)].
Proof.
  exists ex_argv. intros lm. split; [vm_compute; reflexivity|]. do 4 eexists. split; [apply trainer_run_ex|reflexivity].
Qed.
Print Assumptions early_stopping_option_refuted.
(** the hypotheses of early_stopping_option_ignored can be met with and without -e *)
Example early_stopping_line : command_line [] (ex_ps ++ [("e"%char, txt "3,0,0")]) (map txt (ex_argv ++ ["-e"; "3,0,0"]%string))
  /\ sensible ("e"%char, txt "3,0,0") /\ forall c, c <> "e"%char -> last_value c ex_ps = last_value c (ex_ps ++ [("e"%char, txt "3,0,0")]).
Proof.
  split; [|split].
  - assert (G : forall ps l, command_line [] ps l -> command_line [] (ps ++ [("e"%char, txt "3,0,0")]) (l ++ [txt "-e"; txt "3,0,0"])).
    { induction 1 as [|c v ws ps l W C IH|w ps l N C IH].
      - apply (line_option [] "e"%char (txt "3,0,0") [txt "-e"; txt "3,0,0"]); [apply writes_apart; cbn; tauto|constructor].
      - rewrite <- app_assoc. apply (line_option [] c v ws); assumption.
      - apply line_other; assumption. }
    apply (G ex_ps (map txt ex_argv)). apply ex_line.
  - split; [discriminate|]. intros _. exists 3%Z, 0%Z, 0%Z, (txt "3"), (txt "0"), (txt "0"). split; [reflexivity|].
    repeat split; try discriminate; left; (split; [discriminate|split; [discriminate|reflexivity]]).
  - intros c N. unfold ex_ps. cbn [app last_value]. destruct (ascii_dec "e" c) as [E|E]; [congruence|]. reflexivity.
Qed.

(** C94, REFUTED: data files that can be read but do not fit are rejected by the checks *)
Definition bad_runs : list (string * string * fault) :=
  [ ("one.npz", "data.npz", BadPointer); ("data.npz", "one.npz", BadPointer); ("bytes.npz", "data.npz", OutOfBounds);
    ("data.npz", "bytes.npz", OutOfBounds); ("empty.npz", "data.npz", DivByZero); ("data.npz", "empty.npz", Uninit) ]%string.
Definition data_argv (t v : string) : list string := ["-t"; t; "-v"; v; "-n"; "net.npz"; "-l"; "mse"; "--metrics"; "mae"]%string.
Theorem data_files_refuted : Forall (fun r => forall lm, ex_run lm (data_argv (fst (fst r)) (snd (fst r))) = Fault (snd r)) bad_runs.
Proof. unfold bad_runs. repeat constructor; intros lm; vm_compute; reflexivity. Qed.
Print Assumptions data_files_refuted.
(** 64 bit floats are taken for 32 bit floats *)
Theorem data_types_refuted : forall lm, exists fs log k, ex_seen (ex_run lm (data_argv "double.npz" "double.npz")) = Ok (inr (10, 10, fs, log, k)).
Proof. intros lm. do 3 eexists. vm_compute. reflexivity. Qed.
Print Assumptions data_types_refuted.
(** files whose numbers do not match are rejected *)
Example data_files_rejected : Forall (fun r => forall lm, ex_run lm (data_argv (fst r) (snd r)) = Fault AssertFailed)
  [("short.npz", "data.npz"); ("data.npz", "wide.npz"); ("wide.npz", "wide.npz"); ("none.npz", "data.npz")]%string.
Proof. repeat constructor; intros lm; vm_compute; reflexivity. Qed.
(** the hypotheses of unsuitable_rejected can be met: a network file that is not there *)
Example unsuitable_ex : command_line [] (ex_ps ++ [("n"%char, txt "none.npz")]) (map txt (ex_argv ++ ["-n"; "none.npz"]%string))
  /\ unsuitable ex_files no_lib no_sym (ex_ps ++ [("n"%char, txt "none.npz")]).
Proof.
  split.
  - assert (G : forall ps l, command_line [] ps l -> command_line [] (ps ++ [("n"%char, txt "none.npz")]) (l ++ [txt "-n"; txt "none.npz"])).
    { induction 1 as [|c v ws ps l W C IH|w ps l N C IH].
      - apply (line_option [] "n"%char (txt "none.npz") [txt "-n"; txt "none.npz"]); [apply writes_apart; cbn; tauto|constructor].
      - rewrite <- app_assoc. apply (line_option [] c v ws); assumption.
      - apply line_other; assumption. }
    apply (G ex_ps (map txt ex_argv)). apply ex_line.
  - right. assert (SS : forall c, c = "t"%char \/ c = "v"%char -> some_samples ex_files c (ex_ps ++ [("n"%char, txt "none.npz")]) 2 1).
    { intros c H. exists [ex_x; ex_y], 3%Z, (repeat "A"%char 24), (repeat "A"%char 12). split; [exists (txt "data.npz"); destruct H as [-> | ->]; split; reflexivity|]. split; [exact ex_samples|lia]. }
    exists 2%Z, 1%Z. split; [apply SS; left; reflexivity|]. right. exists 2%Z, 1%Z. split; [apply SS; right; reflexivity|]. right. right. left.
    intros f Q. injection Q as <-. reflexivity.
Qed.
(** the hypotheses of checks_suffice_partial can be met *)
Definition ex_opts (lm : libm) : topts :=
  mk_topts (Some (txt "data.npz")) (Some (txt "data.npz")) (Some (txt "net.npz")) (Some (txt "mse")) (Some (txt "none")) (txt "SGD") (@flit (opsB32 lm) 1 1000) 2
    (Some (txt "run.log")) None None 1.
Example checks_suffice_ex : forall lm, set_opts (fun _ => b32_zero) (topts0 lm) (getopt (map txt ex_argv)) = Ok (inl (ex_opts lm))
  /\ exists h1 st1 j, prepare lm ex_files yes all_mem no_lib no_sym [] [] (ex_opts lm) = Ok (h1, st1, j) /\ arrays_read []
       /\ Forall float_matrix [jb_X j; jb_Y j; jb_vX j; jb_vY j] /\ jb_n j = 3%Z.
Proof.
  intros lm. split; [reflexivity|].
  assert (J : match prepare lm ex_files yes all_mem no_lib no_sym [] [] (ex_opts lm) with
              | Ok (_, _, j) => Some (map (fun m => (np_ndim m, np_elem m, stored_dims m)) [jb_X j; jb_Y j; jb_vX j; jb_vY j], jb_n j) | Fault _ => None end
            = Some ([(2, 4%Z, [3; 2]%Z); (2, 4%Z, [3; 1]%Z); (2, 4%Z, [3; 2]%Z); (2, 4%Z, [3; 1]%Z)], 3%Z)) by (vm_compute; reflexivity).
  destruct (prepare lm ex_files yes all_mem no_lib no_sym [] [] (ex_opts lm)) as [[[h1 st1] j]|f]; [|discriminate].
  exists h1, st1, j. split; [reflexivity|]. split; [intros x m d H; unfold holds in H; destruct x; discriminate|].
  injection J as A1 A2 A3 B1 B2 B3 C1 C2 C3 D1 D2 D3 E. split; [|exact E].
  repeat constructor; try assumption; match goal with H : stored_dims ?m = _ |- context [stored_dims ?m] => rewrite H end; reflexivity.
Qed.
