(** Prop_Recreate.v -- C106: example_02b.c recreates the results of example_02.c from the saved network *)
From Coquelicot Require Import Coquelicot.
From Coq Require Import List Arith ZArith Lia Bool Permutation Reals.
From Flocq Require Import Core BinarySingleNaN.
From Verif Require SpecList Registry NpyList Create SpecNetFile NetFile Prop_NetFile SpecNetFloat.
From Verif Require Import Base BaseProofs Ops OpsR Mem MemProofs Kernels KernelProofs Activation ActivationProofs
  Loss Neuralnet ForwardProofs SpecReal RealForward PredictProofs BitsProofs GradProofs OpsB32 B32Facts SpecMem ParamProofs Batch BatchProofs BlasProofs
  MetricProofs SpecMetric SpecOpt Pivot Optimizer OptProofs OptReal OptTrain Evaluate EvalProofs EvalReal ExactProofs
  Prop_Batch Prop_Exact Prop_Metrics Prop_Evaluate Example02 Example02Proofs Prop_Example02 Ex_Mem Ex_Train.
Import ListNotations.
Local Open Scope nat_scope.
Local Open Scope mem_scope.

(** one output with a function that is not softmax, as in example_02.c:33-35 *)
Definition one_output (nn : neuralnet) : Prop :=
  out_size nn = 1 /\ forall l, nth_error (nn_layers nn) (length (nn_layers nn) - 1) = Some l -> l_act l <> Softmax.
Lemma one_output_plain c nn : one_output nn -> plain_output c nn.
Proof. intros [E H]. right. intros l Hl. split; [|exact (H l Hl)]. rewrite <- (out_size_nth nn l Hl), E. lia. Qed.

(** metrics are summed independently of each other *)
Lemma red_each {FO : fops} {T} (h : T -> nat -> F) (ms : list T) : forall its (a : T -> F),
  fold_left (fun a i => map2 fadd a (map (fun t => h t i) ms)) its (map a ms)
  = map (fun t => fold_left (fun x i => fadd x (h t i)) its (a t)) ms.
Proof.
  induction its as [|i its IH]; intros a; [reflexivity|]. cbn [fold_left].
  assert (E : map2 fadd (map a ms) (map (fun t => h t i) ms) = map (fun t => fadd (a t) (h t i)) ms).
  { clear. induction ms as [|t ms IH]; [reflexivity|]. cbn. f_equal. exact IH. }
  rewrite E. apply (IH (fun t => fadd (a t) (h t i))).
Qed.

Section Means.
Context {FO : fops}.
Variables (c : cfg) (vexp : F -> F) (net : list flayer) (xs ts : list (list F)).
(** the mean of one metric, summed from the first sample to the last *)
Definition mean1 (t : metric) : F :=
  fdiv (fold_left (fun x i => fadd x (metric_f t (forward_f c vexp net 0 (nth i xs [])) (nth i ts []))) (seq 0 (length xs)) f0) (fofZ (Z.of_nat (length xs))).

Lemma means_f (g : nat -> list F) (p : nat -> list F) (mets : list metric) :
  (forall i, i < length xs -> p i = forward_f c vexp net 0 (nth i xs [])) ->
  (forall i, g i = map (fun t => metric_f t (p i) (nth i ts [])) mets) ->
  map (fun x => fdiv x (fofZ (Z.of_nat (length xs)))) (omp_f (length mets) g None (length xs)) = map mean1 mets.
Proof.
  intros P G. unfold omp_f, red_f.
  assert (E : fold_left (fun a i => map2 fadd a (g i)) (seq 0 (length xs)) (repeat f0 (length mets))
    = fold_left (fun a i => map2 fadd a (map (fun t => metric_f t (forward_f c vexp net 0 (nth i xs [])) (nth i ts [])) mets)) (seq 0 (length xs)) (map (fun _ => f0) mets)).
  { assert (Q : repeat (f0 : F) (length mets) = map (fun _ => f0) mets) by (clear; induction mets as [|t l IH]; [reflexivity|]; cbn; f_equal; exact IH).
    rewrite Q. assert (IN : forall i, In i (seq 0 (length xs)) -> i < length xs) by (intros i Hi; apply in_seq in Hi; lia).
    revert IN. generalize (map (fun _ : metric => (f0 : F)) mets). generalize (seq 0 (length xs)). clear Q. intros its.
    induction its as [|i its IH]; intros a IN; [reflexivity|]. cbn [fold_left].
    rewrite G, (P i) by (apply IN; left; reflexivity). apply IH. intros k Hk. apply IN. right. exact Hk. }
  rewrite E. rewrite (red_each (fun t i => metric_f t (forward_f c vexp net 0 (nth i xs [])) (nth i ts [])) mets (seq 0 (length xs)) (fun _ => f0)).
  rewrite map_map. reflexivity.
Qed.

Hypothesis mulC : forall a b : F, fmul a b = fmul b a.
Variables (nn : neuralnet) (m : mem) (X Y : ptr).
Hypothesis EM : eval_mem c nn net m X Y xs ts.
Hypothesis PO : plain_output c nn.

Lemma any_address a x : In x xs -> forward_f c vexp net a x = forward_f c vexp net 0 x.
Proof.
  intros Hx. pose proof EM as (Hne & HN & _ & _ & LT & HX & HT). destruct (last_layer c nn net m X Y xs ts EM) as (l & Hl & El & Hno).
  destruct (net_holds_fits_len c m _ _ _ HN Hne l Hl) as (f & Hf & E & _). apply forward_f_small with (f := f); auto.
  - rewrite (HX x Hx). eapply net_holds_fits_f; eauto.
  - destruct PO as [Q|Q]; [left; exact Q|right]. destruct (Q l Hl) as [P1 P2]. split; [lia|].
    rewrite <- (net_holds_last_act c m _ _ _ HN l f Hl Hf). exact P2.
Qed.

Lemma eval_means (mets : list metric) (s : esched) : es_omp s = None -> eval_f c vexp net xs ts mets s = map mean1 mets.
Proof.
  intros SQ. unfold eval_f. rewrite SQ. apply (means_f _ (pred_f c vexp net xs s)); [|reflexivity].
  intros i Hi. unfold pred_f. apply any_address. apply nth_In. exact Hi.
Qed.

Lemma local_means (mets : list metric) (ms : list (option metric)) (order : list nat) (wbs : nat -> Z) (pb lb : Z) (results : ptr) :
  batch_fine c order wbs (length xs) -> valid m results (length mets) -> metric_list ms = Ok mets ->
  local_evaluate (omp_batch c vexp order wbs) pb lb nn (length xs) X Y (Some ms) results m = Ok (tt, writem m results (map mean1 mets)).
Proof.
  intros BF V ML. pose proof EM as (Hne & HN & _ & _ & LT & HX & HT). destruct (last_layer c nn net m X Y xs ts EM) as (l & Hl & El & Hno).
  assert (HS : suits_rows c (length xs) (out_size nn) pb).
  { right. unfold reg_width. destruct PO as [E|E]; [rewrite E; exact I|]. destruct (E l Hl) as [E1 _]. rewrite El.
    destruct (Nat.leb_spec 16 (n_output l)); [lia|]. destruct (Nat.leb_spec 8 (n_output l)); [lia|]. destruct (cfg_isa c); exact I. }
  destruct (omp_batch_rows c vexp mulC nn net m X Y xs ts EM order wbs pb BF HS) as (ps & W & L & RW).
  destruct (local_evaluate_ok c nn net m X Y xs ts mets EM _ pb lb _ results ps W L ML V) as [E1 L1].
  etransitivity; [exact E1|]. do 3 f_equal. unfold local_f. apply (means_f _ (lrow nn ps)); [|reflexivity].
  intros i Hi. destruct (@nth_error_ex _ xs i Hi) as [x Hx]. rewrite (RW i x Hx), (nth_error_nth xs i [] Hx). apply any_address. eapply nth_error_In; eauto.
Qed.
End Means.

(** a network in memory has one description *)
Lemma net_has_one h ds ds' nn : SpecNetFile.net_has h ds nn -> SpecNetFile.net_has h ds' nn -> ds = ds'.
Proof.
  assert (FI : forall p s s', SpecNetFile.field_is h p s -> SpecNetFile.field_is h p s' -> s = s').
  { intros p s s' (a & -> & H1) (b & E & H2). inversion E; subst b. unfold SpecList.holds in *. rewrite H1 in H2. inversion H2 as [Q].
    clear -Q. revert s' Q. induction s as [|x s IH]; intros [|y s'] Q; cbn in Q; try discriminate; [reflexivity|]. inversion Q; subst. f_equal. apply IH. assumption. }
  intros (F1 & _) (F2 & _). revert ds' F2. induction F1 as [|d l ds ls H F IH]; intros ds' F2; inversion F2 as [|d' l' ds2 ls2 H' F']; subst; [reflexivity|].
  f_equal; [|apply IH; assumption]. destruct H as (A1 & A2 & A3 & A4 & A5), H' as (B1 & B2 & B3 & B4 & B5).
  destruct d, d'; cbn in *. subst. f_equal; eauto. congruence.
Qed.
Lemma net_floats_one lm ds net net' : SpecNetFloat.net_floats lm ds net -> SpecNetFloat.net_floats lm ds net' -> net = net'.
Proof.
  intros F1. revert net'. induction F1 as [|d f ds fs H F IH]; intros net' F2; inversion F2 as [|d' f' ds2 fs2 H' F']; subst; [reflexivity|].
  f_equal; [|apply IH; assumption]. destruct H as (A1 & A2 & A3), H' as (B1 & B2 & B3). destruct f, f'; cbn in *. f_equal; congruence.
Qed.

(** C106.  Both programs with the same build, the first without OpenMP, float32.  The first program has trained a network with one
    output; [run] is its epoch, after which the memory m1 holds the network [net], which is [ds] as bytes in the heap h.  It reports
    six numbers and saves the network.  The second program loads the file into any heap and evaluates the loaded network, for any
    addresses and any order of the samples in its batches: it reports the same numbers for the metrics it has in common with the first,
    bit for bit. *)
Theorem example_02b_recreates (lm : libm) (c : cfg) (S : Type) (k : call) (w w' : world) (nn : neuralnet)
    (net : list (@flayer (opsB32 lm))) (run : option (list nat) -> @M (opsB32 lm) S)
    (X Y VX VY results : ptr) (xs ts vxs vts : list (list b32)) (st : S) (m m1 : @mem (opsB32 lm)) (s1 s2 : esched)
    alloc utf8 hmem lib_opens dlsym h rst cn ds ns fs :
  let vexp := @exp256_lane (opsB32 lm) in
  start_epoch k w = Ok w' -> run (w_pivot w' (c_opt k)) m = Ok (st, m1) -> c_n k = length xs -> one_output nn ->
  @eval_mem (opsB32 lm) c nn net m1 X Y xs ts -> sched_fine c s1 (length xs) -> es_omp s1 = None ->
  1 <= length vxs -> @eval_mem (opsB32 lm) c nn net m1 VX VY vxs vts -> sched_fine c s2 (length vxs) -> es_omp s2 = None ->
  valid m1 results 6 -> apart nn results 3 VX VY (length vxs) ->
  (forall s, alloc s = true) -> (forall k s, hmem k s = true) ->
  (forall s, Forall (fun ch => Ascii.nat_of_ascii ch < 128) s -> utf8 s = true) ->
  Registry.lookups lib_opens dlsym [] ns = Ok (rst, fs) -> Forall (fun d => In (Some (SpecNetFile.d_f d)) fs) ds ->
  Forall (fun s => s <> [] /\ ~ In Ascii.zero s /\ (Z.of_nat (length s) * Z.of_nat (length ds) < 2147483648)%Z) ns ->
  (Z.of_nat (length ds) < 178956970)%Z -> SpecNetFile.network ds -> SpecNetFile.net_has h ds cn -> SpecNetFloat.net_floats lm ds net ->
  exists (a1 a2 a3 b1 b2 b3 : b32) m2 h' ar,
    @optimizer_run_epoch (opsB32 lm) S (@evaluate (opsB32 lm) c vexp s1) (@evaluate (opsB32 lm) c vexp s2) k w nn metrics_02 (Some run) X Y
      (length vxs) (Some VX) (Some VY) results m = Ok ((w', st), m2) /\
    @holds (opsB32 lm) m2 results [a1; a2; a3; b1; b2; b3] /\
    NetFile.net_save alloc utf8 h rst cn = Ok (h', Some ar) /\
    forall h0 rst0, exists h1 rst1 cn1, NetFile.net_load alloc hmem lib_opens dlsym h0 rst0 ar = Ok (h1, rst1, Some cn1) /\
      forall ds1 net1 nn1 (mm : @mem (opsB32 lm)) X1 Y1 VX1 VY1 results1 order1 order2 wbs1 wbs2 pb1 lb1 pb2 lb2,
        SpecNetFile.net_has h1 ds1 cn1 -> SpecNetFloat.net_floats lm ds1 net1 ->
        one_output nn1 -> @eval_mem (opsB32 lm) c nn1 net1 mm X1 Y1 xs ts -> @eval_mem (opsB32 lm) c nn1 net1 mm VX1 VY1 vxs vts ->
        valid mm results1 4 -> apart nn1 results1 2 VX1 VY1 (length vxs) ->
        batch_fine c order1 wbs1 (length xs) -> batch_fine c order2 wbs2 (length vxs) ->
        writes_only (@main_02b (opsB32 lm) (@omp_batch (opsB32 lm) c vexp order1 wbs1) (@omp_batch (opsB32 lm) c vexp order2 wbs2)
          pb1 lb1 pb2 lb2 nn1 (length xs) X1 Y1 (length vxs) VX1 VY1 results1) mm results1 [a1; a3; b1; b3].
Proof.
  intros vexp A1 A2 A3 OO EM1 SF1 SQ1 NV EM2 SF2 SQ2 V AP HA HM HU LK FD FN LD NW NH NF.
  pose proof (one_output_plain c nn OO) as PO. set (mets := [M_BCE; M_MAE; M_BinAcc]).
  set (mn := @mean1 (opsB32 lm) c vexp net).
  destruct (epoch_results_with_validation (opsB32 lm) c vexp S k w w' nn net mets [] run X Y VX VY results xs ts vxs vts st m m1 s1 s2 (mulC_B32 lm)
     A1 A2 A3 EM1 SF1 NV EM2 SF2 V AP) as (tr & va & m2 & E & H & _ & L1 & L2 & W1 & W2).
  destruct SF1 as (P1 & Q1 & C1), SF2 as (P2 & Q2 & C2).
  assert (UNI : forall (mm : @mem (opsB32 lm)) p (a b : list b32) r, @writes_only (opsB32 lm) r mm p a -> r mm = Ok (tt, @writem (opsB32 lm) mm p b) -> valid mm p (length b) -> length a = length b -> a = b).
  { intros mm p a b r (ma & Ra & Ha & _) Rb Vb LL. rewrite Ra in Rb. inversion Rb; subst ma.
    pose proof (@holds_writem_same (opsB32 lm) mm p b Vb) as Hb.
    destruct Ha as (ba & F1 & _ & F2), Hb as (bb & G1 & _ & G2). rewrite F1 in G1. inversion G1; subst bb.
    change (@F (opsB32 lm)) with b32 in *. rewrite LL in F2. rewrite F2 in G2. clear -G2. revert b G2.
    induction a as [|x a IH]; intros [|y b] G; simpl in G; inversion G; subst; auto. f_equal. apply IH. auto. }
  assert (T1 : tr = map (mn xs ts) mets).
  { destruct (@evaluate_ok (opsB32 lm) c vexp (mulC_B32 lm) nn net m1 X Y xs ts mets s1 EM1 P1 Q1 _ results (metric_list_terminated mets []) C1) as [E1 LE1].
    { eapply valid_le; [exact V|simpl; lia]. }
    rewrite (eval_means c vexp net xs ts nn m1 X Y EM1 PO mets s1 SQ1) in E1.
    refine (UNI _ _ _ _ _ W1 E1 _ _); [|exact L1]. eapply valid_le; [exact V|simpl; lia]. }
  assert (T2 : va = map (mn vxs vts) mets).
  { destruct (@evaluate_ok (opsB32 lm) c vexp (mulC_B32 lm) nn net m1 VX VY vxs vts mets s2 EM2 P2 Q2 _ (results +! 3) (metric_list_terminated mets []) C2) as [E1 LE1].
    { eapply valid_sub; [exact V|simpl; lia]. }
    rewrite (eval_means c vexp net vxs vts nn m1 VX VY EM2 PO mets s2 SQ2) in E1.
    refine (UNI _ _ _ _ _ W2 E1 _ _); [|exact L2]. eapply valid_sub; [exact V|simpl; lia]. }
  destruct (Prop_NetFile.net_round_trip alloc utf8 hmem lib_opens dlsym h rst cn ds ns fs HA HM HU LK FD FN LD NW NH) as (h' & ar & ES & _ & _ & LOAD).
  exists (mn xs ts M_BCE), (mn xs ts M_MAE), (mn xs ts M_BinAcc), (mn vxs vts M_BCE), (mn vxs vts M_MAE), (mn vxs vts M_BinAcc), m2, h', ar.
  split; [exact E|]. split; [rewrite T1, T2 in H; exact H|]. split; [exact ES|].
  intros h0 rst0. destruct (LOAD h0 rst0) as (h1 & rst1 & cn1 & EL & NH1 & _). exists h1, rst1, cn1. split; [exact EL|].
  intros ds1 net1 nn1 mm X1 Y1 VX1 VY1 results1 order1 order2 wbs1 wbs2 pb1 lb1 pb2 lb2 NHX NF1 OO1 EMA EMB V1 AP1 BF1 BF2.
  assert (ds1 = ds) by exact (net_has_one _ _ _ _ NHX NH1). subst ds1.
  assert (net1 = net) by exact (net_floats_one _ _ _ _ NF1 NF). subst net1.
  pose proof (one_output_plain c nn1 OO1) as PO1.
  set (m2s := [M_BCE; M_BinAcc]).
  assert (VA : @valid (opsB32 lm) mm results1 (length m2s)) by (eapply valid_le; [exact V1|simpl; lia]).
  pose proof (@local_means (opsB32 lm) c vexp net xs ts (mulC_B32 lm) nn1 mm X1 Y1 EMA PO1 m2s [Some M_BCE; Some M_BinAcc; None] order1 wbs1 pb1 lb1 results1 BF1 VA eq_refl) as R1.
  set (mm' := @writem (opsB32 lm) mm results1 (map (mn xs ts) m2s)).
  assert (EMB' : @eval_mem (opsB32 lm) c nn1 net mm' VX1 VY1 vxs vts) by (apply eval_mem_writem; auto).
  assert (VB : @valid (opsB32 lm) mm' (results1 +! 2) (length m2s)) by (apply valid_writem; auto; eapply valid_sub; [exact V1|simpl; lia]).
  pose proof (@local_means (opsB32 lm) c vexp net vxs vts (mulC_B32 lm) nn1 mm' VX1 VY1 EMB' PO1 m2s [Some M_BCE; Some M_BinAcc; None] order2 wbs2 pb2 lb2 (results1 +! 2) BF2 VB eq_refl) as R2.
  apply writes_only_intro; [exact V1|]. unfold main_02b. change metrics_02b with (Some [Some M_BCE; Some M_BinAcc; None]).
  erewrite bind_ok by exact R1. etransitivity; [exact R2|]. do 2 f_equal. unfold mm'.
  change 2 with (length (map (mn xs ts) m2s)). apply (@writem_writem_app (opsB32 lm)). exact V1.
Qed.
Print Assumptions example_02b_recreates.

(** the premises can be met: y = 0 x + 0, two samples, in an epoch that leaves the network as it is *)
Definition rc_ds : list SpecNetFile.ndesc :=
  [SpecNetFile.mk_ndesc 1 1 (repeat Ascii.zero 4) (repeat Ascii.zero 4) (Registry.Builtin Linear)]%Z.
Definition rc_heap : NpyList.heap := map (fun l => Some (NpyList.BMem (map Some l))) [[]; []; repeat Ascii.zero 4; repeat Ascii.zero 4].
Definition rc_net : Create.cnet := Create.mk_cnet 0 1 [Create.mk_clayer 1 1 (Create.FPtr 2) (Create.FPtr 3) (Some (Registry.Builtin Linear))]%Z None.
Definition rc_mem (lm : libm) (x1 x2 t1 t2 : b32) : @mem (opsB32 lm) := @tc_mem (opsB32 lm) [x1; x2] [t1; t2] ++ [mkblock 8192 (repeat None 6)].
Definition rc_call : call := {| c_opt := 0; c_n := 2; c_shuffle := true; c_draws := fun _ => 1; c_alloc := true |}.
Example recreate_case (lm : libm) (c : cfg) (x1 x2 t1 t2 : b32) :
  let mm := rc_mem lm x1 x2 t1 t2 in let xs := [[x1]; [x2]] in let ts := [[t1]; [t2]] in let p := mkptr 7 0 in
  (exists w', start_epoch rc_call world0 = Ok w') /\ one_output tc_nn /\ @eval_mem (opsB32 lm) c tc_nn (@tc_net (opsB32 lm)) mm (mkptr 2 0) (mkptr 3 0) xs ts
  /\ sched_fine c ev_seq 2 /\ valid mm p 6 /\ apart tc_nn p 3 (mkptr 2 0) (mkptr 3 0) 2 /\ apart tc_nn p 2 (mkptr 2 0) (mkptr 3 0) 2
  /\ batch_fine c [1; 0] (fun _ => 0%Z) 2
  /\ SpecNetFile.network rc_ds /\ SpecNetFile.net_has rc_heap rc_ds rc_net /\ SpecNetFloat.net_floats lm rc_ds (@tc_net (opsB32 lm)).
Proof.
  cbv zeta. split; [eexists; reflexivity|]. split. { split; [reflexivity|]. intros l Hl. inversion Hl; subst. discriminate. }
  split. { apply (@tc_eval (opsB32 lm) c [x1; x2] [t1; t2]). reflexivity. }
  split. { split; [|split]; intros; try apply aligned_base_0. exact I. }
  split. { eexists. split; [reflexivity|]. simpl. lia. }
  split. { split; [constructor; [split; left; simpl; lia|constructor]|]. split; left; simpl; lia. }
  split. { split; [constructor; [split; left; simpl; lia|constructor]|]. split; left; simpl; lia. }
  split. { apply (rev_fine c 2). }
  split. { split; [discriminate|]. split; [|cbn; lia]. repeat constructor; cbn; lia. }
  split. { split; [|split; [|split]].
    - repeat constructor; eexists; (split; reflexivity).
    - eexists; reflexivity.
    - eexists; reflexivity.
    - cbn. repeat constructor; cbn; lia. }
  constructor; [|constructor]. assert (Z : SpecNetFloat.float_of Ascii.zero Ascii.zero Ascii.zero Ascii.zero = @f0 (opsB32 lm)).
  { apply B2SF_inj. vm_compute. reflexivity. }
  split; [|split; [|reflexivity]]; cbn [repeat SpecNetFile.d_w SpecNetFile.d_b SpecNetFloat.floats_of]; rewrite Z; reflexivity.
Qed.
