(** Prop_Example02.v -- C102: what example_02b computes for a stored network, and C103: it is what evaluate computes *)
From Coquelicot Require Import Coquelicot.
From Coq Require Import List Arith ZArith Lia Bool Permutation Reals Lra.
From Verif Require Import Base BaseProofs Ops OpsR Mem MemProofs Kernels KernelProofs Activation ActivationProofs
  Loss Neuralnet ForwardProofs SpecReal RealForward PredictProofs BitsProofs GradProofs OpsB32 B32Facts SpecMem ParamProofs Batch BatchProofs BlasProofs
  MetricProofs SpecMetric SpecOpt Pivot Optimizer OptProofs OptReal OptTrain Evaluate EvalProofs EvalReal ExactProofs
  Prop_Batch Prop_Exact Prop_Metrics Prop_Evaluate Example02 Example02Proofs Ex_Mem Ex_Train.
Import ListNotations.
Local Open Scope nat_scope.
Local Open Scope mem_scope.

(** neuralnet_predict_batch of the OpenMP build: the iterations take effect in the order [order], the
    work array of iteration i has the address [wbs i] *)
Definition omp_batch {FO : fops} (c : cfg) (vexp : F -> F) (order : list nat) (wbs : nat -> Z) (nn : neuralnet) (n : nat) (inputs output : ptr) : M unit :=
  predict_batch_omp c vexp order wbs nn inputs output.
(** the order contains every sample once and the work arrays are aligned *)
Definition batch_fine (c : cfg) (order : list nat) (wbs : nat -> Z) (samples : nat) : Prop :=
  Permutation order (seq 0 samples) /\ forall i, aligned_base c (wbs i).

Section Any.
Context {FO : fops}.
Variables (c : cfg) (vexp : F -> F).
Hypothesis mulC : forall a b : F, fmul a b = fmul b a.
Variables (nn : neuralnet) (net : list flayer) (m : mem) (X Y : ptr) (xs ts : list (list F)) (mets : list metric).
Hypothesis EM : eval_mem c nn net m X Y xs ts.
Variables (order : list nat) (wbs : nat -> Z) (pb lb : Z).
Hypothesis BF : batch_fine c order wbs (length xs).

Lemma eval_batch_mem : batch_mem c nn net (pmem nn m xs pb) X (ppos m) xs.
Proof. exact (eval_batch_parts c nn net m X Y xs ts EM pb). Qed.

(** the predictions are those of neuralnet_predict *)
Lemma omp_batch_rows : suits_rows c (length xs) (out_size nn) pb ->
  exists ps, writes_only (omp_batch c vexp order wbs nn (length xs) X (ppos m)) (pmem nn m xs pb) (ppos m) ps /\
    length ps = length xs * out_size nn /\
    forall i x, nth_error xs i = Some x ->
      lrow nn ps i = forward_f c vexp net (pb + 4 * Z.of_nat (i * out_size nn)) x.
Proof.
  intros HS. destruct BF as [HP HB]. pose proof eval_batch_mem as BM. pose proof BM as (Hne & HN & HX & Hin & V & OFF & DI).
  rewrite suits_rows_all in HS.
  assert (K : forall i, i < length xs -> kal c (out_size nn) (pmem nn m xs pb) (ppos m +! (i * out_size nn))).
  { intros i Hi. apply suits_kal. rewrite addr_ppos. apply HS. exact Hi. }
  assert (RP : rows_pre c nn (pmem nn m xs pb) (ppos m) (length xs)).
  { intros i l Hi Hl. pose proof (K i Hi) as Ki. rewrite (out_size_nth nn l Hl) in *. split; [exact Ki|apply kal_act_pre; exact Ki]. }
  destruct (predict_batch_omp_rows FO c vexp wbs nn net _ X (ppos m) xs order mulC HB BM RP HP) as (ps & W & L & RW).
  exists ps. split; [exact W|]. split; [exact L|]. intros i x Hx. pose proof (nth_error_lt _ _ Hx) as Li.
  destruct (RW i Li) as (m' & R1 & H1 & _).
  assert (HX' : forall i x, nth_error xs i = Some x -> length x = in_size nn) by (intros k z Hz; apply HX; eapply nth_error_In; eauto).
  destruct (concat_row xs (in_size nn) HX' i x Hx) as [LC E].
  assert (Hrow : holds (pmem nn m xs pb) (X +! (i * in_size nn)) x).
  { rewrite <- E. apply holds_sub; auto. rewrite LC. apply row_fit. exact Li. }
  pose proof (HX' i x Hx) as Lx.
  destruct (@nth_error_ex _ (nn_layers nn) (length (nn_layers nn) - 1)) as [l Hl]. { destruct (nn_layers nn); simpl; [congruence|lia]. }
  pose proof (out_size_nth nn l Hl) as El. pose proof (row_fit i (length xs) (out_size nn) Li) as RF. pose proof (row_fit i (length xs) (in_size nn) Li) as RF2.
  destruct (predict_writes c vexp (wbs i) nn net (pmem nn m xs pb) (X +! (i * in_size nn)) (ppos m +! (i * out_size nn)) x mulC Hne (HB i)) as (m'' & R2 & H2 & _).
  { rewrite Lx. exact HN. } { exact Hrow. }
  { intros l' Hl'. assert (l' = l) by congruence. subst l'. destruct (RP i l Li Hl) as [K1 K2]. rewrite <- El in *.
    split; [eapply valid_sub; eauto|]. split; [exact K1|]. split; [exact K2|]. split.
    - rewrite Forall_forall in OFF. destruct (OFF l (nth_error_In _ _ Hl)) as [O1 O2].
      split; eapply disjoint_sub with (n := length xs * out_size nn) (p := ppos m); eauto; simpl; lia.
    - intros _. left. pose proof (holds_blk _ _ _ (proj1 (proj2 (proj2 EM)))). simpl. lia. }
  rewrite R1 in R2. inversion R2; subst m''. rewrite addr_ppos in H2.
  assert (LF : length (forward_f c vexp net (pb + 4 * Z.of_nat (i * out_size nn)) x) = out_size nn).
  { destruct (net_holds_fits_len c _ _ _ _ HN Hne l Hl) as (f & Hf & E2 & _). rewrite (forward_f_length c vexp net _ x f); auto.
    - lia. - rewrite Lx. eapply net_holds_fits_f; eauto. }
  unfold lrow. assert (LS : length (slice (i * out_size nn) (out_size nn) ps) = out_size nn) by (apply length_slice; rewrite L; exact RF).
  destruct H1 as (b1 & B1 & _ & S1), H2 as (b2 & B2 & _ & S2). rewrite B1 in B2. inversion B2; subst b2. rewrite LS in S1. rewrite LF in S2. rewrite S1 in S2.
  clear - S2. revert S2. generalize (forward_f c vexp net (pb + 4 * Z.of_nat (i * out_size nn)) x) as bs. generalize (slice (i * out_size nn) (out_size nn) ps) as as_.
  induction as_ as [|a as_ IH]; intros [|b bs] G; simpl in G; inversion G; subst; auto. f_equal. apply IH. auto.
Qed.

Lemma omp_batch_fault : ~ suits_rows c (length xs) (out_size nn) pb ->
  omp_batch c vexp order wbs nn (length xs) X (ppos m) (pmem nn m xs pb) = Fault Misaligned.
Proof.
  intros HS. destruct BF as [HP HB]. apply (predict_batch_every_shape_exact FO c vexp wbs nn net _ X (ppos m) xs order mulC HB eval_batch_mem HP).
  intros S. apply HS. rewrite <- (padd_0 (ppos m)) in S. rewrite addr_ppos in S. simpl in S. rewrite Z.add_0_r in S. exact S.
Qed.
End Any.

Lemma local_mean (c : cfg) (nn : neuralnet) (net : list (@flayer opsR)) (m : @mem opsR) (X Y results : ptr)
    (xs ts : list (list R)) (mets : list metric) (ms : list (option metric)) (order : list nat) (wbs : nat -> Z) (pb lb : Z) :
  @eval_mem opsR c nn net m X Y xs ts -> valid m results (length mets) -> batch_fine c order wbs (length xs) -> metric_list ms = Ok mets ->
  suits_rows c (length xs) (out_size nn) pb -> exists res, mean_of_metrics nn net xs ts mets res /\
    @local_evaluate opsR (@omp_batch opsR c exp order wbs) pb lb nn (length xs) X Y (Some ms) results m = Ok (tt, @writem opsR m results res).
Proof.
  intros EM V BF ML HS.
  destruct (omp_batch_rows c exp mulC_R nn net m X Y xs ts EM order wbs pb BF HS) as (ps & W & L & RW).
  destruct (@local_evaluate_ok opsR c nn net m X Y xs ts mets EM _ pb lb _ results ps W L ML V) as [E Lr].
  pose proof EM as (Hne & HN & _ & _ & LT & HX & HT). pose proof (net_holds_fits c m _ _ _ HN) as FT.
  exists (@local_f opsR nn xs ts mets ps). split; [|exact E].
  pose proof (@last_layer opsR c nn net m X Y xs ts EM) as (l & Hl & El & Hno).
  apply (mean_intro nn net xs ts mets None (@lrow opsR nn ps)); auto; [exact I| |].
  - intros i x Hx. pose proof (HX x (nth_error_In _ _ Hx)) as Lx. change (@F opsR) with R in *.
    destruct (@forward_R c net (pb + 4 * Z.of_nat (i * out_size nn)) x) as [L1 V1]. { rewrite Lx. exact FT. }
    rewrite Lx in V1, L1. rewrite <- (net_last_size c m _ _ _ HN Hne), <- out_size_last in V1, L1.
    rewrite (RW i x Hx). split; [exact L1|exact V1].
  - unfold local_f in Lr. rewrite map_length in Lr. exact Lr.
Qed.

(** C102.  OpenMP build, exact arithmetic, any instruction set, order of the iterations and stack addresses: the function
    stores the mean of every metric over the samples, if the array predictions happens to lie at an address that
    suits the registers, and stops with an alignment fault otherwise. *)
Theorem local_evaluate_exact (c : cfg) (nn : neuralnet) (net : list (@flayer opsR)) (m : @mem opsR) (X Y results : ptr)
    (xs ts : list (list R)) (mets : list metric) (junk : list (option metric)) (order : list nat) (wbs : nat -> Z) (pb lb : Z) :
  @eval_mem opsR c nn net m X Y xs ts -> valid m results (length mets) -> batch_fine c order wbs (length xs) ->
  let run := @local_evaluate opsR (@omp_batch opsR c exp order wbs) pb lb nn (length xs) X Y (terminated mets junk) results in
  (suits_rows c (length xs) (out_size nn) pb -> exists res, mean_of_metrics nn net xs ts mets res /\ writes_only run m results res) /\
  (~ suits_rows c (length xs) (out_size nn) pb -> run m = Fault Misaligned).
Proof.
  intros EM V BF run. pose proof (metric_list_terminated mets junk) as ML. split; intros HS.
  - destruct (local_mean c nn net m X Y results xs ts mets _ order wbs pb lb EM V BF ML HS) as (res & MR & E). exists res. split; [exact MR|].
    apply writes_only_intro; [|exact E]. exact (eq_ind_r (fun k => @valid opsR m results k) V (proj1 MR)).
  - apply (local_evaluate_fault nn m X Y xs mets) with (f := Misaligned); [|exact ML].
    exact (omp_batch_fault c exp mulC_R nn net m X Y xs ts EM order wbs pb BF HS).
Qed.
Print Assumptions local_evaluate_exact.

(** the program: results[0..1] are the means over the training set, results[2..3] those over the test set *)
Theorem example_02b_results (c : cfg) (nn : neuralnet) (net : list (@flayer opsR)) (m : @mem opsR) (X Y VX VY results : ptr)
    (xs ts vxs vts : list (list R)) (order1 order2 : list nat) (wbs1 wbs2 : nat -> Z) (pb1 lb1 pb2 lb2 : Z) :
  @eval_mem opsR c nn net m X Y xs ts -> @eval_mem opsR c nn net m VX VY vxs vts ->
  valid m results 4 -> apart nn results 2 VX VY (length vxs) ->
  batch_fine c order1 wbs1 (length xs) -> batch_fine c order2 wbs2 (length vxs) ->
  suits_rows c (length xs) (out_size nn) pb1 -> suits_rows c (length vxs) (out_size nn) pb2 ->
  exists train test, mean_of_metrics nn net xs ts [M_BCE; M_BinAcc] train /\ mean_of_metrics nn net vxs vts [M_BCE; M_BinAcc] test /\
    writes_only (@main_02b opsR (@omp_batch opsR c exp order1 wbs1) (@omp_batch opsR c exp order2 wbs2) pb1 lb1 pb2 lb2 nn
      (length xs) X Y (length vxs) VX VY results) m results (train ++ test).
Proof.
  intros EM EV V AP B1 B2 S1 S2. set (mets := [M_BCE; M_BinAcc]).
  assert (V1 : @valid opsR m results (length mets)) by (eapply valid_le; [exact V|simpl; lia]).
  destruct (local_mean c nn net m X Y results xs ts mets _ order1 wbs1 pb1 lb1 EM V1 B1 (eq_refl : metric_list [Some M_BCE; Some M_BinAcc; None] = Ok mets) S1)
    as (tr & MR1 & E1). pose proof (proj1 MR1) as L1.
  assert (VT : @valid opsR m results (length tr)) by exact (eq_ind_r (fun k => @valid opsR m results k) V1 L1).
  assert (EV' : @eval_mem opsR c nn net (@writem opsR m results tr) VX VY vxs vts).
  { apply eval_mem_writem; auto. exact (eq_ind_r (fun k => apart nn results k VX VY (length vxs)) AP L1). }
  assert (V2 : @valid opsR (@writem opsR m results tr) (results +! 2) (length mets)) by (apply valid_writem; auto; eapply valid_sub; [exact V|simpl; lia]).
  destruct (local_mean c nn net _ VX VY (results +! 2) vxs vts mets _ order2 wbs2 pb2 lb2 EV' V2 B2
     (eq_refl : metric_list [Some M_BCE; Some M_BinAcc; None] = Ok mets) S2) as (te & MR2 & E2). pose proof (proj1 MR2) as L2.
  exists tr, te. split; [exact MR1|]. split; [exact MR2|].
  assert (L4 : length (tr ++ te) = 4) by (rewrite app_length, L1, L2; reflexivity).
  assert (VA : @valid opsR m results (length (tr ++ te))) by exact (eq_ind_r (fun k => @valid opsR m results k) V L4).
  apply writes_only_intro; [exact VA|]. unfold main_02b.
  change metrics_02b with (Some [Some M_BCE; Some M_BinAcc; None]).
  erewrite bind_ok by exact E1. etransitivity; [exact E2|]. do 2 f_equal.
  change 2 with (length mets). rewrite <- L1. apply writem_writem_app. rewrite <- app_length. exact VA.
Qed.
Print Assumptions example_02b_results.

(** the output layer of the network uses no vector registers that depend on the address of its output *)
Definition plain_output (c : cfg) (nn : neuralnet) : Prop :=
  cfg_isa c = SSE \/ forall l, nth_error (nn_layers nn) (length (nn_layers nn) - 1) = Some l -> n_output l < 8 /\ l_act l <> Softmax.

(** C103.  In every arithmetic, for a network with fewer than 8 outputs that are not softmax (or any network of an SSE build)
    local_evaluate at any stack addresses leaves the memory exactly as evaluate without OpenMP does: bit for bit the same metrics. *)
Theorem local_evaluate_is_evaluate (FO : fops) (c : cfg) (vexp : F -> F) (nn : neuralnet) (net : list flayer) (m : mem) (X Y results : ptr)
    (xs ts : list (list F)) (mets : list metric) (junk : list (option metric)) (order : list nat) (wbs : nat -> Z) (pb lb : Z) (s : esched) :
  (forall a b : F, fmul a b = fmul b a) -> plain_output c nn ->
  eval_mem c nn net m X Y xs ts -> valid m results (length mets) -> batch_fine c order wbs (length xs) ->
  sched_fine c s (length xs) -> es_omp s = None ->
  exists res m', length res = length mets /\ holds m' results res /\ only_changes m m' results (length mets) /\
    local_evaluate (omp_batch c vexp order wbs) pb lb nn (length xs) X Y (terminated mets junk) results m = Ok (tt, m') /\
    evaluate c vexp s nn (length xs) X Y (terminated mets junk) results m = Ok (tt, m').
Proof.
  intros mulC PO EM V BF (HP & HW & CV) SQ. pose proof (metric_list_terminated mets junk) as ML.
  pose proof EM as (Hne & HN & _ & _ & LT & HX & HT).
  destruct (last_layer c nn net m X Y xs ts EM) as (l & Hl & El & Hno).
  assert (HS : suits_rows c (length xs) (out_size nn) pb).
  { right. unfold reg_width. destruct PO as [E|E]; [rewrite E; exact I|]. destruct (E l Hl) as [E1 _]. rewrite El.
    destruct (Nat.leb_spec 16 (n_output l)); [lia|]. destruct (Nat.leb_spec 8 (n_output l)); [lia|]. destruct (cfg_isa c); exact I. }
  destruct (omp_batch_rows c vexp mulC nn net m X Y xs ts EM order wbs pb BF HS) as (ps & W & L & RW).
  destruct (local_evaluate_ok c nn net m X Y xs ts mets EM _ pb lb _ results ps W L ML V) as [E1 L1].
  destruct (evaluate_ok c vexp mulC nn net m X Y xs ts mets s EM HP HW _ results ML CV V) as [E2 L2].
  exists (eval_f c vexp net xs ts mets s), (writem m results (eval_f c vexp net xs ts mets s)). split; [exact L2|].
  assert (V' : valid m results (length (eval_f c vexp net xs ts mets s))) by (rewrite L2; exact V).
  split; [apply holds_writem_same; exact V'|]. split; [rewrite <- L2; apply writem_only_changes; exact V'|].
  split; [|exact E2]. etransitivity; [exact E1|]. do 2 f_equal.
  unfold local_f, eval_f. f_equal. rewrite SQ. unfold omp_f.
  assert (ROW : forall i, i < length xs -> lmets nn ts mets ps i = mets_f c vexp net xs ts mets s i).
  { intros i Hi. destruct (@nth_error_ex _ xs i Hi) as [x Hx]. unfold lmets, mets_f. f_equal. f_equal.
    assert (EL : lrow nn ps i = pred_f c vexp net xs s i); [|rewrite EL; reflexivity].
    rewrite (RW i x Hx). unfold pred_f. rewrite (nth_error_nth xs i [] Hx).
    destruct (net_holds_fits_len c m _ _ _ HN Hne l Hl) as (f & Hf & E & _).
    apply forward_f_small with (f := f); auto.
    - rewrite (HX x (nth_error_In _ _ Hx)). eapply net_holds_fits_f; eauto.
    - destruct PO as [PO|PO]; [left; exact PO|right]. destruct (PO l Hl) as [P1 P2]. split; [lia|].
      rewrite <- (net_holds_last_act c m _ _ _ HN l f Hl Hf). exact P2. }
  assert (IN : forall i, In i (seq 0 (length xs)) -> i < length xs) by (intros i Hi; apply in_seq in Hi; lia).
  revert IN. generalize (seq 0 (length xs)) as its. generalize (repeat f0 (length mets)) as a. unfold red_f. intros a its. revert a.
  induction its as [|i its IH]; intros a IN; simpl; auto. rewrite (ROW i) by (apply IN; simpl; auto). apply IH. intros k Hk. apply IN. simpl. auto.
Qed.
Print Assumptions local_evaluate_is_evaluate.

(** the same in IEEE binary32 arithmetic *)
Theorem local_evaluate_is_evaluate_float32 (lm : libm) (c : cfg) (nn : neuralnet) (net : list (@flayer (opsB32 lm))) (m : @mem (opsB32 lm))
    (X Y results : ptr) (xs ts : list (list b32)) (mets : list metric) (junk : list (option metric)) (order : list nat) (wbs : nat -> Z)
    (pb lb : Z) (s : esched) :
  let vexp := @exp256_lane (opsB32 lm) in
  plain_output c nn -> @eval_mem (opsB32 lm) c nn net m X Y xs ts -> valid m results (length mets) -> batch_fine c order wbs (length xs) ->
  sched_fine c s (length xs) -> es_omp s = None ->
  exists (res : list b32) (m' : @mem (opsB32 lm)), length res = length mets /\ @holds (opsB32 lm) m' results res /\ only_changes m m' results (length mets) /\
    @local_evaluate (opsB32 lm) (@omp_batch (opsB32 lm) c vexp order wbs) pb lb nn (length xs) X Y (terminated mets junk) results m = Ok (tt, m') /\
    @evaluate (opsB32 lm) c vexp s nn (length xs) X Y (terminated mets junk) results m = Ok (tt, m').
Proof. exact (local_evaluate_is_evaluate (opsB32 lm) c _ nn net m X Y results xs ts mets junk order wbs pb lb s (mulC_B32 lm)). Qed.
Print Assumptions local_evaluate_is_evaluate_float32.

(** concrete cases: y = w x + b with w = b = 0, the samples in reverse order, the stack array at an odd address *)
Lemma rev_fine (c : cfg) n : batch_fine c (rev (seq 0 n)) (fun _ => 0%Z) n.
Proof. split; [apply Permutation_sym, Permutation_rev|]. intros. apply aligned_base_0. Qed.
Lemma tc_suits c k a : suits_rows c k (out_size tc_nn) a.
Proof. right. unfold reg_width. destruct (cfg_isa c); exact I. Qed.
Example local_evaluate_exact_case (c : cfg) (x1 x2 x3 t1 t2 t3 : R) :
  exists res, mean_of_metrics tc_nn (@tc_net opsR) [[x1]; [x2]; [x3]] [[t1]; [t2]; [t3]] [M_MSE; M_BinAcc] res /\
    writes_only (@local_evaluate opsR (@omp_batch opsR c exp [2; 1; 0] (fun _ => 0%Z)) 20 4 tc_nn 3 (mkptr 2 0) (mkptr 3 0) (terminated [M_MSE; M_BinAcc] []) (mkptr 9 0))
      (@ev_mem opsR [x1; x2; x3] [t1; t2; t3] [] []) (mkptr 9 0) res.
Proof.
  apply (local_evaluate_exact c tc_nn (@tc_net opsR) _ (mkptr 2 0) (mkptr 3 0) (mkptr 9 0) [[x1]; [x2]; [x3]] [[t1]; [t2]; [t3]]).
  - apply (@tc_eval opsR c [x1; x2; x3] [t1; t2; t3]). reflexivity.
  - eexists. split; [reflexivity|]. simpl. lia.
  - apply (rev_fine c 3).
  - apply tc_suits.
Qed.
Example example_02b_case (c : cfg) (x1 x2 t1 t2 : R) :
  exists train test, mean_of_metrics tc_nn (@tc_net opsR) [[x1]; [x2]] [[t1]; [t2]] [M_BCE; M_BinAcc] train /\
    mean_of_metrics tc_nn (@tc_net opsR) [[x1]; [x2]] [[t1]; [t2]] [M_BCE; M_BinAcc] test /\
    writes_only (@main_02b opsR (@omp_batch opsR c exp [1; 0] (fun _ => 0%Z)) (@omp_batch opsR c exp [1; 0] (fun _ => 0%Z)) 20 4 4 8 tc_nn
      2 (mkptr 2 0) (mkptr 3 0) 2 (mkptr 2 0) (mkptr 3 0) (mkptr 9 0)) (@ev_mem opsR [x1; x2] [t1; t2] [] []) (mkptr 9 0) (train ++ test).
Proof.
  apply (example_02b_results c tc_nn (@tc_net opsR) _ (mkptr 2 0) (mkptr 3 0) (mkptr 2 0) (mkptr 3 0) (mkptr 9 0) [[x1]; [x2]] [[t1]; [t2]] [[x1]; [x2]] [[t1]; [t2]]).
  - apply (@tc_eval opsR c [x1; x2] [t1; t2]). reflexivity.
  - apply (@tc_eval opsR c [x1; x2] [t1; t2]). reflexivity.
  - eexists. split; [reflexivity|]. simpl. lia.
  - split; [constructor; [split; left; simpl; lia|constructor]|]. split; left; simpl; lia.
  - apply (rev_fine c 2).
  - apply (rev_fine c 2).
  - apply tc_suits.
  - apply tc_suits.
Qed.
Example local_evaluate_is_evaluate_case (c : cfg) : plain_output c tc_nn /\ sched_fine c ev_seq 3 /\ es_omp ev_seq = None /\
  eval_mem c tc_nn (@tc_net opsZ) (@ev_mem opsZ [1; 2; 3] [5; 5; 5] [1; 1] [2; 6])%Z (mkptr 2 0) (mkptr 3 0) [[1]; [2]; [3]]%Z [[5]; [5]; [5]]%Z /\
  ev_cells (@local_evaluate opsZ (@omp_batch opsZ {| cfg_isa := AVX2; cfg_fma := false |} (fun x => x) [2; 0; 1] (fun _ => 0%Z)) 20 4 tc_nn 3 (mkptr 2 0) (mkptr 3 0)
     (terminated [M_MSE; M_MAE] [Some M_BCE]) (mkptr 9 1) (@ev_mem opsZ [1; 2; 3] [5; 5; 5] [1; 1] [2; 6])%Z) = Some [None; Some 25%Z; Some 5%Z; None].
Proof.
  split. { right. intros l Hl. inversion Hl; subst l. split; [simpl; lia|discriminate]. }
  split. { split; [|split]; intros; try apply aligned_base_0. exact I. }
  split; [reflexivity|]. split; [apply (@tc_eval opsZ c [1; 2; 3]%Z [5; 5; 5]%Z); reflexivity|reflexivity].
Qed.
(** the other case of C102: an AVX build, 8 outputs, predictions at an address that is a multiple of 16 only *)
Example local_evaluate_misaligned_case : ~ suits_rows {| cfg_isa := AVX; cfg_fma := false |} 1 8 1040.
Proof. intros [H|[H _]]; [discriminate|]. discriminate H. Qed.
