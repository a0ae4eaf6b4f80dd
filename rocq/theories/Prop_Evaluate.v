(** Prop_Evaluate.v -- C32: evaluate computes means; C33: results of optimizer_run_epoch *)
From Coquelicot Require Import Coquelicot.
From Coq Require Import List Arith ZArith Lia Bool Permutation Reals Lra.
From Verif Require Import Base BaseProofs Ops OpsR Mem MemProofs Kernels KernelProofs Activation ActivationProofs
  Loss Neuralnet ForwardProofs SpecReal RealForward PredictProofs BitsProofs GradProofs SpecMem ParamProofs Batch BatchProofs BlasProofs
  MetricProofs SpecMetric SpecOpt Pivot Optimizer OptProofs OptReal OptTrain Evaluate EvalProofs EvalReal Prop_Batch Prop_Metrics Ex_Mem Ex_Train.
Import ListNotations.
Local Open Scope nat_scope.
Local Open Scope mem_scope.

(** the functions of a NULL terminated array, whatever is behind the NULL *)
Definition terminated (mets : list metric) (junk : list (option metric)) : metric_array := Some (map Some mets ++ None :: junk).
Lemma metric_list_terminated mets junk : metric_list (map Some mets ++ None :: junk) = Ok mets.
Proof. induction mets; simpl; auto. rewrite IHmets. reflexivity. Qed.

(** res[j] is the mean over the samples of what metric j returns for the network function at the sample *)
Definition mean_of_metrics (nn : neuralnet) (net : list (@flayer opsR)) (xs ts : list (list R)) (mets : list metric) (res : list R) : Prop :=
  length res = length mets /\
  forall j t, nth_error mets j = Some t ->
  exists e : nat -> R,
    vec res j = (rsum (map e (seq 0 (length xs))) / INR (length xs))%R /\
    forall i x r, nth_error xs i = Some x -> nth_error ts i = Some r ->
      exists ys : list R, length ys = out_size nn /\
        (forall k, k < out_size nn -> vec ys k = eval (shape_of net) (in_size nn) (vec (params_of net)) (vec x) k) /\
        @metric_returns opsR t ys r (e i).

Lemma mean_intro nn net xs ts mets omp (ys : nat -> list R) :
  length ts = length xs -> (forall t, In t ts -> length t = out_size nn) -> 1 <= out_size nn -> omp_covers omp (length xs) ->
  (forall i x, nth_error xs i = Some x -> length (ys i) = out_size nn /\
     forall k, k < out_size nn -> vec (ys i) k = eval (shape_of net) (in_size nn) (vec (params_of net)) (vec x) k) ->
  length (@omp_f opsR (length mets) (bmets ts mets ys) omp (length xs)) = length mets ->
  mean_of_metrics nn net xs ts mets
    (map (fun x => (x / IZR (Z.of_nat (length xs)))%R) (@omp_f opsR (length mets) (bmets ts mets ys) omp (length xs))).
Proof.
  intros L LT Hno CV HY LO. change (@F opsR) with R in *. split; [rewrite map_length; exact LO|].
  intros j t Hj. pose proof (nth_error_lt _ _ Hj) as Lj.
  exists (fun i => nth j (bmets ts mets ys i) 0%R). split.
  - assert (D0 : 0%R = (0 / IZR (Z.of_nat (length xs)))%R) by (unfold Rdiv; ring).
    unfold vec. etransitivity; [exact (f_equal (nth j _) D0)|].
    etransitivity; [exact (map_nth (fun x => (x / IZR (Z.of_nat (length xs)))%R) _ 0%R j)|]. rewrite <- INR_IZR_INZ.
    f_equal. apply omp_f_R; auto. intros i _. apply map_length.
  - intros i x r Hx Hr. destruct (HY i x Hx) as [Ly Vy]. exists (ys i). split; auto. split; auto.
    unfold bmets. rewrite (nth_error_nth ts i [] Hr).
    erewrite nth_error_nth by (rewrite nth_error_map, Hj; reflexivity).
    apply (@metric_returns_f opsR). { exact (eq_ind_r (fun k => 1 <= k) Hno Ly). }
    etransitivity; [exact (LT r (nth_error_In _ _ Hr))|exact (eq_sym Ly)].
Qed.

(** C32.  Any instruction set, thread schedule, addresses of the stack arrays. *)
Theorem evaluate_mean (c : cfg) (nn : neuralnet) (net : list (@flayer opsR)) (m : @mem opsR) (X Y results : ptr)
    (xs ts : list (list R)) (mets : list metric) (junk : list (option metric)) (s : esched) :
  @eval_mem opsR c nn net m X Y xs ts -> valid m results (length mets) ->
  (forall i, aligned_base c (es_pred s i)) -> (forall i, aligned_base c (es_work s i)) -> omp_covers (es_omp s) (length xs) ->
  exists res, mean_of_metrics nn net xs ts mets res /\
    writes_only (@evaluate opsR c exp s nn (length xs) X Y (terminated mets junk) results) m results res.
Proof.
  intros EM V HP HW CV.
  destruct (@evaluate_ok opsR c exp mulC_R nn net m X Y xs ts mets s EM HP HW _ results (metric_list_terminated mets junk) CV V) as [E L].
  pose proof EM as (Hne & HN & _ & _ & LT & HX & HT). pose proof (net_holds_fits c m _ _ _ HN) as FT.
  exists (@eval_f opsR c exp net xs ts mets s). split.
  - pose proof (@last_layer opsR c nn net m X Y xs ts EM) as (l & Hl & El & Hno).
    apply (mean_intro nn net xs ts mets (es_omp s) (@pred_f opsR c exp net xs s)); auto.
    + intros i x Hx. pose proof (@length_pred opsR c exp nn net m X Y xs ts s EM i x Hx) as LP. split; [exact LP|].
      intros k Hk. unfold pred_f. change (@F opsR) with R. rewrite (nth_error_nth xs i [] Hx).
      pose proof (HX x (nth_error_In _ _ Hx)) as Lx. change (@F opsR) with R in *.
      destruct (@forward_R c net (es_pred s i) x) as [L1 V1]. { rewrite Lx. exact FT. }
      rewrite Lx in V1. apply V1. rewrite <- (net_last_size c m _ _ _ HN Hne), <- out_size_last. exact Hk.
    + unfold eval_f in L. rewrite map_length in L. exact L.
  - apply writes_only_intro; [|exact E]. change (@F opsR) with R in *. rewrite L. exact V.
Qed.
Print Assumptions evaluate_mean.

(** the BLAS build, under the conditions under which its batch prediction works (C07, C08) *)
Theorem evaluate_blas_mean_partial (c : cfg) (nstack : nat) (sgemm : nat -> nat -> nat -> list R -> list R -> list R -> list R)
    (nn : neuralnet) (net : list (@flayer opsR)) (m : @mem opsR) (X Y results : ptr)
    (xs ts : list (list R)) (mets : list metric) (junk : list (option metric)) (s : esched) (fuel : nat) (wbs : nat -> ptr -> Z) :
  sgemm_exact sgemm -> sum_outputs (nn_layers nn) <= nstack -> Forall (blas_tanh_ok c (length xs)) (nn_layers nn) ->
  1 <= length xs < fuel ->
  @eval_mem opsR c nn net m X Y xs ts -> valid m results (length mets) -> omp_covers (es_omp s) (length xs) ->
  exists res, mean_of_metrics nn net xs ts mets res /\
    writes_only (@evaluate_blas opsR c exp nstack sgemm fuel wbs s nn (length xs) X Y (terminated mets junk) results) m results res.
Proof.
  intros SG HS HT [Hn HF] EM V CV.
  destruct (@evaluate_blas_ok c nstack sgemm SG nn net m X Y xs ts mets s EM HS HT Hn fuel wbs _ results HF (metric_list_terminated mets junk) CV V)
    as (ys & HY & L & E). cbv zeta in *.
  pose proof EM as (Hne & HN & _ & _ & LT & HX & HT').
  eexists. split; [|apply writes_only_intro; [|exact E]; exact (eq_ind_r (fun k => @valid opsR m results k) V L)].
  pose proof (@last_layer opsR c nn net m X Y xs ts EM) as (l & Hl & El & Hno).
  apply mean_intro; auto. rewrite map_length in L. exact L.
Qed.
Print Assumptions evaluate_blas_mean_partial.

(** ** C33 *)
(** the n floats at p are neither parameters nor samples of the data set *)
Definition apart (nn : neuralnet) (p : ptr) (n : nat) (X Y : ptr) (samples : nat) : Prop :=
  Forall (off_params p n) (nn_layers nn) /\ disjoint p n X (samples * in_size nn) /\ disjoint p n Y (samples * out_size nn).

Lemma eval_mem_writem {FO : fops} c nn net m X Y xs ts p ys : eval_mem c nn net m X Y xs ts -> valid m p (length ys) ->
  apart nn p (length ys) X Y (length xs) -> eval_mem c nn net (writem m p ys) X Y xs ts.
Proof.
  intros (A & B & C & D & E & G & H) V (O1 & O2 & O3).
  assert (OC : only_changes_in m (writem m p ys) [(p, length ys)]) by (apply oci_writem; auto; left; reflexivity).
  split; auto. split.
  { eapply oci_net_holds; eauto. intros r r' [<-|[]] Hr'. apply (proj1 (off_params_regions p (length ys) (nn_layers nn)) O1 r' Hr'). }
  split. { eapply oci_holds; eauto. intros q w [Eq|[]]. inversion Eq; subst. rewrite (length_concat_k _ _ (in_size nn) G). exact O2. }
  split. { eapply oci_holds; eauto. intros q w [Eq|[]]. inversion Eq; subst. rewrite (length_concat_k _ _ (out_size nn) H), E. exact O3. }
  auto.
Qed.

Section Results.
Context {FO : fops}.
Variables (c : cfg) (vexp : F -> F).
Hypothesis mulC : forall a b : F, fmul a b = fmul b a.
Definition sched_fine (s : esched) (samples : nat) : Prop :=
  (forall i, aligned_base c (es_pred s i)) /\ (forall i, aligned_base c (es_work s i)) /\ omp_covers (es_omp s) samples.
Context {S : Type}.
Variables (k : call) (w w' : world) (nn : neuralnet) (net : list flayer) (mets : list metric) (junk : list (option metric)).
Variables (run : option (list nat) -> M S) (X Y results : ptr) (xs ts : list (list F)) (st : S) (m m1 : mem) (s1 s2 : esched).
Hypothesis H1 : start_epoch k w = Ok w'.
Hypothesis H2 : run (w_pivot w' (c_opt k)) m = Ok (st, m1).
Hypothesis H3 : c_n k = length xs.
Hypothesis H4 : eval_mem c nn net m1 X Y xs ts.
Hypothesis H5 : sched_fine s1 (length xs).
Let n := length mets.
Let eval (s : esched) := evaluate c vexp s.
Let epoch (n_valid : nat) (vX vY : option ptr) : M (world * S) :=
  optimizer_run_epoch (eval s1) (eval s2) k w nn (terminated mets junk) (Some run) X Y n_valid vX vY results.

Lemma epoch_valid_proof (VX VY : ptr) (vxs vts : list (list F)) :
  1 <= length vxs -> eval_mem c nn net m1 VX VY vxs vts -> sched_fine s2 (length vxs) ->
  valid m1 results (2 * n) -> apart nn results n VX VY (length vxs) ->
  exists tr va m2,
    epoch (length vxs) (Some VX) (Some VY) m = Ok ((w', st), m2) /\
    holds m2 results (tr ++ va) /\ only_changes m1 m2 results (2 * n) /\ length tr = n /\ length va = n /\
    writes_only (eval s1 nn (length xs) X Y (terminated mets junk) results) m1 results tr /\
    writes_only (eval s2 nn (length vxs) VX VY (terminated mets junk) (results +! n)) m1 (results +! n) va.
Proof.
  intros Hv EV (P2 & W2 & C2) V AP. destruct H5 as (P1 & W1 & C1).
  assert (V1 : valid m1 results n) by (eapply valid_le; [exact V|lia]).
  assert (V2 : valid m1 (results +! n) n) by (eapply valid_sub; [exact V|lia]).
  destruct (evaluate_ok c vexp mulC nn net m1 X Y xs ts mets s1 H4 P1 W1 _ results (metric_list_terminated mets junk) C1 V1) as [E1 L1].
  set (tr := eval_f c vexp net xs ts mets s1) in *. fold n in L1.
  assert (EV' : eval_mem c nn net (writem m1 results tr) VX VY vxs vts) by (apply eval_mem_writem; auto; rewrite L1; auto).
  assert (VT : valid m1 results (length tr)) by (rewrite L1; auto).
  destruct (evaluate_ok c vexp mulC nn net _ VX VY vxs vts mets s2 EV' P2 W2 _ (results +! n) (metric_list_terminated mets junk) C2) as [E2 L2].
  { apply valid_writem; auto. }
  destruct (evaluate_ok c vexp mulC nn net _ VX VY vxs vts mets s2 EV P2 W2 _ (results +! n) (metric_list_terminated mets junk) C2 V2) as [E3 _].
  set (va := eval_f c vexp net vxs vts mets s2) in *. fold n in L2.
  assert (VA : valid m1 results (length (tr ++ va))) by (rewrite app_length; replace (length tr + length va) with (2 * n) by lia; auto).
  exists tr, va, (writem m1 results (tr ++ va)). split.
  { unfold epoch, optimizer_run_epoch. rewrite H1. erewrite bind_ok by exact H2.
    unfold optimizer_get_n_metrics, terminated. rewrite metric_list_terminated. fold n. rewrite H3.
    erewrite bind_ok by exact E1. destruct (Nat.ltb_spec 0 (length vxs)) as [_|]; [|lia].
    erewrite bind_ok by exact E2. unfold ret. do 2 f_equal. rewrite <- L1. apply writem_writem_app. rewrite <- app_length. exact VA. }
  split. { apply holds_writem_same; auto. }
  split. { replace (2 * n) with (length (tr ++ va)) by (rewrite app_length; lia). apply writem_only_changes; auto. }
  split; auto. split; auto. split; apply writes_only_intro; auto. rewrite L2. auto.
Qed.

Lemma epoch_no_valid_proof (n_valid : nat) (vX vY : option ptr) :
  vX = None \/ vY = None \/ n_valid = 0 -> valid m1 results n ->
  exists tr m2,
    epoch n_valid vX vY m = Ok ((w', st), m2) /\ holds m2 results tr /\ only_changes m1 m2 results n /\ length tr = n /\
    writes_only (eval s1 nn (length xs) X Y (terminated mets junk) results) m1 results tr.
Proof.
  intros HV V1. destruct H5 as (P1 & W1 & C1).
  destruct (evaluate_ok c vexp mulC nn net m1 X Y xs ts mets s1 H4 P1 W1 _ results (metric_list_terminated mets junk) C1 V1) as [E1 L1].
  set (tr := eval_f c vexp net xs ts mets s1) in *. fold n in L1.
  assert (VT : valid m1 results (length tr)) by (rewrite L1; auto).
  exists tr, (writem m1 results tr). split.
  { unfold epoch, optimizer_run_epoch. rewrite H1. erewrite bind_ok by exact H2.
    unfold optimizer_get_n_metrics, terminated. rewrite metric_list_terminated. rewrite H3.
    erewrite bind_ok by exact E1. destruct HV as [->|[->| ->]]; [|destruct vX|destruct vX, vY]; reflexivity. }
  split. { apply holds_writem_same; auto. }
  split. { rewrite <- L1. apply writem_only_changes; auto. }
  split; auto. apply writes_only_intro; auto.
Qed.
End Results.

(** C33, with validation data.  [run] is the epoch function of any optimizer, [m1] the memory after it; the results are
    the training metrics followed by the validation metrics, both those of the network after the epoch (in m1). *)
Theorem epoch_results_with_validation (FO : fops) (c : cfg) (vexp : F -> F) (S : Type) (k : call) (w w' : world) (nn : neuralnet)
    (net : list flayer) (mets : list metric) (junk : list (option metric)) (run : option (list nat) -> M S)
    (X Y VX VY results : ptr) (xs ts vxs vts : list (list F)) (st : S) (m m1 : mem) (s1 s2 : esched) :
  (forall a b : F, fmul a b = fmul b a) ->
  start_epoch k w = Ok w' -> run (w_pivot w' (c_opt k)) m = Ok (st, m1) -> c_n k = length xs ->
  eval_mem c nn net m1 X Y xs ts -> sched_fine c s1 (length xs) ->
  1 <= length vxs -> eval_mem c nn net m1 VX VY vxs vts -> sched_fine c s2 (length vxs) ->
  let n := length mets in
  valid m1 results (2 * n) -> apart nn results n VX VY (length vxs) ->
  exists tr va m2,
    optimizer_run_epoch (evaluate c vexp s1) (evaluate c vexp s2) k w nn (terminated mets junk) (Some run) X Y
      (length vxs) (Some VX) (Some VY) results m = Ok ((w', st), m2) /\
    holds m2 results (tr ++ va) /\ only_changes m1 m2 results (2 * n) /\ length tr = n /\ length va = n /\
    writes_only (evaluate c vexp s1 nn (length xs) X Y (terminated mets junk) results) m1 results tr /\
    writes_only (evaluate c vexp s2 nn (length vxs) VX VY (terminated mets junk) (results +! n)) m1 (results +! n) va.
Proof. intros. eapply epoch_valid_proof; eauto. Qed.
Print Assumptions epoch_results_with_validation.

(** C33, no validation data: nothing is written behind the training metrics *)
Theorem epoch_results_without_validation (FO : fops) (c : cfg) (vexp : F -> F) (S : Type) (k : call) (w w' : world) (nn : neuralnet)
    (net : list flayer) (mets : list metric) (junk : list (option metric)) (run : option (list nat) -> M S)
    (X Y results : ptr) (vX vY : option ptr) (n_valid : nat) (xs ts : list (list F)) (st : S) (m m1 : mem) (s1 s2 : esched) :
  (forall a b : F, fmul a b = fmul b a) ->
  start_epoch k w = Ok w' -> run (w_pivot w' (c_opt k)) m = Ok (st, m1) -> c_n k = length xs ->
  eval_mem c nn net m1 X Y xs ts -> sched_fine c s1 (length xs) ->
  vX = None \/ vY = None \/ n_valid = 0 ->
  let n := length mets in
  valid m1 results n ->
  exists tr m2,
    optimizer_run_epoch (evaluate c vexp s1) (evaluate c vexp s2) k w nn (terminated mets junk) (Some run) X Y n_valid vX vY results m
      = Ok ((w', st), m2) /\
    holds m2 results tr /\ only_changes m1 m2 results n /\ length tr = n /\
    writes_only (evaluate c vexp s1 nn (length xs) X Y (terminated mets junk) results) m1 results tr.
Proof. intros. eapply epoch_no_valid_proof; eauto. Qed.
Print Assumptions epoch_results_without_validation.

(** in exact arithmetic the results are the mean metrics of the network after the epoch *)
Theorem epoch_results_exact (c : cfg) (S : Type) (k : call) (w w' : world) (nn : neuralnet)
    (net : list (@flayer opsR)) (mets : list metric) (junk : list (option metric)) (run : option (list nat) -> @M opsR S)
    (X Y VX VY results : ptr) (xs ts vxs vts : list (list R)) (st : S) (m m1 : @mem opsR) (s1 s2 : esched) :
  start_epoch k w = Ok w' -> run (w_pivot w' (c_opt k)) m = Ok (st, m1) -> c_n k = length xs ->
  @eval_mem opsR c nn net m1 X Y xs ts -> sched_fine c s1 (length xs) ->
  1 <= length vxs -> @eval_mem opsR c nn net m1 VX VY vxs vts -> sched_fine c s2 (length vxs) ->
  let n := length mets in
  valid m1 results (2 * n) -> apart nn results n VX VY (length vxs) ->
  exists (tr va : list R) m2,
    @optimizer_run_epoch opsR S (@evaluate opsR c exp s1) (@evaluate opsR c exp s2) k w nn (terminated mets junk) (Some run) X Y
      (length vxs) (Some VX) (Some VY) results m = Ok ((w', st), m2) /\
    holds m2 results (tr ++ va) /\ only_changes m1 m2 results (2 * n) /\
    mean_of_metrics nn net xs ts mets tr /\ mean_of_metrics nn net vxs vts mets va.
Proof.
  intros A1 A2 A3 A4 A5 A6 A7 A8 n A9 A10.
  destruct (epoch_results_with_validation opsR c exp S k w w' nn net mets junk run X Y VX VY results xs ts vxs vts st m m1 s1 s2 mulC_R
     A1 A2 A3 A4 A5 A6 A7 A8 A9 A10) as (tr & va & m2 & E & H & OC & L1 & L2 & W1 & W2).
  assert (UNI : forall (mm : @mem opsR) p (a b : list R) r, writes_only r mm p a -> writes_only r mm p b -> length a = length b -> a = b).
  { intros mm p a b r (ma & Ra & Ha & _) (mb & Rb & Hb & _) LL. rewrite Ra in Rb. inversion Rb; subst mb.
    destruct Ha as (ba & F1 & _ & F2), Hb as (bb & G1 & _ & G2). rewrite F1 in G1. inversion G1; subst bb.
    change (@F opsR) with R in *. rewrite LL in F2. rewrite F2 in G2. clear -G2. revert b G2.
    induction a as [|x a IH]; intros [|y b] G; simpl in G; inversion G; subst; auto. f_equal. apply IH. auto. }
  exists tr, va, m2. split; [exact E|]. split; [exact H|]. split; [exact OC|]. split.
  - destruct (evaluate_mean c nn net m1 X Y results xs ts mets junk s1 A4) as (r & M & W); try apply A5. { eapply valid_le; [exact A9|]. fold n. lia. }
    rewrite (UNI m1 results tr r _ W1 W); auto. rewrite (proj1 M). exact L1.
  - destruct (evaluate_mean c nn net m1 VX VY (results +! n) vxs vts mets junk s2 A7) as (r & M & W); try apply A8. { eapply valid_sub; [exact A9|]. fold n. lia. }
    rewrite (UNI m1 (results +! n) va r _ W2 W); auto. rewrite (proj1 M). exact L2.
Qed.
Print Assumptions epoch_results_exact.

(** metrics == NULL: optimizer_get_n_metrics is prepared for it, evaluate is not *)
Theorem epoch_null_metrics (FO : fops) (c : cfg) (vexp : F -> F) (S : Type) (k : call) (w w' : world) (nn : neuralnet)
    (run : option (list nat) -> M S) (X Y results : ptr) (vX vY : option ptr) (n_valid : nat) (st : S) (m m1 : mem) (s1 s2 : esched) :
  start_epoch k w = Ok w' -> run (w_pivot w' (c_opt k)) m = Ok (st, m1) ->
  optimizer_run_epoch (evaluate c vexp s1) (evaluate c vexp s2) k w nn None (Some run) X Y n_valid vX vY results m = Fault BadPointer.
Proof. intros E1 E2. unfold optimizer_run_epoch. rewrite E1. erewrite bind_ok by exact E2. reflexivity. Qed.
Print Assumptions epoch_null_metrics.

(** a concrete case: y = w x + b with w = b = 0, three samples in two threads, two metrics, a validation set of
    two samples; the "optimizer" sets b = 2.  (In integer arithmetic, to compute the numbers.) *)
Definition ev_sched : esched :=
  {| es_omp := Some [Comb (Thread 0 [2]) (Thread 0 [0; 1])]; es_local := 0; es_pred := fun _ => 0%Z; es_work := fun _ => 0%Z; es_predictions := 0 |}.
Definition ev_seq : esched := {| es_omp := None; es_local := 0; es_pred := fun _ => 0%Z; es_work := fun _ => 0%Z; es_predictions := 0 |}.
Definition ev_mem {FO : fops} (xs ts vx vt : list F) : mem := tc_mem xs ts ++ [mkblock 8192 (map Some vx); mkblock 9216 (map Some vt); mkblock 10240 [None; None; None; None]].
Definition ev_call : call := {| c_opt := 0; c_n := 3; c_shuffle := true; c_draws := fun _ => 1; c_alloc := true |}.
Definition ev_cells {A} (r : res (A * @mem opsZ)) : option (list (option Z)) :=
  match r with Ok (_, m) => match nth_error m 9 with Some b => Some (cells b) | None => None end | Fault _ => None end.
Example epoch_results_case :
  ev_cells (@optimizer_run_epoch opsZ unit
    (@evaluate opsZ {| cfg_isa := AVX; cfg_fma := false |} (fun x => x) ev_sched) (@evaluate opsZ {| cfg_isa := AVX; cfg_fma := false |} (fun x => x) ev_seq) ev_call world0 tc_nn
    (terminated [M_MSE; M_MAE] [Some M_BCE]) (Some (fun _ => @storev opsZ (mkptr 1 0) [2%Z])) (mkptr 2 0) (mkptr 3 0)
    2 (Some (mkptr 7 0)) (Some (mkptr 8 0)) (mkptr 9 0) (@ev_mem opsZ [1; 2; 3] [5; 5; 5] [1; 1] [2; 6])%Z)
  = Some [Some 9%Z; Some 3%Z; Some 8%Z; Some 2%Z].
Proof. reflexivity. Qed.

Lemma tc_eval {FO : fops} c xs ts rest : length ts = length xs ->
  eval_mem c tc_nn tc_net (tc_mem xs ts ++ rest) (mkptr 2 0) (mkptr 3 0) (rows xs) (rows ts).
Proof.
  intros HL. destruct (tc_train c xs ts HL) as (A & B & C & D & _). split; auto.
  split; [apply net_holds_prefix; auto|]. split; [apply holds_prefix; auto|]. split; [apply holds_prefix; auto|].
  split; [unfold rows; rewrite !map_length; auto|]. split; intros x Hx; apply In_nth_error in Hx; destruct Hx; eapply nth_rows; eauto.
Qed.
Example evaluate_mean_case (c : cfg) (x1 x2 x3 t1 t2 t3 : R) :
  exists res, mean_of_metrics tc_nn (@tc_net opsR) [[x1]; [x2]; [x3]] [[t1]; [t2]; [t3]] [M_MSE; M_CatAcc] res /\
    writes_only (@evaluate opsR c exp ev_sched tc_nn 3 (mkptr 2 0) (mkptr 3 0) (terminated [M_MSE; M_CatAcc] []) (mkptr 9 0))
      (@ev_mem opsR [x1; x2; x3] [t1; t2; t3] [] []) (mkptr 9 0) res.
Proof.
  apply (evaluate_mean c tc_nn (@tc_net opsR) _ (mkptr 2 0) (mkptr 3 0) (mkptr 9 0) [[x1]; [x2]; [x3]] [[t1]; [t2]; [t3]]).
  - apply (@tc_eval opsR c [x1; x2; x3] [t1; t2; t3]). reflexivity.
  - eexists. split; [reflexivity|]. simpl. lia.
  - intros. apply aligned_base_0. - intros. apply aligned_base_0.
  - simpl. apply (Permutation_app_comm [2] [0; 1]).
Qed.
