(** Prop_Race.v -- C73: the iterations of the OpenMP loops do not race *)
From Coq Require Import List Arith ZArith Lia Bool Reals.
From Verif Require Import Base BaseProofs Ops Mem MemProofs Kernels KernelProofs Activation ActivationProofs
  Loss Neuralnet ForwardProofs OpsR SpecMem ParamProofs Batch BatchProofs BlasProofs Optimizer OptKernels OptProofs Evaluate EvalProofs
  GradProofs SpecRace RaceProofs Ex_Mem Ex_Train Prop_Batch Prop_Evaluate.
Import ListNotations.
Local Open Scope nat_scope.
Local Open Scope mem_scope.

(** What race freedom means: the two pieces of code may run in either order, with the same final memory. *)
Theorem race_free_commute (FO : fops) (run1 run2 : M unit) (m : mem) : race_free run1 run2 m ->
  exists m1 m2 m', run1 m = Ok (tt, m1) /\ run2 m = Ok (tt, m2) /\ run2 m1 = Ok (tt, m') /\ run1 m2 = Ok (tt, m').
Proof. apply race_free_commute_proof. Qed.
Print Assumptions race_free_commute.

(** *** what one iteration touches *)

(** neuralnet_predict reads the parameters and the input and writes the output, nothing else *)
Theorem predict_footprint (FO : fops) (c : cfg) (vexp : F -> F) (wb : Z) (nn : neuralnet) (net : list flayer) (m : mem)
    (pin po : ptr) (xs : list F) :
  (forall a b : F, fmul a b = fmul b a) -> nn_layers nn <> [] -> aligned_base c wb ->
  net_holds c m (length xs) (nn_layers nn) net -> holds m pin xs -> out_pre c m (nn_layers nn) pin (length xs) po ->
  accesses_only (neuralnet_predict c vexp wb nn pin po) m ((pin, length xs) :: regions (nn_layers nn)) [(po, out_size nn)].
Proof. intros. apply predict_accesses with (net := net); auto. Qed.
Print Assumptions predict_footprint.

(** an iteration of the loop over the batch reads the parameters, its own sample (number k) and the private array of
    its thread, and writes this array *)
Theorem gradient_footprint (FO : fops) (c : cfg) (vexp : F -> F) (nn : neuralnet) (lf : loss) (net : list flayer) (m : mem)
    (X Y : ptr) (xs ts : list (list F)) (s : sched) (o : opt) (pv : list nat) (i b k : nat) (acc : ptr) (a : list F) :
  (forall a b : F, fmul a b = fmul b a) ->
  o_nn o = neuralnet_set_loss nn (Some lf) -> o_pivot o = Some pv -> nth_error pv (i + b) = Some k -> k < length xs ->
  (forall b, aligned_base c (s_grad s b)) -> (forall b, aligned_base c (s_work s b)) ->
  train_mem c nn lf net m X Y xs ts -> holds m acc a -> length a = total_n_parameters nn ->
  accesses_only (grad_iteration c vexp s o X Y i acc b) m
    ((X +! (k * in_size nn), in_size nn) :: (Y +! (k * out_size nn), out_size nn) :: (acc, total_n_parameters nn) :: regions (nn_layers nn))
    [(acc, total_n_parameters nn)].
Proof. intros HC. intros. eapply gradient_accesses; eauto. Qed.
Print Assumptions gradient_footprint.

(** an iteration of the loop of evaluate over the samples; [m] is the memory before the call, [rest] the local arrays *)
Theorem evaluate_footprint (FO : fops) (c : cfg) (vexp : F -> F) (nn : neuralnet) (net : list flayer) (m rest : mem)
    (X Y : ptr) (xs ts : list (list F)) (mets : list metric) (s : esched) (acc : ptr) (a : list F) (i : nat) :
  (forall a b : F, fmul a b = fmul b a) ->
  (forall i, aligned_base c (es_pred s i)) -> (forall i, aligned_base c (es_work s i)) ->
  eval_mem c nn net m X Y xs ts -> i < length xs -> length m <= blk acc -> holds (m ++ rest) acc a -> length a = length mets ->
  accesses_only (eval_iteration c vexp s nn X Y mets acc i) (m ++ rest)
    ((X +! (i * in_size nn), in_size nn) :: (Y +! (i * out_size nn), out_size nn) :: (acc, length mets) :: regions (nn_layers nn))
    [(acc, length mets)].
Proof. intros HC. intros. eapply eval_accesses; eauto. Qed.
Print Assumptions evaluate_footprint.

(** *** two iterations *)

Lemma apart_params (FO : fops) (nn : neuralnet) p n rs : Forall (off_params p n) (nn_layers nn) ->
  (forall r, In r rs -> dis (p, n) r) -> no_overlap [(p, n)] (rs ++ regions (nn_layers nn)).
Proof.
  intros H1 H2. apply dis_no_overlap. intros r w [<-|[]] Hw. apply in_app_or in Hw. destruct Hw as [Hw|Hw]; auto.
  apply (proj1 (off_params_regions p n (nn_layers nn)) H1). auto.
Qed.
Lemma off_params_sub p n p' n' ls : blk p' = blk p -> off p <= off p' -> off p' + n' <= off p + n ->
  Forall (off_params p n) ls -> Forall (off_params p' n') ls.
Proof. intros E1 E2 E3. apply Forall_impl. intros l [A B]. split; eapply disjoint_sub; eauto. Qed.

(** neuralnet_predict_batch, OpenMP build: two rows of the batch *)
Theorem predict_batch_race_free (FO : fops) (c : cfg) (vexp : F -> F) (wbs : nat -> Z) (nn : neuralnet) (net : list flayer)
    (m : mem) (pin po : ptr) (X : list (list F)) (i j : nat) :
  (forall a b : F, fmul a b = fmul b a) -> (forall i, aligned_base c (wbs i)) ->
  batch_mem c nn net m pin po X -> rows_pre c nn m po (length X) ->
  i < length X -> j < length X -> i <> j ->
  race_free (predict_row c vexp wbs nn pin po i) (predict_row c vexp wbs nn pin po j) m.
Proof.
  intros HC HB (Hne & HN & HX & Hin & V & OFF & DI) HO Hi Hj Hij. set (row := predict_row c vexp wbs nn pin po).
  assert (HX' : forall k x, nth_error X k = Some x -> length x = in_size nn) by (intros k x Hk; apply HX; eapply nth_error_In; eauto).
  assert (A : forall k, k < length X -> accesses_only (row k) m ((pin +! (k * in_size nn), in_size nn) :: regions (nn_layers nn))
                [(po +! (k * out_size nn), out_size nn)]).
  { intros k Hk. destruct (@nth_error_ex _ X k Hk) as [x Hx]. destruct (concat_row X (in_size nn) HX' k x Hx) as [LC SX].
    pose proof (row_fit k (length X) (in_size nn) Hk) as RX. pose proof (row_fit k (length X) (out_size nn) Hk) as RO.
    pose proof (HX' k x Hx) as Lx. rewrite <- Lx at 2. apply predict_accesses with (net := net); auto.
    - rewrite Lx. auto.
    - rewrite <- SX. apply holds_sub; auto. lia.
    - intros l Hl. pose proof (out_size_nth nn l Hl) as EO. destruct (HO k l Hk Hl) as [K P].
      split. { rewrite <- EO. eapply valid_sub; eauto. } split; auto. split; auto.
      rewrite <- EO. split.
      + assert (G : Forall (off_params (po +! (k * out_size nn)) (out_size nn)) (nn_layers nn)) by (eapply off_params_sub; [| | |exact OFF]; simpl; lia).
        rewrite Forall_forall in G. apply G. eapply nth_error_In; eauto.
      + intros _. rewrite Lx. destruct DI as [D|[D|D]]; [left; exact D|right; left; simpl; lia|right; right; simpl; lia]. }
  assert (P : forall k r, k < length X -> r < length X ->
     no_overlap [(po +! (k * out_size nn), out_size nn)] ((pin +! (r * in_size nn), in_size nn) :: regions (nn_layers nn))).
  { intros k r Hk Hr. pose proof (row_fit k (length X) (out_size nn) Hk) as RO. pose proof (row_fit r (length X) (in_size nn) Hr) as RX.
    apply (apart_params FO nn _ _ [_]).
    - eapply off_params_sub; [| | |exact OFF]; simpl; lia.
    - intros q [<-|[]]. unfold dis. simpl. destruct DI as [D|[D|D]]; [left; exact D|right; left; simpl; lia|right; right; simpl; lia]. }
  eexists _, _, _, _. split; [apply A; exact Hi|]. split; [apply A; exact Hj|].
  split; [apply P; auto|]. split; [|apply P; auto].
  apply dis_no_overlap. intros r w [<-|[]] [<-|[]]. apply rows_dis. auto.
Qed.
Print Assumptions predict_batch_race_free.

(** optimizer_calc_batch_gradient: two iterations of threads with the private arrays [acc1] and [acc2] *)
Theorem batch_gradient_race_free (FO : fops) (c : cfg) (vexp : F -> F) (nn : neuralnet) (lf : loss) (net : list flayer) (m : mem)
    (X Y : ptr) (xs ts : list (list F)) (s : sched) (o : opt) (pv : list nat) (i b1 b2 : nat) (acc1 acc2 : ptr) (a1 a2 : list F) :
  (forall a b : F, fmul a b = fmul b a) ->
  o_nn o = neuralnet_set_loss nn (Some lf) -> o_pivot o = Some pv -> (forall k, In k pv -> k < length xs) ->
  i + b1 < length pv -> i + b2 < length pv ->
  (forall b, aligned_base c (s_grad s b)) -> (forall b, aligned_base c (s_work s b)) ->
  train_mem c nn lf net m X Y xs ts ->
  holds m acc1 a1 -> length a1 = total_n_parameters nn -> clear nn X Y xs ts acc1 (total_n_parameters nn) ->
  holds m acc2 a2 -> length a2 = total_n_parameters nn -> clear nn X Y xs ts acc2 (total_n_parameters nn) ->
  disjoint acc1 (total_n_parameters nn) acc2 (total_n_parameters nn) ->
  race_free (grad_iteration c vexp s o X Y i acc1 b1) (grad_iteration c vexp s o X Y i acc2 b2) m.
Proof.
  intros HC Ho Hpv Hp H1 H2 Hg Hw T Ha1 L1 C1 Ha2 L2 C2 D12.
  destruct (@nth_error_ex _ pv (i + b1) H1) as [k1 K1]. destruct (@nth_error_ex _ pv (i + b2) H2) as [k2 K2].
  pose proof (Hp _ (nth_error_In _ _ K1)) as Lk1. pose proof (Hp _ (nth_error_In _ _ K2)) as Lk2.
  assert (D21 : disjoint acc2 (total_n_parameters nn) acc1 (total_n_parameters nn)) by (apply disjoint_sym; auto).
  pose proof T as (_ & _ & _ & _ & HX & HY & LT & _).
  assert (P : forall acc acc' k, clear nn X Y xs ts acc (total_n_parameters nn) ->
      disjoint acc (total_n_parameters nn) acc' (total_n_parameters nn) -> k < length xs ->
      no_overlap [(acc, total_n_parameters nn)] ((X +! (k * in_size nn), in_size nn) :: (Y +! (k * out_size nn), out_size nn) ::
        (acc', total_n_parameters nn) :: regions (nn_layers nn))).
  { intros acc acc' k (O & DX & DY) D Hk. apply (apart_params FO nn _ _ [_; _; _]); auto.
    destruct (@nth_error_ex _ xs k Hk) as [x Hx]. destruct (@nth_error_ex _ ts k ltac:(lia)) as [t Ht].
    destruct (concat_row xs (in_size nn) HX k x Hx) as [EX _]. destruct (concat_row ts (out_size nn) HY k t Ht) as [EY _].
    rewrite EX in DX. rewrite EY, LT in DY.
    pose proof (row_fit k (length xs) (in_size nn) Hk). pose proof (row_fit k (length xs) (out_size nn) Hk).
    intros q [<-|[<-|[<-|[]]]]; unfold dis; simpl; auto.
    - destruct DX as [E|[E|E]]; [left; exact E|right; left; simpl; lia|right; right; simpl; lia].
    - destruct DY as [E|[E|E]]; [left; exact E|right; left; simpl; lia|right; right; simpl; lia]. }
  eexists _, _, _, _. split; [eapply gradient_accesses with (k := k1); eauto|].
  split; [eapply gradient_accesses with (k := k2); eauto|].
  split; [apply P; auto|]. split; [|apply P; auto].
  apply dis_no_overlap. intros r w [<-|[]] [<-|[]]. exact D12.
Qed.
Print Assumptions batch_gradient_race_free.

(** evaluate: two iterations of threads with the private arrays [acc1] and [acc2] *)
Theorem evaluate_race_free (FO : fops) (c : cfg) (vexp : F -> F) (nn : neuralnet) (net : list flayer) (m rest : mem)
    (X Y : ptr) (xs ts : list (list F)) (mets : list metric) (s : esched) (acc1 acc2 : ptr) (a1 a2 : list F) (i j : nat) :
  (forall a b : F, fmul a b = fmul b a) ->
  (forall i, aligned_base c (es_pred s i)) -> (forall i, aligned_base c (es_work s i)) ->
  eval_mem c nn net m X Y xs ts -> i < length xs -> j < length xs ->
  length m <= blk acc1 -> holds (m ++ rest) acc1 a1 -> length a1 = length mets ->
  length m <= blk acc2 -> holds (m ++ rest) acc2 a2 -> length a2 = length mets ->
  disjoint acc1 (length mets) acc2 (length mets) ->
  race_free (eval_iteration c vexp s nn X Y mets acc1 i) (eval_iteration c vexp s nn X Y mets acc2 j) (m ++ rest).
Proof.
  intros HC HP HW EM Hi Hj B1 H1 L1 B2 H2 L2 D.
  assert (D21 : disjoint acc2 (length mets) acc1 (length mets)) by (apply disjoint_sym; auto).
  pose proof EM as (_ & HN & HX & HY & _). pose proof (OptProofs.net_in_m c m _ _ _ HN) as IM.
  assert (P : forall acc acc' k, length m <= blk acc -> disjoint acc (length mets) acc' (length mets) ->
      no_overlap [(acc, length mets)] ((X +! (k * in_size nn), in_size nn) :: (Y +! (k * out_size nn), out_size nn) ::
        (acc', length mets) :: regions (nn_layers nn))).
  { intros acc acc' k B DD. apply (apart_params FO nn _ _ [_; _; _]).
    - eapply Forall_impl; [|exact IM]. intros l [I1 I2]. split; left; simpl; lia.
    - pose proof (holds_blk _ _ _ HX). pose proof (holds_blk _ _ _ HY).
      intros q [<-|[<-|[<-|[]]]]; unfold dis; simpl; auto; left; simpl; lia. }
  eexists _, _, _, _. split; [eapply eval_accesses; eauto|]. split; [eapply eval_accesses; eauto|].
  split; [apply P; auto|]. split; [|apply P; auto].
  apply dis_no_overlap. intros r w [<-|[]] [<-|[]]. exact D.
Qed.
Print Assumptions evaluate_race_free.

(** adam_run_epoch: the two sections, with the gradient [g] *)
Theorem adam_sections_race_free (FO : fops) (c : cfg) (n : nat) (m : mem) (ad : adam) (g : ptr) (xs ys gs : list F) :
  (forall a b : F, fmul a b = fmul b a) ->
  holds m (ad_s ad) xs -> holds m (ad_r ad) ys -> holds m g gs -> length xs = n -> length ys = n -> length gs = n ->
  disjoint (ad_s ad) n g n -> disjoint (ad_r ad) n g n -> disjoint (ad_s ad) n (ad_r ad) n ->
  kal c n m (ad_s ad) -> kal c n m (ad_r ad) -> kal c n m g ->
  race_free (adam_section1 c n ad g) (adam_section2 c n ad g) m.
Proof.
  unfold adam_section1, adam_section2. generalize (ad_s ad) (ad_r ad) (ad_beta1 ad) (ad_beta2 ad). intros s r rho1 rho2 HC Hs Hr Hg <- Ly Lg D1 D2 D3 K1 K2 K3.
  assert (A1 : accesses_only (update_biased_first_moment c (length xs) s g rho1) m [(s, length xs); (g, length xs)] [(s, length xs)]).
  { set (v := map2 (fun x y => fadd (fmul rho1 x) (fmul (fsub f1 rho1) y)) xs gs).
    assert (Lv : length v = length xs) by (unfold v; rewrite length_map2; lia).
    replace [(s, length xs)] with [(s, length v)] by (rewrite Lv; reflexivity). apply accesses_intro. { rewrite Lv. apply holds_valid; auto. }
    intros m2 A. apply first_moment_ok; auto; try (eapply agree_kal; eauto; fail).
    - eapply agree_holds; eauto. left. reflexivity. - eapply agree_holds; eauto. rewrite Lg. simpl. auto. }
  assert (A2 : accesses_only (update_biased_second_moment c (length xs) r g rho2) m [(r, length xs); (g, length xs)] [(r, length xs)]).
  { set (v := second_moment_f c rho2 ys gs).
    assert (Lv : length v = length xs) by (unfold v, second_moment_f; rewrite length_lanes2; lia).
    replace [(r, length xs)] with [(r, length v)] by (rewrite Lv; reflexivity). apply accesses_intro. { rewrite Lv, <- Ly. apply holds_valid; auto. }
    intros m2 A. rewrite <- Ly in *. apply second_moment_ok; auto; try lia; try (eapply agree_kal; eauto; fail).
    - eapply agree_holds; eauto. left. reflexivity. - eapply agree_holds; eauto. rewrite Lg. simpl. auto. }
  eexists _, _, _, _. split; [exact A1|]. split; [exact A2|].
  split; [|split]; apply dis_no_overlap; intros q w [<-|[]] Hw; simpl in Hw; unfold dis; simpl.
  - destruct Hw as [<-|[<-|[]]]; simpl; auto.
  - destruct Hw as [<-|[]]; simpl; auto.
  - destruct Hw as [<-|[<-|[]]]; simpl; auto. apply disjoint_sym. auto.
Qed.
Print Assumptions adam_sections_race_free.

(** *** concrete cases *)
(** two rows of a batch of three, a network with two layers, AVX512 *)
Example predict_batch_race_case :
  let c := {| cfg_isa := AVX512; cfg_fma := true |} in
  let row := @predict_row opsR c exp (fun _ => 0%Z) bcase_nn (mkptr 4 0) (mkptr 5 0) in
  race_free (row 2) (row 0) (bcase_m opsR).
Proof.
  intros c. apply (predict_batch_race_free opsR c exp (fun _ => 0%Z) bcase_nn (bcase_net opsR) (bcase_m opsR) (mkptr 4 0) (mkptr 5 0) _ 2 0 mulC_R
    (fun _ => aligned_base_0 c) (bcase_holds opsR)); try (simpl; lia).
  intros i l Hi Hl. inversion Hl; subst l. split; [|exact I]. split; simpl; lia.
Qed.
(** two threads in the middle of a batch: samples 2 and 0, private arrays in blocks 4 and 5 *)
Example batch_gradient_race_case (c : cfg) (x1 x2 x3 t1 t2 t3 : R) :
  race_free (@grad_iteration opsR c exp seq_sched (tc_opt 3 [1; 2; 0]) (mkptr 2 0) (mkptr 3 0) 0 (mkptr 4 0) 1)
            (@grad_iteration opsR c exp seq_sched (tc_opt 3 [1; 2; 0]) (mkptr 2 0) (mkptr 3 0) 0 (mkptr 5 0) 2)
            (@tc_mem opsR [x1; x2; x3] [t1; t2; t3]).
Proof.
  apply (batch_gradient_race_free opsR c exp tc_nn MSE (@tc_net opsR) _ (mkptr 2 0) (mkptr 3 0) [[x1]; [x2]; [x3]] [[t1]; [t2]; [t3]]
    seq_sched (tc_opt 3 [1; 2; 0]) [1; 2; 0] 0 1 2 (mkptr 4 0) (mkptr 5 0) [0%R; 0%R] [0%R; 0%R]); auto.
  - exact mulC_R.
  - intros k [<-|[<-|[<-|[]]]]; simpl; lia.
  - simpl. lia.
  - intros. apply aligned_base_0. - intros. apply aligned_base_0.
  - apply (@tc_train opsR c [x1; x2; x3] [t1; t2; t3]). reflexivity.
  - exact (@holds_block opsR (@tc_mem opsR [x1; x2; x3] [t1; t2; t3]) 4 5120 [0%R; 0%R] eq_refl).
  - apply (@tc_clear opsR [x1; x2; x3] [t1; t2; t3]). lia.
  - exact (@holds_block opsR (@tc_mem opsR [x1; x2; x3] [t1; t2; t3]) 5 6144 [0%R; 0%R] eq_refl).
  - apply (@tc_clear opsR [x1; x2; x3] [t1; t2; t3]). lia.
  - left. simpl. lia.
Qed.
(** evaluate: samples 0 and 2, private arrays behind the memory of the caller *)
Example evaluate_race_case (c : cfg) (x1 x2 x3 t1 t2 t3 : R) :
  race_free (@eval_iteration opsR c exp ev_sched tc_nn (mkptr 2 0) (mkptr 3 0) [M_MSE; M_MAE] (mkptr 7 0) 0)
            (@eval_iteration opsR c exp ev_sched tc_nn (mkptr 2 0) (mkptr 3 0) [M_MSE; M_MAE] (mkptr 8 0) 2)
            (@tc_mem opsR [x1; x2; x3] [t1; t2; t3] ++ [mkblock 8192 [Some 0%R; Some 0%R]; mkblock 9216 [Some 0%R; Some 0%R]]).
Proof.
  apply (evaluate_race_free opsR c exp tc_nn (@tc_net opsR)) with (xs := [[x1]; [x2]; [x3]]) (ts := [[t1]; [t2]; [t3]])
    (a1 := [0%R; 0%R]) (a2 := [0%R; 0%R]).
  - exact mulC_R.
  - intros. apply aligned_base_0. - intros. apply aligned_base_0.
  - pose proof (@tc_eval opsR c [x1; x2; x3] [t1; t2; t3] [] eq_refl) as E. rewrite app_nil_r in E. exact E.
  - simpl. lia. - simpl. lia. - simpl. lia.
  - eapply holds_block. reflexivity. - reflexivity.
  - simpl. lia. - eapply holds_block. reflexivity. - reflexivity.
  - left. simpl. lia.
Qed.
(** Adam: the arrays of the network with one input and one output *)
Example adam_sections_case (c : cfg) (b1 b2 : R) (xs ts : list R) :
  let ad := @Build_adam opsR 1%R b1 b2 0%R (mkptr 5 0) (mkptr 4 0) in
  race_free (@adam_section1 opsR c 2 ad (mkptr 7 0)) (@adam_section2 opsR c 2 ad (mkptr 7 0))
            (@tc_mem opsR xs ts ++ [mkblock 8192 [Some 1%R; Some 0%R]]).
Proof.
  intros ad. apply (adam_sections_race_free opsR c 2) with (xs := [0%R; 0%R]) (ys := [0%R; 0%R]) (gs := [1%R; 0%R]); try reflexivity.
  - exact mulC_R.
  - eapply holds_block. reflexivity. - eapply holds_block. reflexivity. - eapply holds_block. reflexivity.
  - left. simpl. lia. - left. simpl. lia. - left. simpl. lia.
  - split; simpl; lia. - split; simpl; lia. - split; simpl; lia.
Qed.
(** two stores to the same float do race *)
Example race_case : ~ race_free (@store opsZ (mkptr 0 0) 0%Z) (@store opsZ (mkptr 0 0) 1%Z) [@mkblock opsZ 0 [None]].
Proof.
  intros H. apply race_free_commute in H. destruct H as (m1 & m2 & m' & E1 & E2 & E3 & E4).
  cbn in E1, E2. inversion E1; subst m1. inversion E2; subst m2. cbn in E3, E4. inversion E3; subst m'. inversion E4.
Qed.
