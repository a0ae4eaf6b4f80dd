(** Prop_Rules2.v -- C25, C26, C30, C31: counterexamples and what remains true; cases for C24 and C27-C31 *)
From Coquelicot Require Import Coquelicot.
From Flocq Require Import Core IEEE754.BinarySingleNaN.
From Coq Require Import List Arith ZArith Lia Bool Reals Lra Permutation.
From Verif Require Import Base BaseProofs Ops OpsR OpsB32 Mem MemProofs Kernels KernelProofs Activation ActivationProofs
  Loss Neuralnet ForwardProofs BackpropProofs SpecReal RealForward RealGrad LossGrad GradProofs GradPropProofs PredictProofs BitsProofs SpecMem ParamProofs Batch BatchProofs
  BlasProofs Optimizer OptKernels OptProofs OptEpochs SpecOpt OptReal OptTrain Ex_Mem Ex_Train Prop_Optimizer Prop_Rules.
Import ListNotations.
Local Open Scope nat_scope.
Local Open Scope mem_scope.

Definition avx_c : cfg := {| cfg_isa := AVX; cfg_fma := false |}.

(** ** the cases: three samples, batches of two, one epoch without and one with two threads *)
Definition case_h : list (@env opsR * opt * nat) :=
  [(tc_env, tc_opt 2 [2; 0; 1], 3); (tc_env_omp avx_c 2 3, tc_opt 2 [1; 2; 0], 3)].
Lemma below3 (l : list nat) : Forall (fun k => k < 3) l -> forall k, In k l -> k < 3.
Proof. intros H. apply Forall_forall. exact H. Qed.
Lemma case_h_ready : Forall (@epoch_ready opsR avx_c tc_nn MSE 2 3) case_h.
Proof.
  constructor; [|constructor; [|constructor]].
  - apply (@tc_epoch opsR avx_c 2 3 [2; 0; 1]). apply below3. repeat constructor; lia.
  - apply (@tc_epoch_omp opsR avx_c 2 3 [1; 2; 0]). apply below3. repeat constructor; lia.
Qed.
Example rules_case :
  let xs := [1; 2; 3]%R in let ts := [0; 1; 0]%R in
  let m := @tc_mem opsR xs ts in
  @train_ready opsR avx_c tc_nn MSE (mkptr 2 0) (mkptr 3 0) (@rows opsR xs) (@rows opsR ts) m [0; 0]%R /\
  @state_array opsR avx_c tc_nn (mkptr 2 0) (mkptr 3 0) (@rows opsR xs) (@rows opsR ts) m (mkptr 4 0) [0; 0]%R /\
  @state_array opsR avx_c tc_nn (mkptr 2 0) (mkptr 3 0) (@rows opsR xs) (@rows opsR ts) m (mkptr 5 0) [0; 0]%R /\
  disjoint (mkptr 4 0) 2 (mkptr 5 0) 2 /\
  Forall (@epoch_ready opsR avx_c tc_nn MSE 2 3) case_h /\
  all_batches 2 case_h = [[2; 0]; [1]; [1; 2]; [0]] /\
  trainable MSE (nn_shape tc_nn).
Proof.
  split; [apply (@tc_ready opsR); reflexivity|]. split; [apply (@tc_array opsR); auto|]. split; [apply (@tc_array opsR); auto|].
  split; [left; simpl; lia|]. split; [apply case_h_ready|]. split; [reflexivity|]. simpl. discriminate.
Qed.
(** the hypotheses of batch_gradient_mean *)
Example batch_gradient_case :
  let xs := [1; 2; 3]%R in let ts := [0; 1; 0]%R in
  let m := @tc_mem opsR xs ts ++ [@mkblock opsR 8192 (repeat None 2 ++ map (@Some R) (repeat 5%R 14))] in
  let bg := mkptr 7 0 in
  total_n_parameters tc_nn = 2 /\ @train_ready opsR avx_c tc_nn MSE (mkptr 2 0) (mkptr 3 0) (@rows opsR xs) (@rows opsR ts) m [0; 0]%R /\
  sched_ok (two_threads 2) (batch_size (tc_opt 2 [2; 0; 1]) 3 0) /\
  @valid opsR m bg 2 /\ @holds opsR m (padd bg 2) (repeat 5%R 14) /\ over_len avx_c tc_nn (two_threads 2) = 14 /\
  @clear opsR tc_nn (mkptr 2 0) (mkptr 3 0) (@rows opsR xs) (@rows opsR ts) bg 16 /\ kal avx_c 2 m bg.
Proof.
  intros xs ts m bg. split; [reflexivity|].
  split. { split; [apply (@tc_apart opsR)|]. exists (@tc_net opsR). split; [reflexivity|].
    apply train_push. apply (@tc_train opsR). reflexivity. }
  split. { unfold sched_ok. simpl. apply perm_swap. }
  split. { eexists. split; [reflexivity|]. simpl. lia. }
  split. { eexists. split; [reflexivity|]. split; [simpl; lia|reflexivity]. }
  split; [reflexivity|]. split. { apply (@tc_clear opsR). lia. } split; simpl; lia.
Qed.

(** ** C26 *)
Definition is_oob {A} (r : res A) : bool := match r with Fault OutOfBounds => true | _ => false end.
Lemma is_oob_spec A (r : res A) : is_oob r = true -> r = Fault OutOfBounds.
Proof. destruct r as [x|[]]; simpl; congruence. Qed.
(** C26 is false for AVX builds with OpenMP: the reduction is declared for n_parameters rounded up to the next
    multiple of 16, but the array of the optimizers has n_parameters elements.  Here: 2 parameters, 1 sample; the epoch
    of every optimizer starts with this call. *)
Theorem batch_gradient_writes_refuted (lm : libm) :
  let FO := opsB32 lm in
  let m := @tc_mem FO [@f1 FO] [@f1 FO] in
  (* all preconditions of batch_gradient_mean except for the array behind the array *)
  @train_ready FO avx_c tc_nn MSE (mkptr 2 0) (mkptr 3 0) (@rows FO [f1]) (@rows FO [f1]) m [f0; f0] /\
  sched_ok (two_threads 1) (batch_size (tc_opt 1 [0]) 1 0) /\
  @valid FO m (mkptr 6 0) (total_n_parameters tc_nn) /\ @clear FO tc_nn (mkptr 2 0) (mkptr 3 0) (@rows FO [f1]) (@rows FO [f1]) (mkptr 6 0) (total_n_parameters tc_nn) /\
  kal avx_c (total_n_parameters tc_nn) m (mkptr 6 0) /\
  @calc_batch_gradient FO avx_c (@exp256_lane FO) (two_threads 1) (tc_opt 1 [0]) 1 (mkptr 2 0) (mkptr 3 0) 0 (mkptr 6 0) m = Fault OutOfBounds.
Proof.
  intros FO m. split; [apply (@tc_ready FO); reflexivity|]. split; [apply Permutation_refl|].
  split. { eexists. split; [reflexivity|]. apply Nat.leb_le. reflexivity. } split; [apply (@tc_clear FO); lia|].
  split. { split; intros _ H; cbn in H; lia. }
  apply is_oob_spec. vm_compute. reflexivity.
Qed.
Print Assumptions batch_gradient_writes_refuted.
(** the amount by which the array is exceeded: always at least one float, at most 16 *)
Theorem batch_gradient_padding (c : cfg) (n : nat) : has_avx c = true -> n < n_param_padding c n <= n + 16.
Proof. intros H. unfold n_param_padding. rewrite H. pose proof (Nat.mod_upper_bound n 16). lia. Qed.
Print Assumptions batch_gradient_padding.

(** Without OpenMP, or without AVX, only the n_parameters floats are written, for any floats.  (With both, the
    theorem batch_gradient_mean shows that in exact arithmetic the floats behind the array, if it is legal to
    access them, keep their values.) *)
Theorem batch_gradient_writes_partial (FO : fops) (vexp : F -> F) (c : cfg) (nn : neuralnet) (lf : loss) (X Y : ptr) (xs ts : list (list F)) (m : mem) (th : list F)
    (o : opt) (pv : list nat) (s : sched) (n i : nat) (bg : ptr) :
  (forall a b : F, fmul a b = fmul b a) ->
  has_avx c = false \/ s_omp s = None ->
  train_ready c nn lf X Y xs ts m th ->
  o_nn o = neuralnet_set_loss nn (Some lf) -> o_pivot o = Some pv -> length pv = n -> (forall k, In k pv -> k < length xs) ->
  i < n -> (forall b, aligned_base c (s_grad s b)) -> (forall b, aligned_base c (s_work s b)) ->
  sched_ok s (batch_size o n i) ->
  valid m bg (total_n_parameters nn) -> clear nn X Y xs ts bg (total_n_parameters nn) -> kal c (total_n_parameters nn) m bg ->
  exists g m', calc_batch_gradient c vexp s o n X Y i bg m = Ok (i + batch_size o n i, m') /\
    holds m' bg g /\ length g = total_n_parameters nn /\ only_changes m m' bg (total_n_parameters nn).
Proof.
  intros HC H0 TR Ho Hpv Hl Hin Hi Hg Hw HS HV HCl HK.
  assert (OL : over_len c nn s = 0).
  { unfold over_len, extra, n_param_padding. destruct (s_omp s); auto. destruct H0 as [-> | ?]; [lia|discriminate]. }
  destruct TR as (PA & net & <- & T).
  assert (HCl' : clear nn X Y xs ts bg (total_n_parameters nn + over_len c nn s)) by (rewrite OL, Nat.add_0_r; exact HCl).
  assert (HO : holds m (padd bg (total_n_parameters nn)) []).
  { destruct HV as (b & Hb & HL). exists b. split; auto. simpl. split; [lia|reflexivity]. }
  destruct (@calc_ok FO c vexp HC nn lf X Y xs ts o pv s i Ho Hpv Hin Hg Hw net m bg [] n T Hl (Nat.lt_le_incl _ _ Hi) HV HO (eq_sym OL) HCl' HK HS) as (E & L1 & L2).
  destruct (sched_over c nn s []) as [|? ?]; [|discriminate]. rewrite app_nil_r in E.
  eexists. eexists. split; [exact E|]. rewrite <- L1 in *.
  split; [apply holds_writem_same; auto|]. split; [reflexivity|apply writem_only_changes; auto].
Qed.
Print Assumptions batch_gradient_writes_partial.

(** ** C31 *)
Lemma sgd_count grad mu nest lr bl : forall s, snd (fold_left (sgd_rule grad mu nest lr) bl s) = snd s + length bl.
Proof.
  induction bl as [|b bl IH]; intros [[th v] t]; simpl; [lia|]. rewrite IH. unfold sgd_rule. destruct (Rlt_dec 0 mu); simpl; lia.
Qed.
Lemma rms_count grad rho mu nest lr bl : forall s, snd (fold_left (rms_rule grad rho mu nest lr) bl s) = snd s + length bl.
Proof.
  induction bl as [|b bl IH]; intros [[[th v] r] t]; simpl; [lia|]. rewrite IH. unfold rms_rule. destruct (Rlt_dec 0 mu); simpl; lia.
Qed.
Lemma ag_count grad lr bl : forall s, snd (fold_left (adagrad_rule grad lr) bl s) = snd s + length bl.
Proof. induction bl as [|b bl IH]; intros [[th r] t]; simpl; [lia|]. rewrite IH. simpl. lia. Qed.

(** C31 is false: SGD with learning rate 1 and decay 1.  After three batches (t = 0, 1, 2) the learning rate, which
    is the one used for t = 2, is 1/6 and not 1/(1 + 1*2) = 1/3: the decays are compounded. *)
Theorem lr_decay_refuted :
  exists m' s', training (fun e o n => @sgd_epoch opsR avx_c exp e o n (mkptr 2 0) (mkptr 3 0)) [(tc_env, tc_opt 1 [0; 1; 2], 3)]
    ({| sg_lr := 1; sg_decay := 1; sg_mu := 0; sg_nesterov := false; sg_t := 0; sg_v := mkptr 4 0 |} : @sgd opsR)%R (@tc_mem opsR [1; 2; 3]%R [0; 1; 0]%R) = Ok (s', m') /\
  sg_t s' = 3 /\ sg_lr s' = (1 / 6)%R /\ sg_lr s' <> (1 / (1 + 1 * INR 2))%R.
Proof.
  destruct (sgd_recurrence avx_c tc_nn MSE (mkptr 2 0) (mkptr 3 0) (@rows opsR [1; 2; 3]%R) (@rows opsR [0; 1; 0]%R) (@tc_mem opsR [1; 2; 3]%R [0; 1; 0]%R)
    1 1 1 0 false (mkptr 4 0) [0; 0]%R [0; 0]%R [(tc_env, tc_opt 1 [0; 1; 2], 3)]) as (G & _ & _ & m' & th' & v' & t' & EF & E & _).
  - lia.
  - apply (@tc_ready opsR). reflexivity.
  - apply (@tc_array opsR). auto.
  - constructor; [|constructor]. apply (@tc_epoch opsR avx_c 1 3 [0; 1; 2]). apply below3. repeat constructor; lia.
  - apply (f_equal snd) in EF. rewrite sgd_count in EF. cbn in EF. subst t'.
    exists m'. eexists. split; [exact E|]. simpl.
    assert (L : lr_after 1 1 3 = (1 / 6)%R). { unfold lr_after. destruct (Rlt_dec 0 1); [|lra]. cbn [prod_decay]. change (count32 0) with 0%R. change (count32 1) with 1%R. change (count32 2) with 2%R. field. }
    rewrite L. split; [reflexivity|]. split; [reflexivity|]. lra.
Qed.
Print Assumptions lr_decay_refuted.

(** the counted batches, summed up *)
Fixpoint count_sum (t : nat) : R := match t with O => 0%R | S k => (count_sum k + count32 k)%R end.
Lemma prod_decay_sum d : (0 < d)%R -> forall t, (prod_decay d t * (1 + d * count_sum t) <= 1)%R.
Proof.
  intros Hd. assert (S0 : forall t, (0 <= count_sum t)%R) by (induction t; cbn [count_sum]; [lra|pose proof (count32_pos t); lra]).
  induction t as [|t IH]; cbn [prod_decay count_sum]; [lra|].
  pose proof (count32_pos t) as H0. pose proof (prod_decay_pos d t Hd) as HP. specialize (S0 t).
  assert (HD : (0 <= d * count32 t)%R) by (apply Rmult_le_pos; lra). assert (HE : (0 <= d * count_sum t)%R) by (apply Rmult_le_pos; lra).
  apply Rmult_le_reg_r with (1 + d * count32 t)%R; [lra|].
  replace (prod_decay d t * (1 / (1 + d * count32 t)) * (1 + d * (count_sum t + count32 t)) * (1 + d * count32 t))%R
    with (prod_decay d t * (1 + d * count_sum t + d * count32 t))%R by (field; lra).
  assert (prod_decay d t <= 1)%R by nra. nra.
Qed.
Lemma count_sum_ge t : (2 <= t)%nat -> (INR t + 1 <= count_sum (S t))%R.
Proof.
  intros Ht. enough (HH : (INR t + 1 <= count_sum (S t))%R /\ (INR t + count32 t - 1 <= count_sum (S t))%R) by apply HH.
  induction Ht as [|t Ht IH].
  - cbn [count_sum INR]. change (count32 0) with 0%R. change (count32 1) with 1%R. change (count32 2) with 2%R. lra.
  - change (count_sum (S (S t))) with (count_sum (S t) + count32 (S t))%R. rewrite S_INR.
    assert (E : (count32 (S t) = count32 t + 1 \/ count32 t = 4294967295 /\ count32 (S t) = 0)%R).
    { unfold count32. rewrite Nat2Z.inj_succ. change (2 ^ 32)%Z with 4294967296%Z.
      pose proof (Z.mod_pos_bound (Z.of_nat t) 4294967296 eq_refl) as B. pose proof (Z.div_mod (Z.of_nat t) 4294967296 ltac:(lia)) as DM.
      destruct (Z.eq_dec (Z.of_nat t mod 4294967296) 4294967295) as [e|e].
      - right. rewrite e. split; [reflexivity|]. f_equal. symmetry. apply (Z.mod_unique_pos _ _ (Z.of_nat t / 4294967296 + 1)); lia.
      - left. rewrite <- plus_IZR. f_equal. symmetry. apply (Z.mod_unique_pos _ _ (Z.of_nat t / 4294967296)); lia. }
    pose proof (count32_pos t). lra.
Qed.
(** What the code does: the learning rate used for batch t is lr0 * 1/(1+d*0) * 1/(1+d*1) * ... * 1/(1+d*t), with the numbers of the batches
    modulo 2^32 (it is used by the rules of C27-C29).  It is the documented one for d <= 0 and for the first two batches, and
    smaller than documented in all later ones. *)
Theorem lr_decay_partial (lr0 d : R) (t : nat) :
  (0 < d -> lr_after lr0 d (S t) = fold_left (fun l j => l / (1 + d * IZR (Z.of_nat j mod 2 ^ 32))) (seq 0 (S t)) lr0)%R /\
  (d <= 0 -> lr_after lr0 d (S t) = lr0)%R /\
  (0 < d -> (t <= 1)%nat -> lr_after lr0 d (S t) = lr0 / (1 + d * INR t))%R /\
  (0 < d -> 0 < lr0 -> (2 <= t)%nat -> lr_after lr0 d (S t) < lr0 / (1 + d * INR t))%R.
Proof.
  unfold lr_after. destruct (Rlt_dec 0 d) as [Hd|Hd].
  2:{ split; [intros; lra|]. split; [auto|]. split; intros; lra. }
  split; [intros _|split; [intros; lra|split]].
  - generalize (S t). clear t. induction n as [|n IH]; [simpl; lra|]. rewrite seq_S, fold_left_app. cbn [fold_left Nat.add]. rewrite <- IH.
    cbn [prod_decay]. unfold Rdiv, count32. ring.
  - intros _ Ht. destruct t as [|[|t]]; [|  |lia]; cbn [prod_decay]; change (count32 0) with 0%R; try change (count32 1) with 1%R; cbn [INR]; field; lra.
  - intros _ Hl Ht. apply Rmult_lt_compat_l; [exact Hl|]. pose proof (pos_INR t) as HT.
    pose proof (prod_decay_pos d (S t) Hd) as HP. pose proof (prod_decay_sum d Hd (S t)) as HS. pose proof (count_sum_ge t Ht) as HC.
    apply Rmult_lt_reg_r with (1 + d * INR t)%R; [nra|]. rewrite Rinv_l by nra.
    assert (d * (INR t + 1) <= d * count_sum (S t))%R by (apply Rmult_le_compat_l; lra). nra.
Qed.
Print Assumptions lr_decay_partial.
(** the learning rate in the optimizer record after N batches is the one used in the last of them; stated for
    the three optimizers with decay *)
Theorem lr_field (c : cfg) (nn : neuralnet) (lf : loss) (X Y : ptr) (xs ts : list (list R)) (m : @mem opsR)
    (bsz : nat) (lr0 d rho mu : R) (nest : bool) (V Q : ptr) (th v r : list R) (h : list (@env opsR * opt * nat)) :
  0 < bsz -> @train_ready opsR c nn lf X Y xs ts m th ->
  @state_array opsR c nn X Y xs ts m V v -> @state_array opsR c nn X Y xs ts m Q r ->
  disjoint V (total_n_parameters nn) Q (total_n_parameters nn) ->
  Forall (@epoch_ready opsR c nn lf bsz (length xs)) h ->
  let N := length (all_batches bsz h) in
  (exists s' m', training (fun e o n => @sgd_epoch opsR c exp e o n X Y) h
     {| sg_lr := lr0; sg_decay := d; sg_mu := mu; sg_nesterov := nest; sg_t := 0; sg_v := V |} m = Ok (s', m') /\ sg_t s' = N /\ sg_lr s' = lr_after lr0 d N) /\
  (exists s' m', training (fun e o n => @rmsprop_epoch opsR c exp e o n X Y) h
     {| rm_lr := lr0; rm_decay := d; rm_rho := rho; rm_mu := mu; rm_nesterov := nest; rm_t := 0; rm_v := V; rm_r := Q |} m = Ok (s', m') /\ rm_t s' = N /\ rm_lr s' = lr_after lr0 d N) /\
  (exists s' m', training (fun e o n => @adagrad_epoch opsR c exp e o n X Y) h
     {| ag_lr := lr0; ag_decay := d; ag_t := 0; ag_r := Q |} m = Ok (s', m') /\ ag_t s' = N /\ ag_lr s' = lr_after lr0 d N).
Proof.
  intros Hb TR SV SQ HD HE N. split; [|split].
  - destruct (sgd_recurrence c nn lf X Y xs ts m bsz lr0 d mu nest V th v h Hb TR SV HE) as (G & _ & _ & m' & th' & v' & t' & EF & E & _).
    apply (f_equal snd) in EF. rewrite sgd_count in EF. cbn in EF. subst t'. eexists. exists m'. split; [exact E|]. split; reflexivity.
  - destruct (rmsprop_recurrence c nn lf X Y xs ts m bsz lr0 d rho mu nest V Q th v r h Hb TR SV SQ HD HE) as (G & _ & _ & m' & th' & v' & r' & t' & EF & E & _).
    apply (f_equal snd) in EF. rewrite rms_count in EF. cbn in EF. subst t'. eexists. exists m'. split; [exact E|]. split; reflexivity.
  - destruct (adagrad_recurrence c nn lf X Y xs ts m bsz lr0 d Q th r h Hb TR SQ HE) as (G & _ & _ & m' & th' & r' & t' & EF & E & _).
    apply (f_equal snd) in EF. rewrite ag_count in EF. cbn in EF. subst t'. eexists. exists m'. split; [exact E|]. split; reflexivity.
Qed.
Print Assumptions lr_field.

(** ** C25 *)
Definition sse_c : cfg := {| cfg_isa := SSE; cfg_fma := false |}.
(** content of block k afterwards *)
Definition block_after {lm} (k : nat) (r : res (nat * @mem (opsB32 lm))) : option (list (option SpecFloat.spec_float)) :=
  match r with Ok (_, m') => option_map (fun b => map (option_map (@B2SF 24 128)) (@cells (opsB32 lm) b)) (nth_error m' k) | Fault _ => None end.
Definition c25_x : list b32 := [b32_ofZ 0; b32_ofZ 0; b32_ofZ 0].
Definition c25_t : list b32 := [b32_ofZ (-16777216); b32_ofZ (-1); b32_ofZ (-1)].
Definition three : opt := tc_opt 3 [0; 1; 2].
Definition one_thread : sched := {| s_omp := Some [Thread 0 [0; 1; 2]]; s_grad := fun _ => 0%Z; s_work := fun _ => 0%Z |}.
Definition run25 (lm : libm) (s : sched) : res (nat * @mem (opsB32 lm)) :=
  @calc_batch_gradient (opsB32 lm) sse_c (@exp256_lane (opsB32 lm)) s three 3 (mkptr 2 0) (mkptr 3 0) 0 (mkptr 6 0) (@tc_mem (opsB32 lm) c25_x c25_t).
(** C25 is false: the float32 additions are associated differently by one and by two threads.  Three samples with
    bias gradients 2^25, 2 and 2. *)
Theorem reproducible_refuted (lm : libm) :
  @train_ready (opsB32 lm) sse_c tc_nn MSE (mkptr 2 0) (mkptr 3 0) (@rows (opsB32 lm) c25_x) (@rows (opsB32 lm) c25_t) (@tc_mem (opsB32 lm) c25_x c25_t) [b32_zero; b32_zero] /\
  sched_ok one_thread (batch_size three 3 0) /\ sched_ok (two_threads 3) (batch_size three 3 0) /\
  block_after 6 (run25 lm one_thread) <> None /\ block_after 6 (run25 lm (two_threads 3)) <> None /\
  block_after 6 (run25 lm one_thread) <> block_after 6 (run25 lm (two_threads 3)).
Proof.
  split; [apply (@tc_ready (opsB32 lm)); reflexivity|]. split; [apply Permutation_refl|].
  split. { unfold sched_ok. simpl. apply Permutation_sym. apply (Permutation_cons_append [1; 2] 0). }
  assert (E1 : block_after 6 (run25 lm one_thread) = Some [Some (SpecFloat.S754_finite false 11184811 0); Some (SpecFloat.S754_zero false)]) by (vm_compute; reflexivity).
  assert (E2 : block_after 6 (run25 lm (two_threads 3)) = Some [Some (SpecFloat.S754_finite false 11184812 0); Some (SpecFloat.S754_zero false)]) by (vm_compute; reflexivity).
  rewrite E1, E2. repeat split; discriminate.
Qed.
Print Assumptions reproducible_refuted.

(** the schedule without the addresses of the private arrays *)
Fixpoint tree_shape (t : rtree) : rtree := match t with Thread _ its => Thread 0 its | Comb a b => Comb (tree_shape a) (tree_shape b) end.
Definition sched_shape (s : sched) : option (list rtree) := option_map (map tree_shape) (s_omp s).
(** What is true: the batch gradient is a function of the numbers and of the schedule (without OpenMP there is only
    one), for any floats: it does not depend on where the samples and the stack arrays are in memory. *)
Theorem reproducible_partial (FO : fops) (vexp : F -> F) (c : cfg) (nn : neuralnet) (lf : loss) (X Y X' Y' : ptr) (xs ts : list (list F)) (m m' : mem) (th : list F)
    (o : opt) (pv : list nat) (s s' : sched) (n i : nat) (bg bg' : ptr) (over over' : list F) :
  (forall a b : F, fmul a b = fmul b a) -> sched_shape s = sched_shape s' ->
  train_ready c nn lf X Y xs ts m th -> train_ready c nn lf X' Y' xs ts m' th ->
  o_nn o = neuralnet_set_loss nn (Some lf) -> o_pivot o = Some pv -> length pv = n -> (forall k, In k pv -> k < length xs) -> i < n ->
  (forall b, aligned_base c (s_grad s b)) -> (forall b, aligned_base c (s_work s b)) ->
  (forall b, aligned_base c (s_grad s' b)) -> (forall b, aligned_base c (s_work s' b)) ->
  sched_ok s (batch_size o n i) -> sched_ok s' (batch_size o n i) ->
  valid m bg (total_n_parameters nn) -> holds m (padd bg (total_n_parameters nn)) over -> length over = over_len c nn s ->
  clear nn X Y xs ts bg (total_n_parameters nn + length over) -> kal c (total_n_parameters nn) m bg ->
  valid m' bg' (total_n_parameters nn) -> holds m' (padd bg' (total_n_parameters nn)) over' -> length over' = over_len c nn s' ->
  clear nn X' Y' xs ts bg' (total_n_parameters nn + length over') -> kal c (total_n_parameters nn) m' bg' ->
  exists g m1 m2, length g = total_n_parameters nn /\
    calc_batch_gradient c vexp s o n X Y i bg m = Ok (i + batch_size o n i, m1) /\ holds m1 bg g /\
    calc_batch_gradient c vexp s' o n X' Y' i bg' m' = Ok (i + batch_size o n i, m2) /\ holds m2 bg' g.
Proof.
  intros HC SH (PA & net & <- & T) (PA' & net' & E2 & T') Ho Hpv Hl Hin Hi A1 A2 A3 A4 S1 S2 V1 O1 L1 C1 K1 V2 O2 L2 C2 K2.
  assert (net' = net).
  { pose proof T as (_ & N1 & _). pose proof T' as (_ & N2 & _).
    etransitivity; [symmetry; eapply net_of_params; exact N2|]. rewrite E2. eapply net_of_params; exact N1. } subst net'.
  rewrite L1 in C1. rewrite L2 in C2.
  destruct (@calc_ok FO c vexp HC nn lf X Y xs ts o pv s i Ho Hpv Hin A1 A2 net m bg over n T Hl (Nat.lt_le_incl _ _ Hi) V1 O1 L1 C1 K1 S1) as (R1 & G1 & Q1).
  destruct (@calc_ok FO c vexp HC nn lf X' Y' xs ts o pv s' i Ho Hpv Hin A3 A4 net m' bg' over' n T' Hl (Nat.lt_le_incl _ _ Hi) V2 O2 L2 C2 K2 S2) as (R2 & G2 & Q2).
  assert (TG : forall t t', tree_shape t = tree_shape t' -> tree_g c vexp nn lf xs ts pv i net t = tree_g c vexp nn lf xs ts pv i net t').
  { induction t as [b its|t1 I1 t2 I2]; intros [b' its'|t1' t2'] E; simpl in E; inversion E; subst; [reflexivity|].
    simpl. rewrite (I1 t1'), (I2 t2'); auto. }
  assert (GG : batch_grad_f c vexp nn lf xs ts pv s i net (batch_size o n i) = batch_grad_f c vexp nn lf xs ts pv s' i net (batch_size o n i)).
  { unfold batch_grad_f, sched_sum. unfold sched_shape in SH. destruct (s_omp s) as [l|], (s_omp s') as [l'|]; simpl in SH; try discriminate; auto.
    f_equal. f_equal. inversion SH as [H]. clear - H TG. revert l' H. induction l as [|a l IH]; intros [|a' l'] H; simpl in *; inversion H; auto.
    f_equal; auto. }
  set (g := batch_grad_f c vexp nn lf xs ts pv s i net (batch_size o n i)) in *. rewrite <- GG in *.
  assert (VV : forall (mm : mem) p ov ov', valid mm p (total_n_parameters nn) -> holds mm (padd p (total_n_parameters nn)) ov -> length ov' = length ov -> valid mm p (length (g ++ ov'))).
  { clear - G1. intros mm p ov ov' (b & Hb & HL) (b' & Hb' & HL' & _) E. exists b. split; auto. simpl in *. rewrite Hb in Hb'. inversion Hb'; subst. rewrite app_length. lia. }
  exists g. eexists. eexists. split; [exact G1|]. split; [exact R1|].
  split. { eapply holds_app_inv. apply holds_writem_same. eapply VV; eauto. } split; [exact R2|].
  eapply holds_app_inv. apply holds_writem_same. eapply VV; eauto.
Qed.
Print Assumptions reproducible_partial.

(** ** C30 *)
(** the gradient of the case network at parameters 0 for the sample 1 with target 1 *)
Lemma tc_gradient G : is_gradient tc_nn MSE G -> batch_mean tc_nn [[1]]%R [[1]]%R G [0] [0; 0]%R = [-2; -2]%R.
Proof.
  intros HG. pose proof (HG [0; 0]%R [1]%R [1]%R eq_refl eq_refl eq_refl) as D. cbv zeta in D.
  assert (D' : forall k, k < 2 -> nth k (G [0; 0] [1] [1])%R 0%R = (-2)%R).
  { intros k Hk. assert (T1 : trainable MSE (nn_shape tc_nn)) by (simpl; discriminate).
    specialize (D T1). assert (T2 : smooth (nn_shape tc_nn) (in_size tc_nn) (vec [0; 0]%R) (vec [1]%R)) by (simpl; auto).
    specialize (D T2 I k Hk). apply is_derive_unique in D. fold (vec (G [0; 0] [1] [1])%R k). rewrite <- D.
    apply is_derive_unique. destruct k as [|[|k]]; [| |lia]; simpl; unfold upd, vec; simpl; auto_derive; auto; lra. }
  assert (S : forall j, j < 2 -> (rsum (map (fun g => nth j g 0) [G [0; 0] [1] [1]]) / INR (length [G [0; 0] [1] [1]]) = -2)%R).
  { intros j Hj. cbn [map rsum length]. rewrite (D' j Hj). simpl. field. }
  etransitivity; [|apply (f_equal2 (fun a b => [a; b]) (S 0 ltac:(lia)) (S 1 ltac:(lia)))]. reflexivity.
Qed.

(** C30 is false for the second Adam optimizer of a process.  Both have the same (default) hyperparameters and
    train the case network with one sample (1, 1) from parameters 0, in one epoch with one batch.  The
    bias corrections are static variables of the function: the first optimizer starts with (1, 1) as initialised, the second one with what
    the first has left behind.  The first follows the rule, the second does not. *)
Definition ad0 : @adam opsR := {| ad_lr := 1 / 1000; ad_beta1 := 9 / 10; ad_beta2 := 999 / 1000; ad_wd := 0; ad_r := mkptr 4 0; ad_s := mkptr 5 0 |}%R.
Definition adam_run (st : @adam_static opsR) : res (@adam_static opsR * @mem opsR) :=
  training (fun e o n => @adam_epoch opsR avx_c exp e o n (mkptr 2 0) (mkptr 3 0) ad0) [(tc_env, tc_opt 1 [0], 1)] st (@tc_mem opsR [1]%R [1]%R).
Lemma adam_run_ok (k : nat) : exists G, is_gradient tc_nn MSE G /\ exists m' th' m1 m2 t',
  adam_rule (batch_mean tc_nn [[1]]%R [[1]]%R G) (9 / 10) (999 / 1000) (1 / 1000) 0 ([0; 0]%R, [0; 0]%R, [0; 0]%R, k) [0] = (th', m1, m2, t') /\
  adam_run (((9 / 10) ^ k)%R, ((999 / 1000) ^ k)%R) = Ok (((9 / 10) ^ t')%R, ((999 / 1000) ^ t')%R, m') /\
  @train_ready opsR avx_c tc_nn MSE (mkptr 2 0) (mkptr 3 0) [[1]]%R [[1]]%R m' th'.
Proof.
  destruct (adam_recurrence_partial avx_c tc_nn MSE (mkptr 2 0) (mkptr 3 0) (@rows opsR [1]%R) (@rows opsR [1]%R) (@tc_mem opsR [1]%R [1]%R)
    1 (1 / 1000) (9 / 10) (999 / 1000) 0 (mkptr 4 0) (mkptr 5 0) [0; 0]%R [0; 0]%R [0; 0]%R k [(tc_env, tc_opt 1 [0], 1)])
    as (G & HG & _ & m' & th' & m1 & m2 & t' & EF & E & TR & _).
  - lia.
  - apply (@tc_ready opsR). reflexivity.
  - apply (@tc_array opsR). auto.
  - apply (@tc_array opsR). auto.
  - left. simpl. lia.
  - constructor; [|constructor]. apply (@tc_epoch opsR avx_c 1 1 [0]). intros j [<-|[]]. lia.
  - exists G. split; [exact HG|]. exists m', th', m1, m2, t'. split; [exact EF|]. split; [exact E|exact TR].
Qed.
Lemma holds_unique {FO : fops} (m : mem) p xs ys : holds m p xs -> holds m p ys -> length xs = length ys -> xs = ys.
Proof.
  intros (b & Hb & _ & E) (b' & Hb' & _ & E') L. rewrite Hb in Hb'. inversion Hb'; subst b'. rewrite <- L, E in E'. clear - E'.
  revert ys E'. induction xs as [|x xs IH]; intros [|y ys] E; simpl in E; inversion E; auto. f_equal. auto.
Qed.
Lemma ready_unique m th th' X Y xs ts : @train_ready opsR avx_c tc_nn MSE X Y xs ts m th -> @train_ready opsR avx_c tc_nn MSE X Y xs ts m th' -> th = th'.
Proof.
  intros (_ & net & <- & (_ & N1 & _)) (_ & net' & <- & (_ & N2 & _)).
  destruct net as [|f [|]]; simpl in N1; try tauto. destruct net' as [|f' [|]]; simpl in N2; try tauto.
  destruct N1 as [(_ & _ & A1 & _ & A2 & A3 & A4 & _) _]. destruct N2 as [(_ & _ & B1 & _ & B2 & B3 & B4 & _) _].
  simpl in *. unfold fn_out in *. rewrite <- A1 in A2. rewrite <- B1 in B2. change (@F opsR) with R in *.
  assert (FW : fw f = fw f') by (eapply (@holds_unique opsR); [exact A3|exact B3|rlia]).
  assert (FB : fb f = fb f') by (eapply (@holds_unique opsR); [exact A4|exact B4|rlia]).
  unfold params_list. simpl. change (@F opsR) with R in *. rewrite FW, FB. reflexivity.
Qed.
Theorem adam_second_optimizer_refuted :
  exists G, is_gradient tc_nn MSE G /\
  let rule := adam_rule (batch_mean tc_nn [[1]]%R [[1]]%R G) (9 / 10) (999 / 1000) (1 / 1000) 0 in
  let first_step := fst (fst (fst (rule ([0; 0]%R, [0; 0]%R, [0; 0]%R, 0) [0]))) in
  exists st m1 st' m2,
    adam_run adam_static_init = Ok (st, m1) /\ @train_ready opsR avx_c tc_nn MSE (mkptr 2 0) (mkptr 3 0) [[1]]%R [[1]]%R m1 first_step /\
    adam_run st = Ok (st', m2) /\ ~ @train_ready opsR avx_c tc_nn MSE (mkptr 2 0) (mkptr 3 0) [[1]]%R [[1]]%R m2 first_step.
Proof.
  destruct (adam_run_ok 0) as (G & HG & m1 & th1 & a1 & b1 & t1 & R1 & E1 & T1).
  destruct (adam_run_ok 1) as (G2 & HG2 & m2 & th2 & a2 & b2 & t2 & R2 & E2 & T2).
  exists G. split; [exact HG|]. intros rule first_step.
  assert (F1 : first_step = th1) by (unfold first_step, rule; rewrite R1; reflexivity).
  assert (Ht1 : t1 = 1) by (inversion R1; auto). subst t1.
  exists (((9 / 10) ^ 1)%R, ((999 / 1000) ^ 1)%R), m1, (((9 / 10) ^ t2)%R, ((999 / 1000) ^ t2)%R), m2.
  split; [exact E1|]. split; [rewrite F1; exact T1|]. split; [exact E2|].
  rewrite F1. intros T3. pose proof (ready_unique _ _ _ _ _ _ _ T2 T3) as H. unfold adam_rule in R1, R2. rewrite (tc_gradient G HG) in R1. rewrite (tc_gradient G2 HG2) in R2.
  destruct (Rlt_dec 0 0) as [HZ|_]; [lra|].
  apply (f_equal (fun x => nth 0 (fst (fst (fst x))) 0%R)) in R1. apply (f_equal (fun x => nth 0 (fst (fst (fst x))) 0%R)) in R2.
  apply (f_equal (fun l => nth 0 l 0%R)) in H. change (@F opsR) with R in *. cbn [fst snd] in R1, R2. rewrite <- R1, <- R2 in H. clear - H.
  cbn [vadd vscale vsqr map map2 nth] in H.
  match type of H with (_ + - (_ * _ / (sqrt ?a + _)))%R = (_ + - (_ * _ / (sqrt ?b + _)))%R => assert (A : a = (4 / (1999 / 1000))%R) by field; assert (B : b = (2 * 2)%R) by field; rewrite A, B in H end.
  rewrite sqrt_square in H by lra.
  assert (S2 : (14 / 10 <= sqrt (4 / (1999 / 1000)))%R). { rewrite <- (sqrt_square (14 / 10)) by lra. apply sqrt_le_1_alt. lra. }
  set (s := sqrt (4 / (1999 / 1000))) in *. clearbody s.
  assert (K : ((2 / 19 * 10) / (s + 1 / 100000000) = 2 / (2 + 1 / 100000000))%R).
  { match type of H with (_ + - ?x)%R = (_ + - ?y)%R => assert (K1 : x = y) by lra end.
    match type of K1 with (?x = ?y) => assert (X1 : x = (- 1 / 1000 * ((2 / 19 * 10) / (s + 1 / 100000000)))%R) by (field; lra);
      assert (Y1 : y = (- 1 / 1000 * (2 / (2 + 1 / 100000000)))%R) by field end. lra. }
  apply (f_equal (fun x => x * (s + 1 / 100000000))%R) in K. unfold Rdiv at 1 in K. rewrite Rmult_assoc, Rinv_l in K by lra. nra.
Qed.
Print Assumptions adam_second_optimizer_refuted.
