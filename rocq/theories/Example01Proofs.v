(** Example01Proofs.v -- the training loop and the test of example_01.c *)
From Coquelicot Require Import Coquelicot.
From Flocq Require Import Core IEEE754.BinarySingleNaN.
From Coq Require Import List Arith ZArith Lia Bool Reals Lra Permutation.
From Verif Require Import Base BaseProofs Ops OpsR OpsB32 Mem MemProofs Kernels KernelProofs Activation ActivationProofs
  Loss Neuralnet ForwardProofs BackpropProofs SpecReal RealForward RealGrad LossGrad GradProofs GradPropProofs PredictProofs BitsProofs SpecMem ParamProofs Batch BatchProofs
  BlasProofs B32Facts MetricB32 Optimizer OptKernels OptProofs OptEpochs SpecOpt OptReal OptTrain Prop_Optimizer Prop_Rules Prop_Rules2 SpecRound ReproProofs Prop_Repro EvalProofs Example01.
Import ListNotations.
Local Open Scope nat_scope.
Local Open Scope mem_scope.

Section Any.
  Context {FO : fops}.
  Variable c : cfg.
  Variable vexp : F -> F.
  Hypothesis mulC : forall a b : F, fmul a b = fmul b a.
  Variables (nn : neuralnet) (lf : loss) (X Y : ptr) (xs ts : list (list F)).
  Let nns := neuralnet_set_loss nn (Some lf).
  Let np := total_n_parameters nn.
  Let ls := nn_layers nn.
  Notation train_mem net m := (train_mem c nn lf net m X Y xs ts).
  Notation holds_th m th := (holds_th c nn lf X Y xs ts m th).
  Hypothesis PA : params_apart nn X Y xs ts.
  Hypothesis O1 : out_size nn = 1.

  Lemma bp_sample net m gb cs wb k : train_mem net m -> k < length xs -> length cs = np -> aligned_base c gb -> aligned_base c wb ->
    bp_ready c wb nn net lf (m ++ [mkblock gb cs]) (X +! (k * in_size nn)) (Y +! (k * 1)) (mkptr (length m) 0) (nth k xs []) (nth k ts []).
  Proof.
    intros T Lk Lc Ag Aw. rewrite <- O1. set (m1 := m ++ [mkblock gb cs]). pose proof T as (H1 & H2 & H3 & H4 & H5 & H6 & H7 & H8). pose proof (net_in_m c m _ _ _ H2) as IM.
    pose proof (in_m_nns nn lf m IM) as IN.
    destruct (@nth_error_ex _ xs k Lk) as [x Hx]. destruct (@nth_error_ex _ ts k) as [t Ht]; [lia|].
    rewrite (nth_error_nth xs k [] Hx), (nth_error_nth ts k [] Ht).
    destruct (concat_row xs (in_size nn) H5 k x Hx) as [LX SX]. destruct (concat_row ts (out_size nn) H6 k t Ht) as [LT ST].
    pose proof (row_fit k (length xs) (in_size nn) Lk) as RX. pose proof (row_fit k (length xs) (out_size nn) Lk) as RT.
    pose proof (H5 k x Hx) as Lx. pose proof (H6 k t Ht) as Lt.
    split; [|apply train_bp_align; auto].
    split; auto. split; [exact Aw|]. split. { rewrite Lx. apply net_holds_app_l; auto. }
    split. { apply holds_app_l; [exact (holds_blk _ _ _ H3)|]. rewrite <- SX. apply holds_sub; auto. lia. }
    split. { apply holds_app_l; [exact (holds_blk _ _ _ H4)|]. rewrite <- ST. apply holds_sub; auto. lia. }
    split. { intros l Hl. rewrite Lt. apply out_size_nth; auto. }
    split. { unfold m1. rewrite addr_last. change (4 * Z.of_nat 0)%Z with 0%Z. rewrite Z.add_0_r.
             pose proof (al_aligned_base c gb 0 Ag (Nat.divide_0_r _)) as A. rewrite Z.add_0_r in A. exact A. }
    split. { apply valid_last. fold np. lia. }
    split. { left. simpl. pose proof (holds_blk _ _ _ H3). lia. }
    split. { left. simpl. pose proof (holds_blk _ _ _ H4). lia. }
    eapply Forall_impl; [|exact IM]. intros l [A B]. split; left; simpl; lia.
  Qed.

  (** one sample *)
  Definition sgd_sample (lr : F) (th : list F) (k : nat) : list F :=
    map2 fadd th (map (fun g => fmul g (fneg lr)) (sample_grad c vexp lf (net_of ls th) (nth k xs []) (nth k ts []))).

  Lemma train_sample_ok wb gb lr m cs th k : holds_th m th -> k < length xs -> length cs = np -> aligned_base c gb -> aligned_base c (wb k) ->
    exists m' cs', train_sample c vexp wb nns (in_size nn) X Y (mkptr (length m) 0) lr k (m ++ [mkblock gb cs]) = Ok (tt, m' ++ [mkblock gb cs']) /\
      length cs' = np /\ holds_th m' (sgd_sample lr th k) /\ only_changes_in m m' (regions ls).
  Proof.
    intros T Lk Lc Ag Aw. pose proof T as (T0 & Lth & Eth). pose proof (bp_sample _ m gb cs (wb k) k T0 Lk Lc Ag Aw) as BR.
    set (g := sample_grad c vexp lf (net_of ls th) (nth k xs []) (nth k ts [])).
    assert (Lg : length g = np) by (eapply length_bp_grad; exact BR).
    assert (E0 : neuralnet_backpropagation c vexp (wb k) nns (X +! (k * in_size nn)) (Y +! (k * 1)) (mkptr (length m) 0) (m ++ [mkblock gb cs])
      = Ok (tt, writem (m ++ [mkblock gb cs]) (mkptr (length m) 0) g)) by (apply (backprop_run c vexp mulC); exact BR).
    unfold train_sample. erewrite bind_ok by exact E0.
    assert (E1 : writem (m ++ [mkblock gb cs]) (mkptr (length m) 0) g = stk m gb g []).
    { rewrite writem_last. unfold stk, overwrite. simpl. rewrite skipn_all2 by (rewrite map_length; lia). rewrite !app_nil_r. reflexivity. }
    rewrite E1. set (d := map (fun y => fmul y (fneg lr)) g).
    assert (E2 : scale_gradient (total_n_parameters nns) (mkptr (length m) 0) lr (stk m gb g []) = Ok (tt, stk m gb d [])).
    { unfold nns. rewrite total_set_loss. fold np. rewrite <- Lg.
      transitivity (Kernels.vector_scale sse (length g) (mkptr (length m) 0) (fneg lr) (stk m gb g [])); [reflexivity|].
      rewrite (KernelProofs.vector_scale_ok (c := sse)); [|apply stack_hold|split; discriminate]. f_equal. f_equal.
      unfold stk. rewrite writem_last. unfold overwrite, d. simpl. rewrite skipn_all2 by (rewrite !map_length, !app_nil_r; lia). rewrite !app_nil_r. reflexivity. }
    erewrite bind_ok by exact E2.
    destruct (update_st c nn lf X Y xs ts PA m [mkblock gb (map Some (d ++ []))] th (mkptr (length m) 0) d T) as (m' & E3 & T3 & O3).
    - apply stack_hold.
    - unfold d. rewrite map_length. exact Lg.
    - eapply clear_last; [exact T0|lia].
    - exists m', (map Some (d ++ [])). split; [exact E3|]. split; [rewrite map_length, app_nil_r; unfold d; rewrite map_length; exact Lg|].
      split; [exact T3|exact O3].
  Qed.

  Lemma train_loop_ok wb gb lr m cs th : holds_th m th -> length cs = np -> aligned_base c gb -> (forall i, aligned_base c (wb i)) ->
    exists m' cs', train_loop c vexp wb nns (in_size nn) (length xs) X Y (mkptr (length m) 0) lr (m ++ [mkblock gb cs]) = Ok (tt, m' ++ [mkblock gb cs']) /\
      length cs' = np /\ holds_th m' (fold_left (sgd_sample lr) (seq 0 (length xs)) th) /\ only_changes_in m m' (regions ls).
  Proof.
    intros T Lc Ag Aw. unfold train_loop.
    destruct (loop1_inv (length xs) (train_sample c vexp wb nns (in_size nn) X Y (mkptr (length m) 0) lr)
      (fun i mm => exists m' cs', mm = m' ++ [mkblock gb cs'] /\ length cs' = np /\ holds_th m' (fold_left (sgd_sample lr) (seq 0 i) th) /\ only_changes_in m m' (regions ls))
      0 (m ++ [mkblock gb cs])) as (mm & E & m' & cs' & -> & A & B & C).
    - lia.
    - exists m, cs. split; [reflexivity|]. split; [exact Lc|]. split; [exact T|apply oci_refl].
    - intros j mm Hj (m1 & cs1 & -> & L1 & T1 & O2). assert (LM : length m1 = length m) by apply O2. rewrite <- LM.
      destruct (train_sample_ok wb gb lr m1 cs1 _ j T1 ltac:(lia) L1 Ag (Aw j)) as (m2 & cs2 & E2 & L2 & T2 & O3).
      exists (m2 ++ [mkblock gb cs2]). split; [exact E2|]. exists m2, cs2. split; [reflexivity|]. split; [exact L2|]. split.
      + rewrite seq_app, fold_left_app. exact T2.
      + eapply oci_trans; eassumption.
    - exists m', cs'. auto.
  Qed.
End Any.

(** ** the optimizer with batches of one sample *)
Lemma div_1 (x : b32) : Bdiv mode_NE x (b32_ofZ 1) = x.
Proof.
  destruct x as [s|s| |s m e H].
  - destruct s; vm_compute; reflexivity.
  - destruct s; vm_compute; reflexivity.
  - vm_compute; reflexivity.
  - set (x := B754_finite s m e H : b32).
    assert (R1 : B2R (b32_ofZ 1) = 1%R) by exact B32Facts.one_R.
    assert (N0 : B2R (b32_ofZ 1) <> 0%R) by (rewrite R1; lra).
    pose proof (Bdiv_correct 24 128 _ _ mode_NE x (b32_ofZ 1) N0) as C. rewrite R1 in C.
    replace (B2R x / 1)%R with (B2R x) in C by field.
    rewrite round_generic in C; [|apply valid_rnd_round_mode|apply generic_format_B2R].
    rewrite Rlt_bool_true in C by apply abs_B2R_lt_emax. destruct C as (C1 & C2 & C3).
    change (is_finite x) with true in C2. apply B2R_Bsign_inj; [exact C2|reflexivity|exact C1|].
    rewrite C3; [|destruct (Bdiv mode_NE x (b32_ofZ 1)); try reflexivity; discriminate C2].
    replace (Bsign (b32_ofZ 1)) with false by (vm_compute; reflexivity). apply xorb_false_r.
Qed.
Lemma same0_mult (x y l : b32) : same0 x y -> same0 (Bmult mode_NE x l) (Bmult mode_NE y l).
Proof.
  intros [->|(s & t & -> & ->)]; [apply same0_refl|]. destruct l as [sl|sl| |sl m e H]; cbn.
  - right. eexists _, _. split; reflexivity.
  - left. reflexivity.
  - left. reflexivity.
  - right. eexists _, _. split; reflexivity.
Qed.
Lemma plus_same0 (th : list b32) : Forall pos0 th -> forall d d', Forall2 same0 d d' -> map2 (Bplus mode_NE) th d = map2 (Bplus mode_NE) th d'.
Proof.
  induction 1 as [|x th P H IH]; intros d d' HD; [reflexivity|]. destruct HD as [|a b d d' S HD]; [reflexivity|]. cbn. f_equal; [|apply IH; exact HD].
  apply same0_eq; [|apply pos0_plus; exact P|apply pos0_plus; exact P]. apply same0_plus; [apply same0_refl|exact S].
Qed.

Lemma Forall2_map {A B A' B'} (R : A -> B -> Prop) (R' : A' -> B' -> Prop) f g : (forall x y, R x y -> R' (f x) (g y)) ->
  forall l l', Forall2 R l l' -> Forall2 R' (map f l) (map g l').
Proof. intros H. induction 1; cbn; constructor; auto. Qed.

Section Bits.
  Variables (lm : libm) (c : cfg) (nn : neuralnet) (lf : loss) (xs ts : list (list b32)).
  Notation OP := (opsB32 lm).
  Notation VE := (@exp256_lane OP).
  Let np := total_n_parameters nn.
  Let ls := nn_layers nn.
  Hypothesis Hne : ls <> [].
  Hypothesis Hch : chain (in_size nn) ls.
  Hypothesis HX : forall i x, nth_error xs i = Some x -> length x = in_size nn.
  Hypothesis HY : forall i t, nth_error ts i = Some t -> length t = out_size nn.
  Hypothesis HL : length ts = length xs.
  Variables (e : @env OP) (o : opt) (n : nat) (decay mu : b32) (nest : bool).
  Hypothesis ER : @epoch_ready OP c nn lf 1 (length xs) (e, o, n).
  Hypothesis Hord : order o = seq 0 (length xs).
  Hypothesis Hmu : @fgt OP mu f0 = false.
  Hypothesis Hdec : @fgt OP decay f0 = false.

  Lemma n_is : n = length xs.
  Proof. destruct ER as (_ & _ & _ & E4 & _). rewrite Hord, seq_length in E4. auto. Qed.

  Lemma bgrad_one j th : length th = np -> j < n ->
    Forall2 same0 (@bgrad OP c VE nn lf xs ts o (order o) n e j th) (@sample_grad OP c VE lf (@net_of OP ls th) (nth j xs []) (nth j ts [])).
  Proof.
    intros Lt Hj. pose proof n_is as EN. destruct ER as (E1 & E2 & E3 & E4 & E5 & E6). destruct (E6 j) as (_ & _ & _ & _ & S1 & _).
    assert (BS : batch_size o n j = 1) by (unfold batch_size; rewrite E2; destruct (Nat.ltb_spec (n - j) 1); lia).
    assert (LG : length (@sample_grad OP c VE lf (@net_of OP ls th) (nth j xs []) (nth j ts [])) = np) by (apply length_sample; auto; lia).
    assert (IT : @iter_grad OP c VE lf xs ts (order o) j (@net_of OP ls th) 0 = @sample_grad OP c VE lf (@net_of OP ls th) (nth j xs []) (nth j ts [])).
    { unfold iter_grad. rewrite Nat.add_0_r, Hord, seq_nth by lia. reflexivity. }
    unfold bgrad. rewrite BS in *. fold ls.
    rewrite (few_same lm c nn lf xs ts (order o) j (@net_of OP ls th) (e_sched e j) {| s_omp := None; s_grad := fun _ => 0%Z; s_work := fun _ => 0%Z |} 1); [|lia| |exact S1|exact I].
    2: { intros b Hb. assert (b = 0) by lia. subst b. rewrite IT. exact LG. }
    unfold batch_grad_f, sched_sum, acc_f. cbn [s_omp seq fold_left]. rewrite IT.
    set (g := @sample_grad OP c VE lf (@net_of OP ls th) (nth j xs []) (nth j ts [])) in *. fold np. rewrite <- LG. clearbody g. clear.
    induction g as [|x g IH]; cbn; constructor; [|exact IH].
    change (same0 (Bdiv mode_NE (Bplus mode_NE (B754_zero false) x) (b32_ofZ 1)) x). rewrite div_1. apply zero_plus.
  Qed.

  Lemma step_one j th v lr k : length th = np -> Forall pos0 th -> j < n ->
    @sgd_step_f OP decay mu nest (@bgrad OP c VE nn lf xs ts o (order o) n e j) (th, v, lr, k) = (@sgd_sample OP c VE nn lf xs ts lr th j, v, lr, k + 1)
    /\ length (@sgd_sample OP c VE nn lf xs ts lr th j) = np /\ Forall pos0 (@sgd_sample OP c VE nn lf xs ts lr th j).
  Proof.
    intros Lt P Hj. pose proof (bgrad_one j th Lt Hj) as B. split; [|split].
    - unfold sgd_step_f. rewrite Hmu. unfold decayed. rewrite Hdec. f_equal. f_equal. f_equal. unfold sgd_sample.
      apply plus_same0; [exact P|]. fold ls. apply (Forall2_map same0 same0); [|exact B]. intros x y S. apply same0_mult. exact S.
    - pose proof (length_sample lm c nn lf xs ts Hne Hch HX HY HL th j Lt ltac:(rewrite <- n_is; exact Hj)) as LS.
      unfold sgd_sample. rewrite length_map2, map_length. etransitivity; [apply f_equal2; [exact Lt|exact LS]|]. apply Nat.min_id.
    - unfold sgd_sample. apply (map2_pos0 th). exact P.
  Qed.

  Lemma fold_one v lr th k : length th = np -> Forall pos0 th ->
    fold_left (fun t j => @sgd_step_f OP decay mu nest (@bgrad OP c VE nn lf xs ts o (order o) n e (j * o_batchsize o)) t) (seq 0 (n_batches o n)) (th, v, lr, k)
      = (fold_left (@sgd_sample OP c VE nn lf xs ts lr) (seq 0 (length xs)) th, v, lr, k + length xs).
  Proof.
    intros Lt P. pose proof n_is as EN. destruct ER as (E1 & E2 & _).
    assert (NB : n_batches o n = length xs) by (unfold n_batches; rewrite E2, Nat.div_1_r, Nat.add_sub; exact EN). rewrite NB, E2.
    assert (G : forall l th k, length th = np -> Forall pos0 th -> (forall j, In j l -> j < n) ->
      fold_left (fun t j => @sgd_step_f OP decay mu nest (@bgrad OP c VE nn lf xs ts o (order o) n e (j * 1)) t) l (th, v, lr, k)
      = (fold_left (@sgd_sample OP c VE nn lf xs ts lr) l th, v, lr, k + length l)).
    { induction l as [|j l IH]; intros th0 k0 L0 P0 H0; cbn [fold_left length]; [rewrite Nat.add_0_r; reflexivity|].
      rewrite Nat.mul_1_r. destruct (step_one j th0 v lr k0 L0 P0 ltac:(apply H0; left; reflexivity)) as (-> & L1 & P1).
      rewrite IH; [|exact L1|exact P1|intros; apply H0; right; assumption]. f_equal. lia. }
    rewrite G; [rewrite seq_length; reflexivity|exact Lt|exact P|]. intros j Hj. apply in_seq in Hj. lia.
  Qed.
End Bits.

(** ** the test *)
Section Test.
  Context {FO : fops}.
  Variable c : cfg.
  Variable vexp : F -> F.
  Hypothesis mulC : forall a b : F, fmul a b = fmul b a.
  Variables (nn : neuralnet) (net : list flayer) (TX TY : ptr) (xs : list (list F)) (ts : list F) (m : mem) (wb ob : nat -> Z).
  Hypothesis Hne : nn_layers nn <> [].
  Hypothesis HN : net_holds c m (in_size nn) (nn_layers nn) net.
  Hypothesis HX : holds m TX (concat xs).
  Hypothesis HY : holds m TY ts.
  Hypothesis LX : forall i x, nth_error xs i = Some x -> length x = in_size nn.
  Hypothesis LT : length ts = length xs.
  Hypothesis O1 : out_size nn = 1.
  Hypothesis Aw : forall i, aligned_base c (wb i).
  Hypothesis Ao : forall i, aligned_base c (ob i).

  Definition pred_at (i : nat) : F := hd f0 (forward_f c vexp net (ob i) (nth i xs [])).
  Definition right_at (i : nat) : bool := Bool.eqb (class (pred_at i)) (class (nth i ts f0)).

  Lemma fwd_one i : i < length xs -> forward_f c vexp net (ob i) (nth i xs []) = [pred_at i].
  Proof.
    intros Hi. destruct (@nth_error_ex _ xs i Hi) as [x Hx]. unfold pred_at. rewrite (nth_error_nth xs i [] Hx). pose proof (LX _ _ Hx) as Lx.
    destruct (@nth_error_ex _ (nn_layers nn) (length (nn_layers nn) - 1)) as [l Hl]. { destruct (nn_layers nn); [congruence|simpl; lia]. }
    destruct (net_holds_fits_len c m _ net _ HN Hne l Hl) as (f & Hf & E & _).
    assert (LF : length (forward_f c vexp net (ob i) x) = 1).
    { rewrite (forward_f_length c vexp net (ob i) x f); auto. - rewrite <- E, <- (out_size_nth nn l Hl). exact O1. - rewrite Lx. eapply net_holds_fits_f; eauto. }
    destruct (forward_f c vexp net (ob i) x) as [|y [|z r]]; try discriminate LF. reflexivity.
  Qed.

  Lemma test_sample_ok i k : i < length xs ->
    test_sample c vexp wb ob nn (in_size nn) TX TY i k m = Ok (if right_at i then (k + 1)%Z else k, m).
  Proof.
    intros Hi. destruct (@nth_error_ex _ xs i Hi) as [x Hx]. pose proof (LX _ _ Hx) as Lx.
    destruct (@nth_error_ex _ ts i) as [t Ht]; [lia|].
    destruct (concat_row xs (in_size nn) LX i x Hx) as [LC SX]. pose proof (row_fit i (length xs) (in_size nn) Hi) as RX.
    unfold test_sample. set (m1 := m ++ [mkblock (ob i) (repeat None 1)]).
    assert (E1 : alloca (ob i) 1 m = Ok (mkptr (length m) 0, m1)) by reflexivity. erewrite bind_ok by exact E1.
    assert (AL : al c (addr m1 (mkptr (length m) 0)) 0 = true).
    { unfold m1. rewrite addr_last. apply al_aligned_base; [apply Ao|apply Nat.divide_0_r]. }
    pose proof (net_in_m c m _ _ _ HN) as IM.
    assert (E2 : neuralnet_predict c vexp (wb i) nn (TX +! (i * in_size nn)) (mkptr (length m) 0) m1 = Ok (tt, m ++ [mkblock (ob i) [Some (pred_at i)]])).
    { rewrite (predict_ok c vexp mulC (wb i) nn net m1 _ _ x); auto.
      - unfold m1. rewrite addr_last. change (ob i + 4 * Z.of_nat 0)%Z with (ob i + 0)%Z. rewrite Z.add_0_r.
        pose proof (fwd_one i Hi) as FO1. rewrite (nth_error_nth xs i [] Hx) in FO1. rewrite FO1.
        rewrite writem_last_fill by reflexivity. reflexivity.
      - rewrite Lx. unfold m1. apply BlasProofs.net_holds_app_l. exact HN.
      - unfold m1. apply holds_app_l; [exact (holds_blk _ _ _ HX)|]. rewrite <- SX. apply holds_sub; auto. lia.
      - intros l Hl. rewrite <- (out_size_nth nn l Hl), O1. split; [apply valid_last; simpl; lia|]. split; [apply al_kal; exact AL|]. split; [apply al_act_pre; exact AL|].
        pose proof (proj1 (Forall_forall _ _) IM l (nth_error_In _ _ Hl)) as [I1 I2]. split; [split; left; simpl; lia|].
        intros _. left. simpl. pose proof (holds_blk _ _ _ HX). lia. }
    erewrite bind_ok by exact E2.
    erewrite bind_ok. 2: { eapply load_holds0. exact (holds_last_all m (ob i) [pred_at i]). }
    rewrite Nat.mul_1_r. erewrite bind_ok. 2: { eapply load_holds; [|exact Ht]. apply holds_app_l; [exact (holds_blk _ _ _ HY)|exact HY]. }
    unfold bind, freea. rewrite removelast_last. unfold ret, right_at. rewrite (nth_error_nth ts i f0 Ht). reflexivity.
  Qed.

  Definition n_right (n : nat) : Z := Z.of_nat (length (filter right_at (seq 0 n))).
  Lemma test_loop_ok : test_loop c vexp wb ob nn (in_size nn) (length xs) TX TY m = Ok (n_right (length xs), m).
  Proof.
    unfold test_loop.
    destruct (for_loop_acc_st (A := Z) (w := 1) (fun i => i <? length xs) (test_sample c vexp wb ob nn (in_size nn) TX TY) (fun _ => m) n_right
      (fun i => i <= length xs) (N := length xs)) with (fuel := S (length xs)) (i := 0) as (i' & E & A & B & _).
    - lia. - intros i Hi. apply Nat.ltb_lt. exact Hi.
    - intros i Hi Hc. apply Nat.ltb_lt in Hc. split; [|lia]. rewrite (test_sample_ok i _ Hc). f_equal. f_equal.
      unfold n_right. rewrite seq_app, filter_app, app_length. simpl. destruct (right_at i); simpl; lia.
    - lia. - lia.
    - erewrite bind_ok by exact E. apply Nat.ltb_ge in A. replace i' with (length xs) by lia. reflexivity.
  Qed.
End Test.

(** ** the whole program *)
Section Whole.
  Context {FO : fops}.
  Variable c : cfg.
  Variable vexp : F -> F.
  Hypothesis mulC : forall a b : F, fmul a b = fmul b a.
  Variables (nn : neuralnet) (lf : loss) (X Y TX TY : ptr) (xs ts xs' : list (list F)) (ts' : list F).
  Let nns := neuralnet_set_loss nn (Some lf).
  Let np := total_n_parameters nn.
  Let ls := nn_layers nn.
  Notation holds_th m th := (holds_th c nn lf X Y xs ts m th).
  Hypothesis PA : params_apart nn X Y xs ts.
  Hypothesis O1 : out_size nn = 1.

  Lemma example_ok gb wb wb' ob lr m th : holds_th m th -> aligned_base c gb ->
    (forall i, aligned_base c (wb i)) -> (forall i, aligned_base c (wb' i)) -> (forall i, aligned_base c (ob i)) ->
    holds m TX (concat xs') -> holds m TY ts' -> (forall i x, nth_error xs' i = Some x -> length x = in_size nn) -> length ts' = length xs' ->
    (forall p n, In (p, n) (regions ls) -> disjoint p n TX (length (concat xs')) /\ disjoint p n TY (length ts')) ->
    let th' := fold_left (sgd_sample c vexp nn lf xs ts lr) (seq 0 (length xs)) th in
    exists m', example_01 c vexp gb wb wb' ob nns (in_size nn) (length xs) (length xs') X Y TX TY lr m
        = Ok (n_right c vexp (net_of ls th') xs' ts' ob (length xs'), m') /\
      holds_th m' th' /\ net_holds c m' (in_size nn) ls (net_of ls th') /\ only_changes_in m m' (regions ls).
  Proof.
    intros T Ag Aw Aw' Ao HX HY LX LT HD th'. unfold example_01.
    assert (E1 : alloca gb (total_n_parameters nns) m = Ok (mkptr (length m) 0, m ++ [mkblock gb (repeat None np)])).
    { unfold nns. rewrite total_set_loss. reflexivity. }
    erewrite bind_ok by exact E1.
    destruct (train_loop_ok c vexp mulC nn lf X Y xs ts PA O1 wb gb lr m (repeat None np) th T (repeat_length _ _) Ag Aw) as (m' & cs' & E2 & L2 & T2 & OC).
    erewrite bind_ok by exact E2. pose proof T2 as (T3 & _ & _). destruct T3 as (Hne & HN & _).
    assert (HN' : net_holds c (m' ++ [mkblock gb cs']) (in_size nn) ls (net_of ls th')) by (apply BlasProofs.net_holds_app_l; exact HN).
    assert (HX' : holds m' TX (concat xs')) by (eapply oci_holds; [exact OC|exact HX|intros p n Hp; apply (HD p n Hp)]).
    assert (HY' : holds m' TY ts') by (eapply oci_holds; [exact OC|exact HY|intros p n Hp; apply (HD p n Hp)]).
    assert (E3 : test_loop c vexp wb' ob nns (in_size nn) (length xs') TX TY (m' ++ [mkblock gb cs'])
      = Ok (n_right c vexp (net_of ls th') xs' ts' ob (length xs'), m' ++ [mkblock gb cs'])).
    { assert (IS : in_size nns = in_size nn) by apply in_size_nns.
      assert (OS : out_size nns = 1) by (rewrite <- O1; apply out_size_nns).
      pose proof (set_loss_same nn (Some lf)) as SM. fold nns in SM.
      rewrite <- IS. apply (test_loop_ok c vexp mulC nns (net_of ls th') TX TY xs' ts'); try assumption; rewrite ?IS; try assumption.
      - intros E. rewrite E in SM. inversion SM. unfold ls in *. congruence.
      - apply (net_holds_same c _ _ _ SM). exact HN'.
      - apply holds_app_l; [exact (holds_blk _ _ _ HX')|exact HX'].
      - apply holds_app_l; [exact (holds_blk _ _ _ HY')|exact HY']. }
    erewrite bind_ok by exact E3. exists m'. split; [unfold bind, freea; rewrite removelast_last; reflexivity|]. auto.
  Qed.
End Whole.
