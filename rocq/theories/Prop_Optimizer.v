(** Prop_Optimizer.v -- C23, C24, C26-C31: batches, batch gradient and the update rules *)
From Coquelicot Require Import Coquelicot.
From Coq Require Import List Arith ZArith Lia Bool Reals Lra Permutation.
From Verif Require Import Base BaseProofs Ops OpsR OpsB32 Mem MemProofs Kernels KernelProofs Activation ActivationProofs
  Loss Neuralnet ForwardProofs BackpropProofs SpecReal RealForward RealGrad LossGrad GradProofs GradPropProofs PredictProofs BitsProofs SpecMem ParamProofs Batch BatchProofs
  BlasProofs Optimizer OptKernels OptProofs OptEpochs SpecOpt OptReal OptTrain Ex_Mem.
Import ListNotations.
Local Open Scope nat_scope.
Local Open Scope mem_scope.

(** ** C23: the batches of an epoch *)
Lemma batches_concat {A} (bs : nat) : 0 < bs -> forall k (l : list A), length l <= k * bs ->
  concat (map (fun k => firstn bs (skipn (k * bs) l)) (seq 0 k)) = l.
Proof.
  intros Hb. induction k as [|k IH]; intros l HL; simpl. { destruct l; simpl in *; auto; lia. }
  rewrite <- (firstn_skipn bs l) at 2. f_equal. rewrite <- (IH (skipn bs l)) at 1 by (rewrite skipn_length; lia).
  f_equal. rewrite <- seq_shift, map_map. apply map_ext. intros j. rewrite skipn_skipn. reflexivity.
Qed.
Lemma ceil_bounds n bs : 0 < bs -> n <= (n + bs - 1) / bs * bs < n + bs.
Proof. intros H. pose proof (Nat.div_mod (n + bs - 1) bs). pose proof (Nat.mod_upper_bound (n + bs - 1) bs). nia. Qed.

(** The sample order is cut into pieces: every position is in exactly one batch, in order; there are ceil(n/bs)
    of them; all have bs samples, except for the last one, which has the rest (at least one).  If the order is a
    permutation of the samples (C22), every sample is in exactly one batch. *)
Theorem epoch_partition (bs : nat) (order : list nat) : 0 < bs ->
  let B := batches bs order in
  concat B = order /\
  (length B - 1) * bs < length order + (if length order =? 0 then 1 else 0) /\ length order <= length B * bs /\
  (forall k b, nth_error B k = Some b -> 1 <= length b /\ length b = if S k =? length B then length order - k * bs else bs) /\
  forall n, Permutation order (seq 0 n) -> forall s, s < n ->
    exists! k, exists b, nth_error B k = Some b /\ In s b.
Proof.
  intros Hb B. pose proof (ceil_bounds (length order) bs Hb) as [C1 C2].
  assert (LB : length B = (length order + bs - 1) / bs) by (unfold B, batches; rewrite map_length, seq_length; auto).
  assert (HC : concat B = order) by (apply batches_concat; auto).
  split; [exact HC|]. rewrite LB. set (k0 := (length order + bs - 1) / bs) in *.
  split. { destruct (Nat.eqb_spec (length order) 0); nia. } split; [exact C1|].
  split.
  { intros k b Hk. unfold B, batches in Hk. fold k0 in Hk. rewrite nth_error_map in Hk. destruct (nth_error (seq 0 k0) k) as [j|] eqn:Hj; [|discriminate]. simpl in Hk. inversion Hk; subst b; clear Hk.
    assert (Hjk : k < k0) by (rewrite <- (seq_length k0 0); apply nth_error_Some; congruence).
    assert (j = k). { rewrite nth_error_nth' with (d := 0) in Hj by (rewrite seq_length; auto). rewrite seq_nth in Hj by auto. inversion Hj. lia. } subst j.
    rewrite firstn_length, skipn_length. destruct (Nat.eqb_spec (S k) k0); nia. }
  intros n HP s Hs.
  assert (ND : NoDup (concat B)). { rewrite HC. eapply Permutation_NoDup; [apply Permutation_sym; exact HP|apply seq_NoDup]. }
  assert (HI : In s (concat B)). { rewrite HC. eapply Permutation_in; [apply Permutation_sym; exact HP|]. apply in_seq. lia. }
  clear - ND HI. induction B as [|b B IH]; [destruct HI|]. simpl in *. apply in_app_or in HI.
  assert (N2 : NoDup b /\ NoDup (concat B) /\ forall x, In x b -> ~ In x (concat B)).
  { clear - ND. induction b; simpl in *; [split; [constructor|auto]|]. inversion ND; subst. destruct (IHb H2) as (X1 & X2 & X3).
    split. { constructor; auto. intro; apply H1; apply in_or_app; auto. } split; auto. intros x [<-|Hx]; auto. intro. apply H1. apply in_or_app. auto. }
  destruct N2 as (N1 & N2 & N3). destruct HI as [HI|HI].
  - exists 0. split. { exists b. auto. } intros k (b' & Hk & Hb'). destruct k; auto. simpl in Hk. exfalso. apply (N3 s); auto.
    apply in_concat. exists b'. split; auto. apply nth_error_In in Hk. exact Hk.
  - destruct (IH N2 HI) as (k & (b' & Hk & Hb') & U). exists (S k). split. { exists b'. auto. }
    intros [|j] (b2 & Hj & Hb2). { simpl in Hj. inversion Hj; subst. exfalso. apply (N3 s); auto. }
    f_equal. apply U. exists b2. auto.
Qed.
Print Assumptions epoch_partition.
Example epoch_partition_case : batches 2 [4; 0; 3; 1; 2] = [[4; 0]; [3; 1]; [2]].
Proof. reflexivity. Qed.

(** ** C24: the batch gradient *)
(** Exact arithmetic.  For every batch, every assignment of the iterations to threads and every way in which the
    thread results are combined, optimizer_calc_batch_gradient ends and writes the mean of the gradients of the
    samples of the batch; it returns the start of the next batch. *)
Theorem batch_gradient_mean (c : cfg) (nn : neuralnet) (lf : loss) (X Y : ptr) (xs ts : list (list R)) (m : @mem opsR) (th : list R)
    (o : opt) (pv : list nat) (s : sched) (n i : nat) (bg : ptr) (over : list R) :
  @train_ready opsR c nn lf X Y xs ts m th ->
  o_nn o = neuralnet_set_loss nn (Some lf) -> o_pivot o = Some pv -> length pv = n -> (forall k, In k pv -> k < length xs) ->
  0 < o_batchsize o -> i < n ->
  (forall b, aligned_base c (s_grad s b)) -> (forall b, aligned_base c (s_work s b)) ->
  (* every iteration is executed once *)
  sched_ok s (batch_size o n i) ->
  (* the array, and with AVX and OpenMP the floats behind it, see C26 *)
  valid m bg (total_n_parameters nn) -> holds m (padd bg (total_n_parameters nn)) over -> length over = over_len c nn s ->
  @clear opsR nn X Y xs ts bg (total_n_parameters nn + length over) -> kal c (total_n_parameters nn) m bg ->
  exists G, is_gradient nn lf G /\ is_backprop c nn lf G /\
  exists m', @calc_batch_gradient opsR c exp s o n X Y i bg m = Ok (i + Nat.min (o_batchsize o) (n - i), m') /\
    holds m' bg (vmean (total_n_parameters nn)
      (map (fun k => G th (nth k xs []) (nth k ts [])) (firstn (o_batchsize o) (skipn i pv)))) /\
    only_changes m m' bg (total_n_parameters nn).
Proof.
  intros TR Ho Hpv Hl Hin Hb Hi Hg Hw HS HV HO HOL HC HK.
  destruct (@ready_facts c nn lf X Y xs ts m th TR) as (PA & Hne & Hch & HX & HY & HL).
  exists (Gr c nn lf). split; [apply Gr_gradient; auto|]. split; [apply Gr_backprop|].
  destruct (@ready_th c nn lf X Y xs ts m th TR) as (T & Lth & PL).
  assert (HC' : @clear opsR nn X Y xs ts bg (total_n_parameters nn + over_len c nn s)) by (rewrite <- HOL; exact HC).
  destruct (@calc_ok opsR c exp mulC_R nn lf X Y xs ts o pv s i Ho Hpv Hin Hg Hw (@net_of opsR (nn_layers nn) th) m bg over n T Hl (Nat.lt_le_incl _ _ Hi) HV HO HOL HC' HK HS)
    as (E & L1 & L2).
  eexists. split.
  { etransitivity; [exact E|]. f_equal. f_equal. f_equal. unfold batch_size. destruct (Nat.ltb_spec (n - i) (o_batchsize o)); lia. }
  pose (e := {| e_sched := fun _ => s; e_over := fun _ => over; e_bg := fun _ => 0%Z; e_tmp := fun _ => 0%Z; e_swap := fun _ => false |} : @env opsR).
  assert (BG : @batch_grad_f opsR c exp nn lf xs ts pv s i (@net_of opsR (nn_layers nn) th) (batch_size o n i) = mean_grad c nn lf xs ts (firstn (o_batchsize o) (skipn i pv)) th).
  { etransitivity; [|apply (bgrad_mean c nn lf xs ts Hne Hch HX HY HL o pv n e Hb Hl Hin i th Lth Hi HS)]. reflexivity. }
  assert (SO : @sched_over opsR c nn s over = over).
  { unfold sched_over, over_len in *. destruct (s_omp s) as [trs|]; auto. clear - HOL. revert over HOL.
    assert (Z : forall t, @tree_z opsR c nn t = repeat 0%R (extra c nn)).
    { induction t as [|t1 IH1 t2 IH2]; simpl; auto. rewrite IH1, IH2. change (@F opsR) with R. generalize (extra c nn).
      induction n as [|k IH]; simpl; auto. f_equal; [lra|exact IH]. }
    induction trs as [|t trs IH]; intros over HOL; simpl; auto. rewrite Z.
    assert (E : map2 Rplus over (repeat 0%R (extra c nn)) = over).
    { rewrite <- HOL. clear. induction over; simpl; auto. rewrite IHover. f_equal. lra. }
    change (@F opsR) with R in *. change (@fadd opsR) with Rplus. rewrite E. apply IH. exact HOL. }
  rewrite BG in *. rewrite SO in *. change (@F opsR) with R in *. set (g := mean_grad _ _ _ _ _ _ _) in *.
  assert (VV : @valid opsR m bg (length (g ++ over))).
  { destruct HV as (b & Hbk & HVL). destruct HO as (b' & Hbk' & HOL' & _). exists b. split; auto. rewrite app_length.
    simpl in Hbk'. rewrite Hbk in Hbk'. inversion Hbk'; subst. simpl in HOL'. change (@F opsR) with R in *. lia. }
  pose proof (@holds_writem_same opsR m bg (g ++ over) VV) as HW.
  split. { apply (@holds_app_inv opsR) in HW. exact (proj1 HW). }
  destruct (@writem_only_changes opsR m bg (g ++ over) VV) as (W1 & W2 & W3).
  split; [exact W1|]. split; [exact W2|]. intros b j Hbj.
  destruct (Nat.eq_dec b (blk bg)) as [->|Nb]; [|apply W3; tauto].
  destruct (le_lt_dec (off bg) j) as [H1|H1]; [|apply W3; lia].
  destruct (le_lt_dec (off bg + length (g ++ over)) j) as [H2|H2]; [apply W3; intros [_ [_ K]]; exact (Nat.lt_irrefl j (Nat.lt_le_trans _ _ _ K H2))|].
  (* inside of the floats behind the array *)
  assert (Lg : @length R g = total_n_parameters nn) by exact L1.
  apply (@holds_app_inv opsR) in HW. destruct HW as [_ HW].
  assert (J : off bg + length g <= j) by (destruct (le_lt_dec (off bg + length g) j); auto; exfalso; apply Hbj; split; auto; rewrite <- Lg; split; [exact H1|exact l]).
  assert (CELL : forall mm, @holds opsR mm (padd bg (length g)) over -> @cell_at opsR mm (blk bg) j = option_map (@Some R) (nth_error over (j - off bg - length g))).
  { clear - J H2. intros mm (b & Hb & HL & HS). unfold cell_at. simpl in *. rewrite Hb. rewrite app_length in H2.
    rewrite <- nth_error_map. change (@F opsR) with R in *. rewrite <- HS. unfold slice. rewrite PredictProofs.nth_error_firstn_lt by (clear - J H2; lia).
    rewrite nth_error_skipn'. f_equal. lia. }
  rewrite (CELL _ HW). symmetry. apply CELL. rewrite Lg. exact HO.
Qed.
Print Assumptions batch_gradient_mean.
