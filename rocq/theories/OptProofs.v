(** OptProofs.v -- optimizer_calc_batch_gradient *)
From Coq Require Import List Arith ZArith Lia Bool.
From Verif Require Import Base BaseProofs Ops Mem MemProofs Kernels KernelProofs Activation ActivationProofs
  Loss Neuralnet ForwardProofs BackpropProofs GradProofs GradPropProofs PredictProofs BitsProofs SpecMem ParamProofs Batch BatchProofs
  BlasProofs Optimizer.
Import ListNotations.
Local Open Scope mem_scope.

(** The alignment backpropagation needs (see C18), for a gradient buffer on the stack: [bp_align] for
    a buffer at address 0; which aligned address it is does not matter. *)
Definition train_align {FO : fops} (c : cfg) (m : mem) (ls : list layer) : Prop :=
  bp_align c (m ++ [mkblock 0 []]) ls (mkptr (length m) 0).

(** What training relies on.  [nn] is the network before neuralnet_set_loss( nn, lf ); its parameters are
    the numbers [net]; the samples are the rows xs, ts at X, Y. *)
Definition train_mem {FO : fops} (c : cfg) (nn : neuralnet) (lf : loss) (net : list flayer) (m : mem)
    (X Y : ptr) (xs ts : list (list F)) : Prop :=
  nn_layers nn <> [] /\ net_holds c m (in_size nn) (nn_layers nn) net /\
  holds m X (concat xs) /\ holds m Y (concat ts) /\
  (forall i x, nth_error xs i = Some x -> length x = in_size nn) /\
  (forall i t, nth_error ts i = Some t -> length t = out_size nn) /\ length ts = length xs /\
  train_align c m (nn_layers (neuralnet_set_loss nn (Some lf))).

(** the n floats at p are neither parameters nor samples *)
Definition clear {FO : fops} (nn : neuralnet) (X Y : ptr) (xs ts : list (list F)) (p : ptr) (n : nat) : Prop :=
  Forall (off_params p n) (nn_layers nn) /\ disjoint p n X (length (concat xs)) /\ disjoint p n Y (length (concat ts)).

Lemma Forall2_rev A B (P : A -> B -> Prop) l1 l2 : Forall2 P l1 l2 -> Forall2 P (rev l1) (rev l2).
Proof. induction 1; simpl; auto. apply Forall2_app; auto. Qed.

Section Stack.
Context {FO : fops}.

Lemma storev_valid0 m p ys : valid m p (length ys) -> storev p ys m = Ok (tt, writem m p ys).
Proof. intros V. rewrite <- (padd_0 p). apply storev_valid with (n := length ys); auto. Qed.

Lemma writem_cover m p xs ys : valid m p (length ys) -> length xs <= length ys ->
  writem (writem m p xs) p ys = writem m p ys.
Proof.
  intros V L. rewrite <- (firstn_skipn (length xs) ys).
  assert (L1 : length (firstn (length xs) ys) = length xs) by (rewrite firstn_length; lia).
  assert (V1 : valid m p (length xs)) by (eapply valid_le; eauto).
  assert (LL : length (firstn (length xs) ys) + length (skipn (length xs) ys) = length ys) by (rewrite <- app_length, firstn_skipn; auto).
  rewrite <- writem_writem_app by (rewrite LL; apply valid_writem; auto).
  rewrite <- (@writem_writem_app _ m p (firstn (length xs) ys)) by (rewrite LL; auto). rewrite writem_writem_same; auto.
Qed.

Lemma holds_last m b xs k : holds (m ++ [mkblock b (map Some xs)]) (mkptr (length m) 0) (firstn k xs).
Proof.
  eexists. simpl. rewrite nth_error_last. split; [reflexivity|]. simpl. rewrite map_length, firstn_length. split; [lia|].
  unfold slice. simpl. rewrite firstn_map. f_equal. rewrite <- firstn_firstn, firstn_all. reflexivity.
Qed.
Lemma holds_last_all m b xs : holds (m ++ [mkblock b (map Some xs)]) (mkptr (length m) 0) xs.
Proof. pose proof (holds_last m b xs (length xs)) as H. rewrite firstn_all in H. exact H. Qed.
Lemma valid_last m b cs n : n <= length cs -> valid (m ++ [mkblock b cs]) (mkptr (length m) 0) n.
Proof. intros H. eexists. simpl. rewrite nth_error_last. split; [reflexivity|]. simpl. lia. Qed.
Lemma addr_last m b cs k : addr (m ++ [mkblock b cs]) (mkptr (length m) k) = (b + 4 * Z.of_nat k)%Z.
Proof. unfold addr. simpl. rewrite nth_error_last. reflexivity. Qed.

Lemma writem_last_map m b cs xs : length xs <= length cs ->
  writem (m ++ [mkblock b (map Some cs)]) (mkptr (length m) 0) xs = m ++ [mkblock b (map Some (xs ++ skipn (length xs) cs))].
Proof.
  intros H. rewrite writem_last. simpl. do 3 f_equal. unfold overwrite. simpl. rewrite map_length, map_app, skipn_map. reflexivity.
Qed.
Lemma writem_last_none m b n xs over : length xs = n ->
  writem (m ++ [mkblock b (repeat None n ++ map Some over)]) (mkptr (length m) 0) xs = m ++ [mkblock b (map Some (xs ++ over))].
Proof.
  intros H. rewrite writem_last. simpl. do 3 f_equal. unfold overwrite. simpl. rewrite map_length, map_app. f_equal.
  rewrite H. rewrite skipn_app. rewrite repeat_length, Nat.sub_diag. simpl.
  rewrite skipn_all2 by (rewrite repeat_length; lia). reflexivity.
Qed.
End Stack.

Section Any.
Context {FO : fops}.
Variable c : cfg.
Variable vexp : F -> F.
Hypothesis mulC : forall a b : F, fmul a b = fmul b a.
Variables (nn : neuralnet) (lf : loss).
Let nns := neuralnet_set_loss nn (Some lf).
Let np := total_n_parameters nn.

(** the gradient of one sample *)
Definition sample_grad (net : list flayer) (x t : list F) : list F := bp_grad c vexp (derivs lf net) lf x t.

Variables (X Y : ptr) (xs ts : list (list F)).
Notation train_mem net m := (train_mem c nn lf net m X Y xs ts).
Notation clear p n := (clear nn X Y xs ts p n).

Lemma in_size_nns : in_size nns = in_size nn.
Proof.
  unfold in_size, nns. rewrite set_loss_layers. pose proof (lsd_same lf (nn_layers nn)) as H.
  inversion H as [|a b l1 l2 (E & _)]; auto.
Qed.
Lemma out_size_nns : out_size nns = out_size nn.
Proof.
  unfold out_size, nns. rewrite set_loss_layers. pose proof (lsd_same lf (nn_layers nn)) as H.
  apply Forall2_rev in H. inversion H as [|a b l1 l2 (E1 & E2 & _)]; auto.
Qed.
Lemma total_nns : total_n_parameters nns = np.
Proof. apply total_set_loss. Qed.
Lemma update_nns p : neuralnet_update c nns p = neuralnet_update c nn p.
Proof.
  unfold neuralnet_update, nns. rewrite set_loss_layers. generalize (lsd_same lf (nn_layers nn)).
  generalize (lsd lf (nn_layers nn)) (nn_layers nn). intros l1 l2 H. revert p.
  induction H as [|a b k1 k2 (E1 & E2 & E3 & E4 & E5) H IH]; intros p; simpl; auto.
  rewrite E1, E2, E3, E4, IH. reflexivity.
Qed.
Lemma get_nns p : neuralnet_get_parameters nns p = neuralnet_get_parameters nn p.
Proof.
  unfold neuralnet_get_parameters, nns. rewrite set_loss_layers. generalize (lsd_same lf (nn_layers nn)).
  generalize (lsd lf (nn_layers nn)) (nn_layers nn). intros l1 l2 H. revert p.
  induction H as [|a b k1 k2 (E1 & E2 & E3 & E4 & E5) H IH]; intros p; simpl; auto.
  rewrite E1, E2, E3, E4, IH. reflexivity.
Qed.

(** *** moving the preconditions around *)
Lemma net_in_m m : forall ls net k, net_holds c m k ls net -> Forall (in_m m) ls.
Proof.
  induction ls as [|l ls IH]; intros [|f net] k H; simpl in H; try tauto; constructor.
  - destruct H as [(_ & _ & _ & _ & _ & H1 & H2 & _) _]. split; [exact (holds_blk _ _ _ H1)|exact (holds_blk _ _ _ H2)].
  - destruct H as [_ H]. eapply IH; eauto.
Qed.

Lemma aligned_addr w (m m' : mem) p q : addr m p = addr m' q -> aligned_to w m p = aligned_to w m' q.
Proof. unfold aligned_to. intros ->. reflexivity. Qed.

Lemma train_bp_align m gb cs : aligned_base c gb -> train_align c m (nn_layers nns) ->
  Forall (in_m m) (nn_layers nns) ->
  bp_align c (m ++ [mkblock gb cs]) (nn_layers nns) (mkptr (length m) 0).
Proof.
  intros HB [A1 A2] IM. split.
  - intros i l d Hl Hd. specialize (A1 i l d Hl Hd).
    assert (E : forall k, has_avx c = true -> aligned_to 8 (m ++ [mkblock gb cs]) (mkptr (length m) k) = aligned_to 8 (m ++ [mkblock 0 []]) (mkptr (length m) k)).
    { intros k HA. unfold aligned_to. rewrite !addr_last. f_equal.
      assert (D : (gb mod (4 * Z.of_nat 8) = 0)%Z).
      { unfold aligned_base in HB. unfold align_size in HB. unfold has_avx in HA. destruct (cfg_isa c); try discriminate; auto.
        change (4 * Z.of_nat 8)%Z with 32%Z. apply Z.mod_divide in HB; [|lia]. apply Z.mod_divide; [lia|].
        destruct HB as [q ->]. exists (2 * q)%Z. lia. }
      rewrite <- Z.add_mod_idemp_l, D by (simpl; lia). reflexivity. }
    unfold padd in *. simpl in *. destruct d; simpl in *; auto; intros HA HN; rewrite !E by auto; apply A1; auto.
  - intros i l r Hl Hr. specialize (A2 i l r Hl Hr). rewrite Forall_forall in IM. destruct (IM l (nth_error_In _ _ Hl)) as [B1 B2].
    apply kal_app_l; auto. apply kal_app_l in A2; auto.
Qed.

Lemma in_m_nns m : Forall (in_m m) (nn_layers nn) -> Forall (in_m m) (nn_layers nns).
Proof.
  unfold nns. rewrite set_loss_layers. intros H. generalize (lsd_same lf (nn_layers nn)). revert H. generalize (lsd lf (nn_layers nn)) (nn_layers nn). intros k1 k2 H S.
  induction S as [|a b l1 l2 (E1 & E2 & E3 & E4 & E5) S IH]; auto. inversion H; subst. constructor; auto.
  unfold in_m in *. rewrite E3, E4. auto.
Qed.

Lemma in_m_push m b ls : Forall (in_m m) ls -> Forall (in_m (m ++ [b])) ls.
Proof. intros H. eapply Forall_impl; [|exact H]. unfold in_m. intros l. rewrite app_length. simpl. lia. Qed.

Lemma train_align_addr m m' ls : Forall (in_m m) ls -> Forall (in_m m') ls ->
  (forall l, In l ls -> forall k, addr m' (weight l +! k) = addr m (weight l +! k)) ->
  train_align c m ls -> train_align c m' ls.
Proof.
  intros I1 I2 HA [A1 A2]. rewrite Forall_forall in I1, I2. split.
  - intros i l d Hl Hd. specialize (A1 i l d Hl Hd). unfold padd in *. simpl in *.
    assert (E : forall k, aligned_to 8 (m' ++ [mkblock 0 []]) (mkptr (length m') k) = aligned_to 8 (m ++ [mkblock 0 []]) (mkptr (length m) k)).
    { intros k. apply aligned_addr. rewrite !addr_last. reflexivity. }
    destruct d; simpl in *; auto; intros H1 H2; rewrite !E; apply A1; auto.
  - intros i l r Hl Hr. specialize (A2 i l r Hl Hr). pose proof (nth_error_In _ _ Hl) as HI.
    destruct (I1 l HI), (I2 l HI). apply kal_app_l; auto. apply kal_app_l in A2; auto.
    unfold kal in *. rewrite !(aligned_addr _ m' m (weight l +! (r * n_output l)) (weight l +! (r * n_output l))); auto.
Qed.

Lemma train_push net m b : train_mem net m -> train_mem net (m ++ [b]).
Proof.
  intros (H1 & H2 & H3 & H4 & H5 & H6 & H7 & H8). pose proof (net_in_m m _ _ _ H2) as IM.
  split; auto. split; [apply net_holds_app_l; auto|].
  split; [apply holds_app_l; auto; exact (holds_blk _ _ _ H3)|]. split; [apply holds_app_l; auto; exact (holds_blk _ _ _ H4)|].
  split; [auto|]. split; [auto|]. split; [auto|]. pose proof (in_m_nns m IM) as IN.
  apply train_align_addr with (m := m); auto. { apply in_m_push; auto. }
  intros l Hl k. rewrite addr_app_l; auto. rewrite Forall_forall in IN. destruct (IN l Hl). auto.
Qed.

(** changes outside of the parameters and the samples *)
Lemma train_oci net m m' rs : only_changes_in m m' rs -> (forall r, In r rs -> clear (fst r) (snd r)) -> train_mem net m -> train_mem net m'.
Proof.
  intros OC HC (H1 & H2 & H3 & H4 & H5 & H6 & H7 & H8). pose proof (net_in_m m _ _ _ H2) as IM.
  split; auto. split.
  { eapply oci_net_holds; eauto. intros r r' Hr Hr'. destruct (HC r Hr) as (O & _). destruct r as [p k].
    apply (proj1 (off_params_regions p k (nn_layers nn)) O r' Hr'). }
  split. { eapply oci_holds; eauto. intros p k Hr. apply (HC (p, k) Hr). }
  split. { eapply oci_holds; eauto. intros p k Hr. apply (HC (p, k) Hr). }
  split; [auto|]. split; [auto|]. split; [auto|]. pose proof (in_m_nns m IM) as IN.
  assert (LM : length m' = length m) by apply OC.
  apply train_align_addr with (m := m); auto.
  - eapply Forall_impl; [|exact IN]. unfold in_m. rewrite LM. auto.
  - intros l Hl k. eapply oci_addr; eauto.
Qed.

Lemma clear_sub p n p' n' : clear p n -> blk p' = blk p -> off p <= off p' -> off p' + n' <= off p + n -> clear p' n'.
Proof.
  intros (A & B & C) E1 E2 E3. split; [|split].
  - eapply Forall_impl; [|exact A]. intros l [D1 D2]. split; eapply disjoint_sub; eauto.
  - eapply disjoint_sub; eauto.
  - eapply disjoint_sub; eauto.
Qed.
Lemma clear_last net m n k : train_mem net m -> length m <= k -> clear (mkptr k 0) n.
Proof.
  intros (H1 & H2 & H3 & H4 & _) Hk. pose proof (net_in_m m _ _ _ H2) as IM. split; [|split].
  - eapply Forall_impl; [|exact IM]. intros l [A B]. split; left; simpl; lia.
  - left. simpl. pose proof (holds_blk _ _ _ H3). lia.
  - left. simpl. pose proof (holds_blk _ _ _ H4). lia.
Qed.
Lemma clear_writem net m p ys : train_mem net m -> valid m p (length ys) -> clear p (length ys) -> train_mem net (writem m p ys).
Proof.
  intros T V C. eapply train_oci with (rs := [(p, length ys)]); eauto.
  - apply oci_writem; auto. left. reflexivity.
  - intros r [<-|[]]. auto.
Qed.

(** *** one iteration *)
Variables (o : opt) (pv : list nat) (s : sched) (i : nat).
Hypothesis Ho : o_nn o = nns.
Hypothesis Hpv : o_pivot o = Some pv.
Hypothesis Hpvn : forall k, In k pv -> k < length xs.
Hypothesis Hsg : forall b, aligned_base c (s_grad s b).
Hypothesis Hsw : forall b, aligned_base c (s_work s b).

(** the gradient of the sample of iteration b *)
Definition iter_grad (net : list flayer) (b : nat) : list F :=
  let k := nth (i + b) pv 0 in sample_grad net (nth k xs []) (nth k ts []).

Lemma backprop_sample net m b k : train_mem net m -> nth_error pv (i + b) = Some k ->
  let m1 := m ++ [mkblock (s_grad s b) (repeat None np)] in
  bp_ready c (s_work s b) nn net lf m1 (X +! (k * in_size nn)) (Y +! (k * out_size nn)) (mkptr (length m) 0) (nth k xs []) (nth k ts []).
Proof.
  intros T Hk m1. pose proof T as (H1 & H2 & H3 & H4 & H5 & H6 & H7 & H8). pose proof (net_in_m m _ _ _ H2) as IM.
  pose proof (in_m_nns m IM) as IN.
  assert (Lk : k < length xs) by (apply Hpvn; eapply nth_error_In; eauto).
  destruct (@nth_error_ex _ xs k Lk) as [x Hx]. destruct (@nth_error_ex _ ts k) as [t Ht]; [lia|].
  rewrite (nth_error_nth xs k [] Hx), (nth_error_nth ts k [] Ht).
  destruct (concat_row xs (in_size nn) H5 k x Hx) as [LX SX]. destruct (concat_row ts (out_size nn) H6 k t Ht) as [LT ST].
  pose proof (row_fit k (length xs) (in_size nn) Lk) as RX. pose proof (row_fit k (length xs) (out_size nn) Lk) as RT.
  pose proof (H5 k x Hx) as Lx. pose proof (H6 k t Ht) as Lt.
  split; [|apply train_bp_align; auto].
  split; auto. split; [apply Hsw|]. split. { rewrite Lx. apply net_holds_app_l; auto. }
  split. { apply holds_app_l; [exact (holds_blk _ _ _ H3)|]. rewrite <- SX. apply holds_sub; auto. lia. }
  split. { apply holds_app_l; [exact (holds_blk _ _ _ H4)|]. rewrite <- ST. apply holds_sub; auto. lia. }
  split. { intros l Hl. rewrite Lt. apply out_size_nth; auto. }
  split. { unfold m1. rewrite addr_last. change (4 * Z.of_nat 0)%Z with 0%Z. rewrite Z.add_0_r.
           pose proof (al_aligned_base c (s_grad s b) 0 (Hsg b) (Nat.divide_0_r _)) as A. rewrite Z.add_0_r in A. exact A. }
  split. { apply valid_last. rewrite repeat_length. auto. }
  split. { left. simpl. pose proof (holds_blk _ _ _ H3). lia. }
  split. { left. simpl. pose proof (holds_blk _ _ _ H4). lia. }
  eapply Forall_impl; [|exact IM]. intros l [A B]. split; left; simpl; lia.
Qed.

Lemma length_iter_grad net m b : train_mem net m -> i + b < length pv -> length (iter_grad net b) = np.
Proof.
  intros T Hb. destruct (@nth_error_ex _ pv (i + b) Hb) as [k Hk]. pose proof (backprop_sample net m b k T Hk) as BR.
  unfold iter_grad. rewrite (nth_error_nth pv _ 0 Hk). eapply length_bp_grad; eauto.
Qed.

Lemma iteration_ok net m acc a b : train_mem net m -> i + b < length pv -> holds m acc a -> length a = np ->
  grad_iteration c vexp s o X Y i acc b m = Ok (tt, writem m acc (map2 fadd a (iter_grad net b))).
Proof.
  intros T Hb Ha La. destruct (@nth_error_ex _ pv (i + b) Hb) as [k Hk].
  pose proof (backprop_sample net m b k T Hk) as BR. cbv zeta in BR.
  unfold grad_iteration. rewrite Hpv, Hk, Ho, total_nns, in_size_nns, out_size_nns.
  unfold alloca at 1. erewrite bind_ok by reflexivity.
  set (m1 := m ++ [mkblock (s_grad s b) (repeat None np)]) in *.
  erewrite bind_ok by (apply (backprop_run c vexp mulC); exact BR).
  fold (sample_grad net (nth k xs []) (nth k ts [])).
  assert (EG : sample_grad net (nth k xs []) (nth k ts []) = iter_grad net b).
  { unfold iter_grad. rewrite (nth_error_nth pv _ 0 Hk). reflexivity. }
  rewrite EG. set (g := iter_grad net b) in *.
  assert (Lg : length g = np) by (eapply length_iter_grad; eauto).
  assert (E1 : writem m1 (mkptr (length m) 0) g = m ++ [mkblock (s_grad s b) (map Some g)]).
  { unfold m1. pose proof (writem_last_none m (s_grad s b) np g [] Lg) as E. simpl in E. rewrite !app_nil_r in E. exact E. }
  rewrite E1. pose proof (holds_blk _ _ _ Ha) as Bl.
  erewrite bind_ok.
  2:{ rewrite <- La. apply vector_accumulate_unaligned_ok with (ys := g).
      - apply holds_app_l; auto. - apply holds_last_all. - lia. - left. simpl. lia. }
  rewrite writem_app_l by auto. unfold freea. rewrite removelast_last. reflexivity.
Qed.

Lemma length_map2_same A B C (f : A -> B -> C) l1 l2 n : length l1 = n -> length l2 = n -> length (map2 f l1 l2) = n.
Proof. intros. rewrite length_map2. lia. Qed.

Definition acc_f (net : list flayer) (a : list F) (its : list nat) : list F :=
  fold_left (fun a b => map2 fadd a (iter_grad net b)) its a.

Lemma iterations_ok net : forall its m acc a, train_mem net m -> (forall b, In b its -> i + b < length pv) ->
  holds m acc a -> length a = np -> clear acc np ->
  grad_iterations c vexp s o X Y i acc its m = Ok (tt, writem m acc (acc_f net a its)) /\ length (acc_f net a its) = np.
Proof.
  induction its as [|b its IH]; intros m acc a T Hb Ha La C.
  { simpl. split; auto. unfold ret. rewrite writem_holds_id; auto. }
  assert (Lb : i + b < length pv) by (apply Hb; simpl; auto).
  pose proof (iteration_ok net m acc a b T Lb Ha La) as E.
  pose proof (length_iter_grad net m b T Lb) as Lg.
  set (a1 := map2 fadd a (iter_grad net b)) in *.
  assert (La1 : length a1 = np) by (apply length_map2_same; auto).
  assert (V : valid m acc (length a1)). { rewrite La1, <- La. apply holds_valid; auto. }
  destruct (IH (writem m acc a1) acc a1) as [E2 L2].
  - apply clear_writem; auto. rewrite La1; auto.
  - intros b' Hb'. apply Hb. simpl. auto.
  - apply holds_writem_same; auto.
  - auto.
  - auto.
  - split; [|exact L2]. simpl. erewrite bind_ok by exact E. rewrite E2.
    change (acc_f net a (b :: its)) with (acc_f net a1 its).
    rewrite writem_writem_same; auto. lia.
Qed.

(** *** the reduction *)
Definition sse : cfg := {| cfg_isa := SSE; cfg_fma := false |}.
Lemma combine_ok m p q a b : holds m p a -> holds m q b -> length b = length a -> disjoint p (length a) q (length a) ->
  omp_combine (length a) p q m = Ok (tt, writem m p (map2 fadd a b)).
Proof. intros. apply (vector_accumulate_unaligned_ok sse); auto. Qed.

Let pad := n_param_padding c np.
Definition extra : nat := pad - np.
Lemma pad_extra : pad = np + extra.
Proof. unfold extra. assert (np <= pad); [|lia]. unfold pad, n_param_padding. destruct (has_avx c); lia. Qed.

Fixpoint tree_base (t : rtree) : Z := match t with Thread b _ => b | Comb t1 _ => tree_base t1 end.
(** the result of a tree: the np gradient floats and the padding *)
Fixpoint tree_g (net : list flayer) (t : rtree) : list F :=
  match t with
  | Thread _ its => acc_f net (repeat f0 np) its
  | Comb t1 t2 => map2 fadd (tree_g net t1) (tree_g net t2)
  end.
Fixpoint tree_z (t : rtree) : list F :=
  match t with
  | Thread _ its => repeat f0 extra
  | Comb t1 t2 => map2 fadd (tree_z t1) (tree_z t2)
  end.
Lemma length_tree_z t : length (tree_z t) = extra.
Proof. induction t; simpl; [apply repeat_length|]. apply length_map2_same; auto. Qed.

Lemma run_tree_ok net : forall t m, train_mem net m -> (forall b, In b (tree_its t) -> i + b < length pv) ->
  run_tree c vexp s o X Y i t m = Ok (mkptr (length m) 0, m ++ [mkblock (tree_base t) (map Some (tree_g net t ++ tree_z t))]) /\
  length (tree_g net t) = np.
Proof.
  induction t as [b its|t1 IH1 t2 IH2]; intros m T Hb; simpl tree_its in Hb.
  - simpl. rewrite Ho, total_nns. fold pad. unfold alloca. erewrite bind_ok by reflexivity.
    set (m1 := m ++ [mkblock b (repeat None pad)]).
    assert (V1 : valid m1 (mkptr (length m) 0) pad) by (apply valid_last; rewrite repeat_length; auto).
    erewrite bind_ok.
    2:{ apply storev_valid0. rewrite repeat_length. auto. }
    assert (E1 : writem m1 (mkptr (length m) 0) (repeat f0 pad) = m ++ [mkblock b (map Some (repeat f0 pad))]).
    { unfold m1. pose proof (writem_last_none m b pad (repeat f0 pad) [] (repeat_length _ _)) as E. simpl in E. rewrite !app_nil_r in E. exact E. }
    rewrite E1.
    destruct (iterations_ok net its (m ++ [mkblock b (map Some (repeat f0 pad))]) (mkptr (length m) 0) (repeat f0 np)) as [E L].
    + apply train_push; auto.
    + auto.
    + pose proof (holds_last m b (repeat f0 pad) np) as H. rewrite pad_extra in H. rewrite repeat_app in H. rewrite firstn_app, repeat_length, Nat.sub_diag in H.
      rewrite firstn_all2 in H by (rewrite repeat_length; auto). simpl in H. rewrite app_nil_r in H.
      rewrite pad_extra, repeat_app. exact H.
    + apply repeat_length.
    + eapply clear_last; eauto.
    + split; [|exact L]. erewrite bind_ok by exact E. unfold ret. f_equal. f_equal.
      rewrite writem_last_map by (rewrite L, repeat_length, pad_extra; lia).
      do 4 f_equal. rewrite L. rewrite pad_extra, repeat_app, skipn_app, repeat_length, Nat.sub_diag. rewrite skipn_all2 by (rewrite repeat_length; auto). reflexivity.
  - destruct (IH1 m T) as [E1 L1]. { intros b Hi. apply Hb. apply in_or_app. auto. }
    simpl. rewrite Ho, total_nns. fold pad. erewrite bind_ok by exact E1.
    set (m1 := m ++ [mkblock (tree_base t1) (map Some (tree_g net t1 ++ tree_z t1))]).
    destruct (IH2 m1 (train_push net m _ T)) as [E2 L2]. { intros b Hi. apply Hb. apply in_or_app. auto. }
    erewrite bind_ok by exact E2.
    assert (LL1 : length (tree_g net t1 ++ tree_z t1) = pad) by (rewrite app_length, L1, length_tree_z, pad_extra; auto).
    assert (LL2 : length (tree_g net t2 ++ tree_z t2) = pad) by (rewrite app_length, L2, length_tree_z, pad_extra; auto).
    assert (B1 : blk (mkptr (length m) 0) < length m1) by (unfold m1; rewrite app_length; simpl; lia).
    erewrite bind_ok.
    2:{ rewrite <- LL1. apply combine_ok with (b := tree_g net t2 ++ tree_z t2).
        - apply holds_app_l; auto. apply holds_last_all.
        - apply holds_last_all. - lia. - left. simpl. unfold m1. rewrite app_length. simpl. lia. }
    rewrite writem_app_l by auto. unfold freea. erewrite bind_ok by (rewrite removelast_last; reflexivity).
    split; [|apply length_map2_same; auto].
    unfold ret. f_equal. f_equal. rewrite map2_app by lia. unfold m1. rewrite writem_last_map.
    2:{ rewrite !app_length, !length_map2, L1, L2, !length_tree_z. lia. }
    rewrite skipn_all2. 2:{ rewrite !app_length, !length_map2, L1, L2, !length_tree_z. lia. }
    rewrite app_nil_r. reflexivity.
Qed.

Lemma run_trees_ok net : forall trs m bg a z, train_mem net m -> (forall b, In b (flat_map tree_its trs) -> i + b < length pv) ->
  holds m bg (a ++ z) -> length a = np -> length z = extra -> clear bg pad ->
  run_trees c vexp s o X Y i bg trs m =
    Ok (tt, writem m bg (fold_left (map2 fadd) (map (tree_g net) trs) a ++ fold_left (map2 fadd) (map tree_z trs) z)) /\
  length (fold_left (map2 fadd) (map (tree_g net) trs) a) = np /\
  length (fold_left (map2 fadd) (map tree_z trs) z) = extra.
Proof.
  induction trs as [|t trs IH]; intros m bg a z T Hb Ha La Lz C.
  { simpl. split; auto. unfold ret. rewrite writem_holds_id; auto. }
  destruct (run_tree_ok net t m T) as [E L]. { intros b Hi. apply Hb. simpl. apply in_or_app. auto. }
  simpl. erewrite bind_ok by exact E. rewrite Ho, total_nns. fold pad.
  set (a1 := map2 fadd a (tree_g net t)). set (z1 := map2 fadd z (tree_z t)).
  assert (La1 : length a1 = np) by (apply length_map2_same; auto).
  assert (Lz1 : length z1 = extra) by (apply length_map2_same; auto using length_tree_z).
  pose proof (holds_blk _ _ _ Ha) as Bl.
  assert (LP : length (a ++ z) = pad) by (rewrite app_length, pad_extra; lia).
  erewrite bind_ok.
  2:{ rewrite <- LP. apply combine_ok with (b := tree_g net t ++ tree_z t).
      - apply holds_app_l; auto. - apply holds_last_all.
      - rewrite !app_length, length_tree_z. lia.
      - left. simpl. lia. }
  rewrite map2_app by lia. fold a1 z1. rewrite writem_app_l by auto. unfold freea. erewrite bind_ok by (rewrite removelast_last; reflexivity).
  assert (LP1 : length (a1 ++ z1) = pad) by (rewrite app_length, pad_extra; lia).
  assert (V : valid m bg (length (a1 ++ z1))). { rewrite LP1, <- LP. apply holds_valid; auto. }
  destruct (IH (writem m bg (a1 ++ z1)) bg a1 z1) as (E2 & L2 & L3); auto.
  - apply clear_writem; auto. rewrite LP1. auto.
  - intros b Hi. apply Hb. simpl. apply in_or_app. auto.
  - apply holds_writem_same; auto.
  - split; [|auto]. rewrite E2. rewrite writem_writem_same; auto. rewrite !app_length. lia.
Qed.

(** *** the batch gradient *)
(** sum of the gradients in the order of the schedule, and what happens to the floats behind the array *)
Definition sched_sum (net : list flayer) (bs : nat) : list F :=
  match s_omp s with
  | None => acc_f net (repeat f0 np) (seq 0 bs)
  | Some trs => fold_left (map2 fadd) (map (tree_g net) trs) (repeat f0 np)
  end.
Definition sched_over (over : list F) : list F :=
  match s_omp s with
  | None => over
  | Some trs => fold_left (map2 fadd) (map tree_z trs) over
  end.
Definition over_len : nat := match s_omp s with None => 0 | Some _ => extra end.
Definition batch_grad_f (net : list flayer) (bs : nat) : list F :=
  map (fun x => fdiv x (fofZ (Z.of_nat bs))) (sched_sum net bs).

(** the schedule executes the bs iterations, each once *)
Definition sched_ok (bs : nat) : Prop :=
  match s_omp s with
  | None => True
  | Some trs => Permutation.Permutation (flat_map tree_its trs) (seq 0 bs)
  end.

Lemma calc_ok net m bg over n : train_mem net m -> length pv = n -> i <= n -> valid m bg np -> holds m (bg +! np) over ->
  length over = over_len -> clear bg (np + over_len) -> kal c np m bg -> 
  let bs := batch_size o n i in
  sched_ok bs ->
  calc_batch_gradient c vexp s o n X Y i bg m = Ok (i + bs, writem m bg (batch_grad_f net bs ++ sched_over over)) /\
  length (batch_grad_f net bs) = np /\ length (sched_over over) = length over.
Proof.
  intros T Ln Hi V Hov Lov C K bs SO. unfold calc_batch_gradient. rewrite Ho, total_nns. fold bs.
  assert (Hbs : i + bs <= n) by (unfold bs, batch_size; destruct (Nat.ltb_spec (n - i) (o_batchsize o)); lia).
  erewrite bind_ok.
  2:{ apply storev_valid0. rewrite repeat_length. auto. }
  set (m1 := writem m bg (repeat f0 np)).
  assert (V0 : valid m bg (length (repeat f0 np))) by (rewrite repeat_length; auto).
  assert (H1 : holds m1 bg (repeat f0 np)) by (apply holds_writem_same; auto).
  assert (H1o : holds m1 (bg +! np) over).
  { apply holds_writem_disjoint; auto. rewrite repeat_length. right. left. simpl. lia. }
  assert (H1a : holds m1 bg (repeat f0 np ++ over)) by (apply holds_app; auto; rewrite repeat_length; auto).
  assert (C1 : clear bg np) by (eapply clear_sub; eauto; lia).
  assert (T1 : train_mem net m1) by (apply clear_writem; auto; rewrite repeat_length; auto).
  assert (VV : valid m bg (np + length over)).
  { destruct Hov as (b & Hb & Hl & _). simpl in *. exists b. split; auto. lia. }
  assert (LG : length (sched_sum net bs) = np /\ length (sched_over over) = length over /\
    (match s_omp s with None => grad_iterations c vexp s o X Y i bg (seq 0 bs) | Some trs => run_trees c vexp s o X Y i bg trs end) m1
    = Ok (tt, writem m bg (sched_sum net bs ++ sched_over over))).
  { unfold sched_sum, sched_over, sched_ok, over_len in *. destruct (s_omp s) as [trs|].
    - destruct (run_trees_ok net trs m1 bg (repeat f0 np) over) as (E & L1 & L2); auto.
      + intros b Hb. apply (Permutation.Permutation_in _ SO) in Hb. apply in_seq in Hb. lia.
      + apply repeat_length.
      + eapply clear_sub; [exact C| | |]; auto. rewrite pad_extra. lia.
      + split; auto. split; [lia|]. rewrite E. unfold m1. rewrite writem_cover; auto; rewrite app_length, ?repeat_length, L1, L2; [rewrite <- Lov; auto|lia].
    - destruct (iterations_ok net (seq 0 bs) m1 bg (repeat f0 np)) as [E L]; auto.
      + intros b Hb. apply in_seq in Hb. lia.
      + apply repeat_length.
      + split; auto. split; auto. rewrite E. unfold m1. rewrite writem_writem_same by (auto; rewrite ?repeat_length; lia).
        rewrite (proj1 (length_zero_iff_nil over)) by auto. rewrite app_nil_r. reflexivity. }
  destruct LG as (L1 & L2 & E). erewrite bind_ok by exact E.
  set (m2 := writem m bg (sched_sum net bs ++ sched_over over)).
  assert (V2 : valid m bg (length (sched_sum net bs ++ sched_over over))) by (rewrite app_length, L1, L2; auto).
  assert (H2 : holds m2 bg (sched_sum net bs)).
  { pose proof (@holds_writem_same _ m bg _ V2) as H. fold m2 in H. apply holds_app_inv in H. apply H. }
  erewrite bind_ok.
  2:{ rewrite <- L1. apply vector_divide_by_scalar_ok; auto. unfold m2. apply kal_writem. rewrite L1. auto. }
  fold (batch_grad_f net bs).
  assert (LB : length (batch_grad_f net bs) = np) by (unfold batch_grad_f; rewrite map_length; auto).
  split; [|split; [exact LB|exact L2]]. unfold ret. f_equal. f_equal. unfold m2.

  assert (V3 : valid m (bg +! np) (length (sched_over over))) by (rewrite L2; eapply valid_sub; [exact VV|lia]).
  rewrite <- (@writem_writem_app _ m bg (sched_sum net bs)) by (rewrite <- app_length; auto). rewrite L1.
  rewrite writem_comm.
  - rewrite writem_writem_same by (rewrite ?L1; auto; lia). rewrite <- LB. rewrite writem_writem_app; auto.
    rewrite LB, L2. auto.
  - apply valid_writem; auto. rewrite L1. auto.
  - apply valid_writem; auto. rewrite L1. auto. rewrite LB. auto.
  - rewrite LB. right. right. simpl. lia.
Qed.
End Any.
