(** OptEpochs.v -- the epoch functions of the four optimizers compute their list-level recurrences *)
From Coq Require Import List Arith ZArith Lia Bool.
From Verif Require Import Base BaseProofs Ops Mem MemProofs Kernels KernelProofs Activation ActivationProofs
  Loss Neuralnet ForwardProofs BackpropProofs GradProofs GradPropProofs PredictProofs BitsProofs SpecMem ParamProofs Batch BatchProofs
  BlasProofs Optimizer OptKernels OptProofs.
Import ListNotations.
Local Open Scope mem_scope.

Section Suffix.
Context {FO : fops}.
Variable c : cfg.
Lemma holds_app_st m st p xs : blk p < length m -> (holds (m ++ st) p xs <-> holds m p xs).
Proof. intros H. unfold holds. rewrite nth_error_app1 by auto. tauto. Qed.
Lemma valid_app_st m st p n : blk p < length m -> (valid (m ++ st) p n <-> valid m p n).
Proof. intros H. unfold valid. rewrite nth_error_app1 by auto. tauto. Qed.
Lemma addr_app_st m st p : blk p < length m -> addr (m ++ st) p = addr m p.
Proof. intros H. unfold addr. rewrite nth_error_app1 by auto. reflexivity. Qed.
Lemma kal_app_st m st p n : blk p < length m -> (kal c n (m ++ st) p <-> kal c n m p).
Proof. intros H. unfold kal, aligned_to. rewrite addr_app_st by auto. tauto. Qed.
Lemma writem_app_st m st p xs : blk p < length m -> writem (m ++ st) p xs = writem m p xs ++ st.
Proof.
  intros H. unfold writem. rewrite nth_error_app1 by auto.
  destruct (nth_error m (blk p)); auto. apply set_nth_app1; auto.
Qed.
Lemma net_holds_pop m st : forall ls net k, Forall (in_m m) ls -> (net_holds c (m ++ st) k ls net <-> net_holds c m k ls net).
Proof.
  induction ls as [|l ls IH]; intros [|f net] k H; simpl; try tauto. inversion H as [|? ? [A B] H2]; subst. rewrite IH by auto.
  unfold layer_holds. rewrite !holds_app_st, kal_app_st by auto. tauto.
Qed.
Lemma in_m_app m st ls : Forall (in_m m) ls -> Forall (in_m (m ++ st)) ls.
Proof. intros H. eapply Forall_impl; [|exact H]. unfold in_m. intros l. rewrite app_length. lia. Qed.

Lemma oci_app_inv m st m' rs : only_changes_in (m ++ st) m' rs -> (forall r, In r rs -> blk (fst r) < length m) ->
  exists m1, m' = m1 ++ st /\ only_changes_in m m1 rs.
Proof.
  intros (A & B & C & D) H. rewrite app_length in A.
  assert (E : skipn (length m) m' = st).
  { apply nth_error_ext. intros k. rewrite nth_error_skipn'.
    specialize (B (length m + k)). specialize (C (length m + k)).
    rewrite nth_error_app2 in B, C by lia. replace (length m + k - length m) with k in B, C by lia.
    assert (D' : forall j, cell_at m' (length m + k) j = cell_at (m ++ st) (length m + k) j).
    { intros j. apply D. intros p n HI [E1 _]. specialize (H _ HI). simpl in H. lia. }
    unfold cell_at in D'. rewrite (nth_error_app2 m st) in D' by lia. replace (length m + k - length m) with k in D' by lia.
    destruct (nth_error m' (length m + k)) as [b1|], (nth_error st k) as [b2|]; simpl in *; try discriminate; auto.
    f_equal. destruct b1 as [ba ca], b2 as [bb cb]. simpl in *. inversion B. f_equal. apply nth_error_ext. auto. }
  exists (firstn (length m) m'). split. { rewrite <- E. symmetry. apply firstn_skipn. }
  assert (N : forall k, k < length m -> nth_error (firstn (length m) m') k = nth_error m' k) by (intros; apply nth_error_firstn_lt; auto).
  split; [rewrite firstn_length; lia|].
  assert (O : forall k, ~ k < length m -> nth_error (firstn (length m) m') k = nth_error m k).
  { intros k Hk. rewrite !(proj2 (nth_error_None _ _)); auto; try lia. rewrite firstn_length. lia. }
  split; [|split].
  - intros b. destruct (Nat.lt_decidable b (length m)) as [L|L]; [|rewrite O; auto]. rewrite N, B, nth_error_app1; auto.
  - intros b. destruct (Nat.lt_decidable b (length m)) as [L|L]; [|rewrite O; auto]. rewrite N, C, nth_error_app1; auto.
  - intros b j Hn. unfold cell_at. destruct (Nat.lt_decidable b (length m)) as [L|L]; [|rewrite O; auto].
    specialize (D b j Hn). unfold cell_at in D. rewrite nth_error_app1 in D by auto. rewrite N; auto.
Qed.

Lemma oci_app m m' st rs : only_changes_in m m' rs -> only_changes_in (m ++ st) (m' ++ st) rs.
Proof.
  intros (A & B & C & D).
  assert (E : forall k, ~ k < length m -> nth_error (m' ++ st) k = nth_error (m ++ st) k).
  { intros k Hk. rewrite !nth_error_app2 by lia. rewrite A. reflexivity. }
  split; [rewrite !app_length; lia|]. split; [|split].
  - intros b. destruct (Nat.lt_decidable b (length m)) as [L|L]; [|rewrite E; auto]. rewrite !nth_error_app1 by lia. auto.
  - intros b. destruct (Nat.lt_decidable b (length m)) as [L|L]; [|rewrite E; auto]. rewrite !nth_error_app1 by lia. auto.
  - intros b j Hn. unfold cell_at. destruct (Nat.lt_decidable b (length m)) as [L|L]; [|rewrite E; auto].
    rewrite !nth_error_app1 by lia. apply (D b j Hn).
Qed.
End Suffix.

Lemma length_params_nn {FO : fops} c m k nn net : net_holds c m k (nn_layers nn) net -> length (params_list net) = total_n_parameters nn.
Proof. destruct nn as [lss ol]. apply length_params. Qed.

(** the parameter vector of a network as numbers of its layers *)
Fixpoint net_of {FO : fops} (ls : list layer) (th : list F) : list flayer :=
  match ls with
  | [] => []
  | l :: r =>
      let nb := n_output l in let nw := n_input l * n_output l in
      @Build_flayer FO (slice nb nw th) (firstn nb th) (l_act l) :: net_of r (skipn (nb + nw) th)
  end.

Section Epoch.
Context {FO : fops}.
Variable c : cfg.
Variable vexp : F -> F.
Hypothesis mulC : forall a b : F, fmul a b = fmul b a.

Lemma net_of_params m : forall ls net k, net_holds c m k ls net -> net_of ls (params_list net) = net.
Proof.
  induction ls as [|l ls IH]; intros [|f net] k H; simpl in H; try tauto; auto.
  destruct H as [(A & B & C & D & E & _) H]. simpl. fold (params_list net).
  assert (Lb : length (fb f) = n_output l) by (rewrite C; reflexivity).
  assert (Lw : length (fw f) = n_input l * n_output l) by (rewrite E, A, C; reflexivity).
  rewrite <- Lw, <- Lb. destruct f as [w b a]. simpl in *. f_equal.
  - f_equal; auto.
    + rewrite <- app_assoc. rewrite <- (Nat.add_0_r (length b)). rewrite slice_app_r. rewrite slice_app_l by lia. apply slice_0_all.
    + rewrite <- app_assoc. rewrite firstn_app, Nat.sub_diag, firstn_all. simpl. apply app_nil_r.
  - rewrite <- app_length, skipn_app, Nat.sub_diag, skipn_all. simpl. eapply IH; eauto.
Qed.

Variables (nn : neuralnet) (lf : loss) (X Y : ptr) (xs ts : list (list F)).
Let nns := neuralnet_set_loss nn (Some lf).
Let np := total_n_parameters nn.
Let ls := nn_layers nn.
Notation train_mem net m := (train_mem c nn lf net m X Y xs ts).
Notation clear p n := (clear nn X Y xs ts p n).

(** the parameters do not overlap each other nor the samples *)
Definition params_apart : Prop :=
  ForallOrdPairs dis (regions ls) /\
  forall r, In r (regions ls) -> dis r (X, length (concat xs)) /\ dis r (Y, length (concat ts)).
Hypothesis PA : params_apart.

(** the memory holds the parameter vector th *)
Definition holds_th (m : mem) (th : list F) : Prop := train_mem (net_of ls th) m /\ length th = np /\ params_list (net_of ls th) = th.

Lemma holds_th_intro m net : train_mem net m -> holds_th m (params_list net).
Proof.
  intros T. pose proof T as (H1 & H2 & _). pose proof (net_of_params _ _ _ _ H2) as E. unfold holds_th. fold ls in E. rewrite E.
  split; auto. split; auto. eapply length_params_nn; exact H2.
Qed.

Lemma train_pop net m st : Forall (in_m m) ls -> blk X < length m -> blk Y < length m -> train_mem net (m ++ st) -> train_mem net m.
Proof.
  intros IM BX BY (H1 & H2 & H3 & H4 & H5 & H6 & H7 & H8).
  split; auto. split; [eapply net_holds_pop; eauto|]. split; [eapply holds_app_st; eauto|]. split; [eapply holds_app_st; eauto|].
  split; [auto|]. split; [auto|]. split; [auto|]. pose proof (in_m_nns nn lf m IM) as IN.
  eapply train_align_addr; [| | |exact H8].
  - apply in_m_app. exact IN. - exact IN.
  - intros l Hl k. symmetry. apply addr_app_st. rewrite Forall_forall in IN. apply (IN l Hl).
Qed.
Lemma train_app net m st : train_mem net m -> train_mem net (m ++ st).
Proof.
  revert m. induction st as [|b st IH]; intros m T. { rewrite app_nil_r. auto. }
  replace (m ++ b :: st) with ((m ++ [b]) ++ st) by (rewrite <- app_assoc; reflexivity). apply IH. apply train_push. auto.
Qed.

Lemma th_app m st th : holds_th m th -> holds_th (m ++ st) th.
Proof. intros (A & B & C). split; auto. apply train_app. auto. Qed.
Lemma th_inm m th : holds_th m th -> Forall (in_m m) ls /\ blk X < length m /\ blk Y < length m.
Proof.
  intros ((H1 & H2 & H3 & H4 & _) & _). split; [eapply net_in_m; eauto|]. split; [exact (holds_blk _ _ _ H3)|exact (holds_blk _ _ _ H4)].
Qed.
Lemma th_oci m m' rs th : only_changes_in m m' rs -> (forall r, In r rs -> clear (fst r) (snd r)) -> holds_th m th -> holds_th m' th.
Proof. intros OC H (A & B & C). split; auto. eapply train_oci; eauto. Qed.
Lemma th_writem m p ys th : holds_th m th -> valid m p (length ys) -> clear p (length ys) -> holds_th (writem m p ys) th.
Proof. intros (A & B & C) V CL. split; auto. apply clear_writem; auto. Qed.

(** neuralnet_update with stack arrays [st] on top of the memory *)
Lemma update_st m st th p ds : holds_th m th -> holds (m ++ st) p ds -> length ds = np -> clear p np ->
  exists m', neuralnet_update c nns p (m ++ st) = Ok (tt, m' ++ st) /\ holds_th m' (map2 fadd th ds) /\
    only_changes_in m m' (regions ls).
Proof.
  intros T Hd Ld (CO & CX & CY). destruct PA as [PD PX]. pose proof (th_inm _ _ T) as (IM & BX & BY). destruct T as (T & Lth & Eth).
  pose proof (train_app _ _ st T) as TS. pose proof TS as (H1 & H2 & H3 & H4 & H5 & H6 & H7 & H8).
  unfold nns. rewrite update_nns. unfold neuralnet_update.
  destruct (update_layers_ok c ls (net_of ls th) (in_size nn) p (m ++ st) ds) as (m1 & net' & E & HN & FA & PL & OC); auto.
  { rewrite Eth. lia. } { rewrite Ld. auto. }
  destruct (oci_app_inv _ _ _ _ OC) as (m' & -> & OC').
  { apply regions_in_m. auto. }
  exists m'. split; [exact E|]. split; [|exact OC'].
  rewrite Eth in PL. rewrite <- PL. apply holds_th_intro.
  assert (LM : length m' = length m) by apply OC'.
  assert (IM' : Forall (in_m m') ls) by (eapply Forall_impl; [|exact IM]; unfold in_m; rewrite LM; auto).
  apply train_pop with (st := st); auto; try lia.
  split; auto. split; auto.
  split. { eapply oci_holds; eauto. intros q k Hq. apply (PX (q, k) Hq). }
  split. { eapply oci_holds; eauto. intros q k Hq. apply (PX (q, k) Hq). }
  split; [auto|]. split; [auto|]. split; [auto|].
  eapply train_align_addr; [| | |exact H8].
  - apply in_m_nns. apply in_m_app. auto.
  - apply in_m_nns. apply in_m_app. auto.
  - intros l Hl k. eapply oci_addr; eauto.
Qed.

(** *** the epoch loop *)
Variables (o : opt) (pv : list nat) (n : nat) (e : env).
Let bsz := o_batchsize o.
Hypothesis Ho : o_nn o = nns.
Hypothesis Hbsz : 0 < bsz.
Hypothesis Hpv : o_pivot o = Some pv.
Hypothesis Hpvl : length pv = n.
Hypothesis Hpvn : forall k, In k pv -> k < length xs.
(** the addresses the compiler chooses are aligned, the schedule executes every iteration once, the
    reduction finds floats behind the array *)
Definition env_ok : Prop := forall i,
  (forall b, aligned_base c (s_grad (e_sched e i) b)) /\ (forall b, aligned_base c (s_work (e_sched e i) b)) /\
  aligned_base c (e_bg e i) /\ aligned_base c (e_tmp e i) /\
  sched_ok (e_sched e i) (batch_size o n i) /\ length (e_over e i) = over_len c nn (e_sched e i).
Hypothesis EO : env_ok.

Definition n_batches : nat := (n + bsz - 1) / bsz.

Lemma epoch_ok {S T : Type} (step : nat -> S -> M (nat * S)) (I : T -> mem -> S -> Prop) (stepf : nat -> T -> T) :
  (forall i t m s, i < n -> I t m s -> exists m' s', step i s m = Ok ((i + batch_size o n i, s'), m') /\ I (stepf i t) m' s') ->
  forall t m s, I t m s ->
  exists m' s', epoch_loop (Datatypes.S n) step n 0 s m = Ok (s', m') /\
    I (fold_left (fun t k => stepf (k * bsz) t) (seq 0 n_batches) t) m' s'.
Proof.
  intros HS.
  assert (G : forall fuel k t m s, k <= n_batches -> n + 1 <= k + fuel -> I t m s ->
     exists m' s', epoch_loop fuel step n (Nat.min (k * bsz) n) s m = Ok (s', m') /\
       I (fold_left (fun t k => stepf (k * bsz) t) (seq k (n_batches - k)) t) m' s').
  { unfold n_batches. pose proof (Nat.div_mod (n + bsz - 1) bsz ltac:(lia)) as DM. pose proof (Nat.mod_upper_bound (n + bsz - 1) bsz ltac:(lia)) as DU. set (nb := (n + bsz - 1) / bsz) in *.
    assert (NB : nb <= n). { destruct (Nat.le_gt_cases nb n) as [L|L]; [exact L|exfalso]. assert (bsz * (n + 1) <= bsz * nb) by (apply Nat.mul_le_mono_l; lia). nia. }
    assert (DM1 : n <= nb * bsz) by nia. assert (DM2 : forall k, k < nb -> k * bsz < n) by (intros; nia). clear DM DU. clearbody nb.
    induction fuel as [|fuel IH]; intros k t m s Hk HF HI; [lia|]. simpl.
    destruct (Nat.eq_dec k nb) as [Ek|Hne].
    - subst k. rewrite Nat.min_r by nia. rewrite Nat.ltb_irrefl, Nat.sub_diag. simpl. exists m, s. split; [reflexivity|exact HI].
    - assert (Hi : k * bsz < n) by (apply DM2; lia). rewrite Nat.min_l by lia.
      destruct (Nat.ltb_spec (k * bsz) n); [|lia].
      destruct (HS (k * bsz) t m s Hi HI) as (m1 & s1 & E1 & I1).
      erewrite bind_ok by exact E1. cbv beta iota.
      replace (k * bsz + batch_size o n (k * bsz)) with (Nat.min ((k + 1) * bsz) n).
      2:{ unfold batch_size. fold bsz. destruct (Nat.ltb_spec (n - k * bsz) bsz); nia. }
      destruct (IH (k + 1) (stepf (k * bsz) t) m1 s1) as (m2 & s2 & E2 & I2); auto; try lia.
      exists m2, s2. split; auto. replace (nb - k) with (Datatypes.S (nb - (k + 1))) by lia. simpl.
      replace (Datatypes.S k) with (k + 1) by lia. exact I2. }
  intros t m s HI. destruct (G (Datatypes.S n) 0 t m s) as (m' & s' & E & I'); auto; try lia.
  simpl in E. rewrite Nat.sub_0_r in I'. eauto.
Qed.

(** *** the batch gradient as a function of the parameters *)
Definition bgrad (i : nat) (th : list F) : list F :=
  batch_grad_f c vexp nn lf xs ts pv (e_sched e i) i (net_of ls th) (batch_size o n i).

(** the stack array with the batch gradient *)
Definition stk (m : mem) (b : Z) (g over : list F) : mem := m ++ [mkblock b (map Some (g ++ over))].
Lemma calc_st m th i : holds_th m th -> i < n ->
  exists over,
  calc_batch_gradient c vexp (e_sched e i) o n X Y i (mkptr (length m) 0)
     (m ++ [mkblock (e_bg e i) (repeat None np ++ map Some (e_over e i))])
    = Ok (i + batch_size o n i, stk m (e_bg e i) (bgrad i th) over) /\ length (bgrad i th) = np.
Proof.
  intros T Hi. destruct (EO i) as (A1 & A2 & A3 & A4 & SO & OV). set (over := e_over e i) in *. set (s := e_sched e i) in *.
  exists (sched_over c nn s over).
  set (m1 := m ++ [mkblock (e_bg e i) (repeat None np ++ map Some over)]).
  pose proof T as (T0 & Lth & Eth).
  destruct (calc_ok c vexp mulC nn lf X Y xs ts o pv s i Ho Hpv Hpvn A1 A2 (net_of ls th) m1 (mkptr (length m) 0) over n) as (E & L1 & L2); auto.
  - apply train_app. auto.
  - lia.
  - apply valid_last. rewrite app_length, repeat_length. unfold np. lia.
  - exists (mkblock (e_bg e i) (repeat None np ++ map Some over)). simpl. unfold m1. rewrite nth_error_last. split; auto. simpl.
    fold np. rewrite app_length, repeat_length, map_length. split; [lia|].
    pose proof (slice_app_r 0 (length over) (repeat (@None F) np) (map Some over)) as SA. rewrite repeat_length, Nat.add_0_r in SA. rewrite SA.
    unfold slice. simpl. apply firstn_all2. rewrite map_length. auto.
  - eapply clear_last; [exact T0|]. lia.
  - apply al_kal. unfold m1. rewrite addr_last. change (4 * Z.of_nat 0)%Z with 0%Z. rewrite Z.add_0_r.
    pose proof (al_aligned_base c (e_bg e i) 0 A3 (Nat.divide_0_r _)) as A. rewrite Z.add_0_r in A. exact A.
  - split; [|exact L1]. rewrite E. f_equal. f_equal. unfold m1, bgrad, stk. fold s.
    set (g := batch_grad_f c vexp nn lf xs ts pv s i (net_of ls th) (batch_size o n i)) in *.
    rewrite writem_last. simpl. do 3 f_equal. unfold overwrite. simpl. rewrite !map_length, app_length.
    rewrite skipn_all2; [apply app_nil_r|]. rewrite app_length, repeat_length, map_length, L1, L2. unfold np. lia.
Qed.

Lemma stack_kal m b cs k : aligned_base c b -> kal c k (m ++ [mkblock b cs]) (mkptr (length m) 0).
Proof.
  intros A3. apply al_kal. rewrite addr_last. change (4 * Z.of_nat 0)%Z with 0%Z. rewrite Z.add_0_r.
  pose proof (al_aligned_base c b 0 A3 (Nat.divide_0_r _)) as A. rewrite Z.add_0_r in A. exact A.
Qed.
Lemma stack_hold m b g over : holds (stk m b g over) (mkptr (length m) 0) g.
Proof. pose proof (holds_last m b (g ++ over) (length g)) as H. rewrite firstn_app, Nat.sub_diag, firstn_all in H. simpl in H. rewrite app_nil_r in H. exact H. Qed.
Lemma stack_write m b g over g' : length g' = length g ->
  writem (stk m b g over) (mkptr (length m) 0) g' = stk m b g' over.
Proof.
  intros L. unfold stk. rewrite writem_last_map by (rewrite app_length; lia). do 4 f_equal.
  rewrite L, skipn_app, Nat.sub_diag, skipn_all. reflexivity.
Qed.

(** a state vector of the optimizer *)
Definition svec (m : mem) (p : ptr) (v : list F) : Prop := holds m p v /\ length v = np /\ clear p np /\ kal c np m p.
Lemma svec_oci m m' rs p v : only_changes_in m m' rs -> (forall r, In r rs -> dis r (p, np)) -> svec m p v -> svec m' p v.
Proof.
  intros OC H (A & B & C & D). split; [|split; [|split]]; auto.
  - eapply oci_holds; eauto. intros q k Hq. rewrite B. apply (H (q, k) Hq).
  - eapply oci_kal; eauto.
Qed.
Lemma svec_regions p r : clear p np -> In r (regions ls) -> dis r (p, np).
Proof.
  intros (A & _) Hr. pose proof (proj1 (off_params_regions p np ls) A r Hr) as D. unfold dis in *. apply disjoint_sym. auto.
Qed.
Lemma svec_writem m p v v' : svec m p v -> length v' = np -> svec (writem m p v') p v'.
Proof.
  intros (A & B & C & D) L. split; [|split; [|split]]; auto.
  - apply holds_writem_same. rewrite L, <- B. apply holds_valid; auto.
  - apply kal_writem. auto.
Qed.
Lemma svec_valid m p v k : svec m p v -> k = np -> valid m p k.
Proof. intros (A & B & _) ->. rewrite <- B. apply holds_valid; auto. Qed.
Lemma svec_blk m p v : svec m p v -> blk p < length m.
Proof. intros (A & _). exact (holds_blk _ _ _ A). Qed.

Lemma svec_app m st p v : svec m p v -> svec (m ++ st) p v.
Proof.
  intros H. pose proof (svec_blk _ _ _ H) as B. destruct H as (H1 & H2 & H3 & H4).
  split; [apply holds_app_st; auto|]. split; auto. split; auto. apply kal_app_st; auto.
Qed.
Lemma svec_stack m th b g over : holds_th m th -> length g = np -> aligned_base c b -> svec (stk m b g over) (mkptr (length m) 0) g.
Proof.
  intros (T & _) L A. split; [apply stack_hold|]. split; auto. split; [eapply clear_last; [exact T|lia]|]. apply stack_kal. auto.
Qed.

(** the kernels on state vectors *)
Lemma k_scale m p v x : svec m p v -> vector_scale c np p x m = Ok (tt, writem m p (map (fun y => fmul y x) v)).
Proof. intros (H1 & H2 & H3 & H4). revert H4. rewrite <- H2. intros. apply vector_scale_ok; auto. Qed.
Lemma k_acc m p v q w : svec m p v -> svec m q w -> disjoint p np q np ->
  vector_accumulate c np p q m = Ok (tt, writem m p (map2 fadd v w)).
Proof.
  intros (H1 & H2 & H3 & H4) (K1 & K2 & K3 & K4) D. revert H4 K4 D. rewrite <- H2. intros. apply vector_accumulate_ok; auto. lia.
Qed.
Lemma k_saxpy m p v q w a : svec m p v -> svec m q w -> disjoint p np q np ->
  vector_saxpy c np p a q m = Ok (tt, writem m p (map2 (fun x y => fadd x (fmul a y)) v w)).
Proof.
  intros (H1 & H2 & H3 & H4) (K1 & K2 & K3 & K4) D. revert H4 K4 D. rewrite <- H2. intros. apply vector_saxpy_ok; auto. lia.
Qed.
Lemma k_saxpby m p v q w a b : svec m p v -> svec m q w -> disjoint p np q np ->
  vector_saxpby c np p a q b m = Ok (tt, writem m p (map2 (fun x y => fadd (fmul b x) (fmul a y)) v w)).
Proof.
  intros (H1 & H2 & H3 & H4) (K1 & K2 & K3 & K4) D. revert H4 K4 D. rewrite <- H2. intros. apply vector_saxpby_ok; auto. lia.
Qed.
Lemma k_cu m p v q w a : svec m p v -> svec m q w -> disjoint p np q np ->
  compute_update c np p q a m = Ok (tt, writem m p (map2 (update_f a) v w)).
Proof.
  intros (H1 & H2 & H3 & H4) (K1 & K2 & K3 & K4) D. revert H4 K4 D. rewrite <- H2. intros. apply compute_update_ok; auto. lia.
Qed.
Lemma k_as m p v q w : svec m p v -> svec m q w -> disjoint p np q np ->
  accumulate_squared_gradient c np p q m = Ok (tt, writem m p (map2 (fun x y => fadd x (fmul y y)) v w)).
Proof.
  intros (H1 & H2 & H3 & H4) (K1 & K2 & K3 & K4) D. revert H4 K4 D. rewrite <- H2. intros. apply accumulate_squared_ok; auto. lia.
Qed.
Lemma k_fm m p v q w a : svec m p v -> svec m q w -> disjoint p np q np ->
  update_biased_first_moment c np p q a m = Ok (tt, writem m p (map2 (fun x y => fadd (fmul a x) (fmul (fsub f1 a) y)) v w)).
Proof.
  intros (H1 & H2 & H3 & H4) (K1 & K2 & K3 & K4) D. revert H4 K4 D. rewrite <- H2. intros. apply first_moment_ok; auto. lia.
Qed.
Lemma k_sm m p v q w a : svec m p v -> svec m q w -> disjoint p np q np ->
  update_biased_second_moment c np p q a m = Ok (tt, writem m p (second_moment_f c a v w)).
Proof.
  intros (H1 & H2 & H3 & H4) (K1 & K2 & K3 & K4) D. revert H4 K4 D. rewrite <- H2. intros. apply second_moment_ok; auto. lia.
Qed.

Lemma len_map2 {A B C} (f : A -> B -> C) v w : length v = np -> length w = np -> length (map2 f v w) = np.
Proof. intros. eapply length_map2_same; eauto. Qed.
Lemma blk_neq_disjoint p k q l : blk p <> blk q -> disjoint p k q l.
Proof. unfold disjoint. auto. Qed.

Lemma sv_write m p v v' : svec m p v -> length v' = np ->
  svec (writem m p v') p v' /\ only_changes_in m (writem m p v') [(p, np)].
Proof.
  intros H L. split; [eapply svec_writem; eauto|]. rewrite <- L. apply oci_writem; [eapply svec_valid; eauto|]. left. reflexivity.
Qed.
Lemma th_sv m p v v' th : holds_th m th -> svec m p v -> length v' = np -> holds_th (writem m p v') th.
Proof. intros T H L. apply th_writem; auto. { eapply svec_valid; eauto. } rewrite L. apply H. Qed.
Lemma sv_other m p v q w v' : svec m p v -> svec m q w -> disjoint p np q np -> length v' = np -> svec (writem m p v') q w.
Proof.
  intros H K D L. destruct (sv_write m p v v' H L) as [_ OC]. eapply svec_oci; [exact OC| |exact K].
  intros r [<-|[]]. exact D.
Qed.
Lemma sv_stk m b g over p v v' : svec m p v -> writem (stk m b g over) p v' = stk (writem m p v') b g over.
Proof. intros H. unfold stk. apply writem_app_st. eapply svec_blk; eauto. Qed.
Lemma stk_len m b g over m' b' g' over' : length m = length m' -> length (stk m b g over) = length (stk m' b' g' over').
Proof. intros. unfold stk. rewrite !app_length. simpl. lia. Qed.

Lemma update_sv m st th p v : holds_th m th -> svec (m ++ st) p v ->
  exists m', neuralnet_update c nns p (m ++ st) = Ok (tt, m' ++ st) /\ holds_th m' (map2 fadd th v) /\
    only_changes_in m m' (regions ls).
Proof. intros T (H1 & H2 & H3 & H4). apply update_st; auto. Qed.
Lemma svec_update m m' p v : only_changes_in m m' (regions ls) -> svec m p v -> svec m' p v.
Proof. intros OC H. eapply svec_oci; [exact OC| |exact H]. intros r Hr. apply svec_regions; auto. apply H. Qed.

(** *** SGD *)
Section SGD.
Variables (decay mu : F) (nest : bool) (V : ptr).
Definition sgd_of (t : list F * list F * F * nat) : sgd :=
  let '(_, _, lr, k) := t in {| sg_lr := lr; sg_decay := decay; sg_mu := mu; sg_nesterov := nest; sg_t := k; sg_v := V |}.
Definition sgd_step_f (G : list F -> list F) (t : list F * list F * F * nat) : list F * list F * F * nat :=
  let '(th, v, lr, k) := t in
  let lr' := decayed lr decay k in
  if fgt mu f0 then
    let v1 := map (fun y => fmul y mu) v in
    let th1 := if nest then map2 fadd th v1 else th in
    let d := map (fun y => fmul y (fneg lr')) (G th1) in
    let v2 := map2 fadd v1 d in
    (map2 fadd th1 (if nest then d else v2), v2, lr', k + 1)
  else
    let d := map (fun y => fmul y (fneg lr')) (G th) in
    (map2 fadd th d, v, lr', k + 1).
Definition sgd_inv (m0 : mem) (t : list F * list F * F * nat) (m : mem) (s : sgd) : Prop :=
  s = sgd_of t /\ holds_th m (fst (fst (fst t))) /\ svec m V (snd (fst (fst t))) /\ only_changes_in m0 m ((V, np) :: regions ls).

Lemma freea_stk m b g over : freea (stk m b g over) = Ok (tt, m).
Proof. unfold freea, stk. rewrite removelast_last. reflexivity. Qed.
Lemma freea_app m (b : block) : freea (m ++ [b]) = Ok (tt, m).
Proof. unfold freea. rewrite removelast_last. reflexivity. Qed.

Lemma sgd_step_ok m0 i t m s : i < n -> sgd_inv m0 t m s ->
  exists m' s', sgd_step c vexp e o n X Y i s m = Ok ((i + batch_size o n i, s'), m') /\
    sgd_inv m0 (sgd_step_f (bgrad i) t) m' s'.
Proof.
  intros Hi (-> & T & SV & OC). destruct t as [[[th v] lr] k]. simpl in T, SV.
  destruct (EO i) as (_ & _ & Ab & _). pose proof T as (_ & Lth & _). pose proof SV as (_ & Lv & _).
  unfold sgd_step. simpl sg_mu. simpl sg_v. simpl sg_lr. simpl sg_decay. simpl sg_t. simpl sg_nesterov.
  rewrite Ho. assert (TN : total_n_parameters nns = np) by apply total_nns. rewrite !TN. cbn beta zeta.
  set (lr' := decayed lr decay k).
  set (v1 := if fgt mu f0 then map (fun y => fmul y mu) v else v).
  set (th1 := if fgt mu f0 then if nest then map2 fadd th v1 else th else th).
  assert (L1 : length v1 = np) by (unfold v1; destruct (fgt mu f0); rewrite ?map_length; auto).
  assert (P1 : exists m1, (if fgt mu f0 then vector_scale c np V mu ;;; (if nest then neuralnet_update c nns V else ret tt) else ret tt) m = Ok (tt, m1)
    /\ holds_th m1 th1 /\ svec m1 V v1 /\ only_changes_in m m1 ((V, np) :: regions ls)).
  { unfold th1, v1 in *. destruct (fgt mu f0).
    - set (w := map (fun y => fmul y mu) v) in *. destruct (sv_write _ _ _ w SV L1) as [S1 O1].
      erewrite bind_ok by (apply k_scale; exact SV). fold w.
      pose proof (th_sv _ _ _ w _ T SV L1) as T1.
      destruct nest.
      + destruct (update_sv (writem m V w) [] th V w) as (m1 & E1 & T2 & O2); auto. { rewrite app_nil_r. exact S1. }
        rewrite !app_nil_r in E1. exists m1. split; [exact E1|]. split; [exact T2|]. split; [eapply svec_update; eauto|].
        eapply oci_trans. { eapply oci_incl; [|exact O1]. intros r [<-|[]]. left. reflexivity. }
        eapply oci_incl; [|exact O2]. intros r Hr. right. exact Hr.
      + exists (writem m V w). split; [reflexivity|]. split; auto. split; auto.
        eapply oci_incl; [|exact O1]. intros r [<-|[]]. left. reflexivity.
    - exists m. split; [reflexivity|]. split; auto. split; auto. apply oci_refl. }
  destruct P1 as (m1 & E1 & T1 & S1 & O1). erewrite bind_ok by exact E1.
  erewrite bind_ok by reflexivity.
  destruct (calc_st m1 th1 i T1 Hi) as (over & E2 & Lg). erewrite bind_ok by exact E2. set (g := bgrad i th1) in *.
  set (bg := mkptr (length m1) 0).
  set (d := map (fun y => fmul y (fneg lr')) g). assert (Ld : length d = np) by (unfold d; rewrite map_length; auto).
  erewrite bind_ok by (apply k_scale; eapply svec_stack; [exact T1|exact Lg|exact Ab]).
  rewrite stack_write by (rewrite map_length; reflexivity). fold d.
  pose proof (svec_stack m1 th1 (e_bg e i) d over T1 Ld Ab) as SD. fold bg in SD.
  assert (DV : disjoint V np bg np). { apply blk_neq_disjoint. pose proof (svec_blk _ _ _ S1). simpl. lia. }
  set (v2 := if fgt mu f0 then map2 fadd v1 d else v1).
  assert (L2 : length v2 = np) by (unfold v2; destruct (fgt mu f0); auto; apply len_map2; auto).
  assert (P2 : exists m2, (if fgt mu f0 then vector_accumulate c np V bg else ret tt) (stk m1 (e_bg e i) d over) = Ok (tt, stk m2 (e_bg e i) d over)
     /\ length m2 = length m1 /\ holds_th m2 th1 /\ svec m2 V v2 /\ only_changes_in m1 m2 ((V, np) :: regions ls)).
  { unfold v2 in *. destruct (fgt mu f0).
    - exists (writem m1 V (map2 fadd v1 d)). destruct (sv_write _ _ _ _ S1 L2) as [S2 O2].
      split; [|split; [|split; [|split]]].
      + erewrite k_acc; [|apply svec_app; exact S1|exact SD|exact DV]. f_equal. f_equal. eapply sv_stk; exact S1.
      + apply O2.
      + eapply th_sv; eauto.
      + exact S2.
      + eapply oci_incl; [|exact O2]. intros r [<-|[]]. left. reflexivity.
    - exists m1. split; [reflexivity|]. split; auto. split; auto. split; auto. apply oci_refl. }
  destruct P2 as (m2 & E3 & Lm2 & T2 & S2 & O2). erewrite bind_ok by exact E3.
  pose proof (svec_stack m2 th1 (e_bg e i) d over T2 Ld Ab) as SD2. rewrite Lm2 in SD2. fold bg in SD2.
  set (upd := if fgt mu f0 && negb nest then v2 else d).
  assert (P3 : exists m3, (if fgt mu f0 && negb nest then neuralnet_update c nns V else neuralnet_update c nns bg) (stk m2 (e_bg e i) d over)
     = Ok (tt, stk m3 (e_bg e i) d over) /\ holds_th m3 (map2 fadd th1 upd) /\ only_changes_in m2 m3 (regions ls)).
  { unfold upd. destruct (fgt mu f0 && negb nest).
    - apply update_sv; auto. apply svec_app. exact S2.
    - apply update_sv; auto. }
  destruct P3 as (m3 & E4 & T3 & O3). erewrite bind_ok by exact E4.
  erewrite bind_ok by apply freea_stk.
  eexists m3, _. split; [reflexivity|].
  assert (EQ : sgd_step_f (bgrad i) (th, v, lr, k) = (map2 fadd th1 upd, v2, lr', k + 1)).
  { unfold sgd_step_f, upd, v2, d, g, th1, v1. fold lr'. destruct (fgt mu f0), nest; reflexivity. }
  rewrite EQ. split; [reflexivity|]. split; [exact T3|]. split; [eapply svec_update; eauto|].
  eapply oci_trans; [exact OC|]. eapply oci_trans; [exact O1|]. eapply oci_trans; [exact O2|].
  eapply oci_incl; [|exact O3]. intros r Hr. right. exact Hr.
Qed.

Lemma sgd_epoch_ok m th v lr k : holds_th m th -> svec m V v ->
  exists m', let t' := fold_left (fun t j => sgd_step_f (bgrad (j * bsz)) t) (seq 0 n_batches) (th, v, lr, k) in
    sgd_epoch c vexp e o n X Y (sgd_of (th, v, lr, k)) m = Ok (sgd_of t', m') /\
    holds_th m' (fst (fst (fst t'))) /\ svec m' V (snd (fst (fst t'))) /\ only_changes_in m m' ((V, np) :: regions ls).
Proof.
  intros T SV.
  destruct (epoch_ok (sgd_step c vexp e o n X Y) (sgd_inv m) (fun i => sgd_step_f (bgrad i))) with (t := (th, v, lr, k)) (m := m) (s := sgd_of (th, v, lr, k))
    as (m' & s' & E & (-> & A & B & C)).
  - intros. apply sgd_step_ok; auto.
  - split; [reflexivity|]. split; auto. split; auto. apply oci_refl.
  - exists m'. cbv zeta. split; [exact E|]. split; auto.
Qed.
End SGD.

Ltac in_list := let r := fresh in let H := fresh in intros r H; simpl in *; tauto.

(** *** RMSprop *)
Section RMS.
Variables (decay rho mu : F) (nest : bool) (V Q : ptr).
Hypothesis VQ : disjoint V np Q np.
Definition rmst : Type := list F * list F * list F * F * nat.
Definition rms_of (t : rmst) : rmsprop :=
  let '(_, _, _, lr, k) := t in {| rm_lr := lr; rm_decay := decay; rm_rho := rho; rm_mu := mu; rm_nesterov := nest; rm_t := k; rm_v := V; rm_r := Q |}.
Definition rms_step_f (G : list F -> list F) (t : rmst) : rmst :=
  let '(th, v, r, lr, k) := t in
  let lr' := decayed lr decay k in
  let v1 := if fgt mu f0 then map (fun y => fmul y mu) v else v in
  let th1 := if fgt mu f0 then if nest then map2 fadd th v1 else th else th in
  let g := G th1 in
  let r1 := map2 (fun x y => fadd (fmul rho x) (fmul (fsub f1 rho) y)) r (map (fun x => fmul x x) g) in
  let d := map2 (update_f lr') g r1 in
  let v2 := if fgt mu f0 then map2 fadd v1 d else v1 in
  (map2 fadd th1 (if fgt mu f0 && negb nest then v2 else d), v2, r1, lr', k + 1).
Definition rms_inv (m0 : mem) (t : rmst) (m : mem) (s : rmsprop) : Prop :=
  s = rms_of t /\ holds_th m (fst (fst (fst (fst t)))) /\ svec m V (snd (fst (fst (fst t)))) /\ svec m Q (snd (fst (fst t))) /\
  only_changes_in m0 m ((V, np) :: (Q, np) :: regions ls).

Lemma rms_step_ok m0 i t m s : i < n -> rms_inv m0 t m s ->
  exists m' s', rmsprop_step c vexp e o n X Y i s m = Ok ((i + batch_size o n i, s'), m') /\
    rms_inv m0 (rms_step_f (bgrad i) t) m' s'.
Proof.
  intros Hi (-> & T & SV & SQ & OC). destruct t as [[[[th v] r] lr] k]. simpl in T, SV, SQ.
  destruct (EO i) as (_ & _ & Ab & At & _). pose proof T as (_ & Lth & _). pose proof SV as (_ & Lv & _). pose proof SQ as (_ & Lr & _).
  assert (QV : disjoint Q np V np) by (apply disjoint_sym; exact VQ).
  unfold rmsprop_step. simpl rm_mu. simpl rm_v. simpl rm_lr. simpl rm_decay. simpl rm_t. simpl rm_nesterov. simpl rm_r. simpl rm_rho.
  rewrite Ho. assert (TN : total_n_parameters nns = np) by apply total_nns. rewrite !TN. cbn beta zeta.
  set (lr' := decayed lr decay k).
  set (v1 := if fgt mu f0 then map (fun y => fmul y mu) v else v).
  set (th1 := if fgt mu f0 then if nest then map2 fadd th v1 else th else th).
  assert (L1 : length v1 = np) by (unfold v1; destruct (fgt mu f0); rewrite ?map_length; auto).
  assert (P1 : exists m1, (if fgt mu f0 then vector_scale c np V mu ;;; (if nest then neuralnet_update c nns V else ret tt) else ret tt) m = Ok (tt, m1)
    /\ holds_th m1 th1 /\ svec m1 V v1 /\ svec m1 Q r /\ only_changes_in m m1 ((V, np) :: (Q, np) :: regions ls)).
  { unfold th1, v1 in *. destruct (fgt mu f0).
    - set (w := map (fun y => fmul y mu) v) in *. destruct (sv_write _ _ _ w SV L1) as [S1 O1].
      erewrite bind_ok by (apply k_scale; exact SV). fold w.
      pose proof (th_sv _ _ _ w _ T SV L1) as T1. pose proof (sv_other _ _ _ _ _ w SV SQ VQ L1) as R1.
      destruct nest.
      + destruct (update_sv (writem m V w) [] th V w) as (m1 & E1 & T2 & O2); auto. { rewrite app_nil_r. exact S1. }
        rewrite !app_nil_r in E1. exists m1. split; [exact E1|]. split; [exact T2|]. split; [eapply svec_update; eauto|].
        split; [eapply svec_update; eauto|].
        eapply oci_trans. { eapply oci_incl; [|exact O1]. in_list. }
        eapply oci_incl; [|exact O2]. in_list.
      + exists (writem m V w). split; [reflexivity|]. split; auto. split; auto. split; auto.
        eapply oci_incl; [|exact O1]. in_list.
    - exists m. split; [reflexivity|]. split; auto. split; auto. split; auto. apply oci_refl. }
  destruct P1 as (m1 & E1 & T1 & S1 & R1 & O1). erewrite bind_ok by exact E1.
  erewrite bind_ok by reflexivity.
  destruct (calc_st m1 th1 i T1 Hi) as (over & E2 & Lg). erewrite bind_ok by exact E2. set (g := bgrad i th1) in *.
  set (bg := mkptr (length m1) 0). set (b := e_bg e i) in *. set (tb := e_tmp e i) in *.
  (* g2 *)
  erewrite bind_ok by reflexivity. set (g2 := mkptr (length (stk m1 b g over)) 0).
  set (sq := map (fun x => fmul x x) g). assert (Lsq : length sq = np) by (unfold sq; rewrite map_length; auto).
  pose proof (svec_stack m1 th1 b g over T1 Lg Ab) as SG. fold bg in SG.
  assert (Lst : length (stk m1 b g over) = length m1 + 1) by (unfold stk; rewrite app_length; reflexivity).
  assert (D2 : forall p v', svec m1 p v' -> disjoint p np g2 np).
  { intros p v' H. apply blk_neq_disjoint. pose proof (svec_blk _ _ _ H). unfold g2. rewrite Lst. simpl. lia. }
  assert (D1 : forall p v', svec m1 p v' -> disjoint p np bg np).
  { intros p v' H. apply blk_neq_disjoint. pose proof (svec_blk _ _ _ H). simpl. lia. }
  assert (Dg : disjoint g2 np bg np) by (apply blk_neq_disjoint; unfold g2; rewrite Lst; simpl; lia).
  erewrite bind_ok.
  2:{ apply vector_square_elements_ok with (xs := g); auto.
      - apply valid_last. rewrite repeat_length. lia.
      - apply holds_app_st; [simpl; lia|]. apply SG.
      - apply stack_kal. exact At.
      - apply kal_app_st; [simpl; lia|]. apply SG. }
  fold sq.
  replace (writem (stk m1 b g over ++ [mkblock tb (repeat None np)]) g2 sq) with (stk (stk m1 b g over) tb sq []).
  2:{ unfold g2. rewrite writem_last. simpl. unfold stk at 1. do 3 f_equal. unfold overwrite. simpl.
      rewrite skipn_all2 by (rewrite repeat_length, map_length; lia). rewrite !app_nil_r. reflexivity. }
  pose proof (th_app _ [mkblock b (map Some (g ++ over))] _ T1) as T1'. fold (stk m1 b g over) in T1'.
  pose proof (svec_stack _ th1 tb sq [] T1' Lsq At) as S2. fold g2 in S2.
  (* r *)
  set (r1 := map2 (fun x y => fadd (fmul rho x) (fmul (fsub f1 rho) y)) r sq).
  assert (Lr1 : length r1 = np) by (apply len_map2; auto).
  erewrite bind_ok by (apply k_saxpby; [apply svec_app; apply svec_app; exact R1|exact S2|exact (D2 _ _ R1)]).
  erewrite sv_stk by (apply svec_app; exact R1). erewrite sv_stk by exact R1. fold r1.
  destruct (sv_write _ _ _ _ R1 Lr1) as [R2 O2]. pose proof (th_sv _ _ _ _ _ T1 R1 Lr1) as T2.
  pose proof (sv_other _ _ _ _ _ _ R1 S1 QV Lr1) as V2.
  set (m2 := writem m1 Q r1) in *.
  assert (Lm2 : length m2 = length m1) by apply O2.
  pose proof (svec_stack m2 th1 b g over T2 Lg Ab) as SG2. rewrite Lm2 in SG2. fold bg in SG2.
  (* update *)
  set (d := map2 (update_f lr') g r1). assert (Ld : length d = np) by (apply len_map2; auto).
  erewrite bind_ok by (apply k_cu; [apply svec_app; exact SG2|apply svec_app; apply svec_app; exact R2|apply disjoint_sym; exact (D1 _ _ R1)]).
  fold d. erewrite sv_stk by exact SG2.
  replace (writem (stk m2 b g over) bg d) with (stk m2 b d over).
  2:{ unfold bg. rewrite <- Lm2. symmetry. apply stack_write. lia. }
  pose proof (svec_stack m2 th1 b d over T2 Ld Ab) as SD. rewrite Lm2 in SD. fold bg in SD.
  set (v2 := if fgt mu f0 then map2 fadd v1 d else v1).
  assert (L2 : length v2 = np) by (unfold v2; destruct (fgt mu f0); auto; apply len_map2; auto).
  assert (P2 : exists m3, (if fgt mu f0 then vector_accumulate c np V bg else ret tt) (stk (stk m2 b d over) tb sq []) = Ok (tt, stk (stk m3 b d over) tb sq [])
     /\ length m3 = length m2 /\ holds_th m3 th1 /\ svec m3 V v2 /\ svec m3 Q r1 /\ only_changes_in m2 m3 ((V, np) :: (Q, np) :: regions ls)).
  { unfold v2 in *. destruct (fgt mu f0).
    - exists (writem m2 V (map2 fadd v1 d)). destruct (sv_write _ _ _ _ V2 L2) as [S4 O4].
      split; [|split; [|split; [|split; [|split]]]].
      + erewrite k_acc; [|apply svec_app; apply svec_app; exact V2|apply svec_app; exact SD|exact (D1 _ _ S1)]. f_equal. f_equal.
        erewrite sv_stk by (apply svec_app; exact V2). erewrite sv_stk by exact V2. reflexivity.
      + apply O4.
      + eapply th_sv; eauto.
      + exact S4.
      + eapply sv_other; eauto.
      + eapply oci_incl; [|exact O4]. in_list.
    - exists m2. split; [reflexivity|]. split; auto. split; auto. split; auto. split; auto. apply oci_refl. }
  destruct P2 as (m3 & E3 & Lm3 & T3 & S3 & R3 & O3). erewrite bind_ok by exact E3.
  pose proof (svec_stack m3 th1 b d over T3 Ld Ab) as SD3. rewrite Lm3, Lm2 in SD3. fold bg in SD3.
  set (upd := if fgt mu f0 && negb nest then v2 else d).
  assert (P3 : exists m4, (if fgt mu f0 && negb nest then neuralnet_update c nns V else neuralnet_update c nns bg) (stk (stk m3 b d over) tb sq [])
     = Ok (tt, stk (stk m4 b d over) tb sq []) /\ holds_th m4 (map2 fadd th1 upd) /\ only_changes_in m3 m4 (regions ls)).
  { unfold upd, stk in *. rewrite <- app_assoc. destruct (fgt mu f0 && negb nest).
    - destruct (update_sv m3 ([mkblock b (map Some (d ++ over))] ++ [mkblock tb (map Some (sq ++ []))]) th1 V v2 T3) as (m4 & E4 & T4 & O4).
      { apply svec_app. exact S3. } exists m4. rewrite <- app_assoc. auto.
    - destruct (update_sv m3 ([mkblock b (map Some (d ++ over))] ++ [mkblock tb (map Some (sq ++ []))]) th1 bg d T3) as (m4 & E4 & T4 & O4).
      { rewrite app_assoc. apply svec_app. exact SD3. } exists m4. rewrite <- app_assoc. auto. }
  destruct P3 as (m4 & E4 & T4 & O4). erewrite bind_ok by exact E4.
  erewrite bind_ok by apply freea_stk. erewrite bind_ok by apply freea_stk.
  eexists m4, _. split; [reflexivity|].
  assert (EQ : rms_step_f (bgrad i) (th, v, r, lr, k) = (map2 fadd th1 upd, v2, r1, lr', k + 1)).
  { unfold rms_step_f, upd, v2, d, r1, sq, g, th1, v1. reflexivity. }
  rewrite EQ. split; [reflexivity|]. split; [exact T4|]. split; [eapply svec_update; eauto|]. split; [eapply svec_update; eauto|].
  eapply oci_trans; [exact OC|]. eapply oci_trans; [exact O1|]. eapply oci_trans; [eapply oci_incl; [|exact O2]; in_list|].
  eapply oci_trans; [exact O3|]. eapply oci_incl; [|exact O4]. in_list.
Qed.

Lemma rms_epoch_ok m th v r lr k : holds_th m th -> svec m V v -> svec m Q r ->
  exists m', let t' := fold_left (fun t j => rms_step_f (bgrad (j * bsz)) t) (seq 0 n_batches) (th, v, r, lr, k) in
    rmsprop_epoch c vexp e o n X Y (rms_of (th, v, r, lr, k)) m = Ok (rms_of t', m') /\
    holds_th m' (fst (fst (fst (fst t')))) /\ svec m' V (snd (fst (fst (fst t')))) /\ svec m' Q (snd (fst (fst t'))) /\
    only_changes_in m m' ((V, np) :: (Q, np) :: regions ls).
Proof.
  intros T SV SQ.
  destruct (epoch_ok (rmsprop_step c vexp e o n X Y) (rms_inv m) (fun i => rms_step_f (bgrad i))) with (t := (th, v, r, lr, k)) (m := m) (s := rms_of (th, v, r, lr, k))
    as (m' & s' & E & (-> & A & B & C)).
  - intros. apply rms_step_ok; auto.
  - split; [reflexivity|]. split; auto. split; auto. split; auto. apply oci_refl.
  - exists m'. cbv zeta. split; [exact E|]. split; auto.
Qed.
End RMS.

(** *** Adagrad *)
Section AdaGrad.
Variables (decay : F) (Q : ptr).
Definition agt : Type := list F * list F * F * nat.
Definition ag_of (t : agt) : adagrad := let '(_, _, lr, k) := t in {| ag_lr := lr; ag_decay := decay; ag_t := k; ag_r := Q |}.
Definition ag_step_f (G : list F -> list F) (t : agt) : agt :=
  let '(th, r, lr, k) := t in
  let lr' := decayed lr decay k in
  let g := G th in
  let r1 := map2 (fun x y => fadd x (fmul y y)) r g in
  (map2 fadd th (map2 (update_f lr') g r1), r1, lr', k + 1).
Definition ag_inv (m0 : mem) (t : agt) (m : mem) (s : adagrad) : Prop :=
  s = ag_of t /\ holds_th m (fst (fst (fst t))) /\ svec m Q (snd (fst (fst t))) /\ only_changes_in m0 m ((Q, np) :: regions ls).

Lemma ag_step_ok m0 i t m s : i < n -> ag_inv m0 t m s ->
  exists m' s', adagrad_step c vexp e o n X Y i s m = Ok ((i + batch_size o n i, s'), m') /\
    ag_inv m0 (ag_step_f (bgrad i) t) m' s'.
Proof.
  intros Hi (-> & T1 & R1 & OC). destruct t as [[[th r] lr] k]. simpl in T1, R1.
  destruct (EO i) as (_ & _ & Ab & _). pose proof T1 as (_ & Lth & _). pose proof R1 as (_ & Lr & _).
  unfold adagrad_step. simpl ag_lr. simpl ag_decay. simpl ag_t. simpl ag_r.
  rewrite Ho. assert (TN : total_n_parameters nns = np) by apply total_nns. rewrite !TN. cbn beta zeta.
  set (lr' := decayed lr decay k).
  erewrite bind_ok by reflexivity.
  destruct (calc_st m th i T1 Hi) as (over & E2 & Lg). erewrite bind_ok by exact E2. set (g := bgrad i th) in *.
  set (bg := mkptr (length m) 0). set (b := e_bg e i) in *.
  pose proof (svec_stack m th b g over T1 Lg Ab) as SG. fold bg in SG.
  assert (D1 : disjoint Q np bg np).
  { apply blk_neq_disjoint. pose proof (svec_blk _ _ _ R1). simpl. lia. }
  set (r1 := map2 (fun x y => fadd x (fmul y y)) r g).
  assert (Lr1 : length r1 = np) by (apply len_map2; auto).
  erewrite bind_ok by (apply k_as; [apply svec_app; exact R1|exact SG|exact D1]).
  erewrite sv_stk by exact R1. fold r1.
  destruct (sv_write _ _ _ _ R1 Lr1) as [R2 O2]. pose proof (th_sv _ _ _ _ _ T1 R1 Lr1) as T2.
  set (m2 := writem m Q r1) in *.
  assert (Lm2 : length m2 = length m) by apply O2.
  pose proof (svec_stack m2 th b g over T2 Lg Ab) as SG2. rewrite Lm2 in SG2. fold bg in SG2.
  set (d := map2 (update_f lr') g r1). assert (Ld : length d = np) by (apply len_map2; auto).
  erewrite bind_ok by (apply k_cu; [exact SG2|apply svec_app; exact R2|apply disjoint_sym; exact D1]).
  fold d. replace (writem (stk m2 b g over) bg d) with (stk m2 b d over).
  2:{ unfold bg. rewrite <- Lm2. symmetry. apply stack_write. lia. }
  pose proof (svec_stack m2 th b d over T2 Ld Ab) as SD. rewrite Lm2 in SD. fold bg in SD.
  destruct (update_sv m2 [mkblock b (map Some (d ++ over))] th bg d T2 SD) as (m4 & E4 & T4 & O4).
  erewrite bind_ok by exact E4. erewrite bind_ok by apply freea_app.
  eexists m4, _. split; [reflexivity|]. split; [reflexivity|]. split; [exact T4|]. split; [eapply svec_update; eauto|].
  eapply oci_trans; [exact OC|]. eapply oci_trans; [eapply oci_incl; [|exact O2]; in_list|].
  eapply oci_incl; [|exact O4]. in_list.
Qed.

Lemma ag_epoch_ok m th r lr k : holds_th m th -> svec m Q r ->
  exists m', let t' := fold_left (fun t j => ag_step_f (bgrad (j * bsz)) t) (seq 0 n_batches) (th, r, lr, k) in
    adagrad_epoch c vexp e o n X Y (ag_of (th, r, lr, k)) m = Ok (ag_of t', m') /\
    holds_th m' (fst (fst (fst t'))) /\ svec m' Q (snd (fst (fst t'))) /\ only_changes_in m m' ((Q, np) :: regions ls).
Proof.
  intros T SV.
  destruct (epoch_ok (adagrad_step c vexp e o n X Y) (ag_inv m) (fun i => ag_step_f (bgrad i))) with (t := (th, r, lr, k)) (m := m) (s := ag_of (th, r, lr, k))
    as (m' & s' & E & (-> & A & B & C)).
  - intros. apply ag_step_ok; auto.
  - split; [reflexivity|]. split; auto. split; auto. apply oci_refl.
  - exists m'. cbv zeta. split; [exact E|]. split; auto.
Qed.
End AdaGrad.

(** *** Adam *)
Section Adam.
Variables (lr beta1 beta2 wd : F) (Q W : ptr).
Hypothesis QW : disjoint Q np W np.
(** parameters, r (second moment), s (first moment), the two static correction factors *)
Definition adt : Type := list F * list F * list F * (F * F).
Definition ad_rec : adam := {| ad_lr := lr; ad_beta1 := beta1; ad_beta2 := beta2; ad_wd := wd; ad_r := Q; ad_s := W |}.
Definition ad_step_f (G : list F -> list F) (t : adt) : adt :=
  let '(th, r, s, st) := t in
  let g := G th in
  let b1 := fmul (fst st) beta1 in
  let b2 := fmul (snd st) beta2 in
  let s1 := map2 (fun x y => fadd (fmul beta1 x) (fmul (fsub f1 beta1) y)) s g in
  let r1 := second_moment_f c beta2 r g in
  let d := map2 (adam_f b1 b2 lr) s1 r1 in
  let d' := if fgt wd f0 then map2 (fun x y => fadd x (fmul (fneg wd) y)) d th else d in
  (map2 fadd th d', r1, s1, (b1, b2)).
Definition ad_inv (m0 : mem) (t : adt) (m : mem) (st : adam_static) : Prop :=
  st = snd t /\ holds_th m (fst (fst (fst t))) /\ svec m Q (snd (fst (fst t))) /\ svec m W (snd (fst t)) /\
  only_changes_in m0 m ((Q, np) :: (W, np) :: regions ls).

Lemma ad_step_ok m0 i t m st : i < n -> ad_inv m0 t m st ->
  exists m' st', adam_step c vexp e o n X Y ad_rec i st m = Ok ((i + batch_size o n i, st'), m') /\
    ad_inv m0 (ad_step_f (bgrad i) t) m' st'.
Proof.
  intros Hi (-> & T1 & R1 & S1 & OC). destruct t as [[[th r] s] st]. simpl in T1, R1, S1. simpl snd.
  destruct (EO i) as (_ & _ & Ab & At & _). pose proof T1 as (T0 & Lth & Eth). pose proof R1 as (_ & Lr & _). pose proof S1 as (_ & Ls & _).
  assert (WQ : disjoint W np Q np) by (apply disjoint_sym; exact QW).
  unfold adam_step. simpl ad_lr. simpl ad_beta1. simpl ad_beta2. simpl ad_wd. simpl ad_r. simpl ad_s.
  rewrite Ho. assert (TN : total_n_parameters nns = np) by apply total_nns. rewrite !TN. cbn beta zeta.
  erewrite bind_ok by reflexivity.
  destruct (calc_st m th i T1 Hi) as (over & E2 & Lg). erewrite bind_ok by exact E2. set (g := bgrad i th) in *.
  set (bg := mkptr (length m) 0). set (b := e_bg e i) in *. set (tb := e_tmp e i) in *.
  set (b1 := fmul (fst st) beta1). set (b2 := fmul (snd st) beta2).
  pose proof (svec_stack m th b g over T1 Lg Ab) as SG. fold bg in SG.
  assert (D1 : forall p v', svec m p v' -> disjoint p np bg np).
  { intros p v' H. apply blk_neq_disjoint. pose proof (svec_blk _ _ _ H). simpl. lia. }
  set (s1 := map2 (fun x y => fadd (fmul beta1 x) (fmul (fsub f1 beta1) y)) s g).
  assert (Ls1 : length s1 = np) by (apply len_map2; auto).
  set (r1 := second_moment_f c beta2 r g).
  assert (Lr1 : length r1 = np). { unfold r1, second_moment_f. rewrite length_lanes2; lia. }
  assert (P : exists m2, (if e_swap e i then
      update_biased_second_moment c np Q bg beta2 ;;; update_biased_first_moment c np W bg beta1
    else update_biased_first_moment c np W bg beta1 ;;; update_biased_second_moment c np Q bg beta2) (stk m b g over) = Ok (tt, stk m2 b g over)
    /\ length m2 = length m /\ holds_th m2 th /\ svec m2 Q r1 /\ svec m2 W s1 /\ only_changes_in m m2 ((Q, np) :: (W, np) :: regions ls)).
  { destruct (e_swap e i).
    - erewrite bind_ok by (apply k_sm; [apply svec_app; exact R1|exact SG|exact (D1 _ _ R1)]).
      erewrite sv_stk by exact R1. fold r1.
      destruct (sv_write _ _ _ _ R1 Lr1) as [R2 O2]. pose proof (th_sv _ _ _ _ _ T1 R1 Lr1) as T2.
      pose proof (sv_other _ _ _ _ _ _ R1 S1 QW Lr1) as S2. set (m2 := writem m Q r1) in *.
      assert (Lm2 : length m2 = length m) by apply O2.
      pose proof (svec_stack m2 th b g over T2 Lg Ab) as SG2. rewrite Lm2 in SG2. fold bg in SG2.
      exists (writem m2 W s1). destruct (sv_write _ _ _ _ S2 Ls1) as [S3 O3].
      split; [|split; [|split; [|split; [|split]]]].
      + erewrite k_fm; [|apply svec_app; exact S2|exact SG2|exact (D1 _ _ S1)]. fold s1. f_equal. f_equal. eapply sv_stk. exact S2.
      + rewrite <- Lm2. apply O3.
      + eapply th_sv; eauto.
      + eapply sv_other; eauto.
      + exact S3.
      + eapply oci_trans; (eapply oci_incl; [|eassumption]; in_list).
    - erewrite bind_ok by (apply k_fm; [apply svec_app; exact S1|exact SG|exact (D1 _ _ S1)]).
      erewrite sv_stk by exact S1. fold s1.
      destruct (sv_write _ _ _ _ S1 Ls1) as [S2 O2]. pose proof (th_sv _ _ _ _ _ T1 S1 Ls1) as T2.
      pose proof (sv_other _ _ _ _ _ _ S1 R1 WQ Ls1) as R2. set (m2 := writem m W s1) in *.
      assert (Lm2 : length m2 = length m) by apply O2.
      pose proof (svec_stack m2 th b g over T2 Lg Ab) as SG2. rewrite Lm2 in SG2. fold bg in SG2.
      exists (writem m2 Q r1). destruct (sv_write _ _ _ _ R2 Lr1) as [R3 O3].
      split; [|split; [|split; [|split; [|split]]]].
      + erewrite k_sm; [|apply svec_app; exact R2|exact SG2|exact (D1 _ _ R1)]. fold r1. f_equal. f_equal. eapply sv_stk. exact R2.
      + rewrite <- Lm2. apply O3.
      + eapply th_sv; eauto.
      + exact R3.
      + eapply sv_other; eauto.
      + eapply oci_trans; (eapply oci_incl; [|eassumption]; in_list). }
  destruct P as (m2 & E3 & Lm2 & T2 & R2 & S2 & O2). erewrite bind_ok by exact E3.
  pose proof (svec_stack m2 th b g over T2 Lg Ab) as SG2. rewrite Lm2 in SG2. fold bg in SG2.
  set (d := map2 (adam_f b1 b2 lr) s1 r1). assert (Ld : length d = np) by (apply len_map2; auto).
  erewrite bind_ok.
  2:{ rewrite <- Ls1. apply compute_update_adam_ok with (ys := r1); rewrite ?Ls1.
      - eapply svec_valid; [exact SG2|reflexivity]. - apply holds_app_st; [eapply svec_blk; eauto|]. apply S2.
      - apply holds_app_st; [eapply svec_blk; eauto|]. apply R2. - exact Lr1.
      - apply disjoint_sym. exact (D1 _ _ S1). - apply disjoint_sym. exact (D1 _ _ R1).
      - apply SG2. - apply kal_app_st; [eapply svec_blk; eauto|]. apply S2. - apply kal_app_st; [eapply svec_blk; eauto|]. apply R2. }
  fold d. replace (writem (stk m2 b g over) bg d) with (stk m2 b d over).
  2:{ unfold bg. rewrite <- Lm2. symmetry. apply stack_write. lia. }
  pose proof (svec_stack m2 th b d over T2 Ld Ab) as SD. rewrite Lm2 in SD. fold bg in SD.
  set (d' := if fgt wd f0 then map2 (fun x y => fadd x (fmul (fneg wd) y)) d th else d).
  assert (Ld' : length d' = np) by (unfold d'; destruct (fgt wd f0); auto; apply len_map2; auto).
  assert (P : (if fgt wd f0 then
     w <- alloca tb np ;; neuralnet_get_parameters nns w ;;; vector_saxpy c np bg (fneg wd) w ;;; freea
    else ret tt) (stk m2 b d over) = Ok (tt, stk m2 b d' over)).
  { unfold d' in *. destruct (fgt wd f0); [|reflexivity].
    erewrite bind_ok by reflexivity. set (w := mkptr (length (stk m2 b d over)) 0).
    assert (Lst : length (stk m2 b d over) = length m + 1) by (unfold stk; rewrite app_length, Lm2; reflexivity).
    pose proof (th_app _ [mkblock b (map Some (d ++ over))] _ T2) as T2'. fold (stk m2 b d over) in T2'.
    unfold nns. rewrite get_nns. unfold neuralnet_get_parameters.
    pose proof T2' as ((H1 & H2 & _) & _ & _).
    erewrite bind_ok.
    2:{ eapply (get_layers_ok c ls (net_of ls th)).
        - eapply net_holds_pop; [eapply net_in_m; exact H2|exact H2].
        - rewrite Eth. apply valid_last. rewrite repeat_length. lia.
        - rewrite Eth, Lth. eapply clear_last; [exact (proj1 T2')|]. lia. }
    rewrite Eth.
    replace (writem (stk m2 b d over ++ [mkblock tb (repeat None np)]) w th) with (stk (stk m2 b d over) tb th []).
    2:{ unfold w. rewrite writem_last. simpl. unfold stk at 1. do 3 f_equal. unfold overwrite. simpl.
        rewrite skipn_all2 by (rewrite repeat_length, map_length; lia). rewrite !app_nil_r. reflexivity. }
    pose proof (svec_stack _ th tb th [] T2' Lth At) as SW. fold w in SW.
    erewrite bind_ok by (apply k_saxpy; [apply svec_app; exact SD|exact SW|apply blk_neq_disjoint; unfold w; rewrite Lst; simpl; lia]).
    erewrite sv_stk by exact SD. unfold stk at 1. rewrite freea_app. f_equal. f_equal.
    unfold bg. rewrite <- Lm2. apply stack_write. lia. }
  erewrite bind_ok by exact P. clear P.
  pose proof (svec_stack m2 th b d' over T2 Ld' Ab) as SD'. rewrite Lm2 in SD'. fold bg in SD'.
  destruct (update_sv m2 [mkblock b (map Some (d' ++ over))] th bg d' T2 SD') as (m4 & E4 & T4 & O4).
  erewrite bind_ok by exact E4. erewrite bind_ok by apply freea_app.
  eexists m4, _. split; [reflexivity|]. split; [reflexivity|]. split; [exact T4|].
  split; [eapply svec_update; eauto|]. split; [eapply svec_update; eauto|].
  eapply oci_trans; [exact OC|]. eapply oci_trans; [exact O2|]. eapply oci_incl; [|exact O4]. in_list.
Qed.

Lemma ad_epoch_ok m th r s st : holds_th m th -> svec m Q r -> svec m W s ->
  exists m', let t' := fold_left (fun t j => ad_step_f (bgrad (j * bsz)) t) (seq 0 n_batches) (th, r, s, st) in
    adam_epoch c vexp e o n X Y ad_rec st m = Ok (snd t', m') /\
    holds_th m' (fst (fst (fst t'))) /\ svec m' Q (snd (fst (fst t'))) /\ svec m' W (snd (fst t')) /\
    only_changes_in m m' ((Q, np) :: (W, np) :: regions ls).
Proof.
  intros T SQ SW.
  destruct (epoch_ok (adam_step c vexp e o n X Y ad_rec) (ad_inv m) (fun i => ad_step_f (bgrad i))) with (t := (th, r, s, st)) (m := m) (s := st)
    as (m' & s' & E & (-> & A & B & C)).
  - intros. apply ad_step_ok; auto.
  - split; [reflexivity|]. split; auto. split; auto. split; auto. apply oci_refl.
  - exists m'. cbv zeta. split; [exact E|]. split; auto.
Qed.
End Adam.
End Epoch.
