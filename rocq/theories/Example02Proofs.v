(** Example02Proofs.v -- the evaluation of example_02b: what is stored, and when it equals evaluate *)
From Coq Require Import List Arith ZArith Lia Bool Permutation.
From Verif Require Import Base BaseProofs Ops Mem MemProofs Kernels KernelProofs Activation ActivationProofs
  Loss Neuralnet ForwardProofs PredictProofs BitsProofs GradProofs SpecMem ParamProofs Batch BatchProofs BlasProofs
  MetricProofs Optimizer OptProofs Evaluate EvalProofs EvalReal Example02.
Import ListNotations.
Local Open Scope mem_scope.

Section Any.
Context {FO : fops}.
Variables (c : cfg) (nn : neuralnet) (net : list flayer) (m : mem) (X Y : ptr) (xs ts : list (list F)) (mets : list metric).
Hypothesis EM : eval_mem c nn net m X Y xs ts.
Let no := out_size nn.

(** [ps]: the matrix of predictions *)
Definition lrow (ps : list F) (i : nat) : list F := slice (i * no) no ps.
Definition lmets (ps : list F) (i : nat) : list F := map (fun t => metric_f t (lrow ps i) (nth i ts [])) mets.
Definition local_f (ps : list F) : list F :=
  map (fun x => fdiv x (fofZ (Z.of_nat (length xs)))) (omp_f (length mets) (lmets ps) None (length xs)).

(** the stack array predictions *)
Definition pmem (pb : Z) : mem := m ++ [mkblock pb (repeat None (no * length xs))].
Definition ppos : ptr := mkptr (length m) 0.

Lemma local_evaluate_ok batch pb lb ms results ps :
  writes_only (batch nn (length xs) X ppos) (pmem pb) ppos ps -> length ps = length xs * no ->
  metric_list ms = Ok mets -> valid m results (length mets) ->
  local_evaluate batch pb lb nn (length xs) X Y (Some ms) results m = Ok (tt, writem m results (local_f ps)) /\
  length (local_f ps) = length mets.
Proof.
  intros (m2 & R2 & H2 & OC) Lp EMs V. set (n := length mets) in *.
  destruct (last_layer c nn net m X Y xs ts EM) as (l & _ & _ & Hno). fold no in Hno.
  unfold local_evaluate. rewrite EMs. fold n no. unfold alloca.
  erewrite bind_ok by reflexivity. fold (pmem pb). fold ppos. erewrite bind_ok by exact R2.
  destruct (@only_changes_last _ _ _ _ _ _ OC eq_refl) as (b1 & Em2).
  assert (LR : forall i, i < length xs -> length (lrow ps i) = no).
  { intros i Hi. apply length_slice. rewrite Lp. apply row_fit. auto. }
  erewrite bind_ok by reflexivity.
  erewrite bind_ok. 2:{ apply storev_valid0. apply valid_last. rewrite !repeat_length. auto. }
  pose proof (@writem_last_fill FO m2 lb n (repeat f0 n) (repeat_length _ _)) as E1. rewrite E1.
  set (loc := mkptr (length m2) 0). assert (Lm2 : length m2 = length m + 1) by (rewrite Em2, app_length; reflexivity).
  destruct (omp_for_ok n (fun acc i => add_metrics no mets 0 (ppos +! (i * no)) (Y +! (i * no)) acc) (lmets ps) (fun i => i < length xs)
     (fun m' => exists rest, m' = m2 ++ rest) (fun k => length m2 <= k)) with (omp := @None (list rtree)) (samples := length xs)
     (m := m2 ++ [mkblock lb (map Some (repeat f0 n))]) (acc := loc) as [E3 L3]; auto.
  { intros i Hi. apply map_length. }
  { intros m' b (rest & ->). exists (rest ++ [b]). rewrite app_assoc. reflexivity. }
  { intros m' (rest & ->). rewrite app_length. lia. }
  { intros m' p zs (rest & ->) Hb. destruct (writem_above m2 rest p zs Hb) as (rest' & E & _). exists rest'. exact E. }
  { intros m' acc a i (rest & ->) Hi Hb Ha La.
    destruct (@nth_error_ex _ xs i Hi) as [x Hx].
    destruct (sample_holds c nn net m X Y xs ts EM i x Hx) as (_ & _ & t & Ht & Lt & HYi). fold no in Lt, HYi.
    pose proof (LR i Hi) as LRi. rewrite <- LRi at 1.
    rewrite (add_metrics_ok (lrow ps i) t (ppos +! (i * no)) (Y +! (i * no)) acc) with (a := a).
    - rewrite padd_0. unfold lmets. rewrite (nth_error_nth ts i [] Ht). reflexivity.
    - lia.
    - lia.
    - apply holds_prefix. apply holds_sub; auto. rewrite Lp. apply row_fit. auto.
    - apply holds_prefix. rewrite Em2. apply holds_prefix. exact HYi.
    - rewrite padd_0. exact Ha.
    - exact La.
    - simpl. lia.
    - pose proof (holds_blk _ _ _ HYi). simpl in *. lia. }
  { eexists. reflexivity. }
  { exact I. }
  { apply holds_last_all. }
  change (red_iterations ?f loc (seq 0 (length xs))) with (omp_for n f None (length xs) loc).
  erewrite bind_ok by exact E3.
  set (S := omp_f n (lmets ps) None (length xs)) in *.
  assert (E4 : writem (m2 ++ [mkblock lb (map Some (repeat f0 n))]) loc S = m2 ++ [mkblock lb (map Some S)]).
  { unfold loc. rewrite writem_last_map by (rewrite L3, repeat_length; auto).
    rewrite skipn_all2 by (rewrite L3, repeat_length; auto). rewrite app_nil_r. reflexivity. }
  rewrite E4. destruct V as (b & Hb & Lb). pose proof (nth_error_lt _ _ Hb) as Bl.
  rewrite <- L3 at 1. erewrite bind_ok.
  2:{ apply store_means_ok.
      - apply holds_last_all.
      - exists b. rewrite Em2, !nth_error_app1 by (rewrite ?app_length; lia). split; auto. lia.
      - unfold loc. simpl. lia. }
  rewrite Em2. rewrite !writem_app_l by (rewrite ?app_length; simpl; lia). unfold freea.
  erewrite bind_ok by (rewrite removelast_last; reflexivity). rewrite removelast_last.
  split; [reflexivity|]. unfold local_f. rewrite map_length. exact L3.
Qed.

(** a fault of the batch prediction is a fault of local_evaluate *)
Lemma local_evaluate_fault batch pb lb ms results f :
  batch nn (length xs) X ppos (pmem pb) = Fault f -> metric_list ms = Ok mets ->
  local_evaluate batch pb lb nn (length xs) X Y (Some ms) results m = Fault f.
Proof.
  intros R EMs. unfold local_evaluate. rewrite EMs. unfold alloca. erewrite bind_ok by reflexivity.
  fold no. fold (pmem pb). fold ppos. unfold bind at 1. rewrite R. reflexivity.
Qed.

(** the memory in which the batch prediction runs *)
Lemma eval_batch_parts pb : nn_layers nn <> [] /\ net_holds c (pmem pb) (in_size nn) (nn_layers nn) net /\
  (forall x, In x xs -> length x = in_size nn) /\ holds (pmem pb) X (concat xs) /\
  valid (pmem pb) ppos (length xs * no) /\ Forall (off_params ppos (length xs * no)) (nn_layers nn) /\
  disjoint ppos (length xs * no) X (length xs * in_size nn).
Proof.
  destruct EM as (Hne & HN & HX & _ & _ & LX & _). split; auto.
  split. { apply net_holds_prefix. exact HN. } split; auto. split. { apply holds_prefix. exact HX. }
  split. { apply valid_last. rewrite repeat_length. lia. }
  split. { eapply Forall_impl; [|exact (net_in_m c m _ _ _ HN)]. intros l [I1 I2]. split; left; simpl; lia. }
  left. simpl. pose proof (holds_blk _ _ _ HX). lia.
Qed.
Lemma addr_ppos pb k : addr (pmem pb) (ppos +! k) = (pb + 4 * Z.of_nat k)%Z.
Proof. unfold addr, pmem, ppos. simpl. rewrite nth_error_app2, Nat.sub_diag by lia. simpl. lia. Qed.
End Any.

(** ** fewer than 8 outputs: the address of the output plays no role *)
Section Address.
Context {FO : fops}.
Variables (c : cfg) (vexp : F -> F).
Lemma vreg_small pro w n i : n < w -> vreg pro w n i = false.
Proof.
  intros H. unfold vreg. rewrite Nat.div_small by lia. rewrite Nat.mul_0_r, Nat.add_0_r.
  destruct (Nat.leb_spec pro i), (Nat.ltb_spec i pro); auto; lia.
Qed.
Lemma reg_map_small b h a a' lv ls xs : b = false \/ length xs < 16 -> reg_map c b h a lv ls xs = reg_map c b h a' lv ls xs.
Proof. intros H. unfold reg_map. apply mapi_ext. intros. destruct H as [-> | H]; auto. rewrite !vreg_small by exact H. reflexivity. Qed.
Lemma act_f_small g a a' xs : cfg_isa c = SSE \/ (length xs < 16 /\ g <> Softmax) -> act_f c vexp g a xs = act_f c vexp g a' xs.
Proof.
  intros H.
  assert (H1 : has_avx c = false \/ length xs < 16). { destruct H as [E|[E _]]; auto. left. unfold has_avx. rewrite E. reflexivity. }
  assert (H2 : has_avx2 c = false \/ length xs < 16). { destruct H as [E|[E _]]; auto. left. unfold has_avx2. rewrite E. reflexivity. }
  destruct g; simpl; auto.
  - apply reg_map_small; auto.
  - destruct H as [E|[_ E]]; [|congruence]. assert (A2 : has_avx2 c = false) by (unfold has_avx2; rewrite E; reflexivity).
    unfold softmax_f, exps_f, sum_f. rewrite A2. reflexivity.
  - apply reg_map_small; auto.
Qed.
Lemma forward_f_small : forall net a a' xs f, fits_f (length xs) net -> nth_error net (length net - 1) = Some f ->
  cfg_isa c = SSE \/ (fn_out f < 16 /\ fact f <> Softmax) -> forward_f c vexp net a xs = forward_f c vexp net a' xs.
Proof.
  induction net as [|l net IH]; intros a a' xs f FT Hf H; [reflexivity|]. destruct net as [|l2 net].
  - simpl in Hf. inversion Hf; subst f. simpl. unfold layer_f. apply act_f_small. destruct H as [H|[H1 H2]]; auto. right. split; auto.
    destruct FT as (L1 & L2 & _). pose proof (length_layer_f c vexp a l xs) as LL. unfold layer_f in LL. rewrite length_act_f in LL. rewrite LL; auto.
  - change (forward_f c vexp (l2 :: net) a (layer_f c vexp 0 l xs) = forward_f c vexp (l2 :: net) a' (layer_f c vexp 0 l xs)).
    destruct FT as (L1 & L2 & FT). apply IH with (f := f); auto.
    + rewrite length_layer_f; auto.
    + simpl length in *. rewrite <- Hf. replace (S (S (length net)) - 1) with (S (S (length net) - 1)) by lia. reflexivity.
Qed.
End Address.

Lemma net_holds_last_act {FO : fops} c m : forall ls net n, net_holds c m n ls net ->
  forall l f, nth_error ls (length ls - 1) = Some l -> nth_error net (length net - 1) = Some f -> l_act l = fact f.
Proof.
  induction ls as [|l ls IH]; intros [|f net] n H l' f' Hl Hf; try (simpl in H; tauto); try discriminate.
  destruct H as [LH H]. destruct ls as [|l2 ls]; destruct net as [|f2 net]; try (simpl in H; tauto).
  - simpl in *. inversion Hl; inversion Hf; subst. apply LH.
  - apply (IH _ _ H l' f'); simpl in *; rewrite ?Nat.sub_0_r in *; auto.
Qed.
