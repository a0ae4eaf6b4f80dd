(** EvalReal.v -- evaluate in exact arithmetic; the BLAS build *)
From Coquelicot Require Import Coquelicot.
From Coq Require Import List Arith ZArith Lia Bool Permutation Reals Lra.
From Verif Require Import Base BaseProofs Ops OpsR Mem MemProofs Kernels KernelProofs Activation ActivationProofs
  Loss Neuralnet ForwardProofs SpecReal RealForward PredictProofs BitsProofs GradProofs SpecMem ParamProofs Batch BatchProofs BlasProofs
  MetricProofs SpecMetric SpecOpt Optimizer OptProofs OptReal Evaluate EvalProofs Prop_Batch Prop_Metrics.
Import ListNotations.
Local Open Scope nat_scope.
Local Open Scope mem_scope.

(** ** the reduction adds up *)
Section Sum.
Variables (n : nat) (g : nat -> list R) (k : nat).
Hypothesis Hg : forall i, i < k -> length (g i) = n.

Lemma red_f_R j its a : j < n -> (forall i, In i its -> i < k) -> length a = n ->
  nth j (@red_f opsR g a its) 0%R = (nth j a 0 + rsum (map (fun i => nth j (g i) 0) its))%R /\ length (@red_f opsR g a its) = n.
Proof.
  intros Hj Hi La. destruct (nth_fold_R n j Hj (map g its) a La) as [E1 E2].
  { intros x Hx. apply in_map_iff in Hx. destruct Hx as (i & <- & H). auto. }
  assert (EF : forall its a, @red_f opsR g a its = fold_left (map2 Rplus) (map g its) a).
  { induction its0 as [|b its0 IH]; intros a0; simpl; auto. }
  split.
  - etransitivity; [exact (f_equal (fun l => nth j l 0%R) (EF its a))|]. rewrite E1, map_map. reflexivity.
  - etransitivity; [exact (f_equal (@length R) (EF its a))|]. exact E2.
Qed.
Lemma rtree_f_R j t : j < n -> (forall i, In i (tree_its t) -> i < k) ->
  nth j (@rtree_f opsR n g t) 0%R = rsum (map (fun i => nth j (g i) 0%R) (tree_its t)) /\ length (@rtree_f opsR n g t) = n.
Proof.
  intros Hj. induction t as [base its|t1 IH1 t2 IH2]; intros Hb; simpl tree_its in *.
  - destruct (red_f_R j its (repeat 0%R n) Hj Hb (repeat_length _ _)) as [E L]. split; [|exact L].
    etransitivity; [exact E|]. rewrite nth_repeat. lra.
  - destruct IH1 as [A1 B1]; [intros; apply Hb; apply in_or_app; auto|]. destruct IH2 as [A2 B2]; [intros; apply Hb; apply in_or_app; auto|].
    simpl rtree_f. split.
    + etransitivity; [apply (nth_map2_R _ _ j n B1 B2 Hj)|]. etransitivity; [exact (f_equal2 Rplus A1 A2)|]. rewrite map_app, rsum_app. reflexivity.
    + apply (length_map2_R _ _ n B1 B2).
Qed.
Lemma omp_f_R j omp : j < n -> omp_covers omp k ->
  nth j (@omp_f opsR n g omp k) 0%R = rsum (map (fun i => nth j (g i) 0%R) (seq 0 k)).
Proof.
  intros Hj SO. destruct omp as [trs|]; simpl in *.
  - assert (IB : forall b, In b (flat_map tree_its trs) -> b < k).
    { intros b Hb. apply (Permutation_in _ SO) in Hb. apply in_seq in Hb. lia. }
    pose proof (nth_fold_R n j Hj (map (@rtree_f opsR n g) trs) (repeat 0%R n)) as [E1 E2].
    { apply repeat_length. }
    { intros x Hx. apply in_map_iff in Hx. destruct Hx as (t & <- & Ht). apply (rtree_f_R j t Hj). intros b Hb. apply IB. apply in_flat_map. eauto. }
    etransitivity; [exact E1|]. rewrite nth_repeat, map_map, Rplus_0_l.
    etransitivity; [|exact (rsum_perm _ _ (Permutation_map (fun b => nth j (g b) 0%R) SO))].
    clear E1 E2 SO. induction trs as [|t trs IH]; simpl; auto. rewrite map_app, rsum_app.
    rewrite IH by (intros b Hb; apply IB; simpl; apply in_or_app; auto). f_equal. apply (rtree_f_R j t Hj). intros b Hb. apply IB. simpl. apply in_or_app. auto.
  - destruct (red_f_R j (seq 0 k) (repeat 0%R n) Hj) as [E _]. { intros i Hi. apply in_seq in Hi. lia. } { apply repeat_length. }
    etransitivity; [exact E|]. rewrite nth_repeat. lra.
Qed.
End Sum.

(** ** BLAS build *)
Lemma only_changes_block {FO : fops} m m' p n b : only_changes m m' p n -> b <> blk p -> nth_error m' b = nth_error m b.
Proof.
  intros (L & B & C) Hb. specialize (B b).
  assert (CC : forall i, cell_at m' b i = cell_at m b i) by (intros i; apply C; intros [E _]; congruence).
  unfold cell_at in CC. destruct (nth_error m' b) as [[b1 c1]|] eqn:E1, (nth_error m b) as [[b2 c2]|] eqn:E2; simpl in *; try discriminate; auto.
  inversion B; subst. do 2 f_equal. clear -CC. revert c2 CC. induction c1 as [|x c1 IH]; intros [|y c2] CC; auto.
  - specialize (CC 0). discriminate. - specialize (CC 0). discriminate.
  - pose proof (CC 0) as E. simpl in E. inversion E; subst. f_equal. apply IH. intros i. exact (CC (S i)).
Qed.
Lemma only_changes_last {FO : fops} m b m' p n : only_changes (m ++ [b]) m' p n -> blk p = length m -> exists b', m' = m ++ [b'].
Proof.
  intros OC E. pose proof OC as (L & _ & _). rewrite app_length in L. simpl in L.
  destruct (@exists_last _ m') as (m1 & b1 & E1). { intros ->. simpl in L. lia. }
  exists b1. rewrite E1. f_equal. subst m'. rewrite app_length in L. simpl in L.
  assert (LL : length m1 = length m) by lia.
  assert (H : forall i, nth_error m1 i = nth_error m i).
  { intros i. destruct (Nat.lt_ge_cases i (length m)).
    - pose proof (@only_changes_block FO _ _ p n i OC ltac:(lia)) as H1. rewrite !nth_error_app1 in H1 by lia. exact H1.
    - rewrite !(proj2 (nth_error_None _ _)); auto; lia. }
  clear -H. revert m H. induction m1 as [|x m1 IH]; intros [|y m] H; auto.
  - specialize (H 0). discriminate. - specialize (H 0). discriminate.
  - pose proof (H 0) as E. simpl in E. inversion E; subst. f_equal. apply IH. intros i. exact (H (S i)).
Qed.

Section Blas.
Variables (c : cfg) (nstack : nat) (sgemm : nat -> nat -> nat -> list R -> list R -> list R -> list R).
Hypothesis SG : sgemm_exact sgemm.
Variables (nn : neuralnet) (net : list (@flayer opsR)) (m : @mem opsR) (X Y : ptr) (xs ts : list (list R)) (mets : list metric) (s : esched).
Hypothesis EM : @eval_mem opsR c nn net m X Y xs ts.
Hypothesis HS : sum_outputs (nn_layers nn) <= nstack.
Hypothesis HT : Forall (blas_tanh_ok c (length xs)) (nn_layers nn).
Hypothesis Hn : 1 <= length xs.

(** [ys i]: the prediction for sample i *)
Definition bmets (ys : nat -> list R) (i : nat) : list R := map (fun t => @metric_f opsR t (ys i) (nth i ts [])) mets.

Lemma evaluate_blas_ok fuel wbs ms results : length xs < fuel -> metric_list ms = Ok mets ->
  omp_covers (es_omp s) (length xs) -> valid m results (length mets) ->
  exists ys : nat -> list R,
    (forall i x, nth_error xs i = Some x -> length (ys i) = out_size nn /\
       forall j, j < out_size nn -> vec (ys i) j = eval (shape_of net) (in_size nn) (vec (params_of net)) (vec x) j) /\
    let vs := map (fun x => (x / IZR (Z.of_nat (length xs)))%R) (@omp_f opsR (length mets) (bmets ys) (es_omp s) (length xs)) in
    length vs = length mets /\
    @evaluate_blas opsR c exp nstack sgemm fuel wbs s nn (length xs) X Y (Some ms) results m = Ok (tt, writem m results vs).
Proof.
  intros HF EMs CV V. destruct EM as (Hne & HN & HXd & HYd & L & LX & LT).
  set (no := out_size nn) in *. set (ni := in_size nn) in *. set (n := length mets).
  assert (Hno : 1 <= no). { destruct (@last_layer opsR c nn net m X Y xs ts EM) as (l & _ & _ & H). exact H. }
  unfold evaluate_blas. rewrite EMs. fold n no.
  unfold alloca. erewrite bind_ok by reflexivity.
  erewrite bind_ok. 2:{ apply storev_valid0. apply valid_last. rewrite !repeat_length. auto. }
  pose proof (@writem_last_fill opsR m (es_local s) n (repeat (@f0 opsR) n) (repeat_length _ _)) as E1.
  rewrite E1. set (m1 := m ++ [mkblock (es_local s) (map Some (repeat (@f0 opsR) n))] : @mem opsR).
  erewrite bind_ok by reflexivity.
  erewrite bind_ok. 2:{ apply storev_valid0. apply valid_last. rewrite !repeat_length. auto. }
  set (np := no * length xs).
  pose proof (@writem_last_fill opsR m1 (es_predictions s) np (repeat (@f0 opsR) np) (repeat_length _ _)) as E2.
  set (b0 := mkblock (es_predictions s) (map Some (repeat (@f0 opsR) np)) : @block opsR) in *.
  match goal with |- context [@writem opsR ?M ?P ?Z] => replace (@writem opsR M P Z) with (m1 ++ [b0]) by (symmetry; exact E2) end.
  set (po := mkptr (length m1) 0). set (loc := mkptr (length m) 0).
  assert (Lm1 : length m1 = length m + 1) by (unfold m1; rewrite app_length; reflexivity).
  destruct (@predict_batch_blas_rows_partial c nstack sgemm wbs nn net (m1 ++ [b0]) X po xs fuel SG HS (conj Hn HF)) as (ps & (m2 & R2 & H2 & OC) & Lp & Vp).
  { split; auto. split. { unfold m1. rewrite <- app_assoc. apply net_holds_prefix. exact HN. }
    split; auto. split. { unfold m1. rewrite <- app_assoc. apply holds_prefix. exact HXd. }
    split. { apply valid_last. simpl. rewrite map_length, repeat_length. unfold np. fold no. lia. }
    split. { eapply Forall_impl; [|exact (net_in_m c m _ _ _ HN)]. intros l [I1 I2]. split; left; simpl; lia. }
    left. simpl. pose proof (holds_blk _ _ _ HXd). lia. }
  { exact HT. }
  change (@F opsR) with R in *. fold no in Lp, Vp. fold ni in Vp.
  erewrite bind_ok by exact R2.
  destruct (@only_changes_last opsR _ _ _ _ _ OC eq_refl) as (b1 & Em2).
  assert (LR : forall i, i < length xs -> length (slice (i * no) no ps) = no).
  { intros i Hi. apply length_slice. change (@F opsR) with R. rewrite Lp. apply row_fit. auto. }
  exists (fun i => slice (i * no) no ps). split.
  { intros i x Hx. pose proof (nth_error_lt _ _ Hx) as Li. split; [apply LR; auto|].
    intros j Hj. rewrite <- (Vp i x j Hx Hj). unfold slice. rewrite vec_firstn by auto. rewrite vec_skipn. reflexivity. }
  set (ys := fun i => slice (i * no) no ps).
  destruct (@omp_for_ok opsR n (fun acc i => @add_metrics opsR no mets 0 (po +! (i * no)) (Y +! (i * no)) acc) (bmets ys) (fun i => i < length xs)
     (fun m' => (exists rest, m' = m ++ rest) /\ length m + 2 <= length m' /\ @holds opsR m' po ps)
     (fun k => length m <= k /\ k <> length m + 1)) with (omp := es_omp s) (samples := length xs)
     (m := m2) (acc := loc) as [E3 L3]; auto.
  { intros i Hi. apply map_length. }
  { intros m' b ((rest & ->) & A & B). split; [exists (rest ++ [b]); rewrite app_assoc; reflexivity|]. rewrite app_length. split; [simpl; lia|].
    apply holds_prefix. exact B. }
  { intros m' ((rest & ->) & A & B). lia. }
  { intros m' p zs ((rest & ->) & A & B) [F1 F2]. destruct (writem_above m rest p zs F1) as (rest' & E & LE). split; [exists rest'; exact E|].
    split; [rewrite length_writem; auto|]. unfold holds in B |- *. rewrite nth_writem_neq; auto. simpl. lia. }
  { intros m' acc a i ((rest & ->) & A & B) Hi [F1 F2] Ha La.
    destruct (@nth_error_ex _ xs i Hi) as [x Hx]. destruct (@sample_holds opsR c nn net m X Y xs ts EM i x Hx) as (_ & _ & t & Ht & Lt & HYi).
    fold no in Lt, HYi. pose proof (LR i Hi) as LRi. change (slice (i * no) no ps) with (ys i) in LRi.
    rewrite <- LRi at 1.
    rewrite (@add_metrics_ok opsR (ys i) t (po +! (i * no)) (Y +! (i * no)) acc) with (a := a).
    - rewrite padd_0. unfold bmets. rewrite (nth_error_nth ts i [] Ht). reflexivity.
    - exact (eq_ind_r (fun k => 1 <= k) Hno LRi).
    - exact (eq_trans Lt (eq_sym LRi)).
    - apply holds_sub; auto. change (@F opsR) with R. rewrite Lp. apply row_fit. auto.
    - apply holds_prefix. exact HYi.
    - rewrite padd_0. exact Ha.
    - exact La.
    - simpl. lia.
    - pose proof (holds_blk _ _ _ HYi). simpl in *. lia. }
  { rewrite Em2. unfold m1. split; [eexists; rewrite <- app_assoc; reflexivity|]. split; [rewrite !app_length; simpl; lia|].
    rewrite Em2 in H2. exact H2. }
  { simpl. lia. }
  { rewrite Em2. apply holds_prefix. apply holds_last_all. }
  change (@F opsR) with R in *. erewrite bind_ok by exact E3.
  set (S := @omp_f opsR n (bmets ys) (es_omp s) (length xs)) in *. cbv zeta.
  split. { rewrite map_length. exact L3. }
  assert (E4 : writem m2 loc S = (m ++ [mkblock (es_local s) (map Some S)]) ++ [b1]).
  { rewrite Em2. rewrite writem_app_l by (simpl; lia). f_equal. unfold m1, loc.
    rewrite writem_last_map by (change (@F opsR) with R; rewrite L3, repeat_length; auto).
    rewrite skipn_all2 by (change (@F opsR) with R; rewrite L3, repeat_length; auto). rewrite app_nil_r. reflexivity. }
  rewrite E4. destruct V as (b & Hb & Lb). pose proof (nth_error_lt _ _ Hb) as Bl.
  rewrite <- L3 at 1. erewrite bind_ok.
  2:{ apply store_means_ok.
      - apply holds_prefix. apply holds_last_all.
      - exists b. rewrite !nth_error_app1 by (rewrite ?app_length; lia). split; auto. change (@F opsR) with R. rlia.
      - unfold loc. simpl. lia. }
  rewrite !writem_app_l by (rewrite ?app_length; simpl; lia). unfold freea. erewrite bind_ok by (rewrite removelast_last; reflexivity).
  rewrite removelast_last. reflexivity.
Qed.
End Blas.
