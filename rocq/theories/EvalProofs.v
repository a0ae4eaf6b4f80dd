(** EvalProofs.v -- evaluate: the reduction over the samples, and what is stored *)
From Coq Require Import List Arith ZArith Lia Bool Permutation.
From Verif Require Import Base BaseProofs Ops Mem MemProofs Kernels KernelProofs Activation ActivationProofs
  Loss Neuralnet ForwardProofs PredictProofs BitsProofs GradProofs SpecMem ParamProofs Batch BatchProofs BlasProofs
  MetricProofs Optimizer OptProofs Evaluate.
Import ListNotations.
Local Open Scope mem_scope.

Lemma len_map2 A B C (f : A -> B -> C) l1 l2 n : length l1 = n -> length l2 = n -> length (map2 f l1 l2) = n.
Proof. intros. rewrite length_map2. lia. Qed.

Section Prefix.
Context {FO : fops}.
Lemma holds_prefix (m0 rest : mem) p xs : holds m0 p xs -> holds (m0 ++ rest) p xs.
Proof.
  intros (b & H & L & E). exists b. split; [|auto]. rewrite nth_error_app1; auto. eapply nth_error_lt; eauto.
Qed.
Lemma net_holds_prefix c (m0 rest : mem) ls net k : net_holds c m0 k ls net -> net_holds c (m0 ++ rest) k ls net.
Proof.
  intros H. induction rest as [|b rest IH] using rev_ind; [rewrite app_nil_r; auto|].
  rewrite app_assoc. apply net_holds_app_l. exact IH.
Qed.
Lemma writem_above (m0 rest : mem) p xs : length m0 <= blk p ->
  exists rest', writem (m0 ++ rest) p xs = m0 ++ rest' /\ length rest' = length rest.
Proof.
  intros H. unfold writem. destruct (nth_error (m0 ++ rest) (blk p)) as [b|] eqn:E; [|eauto].
  rewrite nth_error_app2 in E by auto. set (k := blk p - length m0) in *. set (b' := mkblock _ _).
  exists (set_nth rest k b'). rewrite length_set_nth. split; [|reflexivity].
  assert (Hk : k < length rest) by (eapply nth_error_lt; eauto).
  replace (blk p) with (length m0 + k) by (unfold k; lia). clearbody b' k. clear E H b.
  induction m0 as [|x m0 IH]; simpl; [reflexivity|]. f_equal. exact IH.
Qed.
Lemma writem_last_fill (m : mem) b n xs : length xs = n ->
  writem (m ++ [mkblock b (repeat None n)]) (mkptr (length m) 0) xs = m ++ [mkblock b (map Some xs)].
Proof. intros L. pose proof (writem_last_none m b n xs [] L) as E. simpl in E. rewrite !app_nil_r in E. exact E. Qed.
End Prefix.

(** ** the reduction: [g i] is what iteration i adds to the accumulator *)
Section Reduction.
Context {FO : fops}.
Variables (n : nat) (body : ptr -> nat -> M unit) (g : nat -> list F) (ok : nat -> Prop).
(** what the iterations need: an invariant of the memory that does not depend on the [free] blocks *)
Variables (Inv : mem -> Prop) (free : nat -> Prop).
Hypothesis Hg : forall i, ok i -> length (g i) = n.
Hypothesis Hpush : forall m b, Inv m -> Inv (m ++ [b]).
Hypothesis Hnew : forall m, Inv m -> free (length m).
Hypothesis Hwrite : forall m p ys, Inv m -> free (blk p) -> Inv (writem m p ys).
Hypothesis BODY : forall m acc a i, Inv m -> ok i -> free (blk acc) -> holds m acc a -> length a = n ->
  body acc i m = Ok (tt, writem m acc (map2 fadd a (g i))).

Definition red_f (a : list F) (its : list nat) : list F := fold_left (fun a i => map2 fadd a (g i)) its a.
Fixpoint rtree_f (t : rtree) : list F :=
  match t with
  | Thread _ its => red_f (repeat f0 n) its
  | Comb t1 t2 => map2 fadd (rtree_f t1) (rtree_f t2)
  end.
Definition omp_f (omp : option (list rtree)) (samples : nat) : list F :=
  match omp with
  | None => red_f (repeat f0 n) (seq 0 samples)
  | Some ts => fold_left (map2 fadd) (map rtree_f ts) (repeat f0 n)
  end.
Definition omp_covers (omp : option (list rtree)) (samples : nat) : Prop :=
  match omp with None => True | Some ts => Permutation (flat_map tree_its ts) (seq 0 samples) end.

Lemma length_red_f : forall its a, (forall i, In i its -> ok i) -> length a = n -> length (red_f a its) = n.
Proof.
  induction its as [|i its IH]; intros a H L; simpl; auto. apply IH; [intros; apply H; simpl; auto|].
  apply len_map2; auto. apply Hg. apply H. simpl. auto.
Qed.
Lemma length_rtree_f t : (forall i, In i (tree_its t) -> ok i) -> length (rtree_f t) = n.
Proof.
  induction t; simpl; intros H.
  - apply length_red_f; auto. apply repeat_length.
  - apply len_map2; [apply IHt1|apply IHt2]; intros; apply H; apply in_or_app; auto.
Qed.

Lemma red_iterations_ok : forall its m acc a, Inv m -> (forall i, In i its -> ok i) -> free (blk acc) ->
  holds m acc a -> length a = n ->
  red_iterations body acc its m = Ok (tt, writem m acc (red_f a its)).
Proof.
  induction its as [|i its IH]; intros m acc a I H B Ha La.
  { simpl. unfold ret. rewrite writem_holds_id; auto. }
  assert (Oi : ok i) by (apply H; simpl; auto).
  simpl. erewrite bind_ok by (apply BODY with (a := a); auto).
  set (a1 := map2 fadd a (g i)). assert (La1 : length a1 = n) by (apply len_map2; auto).
  assert (V : valid m acc (length a1)). { rewrite La1, <- La. apply holds_valid; auto. }
  pose proof (holds_writem_same _ V) as H1.
  rewrite (IH (writem m acc a1) acc a1); auto; [|intros; apply H; simpl; auto].
  rewrite writem_writem_same; auto. rewrite La1. symmetry. apply length_red_f; auto. intros; apply H; simpl; auto.
Qed.

Lemma red_tree_ok : forall t m, Inv m -> (forall i, In i (tree_its t) -> ok i) ->
  exists b, red_tree n body t m = Ok (mkptr (length m) 0, m ++ [mkblock b (map Some (rtree_f t))]).
Proof.
  induction t as [b its|t1 IH1 t2 IH2]; intros m I H; simpl tree_its in H.
  - exists b. simpl. unfold alloca. erewrite bind_ok by reflexivity.
    erewrite bind_ok.
    2:{ apply storev_valid0. apply valid_last. rewrite !repeat_length. auto. }
    assert (E1 : writem (m ++ [mkblock b (repeat None n)]) (mkptr (length m) 0) (repeat f0 n) = m ++ [mkblock b (map Some (repeat f0 n))]).
    { pose proof (writem_last_none m b n (repeat f0 n) [] (repeat_length _ _)) as E. simpl in E. rewrite !app_nil_r in E. exact E. }
    rewrite E1. erewrite bind_ok.
    2:{ apply red_iterations_ok with (a := repeat f0 n); auto.
        - apply Hnew. exact I.
        - apply holds_last_all.
        - apply repeat_length. }
    unfold ret. do 2 f_equal.
    assert (L : length (red_f (repeat f0 n) its) = n) by (apply length_red_f; auto; apply repeat_length).
    rewrite writem_last_map by (rewrite L, repeat_length; auto).
    rewrite skipn_all2 by (rewrite L, repeat_length; auto). rewrite app_nil_r. reflexivity.
  - assert (H1 : forall i, In i (tree_its t1) -> ok i) by (intros; apply H; apply in_or_app; auto).
    assert (H2 : forall i, In i (tree_its t2) -> ok i) by (intros; apply H; apply in_or_app; auto).
    destruct (IH1 m I H1) as (b1 & E1). exists b1. simpl. erewrite bind_ok by exact E1.
    destruct (IH2 (m ++ [mkblock b1 (map Some (rtree_f t1))]) (Hpush _ _ I) H2) as (b2 & E2).
    erewrite bind_ok by exact E2.
    pose proof (length_rtree_f t1 H1) as L1. pose proof (length_rtree_f t2 H2) as L2.
    set (m1 := m ++ [mkblock b1 (map Some (rtree_f t1))]).
    assert (B1 : blk (mkptr (length m) 0) < length m1) by (unfold m1; rewrite app_length; simpl; lia).
    erewrite bind_ok.
    2:{ rewrite <- L1 at 1. apply combine_ok with (b := rtree_f t2).
        - apply holds_app_l; auto. apply holds_last_all.
        - apply holds_last_all. - lia. - left. simpl. unfold m1. rewrite app_length. simpl. lia. }
    rewrite writem_app_l by auto. unfold freea. erewrite bind_ok by (rewrite removelast_last; reflexivity).
    unfold ret. do 2 f_equal. unfold m1. rewrite writem_last_map by (rewrite length_map2; lia).
    rewrite skipn_all2 by (rewrite length_map2; lia). rewrite app_nil_r. reflexivity.
Qed.

Lemma red_trees_ok : forall ts m acc a, Inv m -> (forall i, In i (flat_map tree_its ts) -> ok i) -> free (blk acc) ->
  holds m acc a -> length a = n ->
  red_trees n body acc ts m = Ok (tt, writem m acc (fold_left (map2 fadd) (map rtree_f ts) a)) /\
  length (fold_left (map2 fadd) (map rtree_f ts) a) = n.
Proof.
  induction ts as [|t ts IH]; intros m acc a I H B Ha La.
  { simpl. split; auto. unfold ret. rewrite writem_holds_id; auto. }
  assert (Ht : forall i, In i (tree_its t) -> ok i) by (intros; apply H; simpl; apply in_or_app; auto).
  destruct (red_tree_ok t m I Ht) as (b & E). pose proof (length_rtree_f t Ht) as Lt.
  simpl. erewrite bind_ok by exact E. pose proof (holds_blk _ _ _ Ha) as Bl.
  set (a1 := map2 fadd a (rtree_f t)). assert (La1 : length a1 = n) by (apply len_map2; auto).
  erewrite bind_ok.
  2:{ rewrite <- La at 1. apply combine_ok with (b := rtree_f t).
      - apply holds_app_l; auto. - apply holds_last_all. - lia. - left. simpl. lia. }
  fold a1. rewrite writem_app_l by auto. unfold freea. erewrite bind_ok by (rewrite removelast_last; reflexivity).
  assert (V : valid m acc (length a1)). { rewrite La1, <- La. apply holds_valid; auto. }
  pose proof (holds_writem_same _ V) as H1.
  destruct (IH (writem m acc a1) acc a1) as [E2 L2]; auto. { intros; apply H; simpl; apply in_or_app; auto. }
  split; [|exact L2]. rewrite E2. rewrite writem_writem_same; auto. rewrite La1. symmetry. exact L2.
Qed.

Lemma omp_for_ok omp samples m acc : Inv m -> (forall i, i < samples -> ok i) -> omp_covers omp samples -> free (blk acc) ->
  holds m acc (repeat f0 n) ->
  omp_for n body omp samples acc m = Ok (tt, writem m acc (omp_f omp samples)) /\ length (omp_f omp samples) = n.
Proof.
  intros I H C B Ha. pose proof (repeat_length f0 n) as Ln. destruct omp as [ts|]; simpl in *.
  - apply red_trees_ok; auto. intros i Hi. apply H. apply (Permutation_in _ C) in Hi. apply in_seq in Hi. lia.
  - assert (H' : forall i, In i (seq 0 samples) -> ok i) by (intros i Hi; apply H; apply in_seq in Hi; lia).
    split; [apply red_iterations_ok; auto|apply length_red_f; auto].
Qed.
End Reduction.

Section Any.
Context {FO : fops}.
Variable c : cfg.
Variable vexp : F -> F.
Hypothesis mulC : forall a b : F, fmul a b = fmul b a.

Lemma add_metrics_ok ps rs y t acc : 1 <= length ps -> length rs = length ps ->
  forall ts j m a, holds m y ps -> holds m t rs -> holds m (acc +! j) a -> length a = length ts ->
  blk acc <> blk y -> blk acc <> blk t ->
  add_metrics (length ps) ts j y t acc m = Ok (tt, writem m (acc +! j) (map2 fadd a (map (fun t => metric_f t ps rs) ts))).
Proof.
  intros Hn L. induction ts as [|f ts IH]; intros j m a Hy Ht Ha La B1 B2.
  { destruct a; [|discriminate]. simpl. rewrite writem_nil. reflexivity. }
  destruct a as [|x a]; [discriminate|]. simpl in La.
  simpl. erewrite bind_ok by (apply metric_func_ok with (rs := rs); auto).
  erewrite bind_ok by (eapply load_holds0; eauto).
  set (e := fadd x (metric_f f ps rs)).
  pose proof (holds_valid Ha) as V. simpl in V.
  erewrite bind_ok. 2:{ apply store_valid0. eapply valid_le; eauto. lia. }
  assert (V1 : valid m (acc +! j) (length [e])) by (eapply valid_le; eauto; simpl; lia).
  change (x :: a) with ([x] ++ a) in Ha. apply holds_app_inv in Ha. destruct Ha as [_ Ha]. simpl in Ha.
  rewrite padd_padd in *. rewrite (IH (j + 1) (writem m (acc +! j) [e]) a); auto.
  - rewrite <- (padd_padd acc j 1). change (acc +! j +! 1) with (acc +! j +! length [e]). rewrite writem_writem_app; [reflexivity|].
    rewrite length_map2, map_length. eapply valid_le; [exact V|]. change (length [e]) with 1. lia.
  - apply holds_writem_disjoint; auto. left. exact B1.
  - apply holds_writem_disjoint; auto. left. exact B2.
  - apply holds_writem_disjoint; auto. right. left. simpl. lia.
Qed.

Lemma store_means_ok m k local results vs : holds m local vs -> valid m results (length vs) -> blk results <> blk local ->
  store_means (length vs) k local results m = Ok (tt, writem m results (map (fun x => fdiv x (fofZ (Z.of_nat k))) vs)).
Proof.
  intros H V B. set (new := map (fun x => fdiv x (fofZ (Z.of_nat k))) vs).
  assert (Ln : length new = length vs) by apply map_length.
  pose (st := fun j => writem m results (firstn j new)).
  replace m with (st 0) at 1 by (unfold st; simpl; apply writem_nil).
  replace (writem m results new) with (st (length vs)) by (unfold st; rewrite firstn_all2; auto; lia).
  apply loop1_st; [lia|]. intros j Hj. destruct (@nth_error_ex _ vs j ltac:(lia)) as [x Hx].
  erewrite bind_ok.
  2:{ eapply load_holds; [|exact Hx]. unfold st. apply holds_writem_disjoint; auto; [|left; exact B].
      eapply valid_le; eauto. rewrite firstn_length. lia. }
  unfold st. eapply store_next; eauto. unfold new. rewrite nth_error_map, Hx. reflexivity.
Qed.

(** the memory of a call of evaluate *)
Definition eval_mem (nn : neuralnet) (net : list flayer) (m : mem) (X Y : ptr) (xs ts : list (list F)) : Prop :=
  nn_layers nn <> [] /\ net_holds c m (in_size nn) (nn_layers nn) net /\
  holds m X (concat xs) /\ holds m Y (concat ts) /\ length ts = length xs /\
  (forall x, In x xs -> length x = in_size nn) /\ (forall t, In t ts -> length t = out_size nn).

Section Run.
Variables (nn : neuralnet) (net : list flayer) (m : mem) (X Y : ptr) (xs ts : list (list F)) (mets : list metric) (s : esched).
Hypothesis EM : eval_mem nn net m X Y xs ts.
Hypothesis HP : forall i, aligned_base c (es_pred s i).
Hypothesis HW : forall i, aligned_base c (es_work s i).
Let ni := in_size nn.
Let no := out_size nn.

(** the prediction of sample i, and the metrics of it *)
Definition pred_f (i : nat) : list F := forward_f c vexp net (es_pred s i) (nth i xs []).
Definition mets_f (i : nat) : list F := map (fun t => metric_f t (pred_f i) (nth i ts [])) mets.

Lemma last_layer : exists l, nth_error (nn_layers nn) (length (nn_layers nn) - 1) = Some l /\ no = n_output l /\ 1 <= no.
Proof.
  destruct EM as (Hne & HN & _).
  destruct (@nth_error_ex _ (nn_layers nn) (length (nn_layers nn) - 1)) as [l Hl]. { destruct (nn_layers nn); simpl; [congruence|lia]. }
  exists l. split; auto. split; [apply out_size_nth; auto|]. unfold no. rewrite (out_size_nth _ _ Hl).
  assert (G : forall ls nt k, net_holds c m k ls nt -> Forall (fun l => 1 <= n_output l) ls).
  { clear. induction ls; intros [|f nt] k H; simpl in H; try tauto; constructor. - destruct H as [(A & B & _) _]. auto. - destruct H. eapply IHls; eauto. }
  specialize (G _ _ _ HN). rewrite Forall_forall in G. apply G. eapply nth_error_In; eauto.
Qed.

Lemma length_pred i x : nth_error xs i = Some x -> length (pred_f i) = no.
Proof.
  intros Hi. destruct EM as (Hne & HN & _ & _ & _ & HX & _). destruct last_layer as (l & Hl & E & _).
  destruct (net_holds_fits_len c m _ _ _ HN Hne l Hl) as (f & Hf & E2 & _).
  unfold pred_f. rewrite (nth_error_nth xs i [] Hi). rewrite (forward_f_length c vexp net _ x f); auto.
  - lia. - rewrite (HX x (nth_error_In _ _ Hi)). eapply net_holds_fits_f; eauto.
Qed.

Lemma sample_holds i x : nth_error xs i = Some x ->
  length x = ni /\ holds m (X +! (i * ni)) x /\
  exists t, nth_error ts i = Some t /\ length t = no /\ holds m (Y +! (i * no)) t.
Proof.
  intros Hi. destruct EM as (Hne & HN & HX & HY & L & LX & LT).
  assert (RX : forall k z, nth_error xs k = Some z -> length z = ni) by (intros k z Hz; apply LX; eapply nth_error_In; eauto).
  assert (RT : forall k z, nth_error ts k = Some z -> length z = no) by (intros k z Hz; apply LT; eapply nth_error_In; eauto).
  pose proof (nth_error_lt _ _ Hi) as Li.
  destruct (@nth_error_ex _ ts i ltac:(lia)) as [t Ht].
  destruct (concat_row xs ni RX i x Hi) as [E1 E2]. destruct (concat_row ts no RT i t Ht) as [E3 E4].
  split; [eapply RX; eauto|]. split. { rewrite <- E2. apply holds_sub; auto. rewrite E1. apply row_fit. auto. }
  exists t. split; auto. split; [eapply RT; eauto|]. rewrite <- E4. apply holds_sub; auto. rewrite E3. apply row_fit. lia.
Qed.

Lemma iteration_body : forall rest acc a i, i < length xs -> length m <= blk acc -> holds (m ++ rest) acc a -> length a = length mets ->
  eval_iteration c vexp s nn X Y mets acc i (m ++ rest) = Ok (tt, writem (m ++ rest) acc (map2 fadd a (mets_f i))).
Proof.
  intros rest acc a i Hi B Ha La. destruct (@nth_error_ex _ xs i Hi) as [x Hx].
  destruct (sample_holds i x Hx) as (Lx & HXi & t & Ht & Lt & HYi).
  destruct EM as (Hne & HN & _). destruct last_layer as (l & Hl & El & Hno).
  unfold eval_iteration, alloca. erewrite bind_ok by reflexivity. fold ni no.
  set (m1 := m ++ rest) in *. set (y := mkptr (length m1) 0). set (blk1 := mkblock (es_pred s i) (repeat None no)).
  assert (AL : al c (addr (m1 ++ [blk1]) y) 0 = true).
  { unfold y. rewrite addr_work. apply (al_aligned_base c _ 0 (HP i)). apply Nat.divide_0_r. }
  assert (Lm1 : length m <= length m1) by (unfold m1; rewrite app_length; lia).
  pose proof (net_in_m c m _ _ _ HN) as IM.
  erewrite bind_ok.
  2:{ apply (predict_ok c vexp mulC (es_work s i) nn net (m1 ++ [blk1]) (X +! (i * ni)) y x); auto.
      - rewrite Lx. unfold m1. rewrite <- app_assoc. apply net_holds_prefix. exact HN.
      - unfold m1. rewrite <- app_assoc. apply holds_prefix. exact HXi.
      - intros l' Hl'. assert (l' = l) by congruence. subst l'.
        split. { rewrite <- El. apply valid_last. rewrite repeat_length. auto. }
        split. { apply al_kal. exact AL. }
        split. { destruct (l_act l); simpl; auto. intros HA HN16. pose proof (al_kal c (m1 ++ [blk1]) y (n_output l) AL) as [_ K]. apply K; [|lia].
                 unfold has_avx2, has_avx in *. destruct (cfg_isa c); auto. }
        split. { rewrite Forall_forall in IM. destruct (IM l (nth_error_In _ _ Hl)) as [I1 I2]. split; left; simpl; lia. }
        intros _. left. simpl. pose proof (holds_blk _ _ _ HXi). simpl in *. lia. }
  assert (EP : forward_f c vexp net (addr (m1 ++ [blk1]) y) x = pred_f i).
  { unfold pred_f. rewrite (nth_error_nth xs i [] Hx). unfold y. rewrite addr_work. simpl. rewrite Z.add_0_r. reflexivity. }
  rewrite EP. pose proof (length_pred i x Hx) as LP.
  assert (E1 : writem (m1 ++ [blk1]) y (pred_f i) = m1 ++ [mkblock (es_pred s i) (map Some (pred_f i))]).
  { unfold blk1, y. pose proof (writem_last_none m1 (es_pred s i) no (pred_f i) [] LP) as E. simpl in E. rewrite !app_nil_r in E. exact E. }
  rewrite E1. pose proof (holds_blk _ _ _ Ha) as Bl.
  rewrite <- LP at 1. erewrite bind_ok.
  2:{ apply add_metrics_ok with (rs := t) (a := a).
      - lia. - lia. - apply holds_last_all.
      - apply holds_app_l; [pose proof (holds_blk _ _ _ HYi); simpl in *; lia|]. apply holds_prefix. exact HYi.
      - rewrite padd_0. apply holds_app_l; auto. - exact La.
      - simpl. lia. - pose proof (holds_blk _ _ _ HYi). simpl in *. lia. }
  rewrite padd_0, writem_app_l by auto. unfold freea. rewrite removelast_last. unfold mets_f.
  rewrite (nth_error_nth ts i [] Ht). reflexivity.
Qed.

Definition eval_f : list F :=
  map (fun x => fdiv x (fofZ (Z.of_nat (length xs)))) (omp_f (length mets) mets_f (es_omp s) (length xs)).

Lemma evaluate_ok ms results : metric_list ms = Ok mets -> omp_covers (es_omp s) (length xs) -> valid m results (length mets) ->
  evaluate c vexp s nn (length xs) X Y (Some ms) results m = Ok (tt, writem m results eval_f) /\ length eval_f = length mets.
Proof.
  intros EMs C V. unfold evaluate. rewrite EMs. set (n := length mets) in *.
  unfold alloca. erewrite bind_ok by reflexivity.
  erewrite bind_ok. 2:{ apply storev_valid0. apply valid_last. rewrite !repeat_length. auto. }
  pose proof (writem_last_none m (es_local s) n (repeat f0 n) [] (repeat_length _ _)) as E1. simpl in E1. rewrite !app_nil_r in E1.
  rewrite E1. set (loc := mkptr (length m) 0).
  destruct (omp_for_ok n (eval_iteration c vexp s nn X Y mets) mets_f (fun i => i < length xs)
     (fun m' => exists rest, m' = m ++ rest) (fun k => length m <= k)) with (omp := es_omp s) (samples := length xs)
     (m := m ++ [mkblock (es_local s) (map Some (repeat f0 n))]) (acc := loc) as [E2 L2]; auto.
  { intros i Hi. apply map_length. }
  { intros m' b (rest & ->). exists (rest ++ [b]). rewrite app_assoc. reflexivity. }
  { intros m' (rest & ->). rewrite app_length. lia. }
  { intros m' p ys (rest & ->) Hb. destruct (writem_above m rest p ys Hb) as (rest' & E & _). exists rest'. exact E. }
  { intros m' acc a i (rest & ->) Hi Hb Ha La. apply iteration_body; auto. }
  { eexists. reflexivity. }
  { apply holds_last_all. }
  erewrite bind_ok by exact E2.
  set (S := omp_f n mets_f (es_omp s) (length xs)) in *.
  assert (E3 : writem (m ++ [mkblock (es_local s) (map Some (repeat f0 n))]) loc S = m ++ [mkblock (es_local s) (map Some S)]).
  { unfold loc. rewrite writem_last_map by (rewrite L2, repeat_length; auto). rewrite skipn_all2 by (rewrite L2, repeat_length; auto). rewrite app_nil_r. reflexivity. }
  rewrite E3. destruct V as (b & Hb & Lb). pose proof (nth_error_lt _ _ Hb) as Bl.
  rewrite <- L2 at 1. erewrite bind_ok.
  2:{ apply store_means_ok.
      - apply holds_last_all.
      - exists b. rewrite nth_error_app1 by auto. split; auto. lia.
      - unfold loc. simpl. lia. }
  rewrite writem_app_l by auto. unfold freea. rewrite removelast_last.
  split; [reflexivity|]. unfold eval_f. rewrite map_length. exact L2.
Qed.
End Run.
End Any.
