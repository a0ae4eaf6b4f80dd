(** RaceProofs.v -- proofs for Prop_Race.v *)
From Coq Require Import List Arith ZArith Lia Bool.
From Verif Require Import Base BaseProofs Ops Mem MemProofs Kernels KernelProofs Activation ActivationProofs
  Loss Neuralnet ForwardProofs BackpropProofs GradProofs GradPropProofs PredictProofs BitsProofs SpecMem ParamProofs Batch BatchProofs BlasProofs
  Optimizer OptProofs Evaluate EvalProofs SpecRace.
Import ListNotations.
Local Open Scope mem_scope.

Section Agree.
Context {FO : fops}.

Lemma agree_refl rs m : agree_on rs m m.
Proof. repeat split; auto. Qed.
Lemma agree_addr rs m m2 p : agree_on rs m m2 -> addr m2 p = addr m p.
Proof.
  intros (_ & B & _). unfold addr. specialize (B (blk p)). destruct (nth_error m2 (blk p)), (nth_error m (blk p)); simpl in B; congruence.
Qed.
Lemma agree_valid rs m m2 q n : agree_on rs m m2 -> valid m q n -> valid m2 q n.
Proof.
  intros (A & B & C & D) (b & Hb & HL). specialize (C (blk q)). rewrite Hb in C. simpl in C.
  destruct (nth_error m2 (blk q)) as [b'|] eqn:Hb'; [|discriminate]. simpl in C. inversion C as [C']. exists b'. split; auto. lia.
Qed.
Lemma agree_holds rs m m2 q ys : agree_on rs m m2 -> holds m q ys -> In (q, length ys) rs -> holds m2 q ys.
Proof.
  intros (A & B & C & D) (b & Hb & HL & HS) HI.
  specialize (C (blk q)). rewrite Hb in C. simpl in C. destruct (nth_error m2 (blk q)) as [b'|] eqn:Hb'; [|discriminate].
  simpl in C. inversion C as [C']. exists b'. split; auto. split; [lia|].
  rewrite <- HS. apply nth_error_ext. intros k. destruct (Nat.lt_ge_cases k (length ys)) as [Hk|Hk].
  - rewrite !nth_error_slice by lia. specialize (D (blk q) (off q + k)).
    unfold cell_at in D. rewrite Hb, Hb' in D. apply D. exists q, (length ys). split; auto. split; auto. lia.
  - rewrite !(proj2 (nth_error_None _ _)); auto; rewrite length_slice by lia; lia.
Qed.
Lemma agree_incl rs rs' m m2 : incl rs' rs -> agree_on rs m m2 -> agree_on rs' m m2.
Proof. intros HI (A & B & C & D). repeat (split; auto). intros b i (p & n & H & E). apply D. exists p, n. auto. Qed.

Lemma holds_cell m p ys k : holds m p ys -> k < length ys -> cell_at m (blk p) (off p + k) = option_map Some (nth_error ys k).
Proof.
  intros (b & Hb & HL & HS) Hk. unfold cell_at. rewrite Hb. rewrite <- nth_error_map, <- HS.
  rewrite nth_error_slice; auto.
Qed.

Lemma oci_agree m m' rs ws : only_changes_in m m' ws -> no_overlap ws rs -> agree_on rs m m'.
Proof.
  intros (A & B & C & D) AP. repeat (split; auto). intros b i HI. apply D. intros p n Hp E. apply (AP b i); auto. exists p, n. tauto.
Qed.

Lemma agree_writem m m2 rs p ys : agree_on rs m m2 -> valid m p (length ys) ->
  agree_on [(p, length ys)] (writem m p ys) (writem m2 p ys).
Proof.
  intros A V. pose proof (agree_valid _ _ _ _ _ A V) as V2.
  pose proof (oci_writem m p ys [(p, length ys)] V (or_introl eq_refl)) as (L1 & B1 & C1 & _).
  pose proof (oci_writem m2 p ys [(p, length ys)] V2 (or_introl eq_refl)) as (L2 & B2 & C2 & _).
  destruct A as (L & B & C & _).
  split; [congruence|]. split. { intros b. rewrite B1, B2. auto. } split. { intros b. rewrite C1, C2. auto. }
  intros b i (q & n & [E|[]] & -> & Hi). inversion E; subst.
  replace i with (off q + (i - off q)) by lia.
  rewrite !(holds_cell _ q ys); auto; try lia; apply holds_writem_same; auto.
Qed.

Lemma accesses_intro run m rs p ys : valid m p (length ys) ->
  (forall m2, agree_on rs m m2 -> run m2 = Ok (tt, writem m2 p ys)) ->
  accesses_only run m rs [(p, length ys)].
Proof.
  intros V H. exists (writem m p ys). split; [apply H, agree_refl|]. intros m2 A.
  exists (writem m2 p ys). split; auto. split.
  - apply oci_writem; [eapply agree_valid; eauto|left; reflexivity].
  - eapply agree_writem; eauto.
Qed.

(** *** race freedom gives independence of the order *)
Lemma inside_dec rs b i : {inside rs b i} + {~ inside rs b i}.
Proof.
  induction rs as [|[p n] rs IH]. { right. intros (p & n & [] & _). }
  destruct IH as [IH|IH].
  { left. destruct IH as (q & k & HI & E). exists q, k. split; auto. right. auto. }
  destruct (Nat.eq_dec b (blk p)) as [E|E].
  2:{ right. intros (q & k & [H|H] & E1 & E2); [inversion H; subst; auto|]. apply IH. exists q, k. auto. }
  destruct (le_lt_dec (off p) i) as [E1|E1].
  2:{ right. intros (q & k & [H|H] & G1 & G2); [inversion H; subst; lia|]. apply IH. exists q, k. auto. }
  destruct (lt_dec i (off p + n)) as [E2|E2].
  2:{ right. intros (q & k & [H|H] & G1 & G2); [inversion H; subst; lia|]. apply IH. exists q, k. auto. }
  left. exists p, n. split; [left; auto|]. split; auto.
Qed.

Lemma oci_outside m m' rs b i : only_changes_in m m' rs -> ~ inside rs b i -> cell_at m' b i = cell_at m b i.
Proof. intros (_ & _ & _ & D) H. apply D. intros p n HI E. apply H. exists p, n. tauto. Qed.

Lemma mem_ext (m m' : mem) : length m' = length m ->
  (forall b, option_map base (nth_error m' b) = option_map base (nth_error m b)) ->
  (forall b i, cell_at m' b i = cell_at m b i) -> m' = m.
Proof.
  intros L B C. apply nth_error_ext. intros k. specialize (B k). specialize (C k). unfold cell_at in C.
  destruct (nth_error m' k) as [[b1 c1]|] eqn:E1, (nth_error m k) as [[b2 c2]|] eqn:E2; simpl in *; try discriminate; auto.
  inversion B. subst. f_equal. f_equal. apply nth_error_ext. exact C.
Qed.

Lemma race_free_commute_proof run1 run2 m : race_free run1 run2 m ->
  exists m1 m2 m', run1 m = Ok (tt, m1) /\ run2 m = Ok (tt, m2) /\ run2 m1 = Ok (tt, m') /\ run1 m2 = Ok (tt, m').
Proof.
  intros (r1 & w1 & r2 & w2 & (m1 & E1 & A1) & (m2 & E2 & A2) & P12 & Pw & P21).
  destruct (A1 m (agree_refl _ _)) as (m1' & E1' & O1 & _). assert (m1' = m1) by congruence. subst m1'.
  destruct (A2 m (agree_refl _ _)) as (m2' & E2' & O2 & _). assert (m2' = m2) by congruence. subst m2'.
  assert (P12' : agree_on r2 m m1) by (eapply oci_agree; eauto).
  assert (P21' : agree_on r1 m m2) by (eapply oci_agree; eauto).
  destruct (A2 m1 P12') as (m12 & E12 & O12 & G12). destruct (A1 m2 P21') as (m21 & E21 & O21 & G21).
  assert (EQ : m12 = m21).
  { apply mem_ext.
    - destruct O12 as (X1 & _), O21 as (X2 & _), O1 as (X3 & _), O2 as (X4 & _). congruence.
    - intros b. destruct O12 as (_ & X1 & _), O21 as (_ & X2 & _), O1 as (_ & X3 & _), O2 as (_ & X4 & _). rewrite X1, X2, X3, X4. auto.
    - intros b i. destruct (inside_dec w1 b i) as [H1|H1]; [|destruct (inside_dec w2 b i) as [H2|H2]].
      + rewrite (oci_outside _ _ _ _ _ O12) by (intros H; exact (Pw b i H1 H)).
        destruct G21 as (_ & _ & _ & G). symmetry. apply G. auto.
      + destruct G12 as (_ & _ & _ & G). rewrite G by auto.
        symmetry. rewrite (oci_outside _ _ _ _ _ O21); auto.
      + rewrite (oci_outside _ _ _ _ _ O12), (oci_outside _ _ _ _ _ O1), (oci_outside _ _ _ _ _ O21), (oci_outside _ _ _ _ _ O2); auto. }
  subst m21. exists m1, m2, m12. auto.
Qed.

Lemma dis_no_overlap rs ws : (forall r w, In r rs -> In w ws -> dis r w) -> no_overlap rs ws.
Proof.
  intros H b i (p & n & H1 & E1 & L1) (q & k & H2 & E2 & L2). specialize (H _ _ H1 H2). unfold dis, disjoint in H. simpl in H.
  destruct H as [H|[H|H]]; [congruence|lia|lia].
Qed.

(** *** the preconditions *)
Variable c : cfg.
Lemma agree_kal rs m m2 n p : agree_on rs m m2 -> kal c n m p -> kal c n m2 p.
Proof. intros H. unfold kal, aligned_to. rewrite (agree_addr _ _ _ p H). auto. Qed.
Lemma agree_act_pre rs m m2 g p n : agree_on rs m m2 -> act_pre c g m p n -> act_pre c g m2 p n.
Proof. intros H. unfold act_pre, aligned_to. rewrite (agree_addr _ _ _ p H). auto. Qed.
Lemma agree_net_holds rs m m2 : agree_on rs m m2 -> forall ls net n, net_holds c m n ls net ->
  incl (regions ls) rs -> net_holds c m2 n ls net.
Proof.
  intros H. induction ls as [|l ls IH]; intros [|f net] n HN HI; simpl in HN; try tauto; simpl; auto.
  destruct HN as [(A & B & C & D & E & G & K & L) HN]. split.
  - unfold layer_holds. repeat (split; [auto; fail|]). split; [|split].
    + eapply agree_holds; eauto. apply HI. simpl. right. left. f_equal. rewrite E, A, C. reflexivity.
    + eapply agree_holds; eauto. apply HI. simpl. left. f_equal. rewrite C. reflexivity.
    + eapply agree_kal; eauto.
  - eapply IH; eauto. intros r Hr. apply HI. simpl. auto.
Qed.
Lemma agree_out_pre rs m m2 ls a n po : agree_on rs m m2 -> out_pre c m ls a n po -> out_pre c m2 ls a n po.
Proof.
  intros H HO l Hl. destruct (HO l Hl) as (V & K & P & O & D).
  split; [eapply agree_valid; eauto|]. split; [eapply agree_kal; eauto|]. split; [eapply agree_act_pre; eauto|]. auto.
Qed.

Variable vexp : F -> F.
Hypothesis mulC : forall a b : F, fmul a b = fmul b a.

Lemma predict_accesses wb nn net m pin po xs :
  nn_layers nn <> [] -> aligned_base c wb -> net_holds c m (length xs) (nn_layers nn) net -> holds m pin xs ->
  out_pre c m (nn_layers nn) pin (length xs) po ->
  accesses_only (neuralnet_predict c vexp wb nn pin po) m ((pin, length xs) :: regions (nn_layers nn)) [(po, out_size nn)].
Proof.
  intros Hne HB HN Hin HO.
  assert (L : length (forward_f c vexp net (addr m po) xs) = out_size nn).
  { destruct (@nth_error_ex _ (nn_layers nn) (length (nn_layers nn) - 1)) as [l Hl]. { destruct (nn_layers nn); simpl; [congruence|lia]. }
    destruct (net_holds_fits_len c m _ _ _ HN Hne l Hl) as (f & Hf & E & _).
    rewrite (forward_f_length c vexp net (addr m po) xs f); auto.
    - rewrite <- E. symmetry. apply out_size_nth. auto.
    - eapply net_holds_fits_f; eauto. }
  rewrite <- L. apply accesses_intro. { eapply out_len; eauto. }
  intros m2 A. rewrite <- (agree_addr _ _ _ po A). apply predict_ok; auto.
  - eapply agree_net_holds; eauto. intros r Hr. right. auto.
  - eapply agree_holds; eauto. left. reflexivity.
  - eapply agree_out_pre; eauto.
Qed.

(** *** an iteration of the batch gradient *)
Lemma concat_one A (x : list A) : concat [x] = x.
Proof. simpl. apply app_nil_r. Qed.

Lemma agree_train rs m m2 nn lf net X Y xs ts k x t : agree_on rs m m2 -> train_mem c nn lf net m X Y xs ts ->
  nth_error xs k = Some x -> nth_error ts k = Some t ->
  incl (regions (nn_layers nn)) rs -> In (X +! (k * in_size nn), in_size nn) rs -> In (Y +! (k * out_size nn), out_size nn) rs ->
  train_mem c nn lf net m2 (X +! (k * in_size nn)) (Y +! (k * out_size nn)) [x] [t].
Proof.
  intros A (H1 & H2 & H3 & H4 & H5 & H6 & H7 & H8) Hx Ht I1 I2 I3.
  pose proof (nth_error_lt _ _ Hx) as Lk.
  destruct (concat_row xs (in_size nn) H5 k x Hx) as [LX SX]. destruct (concat_row ts (out_size nn) H6 k t Ht) as [LT ST].
  pose proof (row_fit k (length xs) (in_size nn) Lk) as RX. pose proof (row_fit k (length xs) (out_size nn) Lk) as RT.
  pose proof (H5 k x Hx) as Lx. pose proof (H6 k t Ht) as Lt.
  assert (N2 : net_holds c m2 (in_size nn) (nn_layers nn) net) by (eapply agree_net_holds; eauto).
  split; auto. split; auto. rewrite !concat_one.
  split. { eapply agree_holds; [eauto| |rewrite Lx; auto]. rewrite <- SX. apply holds_sub; auto. lia. }
  split. { eapply agree_holds; [eauto| |rewrite Lt; auto]. rewrite <- ST. apply holds_sub; auto. lia. }
  split. { intros [|[|i]] z Hz; inversion Hz; subst; auto. }
  split. { intros [|[|i]] z Hz; inversion Hz; subst; auto. }
  split; auto.
  apply train_align_addr with (m := m); auto.
  - apply in_m_nns. eapply OptProofs.net_in_m; eauto.
  - apply in_m_nns. eapply OptProofs.net_in_m; eauto.
  - intros l Hl j. eapply agree_addr; eauto.
Qed.

Lemma gradient_accesses nn lf net m X Y xs ts s o pv i b k acc a :
  o_nn o = neuralnet_set_loss nn (Some lf) -> o_pivot o = Some pv -> nth_error pv (i + b) = Some k -> k < length xs ->
  (forall b, aligned_base c (s_grad s b)) -> (forall b, aligned_base c (s_work s b)) ->
  train_mem c nn lf net m X Y xs ts -> holds m acc a -> length a = total_n_parameters nn ->
  accesses_only (grad_iteration c vexp s o X Y i acc b) m
    ((X +! (k * in_size nn), in_size nn) :: (Y +! (k * out_size nn), out_size nn) :: (acc, total_n_parameters nn) :: regions (nn_layers nn))
    [(acc, total_n_parameters nn)].
Proof.
  intros Ho Hpv Hk Lk Hsg Hsw T Ha La. set (np := total_n_parameters nn) in *.
  destruct (@nth_error_ex _ xs k Lk) as [x Hx].
  assert (LT : length ts = length xs) by apply T.
  destruct (@nth_error_ex _ ts k ltac:(lia)) as [t Ht].
  set (rs := _ :: _ :: _ :: _).
  set (pv' := repeat 0 (S b)). set (o' := {| o_nn := o_nn o; o_batchsize := o_batchsize o; o_pivot := Some pv' |}).
  assert (Hp : forall j, In j pv' -> j < length [x]). { intros j Hj. apply repeat_spec in Hj. subst. simpl. lia. }
  assert (Hb : 0 + b < length pv'). { unfold pv'. rewrite repeat_length. lia. }
  assert (E : forall m2, grad_iteration c vexp s o X Y i acc b m2 =
                         grad_iteration c vexp s o' (X +! (k * in_size nn)) (Y +! (k * out_size nn)) 0 acc b m2).
  { intros m2. unfold grad_iteration. rewrite Hpv, Hk. change (o_pivot o') with (Some pv'). cbv beta iota. change (0 + b) with b.
    assert (E0 : nth_error pv' (0 + b) = Some 0).
    { destruct (@nth_error_ex _ pv' (0 + b) Hb) as [z Hz]. rewrite Hz. f_equal. apply nth_error_In, repeat_spec in Hz. auto. }
    change (0 + b) with b in E0. rewrite E0. change (o_nn o') with (o_nn o). rewrite Ho, in_size_nns, out_size_nns. simpl Nat.mul. rewrite !padd_0. reflexivity. }
  assert (G : forall m2, agree_on rs m m2 -> train_mem c nn lf net m2 (X +! (k * in_size nn)) (Y +! (k * out_size nn)) [x] [t]).
  { intros m2 A. eapply agree_train; eauto; unfold rs; simpl; auto. intros r Hr. simpl. auto. }
  set (g := iter_grad c vexp lf [x] [t] pv' 0 net b).
  assert (Lg : length g = np).
  { eapply length_iter_grad with (m := m); eauto. apply G, agree_refl. }
  assert (Lm : length (map2 fadd a g) = np) by (apply length_map2_same; auto).
  rewrite <- Lm at 1. apply accesses_intro. { rewrite Lm, <- La. apply holds_valid; auto. }
  intros m2 A. rewrite E. apply (iteration_ok c vexp mulC nn lf) with (xs := [x]) (ts := [t]); auto.
  eapply agree_holds; eauto. rewrite La. unfold rs. simpl. auto.
Qed.

(** *** an iteration of evaluate *)
Lemma agree_split rs m rest m2 : agree_on rs (m ++ rest) m2 -> exists ma mr, m2 = ma ++ mr /\ length ma = length m /\ agree_on rs m ma.
Proof.
  intros (L & B & C & D). rewrite app_length in L. exists (firstn (length m) m2), (skipn (length m) m2).
  assert (Lf : length (firstn (length m) m2) = length m) by (rewrite firstn_length; lia).
  assert (N : forall b, b < length m -> nth_error (firstn (length m) m2) b = nth_error m2 b).
  { intros b Hb. rewrite <- (firstn_skipn (length m) m2) at 2. rewrite nth_error_app1; auto. lia. }
  assert (N2 : forall b, length m <= b -> nth_error (firstn (length m) m2) b = None /\ nth_error m b = None).
  { intros b Hb. split; apply nth_error_None; lia. }
  split; [symmetry; apply firstn_skipn|]. split; auto. split; auto.
  split; [|split].
  - intros b. destruct (Nat.lt_ge_cases b (length m)) as [H|H]; [|destruct (N2 b H) as [-> ->]; auto].
    rewrite N by auto. rewrite B, nth_error_app1 by auto. reflexivity.
  - intros b. destruct (Nat.lt_ge_cases b (length m)) as [H|H]; [|destruct (N2 b H) as [-> ->]; auto].
    rewrite N by auto. rewrite C, nth_error_app1 by auto. reflexivity.
  - intros b i HI. specialize (D b i HI). unfold cell_at in *.
    destruct (Nat.lt_ge_cases b (length m)) as [H|H]; [|destruct (N2 b H) as [-> ->]; auto].
    rewrite N by auto. rewrite D, nth_error_app1 by auto. reflexivity.
Qed.

Lemma eval_accesses nn net m rest X Y xs ts mets s acc a i :
  (forall i, aligned_base c (es_pred s i)) -> (forall i, aligned_base c (es_work s i)) ->
  eval_mem c nn net m X Y xs ts -> i < length xs -> length m <= blk acc -> holds (m ++ rest) acc a -> length a = length mets ->
  accesses_only (eval_iteration c vexp s nn X Y mets acc i) (m ++ rest)
    ((X +! (i * in_size nn), in_size nn) :: (Y +! (i * out_size nn), out_size nn) :: (acc, length mets) :: regions (nn_layers nn))
    [(acc, length mets)].
Proof.
  intros HP HW EM Hi B Ha La. destruct (@nth_error_ex _ xs i Hi) as [x Hx].
  destruct (sample_holds c nn net m X Y xs ts EM i x Hx) as (Lx & HXi & t & Ht & Lt & HYi).
  set (rs := _ :: _ :: _ :: _).
  set (s' := {| es_omp := es_omp s; es_local := es_local s; es_pred := fun _ => es_pred s i; es_work := fun _ => es_work s i;
                es_predictions := es_predictions s |}).
  assert (E : forall m2, eval_iteration c vexp s nn X Y mets acc i m2 =
                         eval_iteration c vexp s' nn (X +! (i * in_size nn)) (Y +! (i * out_size nn)) mets acc 0 m2).
  { intros m2. unfold eval_iteration. simpl es_pred. simpl es_work. simpl Nat.mul. rewrite !padd_0. reflexivity. }
  destruct EM as (Hne & HN & _).
  assert (G : forall m2, agree_on rs m m2 -> eval_mem c nn net m2 (X +! (i * in_size nn)) (Y +! (i * out_size nn)) [x] [t]).
  { intros m2 A. split; auto. split. { eapply agree_net_holds; eauto. intros r Hr. unfold rs. simpl. auto. }
    rewrite !concat_one. split. { eapply agree_holds; eauto. rewrite Lx. unfold rs. simpl. auto. }
    split. { eapply agree_holds; eauto. rewrite Lt. unfold rs. simpl. auto. }
    split; auto. split; intros z [<-|[]]; auto. }
  set (v := mets_f c vexp net [x] [t] mets s' 0).
  assert (Lv : length v = length mets) by (unfold v, mets_f; apply map_length).
  assert (Lm : length (map2 fadd a v) = length mets) by (apply length_map2_same; auto).
  rewrite <- Lm at 1. apply accesses_intro. { rewrite Lm, <- La. apply holds_valid; auto. }
  intros m2 A. rewrite E. pose proof (agree_holds _ _ _ _ _ A Ha) as H2.
  destruct (agree_split _ _ _ _ A) as (ma & mr & -> & L2 & A2).
  apply (iteration_body c vexp mulC nn net ma) with (xs := [x]) (ts := [t]); auto.
  - intros k. apply HP.
  - intros k. apply HW.
  - simpl. lia.
  - apply H2. rewrite La. unfold rs. simpl. auto.
Qed.
End Agree.
