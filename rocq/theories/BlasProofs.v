(** BlasProofs.v -- batch prediction, BLAS version, in exact arithmetic *)
From Coq Require Import List Arith ZArith Lia Bool Reals.
From Verif Require Import Base BaseProofs Ops Mem MemProofs Kernels KernelProofs Activation ActivationProofs
  Loss Neuralnet ForwardProofs OpsR SpecReal RealForward PredictProofs BitsProofs GradProofs SpecMem ParamProofs Batch BatchProofs.
Import ListNotations.
Local Open Scope nat_scope.
Local Open Scope mem_scope.

Section Gen.
Context {FO : fops}.
Lemma loop1_inv n body (P : nat -> mem -> Prop) : forall i m, i <= n -> P i m ->
  (forall j m, i <= j < n -> P j m -> exists m', body j m = Ok (tt, m') /\ P (j + 1) m') ->
  exists m', loop1 n i body m = Ok (tt, m') /\ P n m'.
Proof.
  intros i m Hi HP Hb.
  assert (G : forall k i0 m, i <= i0 <= n -> n < i0 + k -> P i0 m -> exists m', for_loop k (fun i => i <? n) 1 i0 body m = Ok (n, m') /\ P n m').
  { induction k; intros i0 m0 H1 H2 HP0; [lia|]. simpl. destruct (Nat.ltb_spec i0 n).
    - destruct (Hb i0 m0) as (m1 & E1 & P1); [lia|auto|]. destruct (IHk (i0 + 1) m1) as (m2 & E2 & P2); [lia|lia|auto|].
      exists m2. split; auto. erewrite bind_ok by exact E1. auto.
    - exists m0. assert (i0 = n) by lia. subst. auto. }
  destruct (G (S n) i m) as (m' & E & Q); [lia|lia|auto|]. exists m'. split; auto. unfold loop1. erewrite bind_ok by exact E. reflexivity.
Qed.

Lemma row_fit i n k : i < n -> i * k + k <= n * k.
Proof. intros. replace (i * k + k) with ((i + 1) * k) by lia. apply Nat.mul_le_mono_r. lia. Qed.
Lemma rows_dis p k i j : i <> j -> disjoint (p +! (i * k)) k (p +! (j * k)) k.
Proof.
  intros H. right. simpl. destruct (Nat.lt_ge_cases i j).
  - left. replace (off p + i * k + k) with (off p + (i + 1) * k) by lia. apply Nat.add_le_mono_l, Nat.mul_le_mono_r. lia.
  - right. replace (off p + j * k + k) with (off p + (j + 1) * k) by lia. apply Nat.add_le_mono_l, Nat.mul_le_mono_r. lia.
Qed.

(** an in-place operation on each of the rows of a matrix *)
Lemma rows_loop n k p (body : nat -> M unit) (old new : nat -> list F) m :
  valid m p (n * k) ->
  (forall i, i < n -> length (new i) = k) ->
  (forall i, i < n -> length (old i) <= k /\ holds m (p +! (i * k)) (old i)) ->
  (forall i m', i < n -> only_changes_in m m' [(p, n * k)] -> holds m' (p +! (i * k)) (old i) ->
     body i m' = Ok (tt, writem m' (p +! (i * k)) (new i))) ->
  exists m', loop1 n 0 body m = Ok (tt, m') /\ only_changes_in m m' [(p, n * k)] /\ holds m' p (concat (map new (seq 0 n))).
Proof.
  intros V LN LO Hb.
  destruct (@loop1_inv n body (fun j m' => only_changes_in m m' [(p, n * k)] /\
      (forall i, i < j -> i < n -> holds m' (p +! (i * k)) (new i)) /\
      (forall i, j <= i -> i < n -> holds m' (p +! (i * k)) (old i))) 0 m) as (m' & E & OC & H & _).
  - lia.
  - split; [apply oci_refl|]. split; [intros; lia|]. intros i _ Hi. apply LO; auto.
  - intros j m1 [_ Hj] (OC & H1 & H2).
    exists (writem m1 (p +! (j * k)) (new j)). split; [apply Hb; auto|].
    assert (Vj : valid m1 (p +! (j * k)) (length (new j))).
    { rewrite LN by auto. eapply valid_sub; [eapply oci_valid; eauto|apply row_fit; auto]. }
    split; [|split].
    + eapply oci_trans; [exact OC|]. eapply oci_wider; [apply (oci_writem m1 _ (new j)); [auto|left; reflexivity]| | |]; simpl; auto; try lia.
      rewrite LN by auto. pose proof (row_fit j n k Hj). lia.
    + intros i Hi Hin. destruct (Nat.eq_dec i j) as [->|Hne]; [apply holds_writem_same; auto|].
      apply holds_writem_disjoint; auto. { apply H1; lia. } rewrite !LN by auto. apply rows_dis. auto.
    + intros i Hi Hin. apply holds_writem_disjoint; auto. { apply H2; lia. } rewrite LN by auto.
      eapply disjoint_sub_r; [apply (rows_dis p k j i); lia| | |]; simpl; auto. pose proof (proj1 (LO i Hin)). lia.
  - exists m'. split; auto. split; auto. apply (holds_rows m' (map new (seq 0 n)) p k).
    + intros y Hy. apply in_map_iff in Hy. destruct Hy as (i & <- & Hi). apply in_seq in Hi. apply LN. lia.
    + rewrite map_length, seq_length. eapply oci_valid; eauto.
    + intros i y Hy. rewrite nth_error_map in Hy. destruct (nth_error (seq 0 n) i) as [q|] eqn:Hq; [|discriminate].
      inversion Hy; subst y. pose proof (nth_error_lt _ _ Hq) as Lq. rewrite seq_length in Lq.
      assert (q = i). { apply nth_error_nth with (d := 0) in Hq. rewrite seq_nth in Hq by auto. lia. } subst q. apply H; auto.
Qed.

Definition areas (ls : list layer) (acts : list ptr) (n : nat) : list (ptr * nat) :=
  map2 (fun l p => (p, n * n_output l)) ls acts.
Fixpoint bias_filled (m : mem) (net : list flayer) (acts : list ptr) (n : nat) : Prop :=
  match net, acts with
  | [], _ => True
  | f :: r, p :: q => holds m p (concat (map (fun _ => fb f) (seq 0 n))) /\ bias_filled m r q n
  | _, _ => False
  end.

Lemma length_bias_rows (b : list F) n : length (concat (map (fun _ => b) (seq 0 n))) = n * length b.
Proof.
  rewrite (length_concat_k _ _ (length b)). - rewrite map_length, seq_length. auto.
  - intros y Hy. apply in_map_iff in Hy. destruct Hy as (i & <- & _). auto.
Qed.

Lemma bias_filled_oci c m m' rs : only_changes_in m m' rs -> forall ls net k acts n, net_holds c m k ls net -> length acts = length ls ->
  (forall r r', In r rs -> In r' (areas ls acts n) -> dis r r') -> bias_filled m net acts n -> bias_filled m' net acts n.
Proof.
  intros OC. induction ls as [|l ls IH]; intros [|f net] k [|p acts] n HN HL HD HB; simpl in *; try tauto; try lia.
  destruct HN as [HLy HN]. destruct HB as [H1 H2]. split.
  - eapply oci_holds; eauto. intros q w Hq. rewrite length_bias_rows. destruct HLy as (_ & _ & E & _).
    unfold fn_out in E. rewrite <- E. apply (HD (q, w) (p, n * n_output l)); auto.
  - eapply IH; eauto.
Qed.

Lemma fill_ok c : forall ls net k acts n m, net_holds c m k ls net -> length acts = length ls ->
  Forall (fun r => valid m (fst r) (snd r)) (areas ls acts n) -> ForallOrdPairs dis (areas ls acts n) ->
  (forall r r', In r (areas ls acts n) -> In r' (regions ls) -> dis r r') ->
  exists m', fill_biases ls acts n m = Ok (tt, m') /\ only_changes_in m m' (areas ls acts n) /\ bias_filled m' net acts n.
Proof.
  induction ls as [|l ls IH]; intros [|f net] k [|p acts] n m HN HL HV HP HD; simpl in HN, HL; try tauto; try lia.
  { exists m. simpl. split; auto. split; auto. apply oci_refl. }
  destruct HN as [HLy HN]. cbn [areas map2] in *. apply FOP_inv in HP. destruct HP as [HP1 HP2].
  inversion HV as [|? ? V1 V2]; subst. simpl in V1.
  pose proof HLy as (E1 & E2 & E3 & E4 & E5 & E6 & E7 & E8). unfold fn_out in E3.
  destruct (@rows_loop n (n_output l) p (fun j => memcpy (p +! (j * n_output l)) (bias l) (n_output l))
     (fun i => []) (fun _ => fb f) m V1) as (m1 & R1 & OC1 & H1).
  - intros; auto.
  - intros i Hi. split; [simpl; lia|].
    destruct (valid_sub (i * n_output l) (n_output l) V1 (row_fit i n _ Hi)) as (b & Hb & HLb). exists b. split; [exact Hb|]. split; [cbn [length]; lia|reflexivity].
  - intros i m' Hi OC _. apply memcpy_ok; auto.
    + eapply oci_holds; eauto. intros q w [Eq|[]]. inversion Eq; subst q w.
      specialize (HD (p, n * n_output l) (bias l, n_output l) (or_introl eq_refl)). rewrite <- E3. apply HD. simpl. auto.
    + eapply valid_sub; [eapply oci_valid; eauto|apply row_fit; auto].
  - destruct (IH net (n_output l) acts n m1) as (m2 & R2 & OC2 & H2).
    + eapply oci_net_holds; eauto. intros r r' [<-|[]] Hr'. apply HD; simpl; auto.
    + lia.
    + eapply Forall_impl; [|exact V2]. intros r Hr. eapply oci_valid; eauto.
    + auto.
    + intros r r' Hr Hr'. apply HD; simpl; auto.
    + exists m2. split. { cbn [fill_biases]. erewrite bind_ok by exact R1. exact R2. }
      split. { eapply oci_trans; [eapply oci_incl; [|exact OC1]|eapply oci_incl; [|exact OC2]].
        - intros r [<-|[]]. simpl. auto. - intros r Hr. simpl. auto. }
      split; auto. eapply oci_holds; eauto. intros q w Hq. rewrite length_bias_rows, <- E3.
      rewrite Forall_forall in HP1. apply disjoint_sym. apply (HP1 (q, w)). auto.
Qed.
(** the pointers of lines 93-100, recursively *)
Fixpoint bacts (ls : list layer) (n : nat) (p out : ptr) : list ptr :=
  match ls with
  | [] => []
  | [l] => [out]
  | l :: r => p :: bacts r n (p +! (n_output l * n)) out
  end.
Lemma batch_acts_eq n out : forall ls p, ls <> [] -> batch_acts ls n p out = bacts ls n p out.
Proof.
  unfold batch_acts. induction ls as [|l ls IH]; intros p H; [congruence|]. destruct ls as [|l2 ls]; [reflexivity|].
  specialize (IH (p +! (n_output l * n))). change (bacts (l :: l2 :: ls) n p out) with (p :: bacts (l2 :: ls) n (p +! (n_output l * n)) out). rewrite <- IH by congruence. cbn [length].
  replace (S (S (length ls)) - 1) with (S (length ls)) by lia. replace (S (S (length ls)) - 2) with (length ls) by lia.
  cbn [firstn app]. f_equal. replace (S (length ls) - 1) with (length ls) by lia. f_equal.
  destruct ls as [|l3 ls]; [reflexivity|]. cbn [length firstn batch_ptrs]. replace (S (S (length ls)) - 2) with (length ls) by lia. reflexivity.
Qed.
Lemma length_bacts n out : forall ls p, length (bacts ls n p out) = length ls.
Proof.
  induction ls as [|l ls IH]; intros p; auto. destruct ls as [|l2 ls]; auto.
  change (bacts (l :: l2 :: ls) n p out) with (p :: bacts (l2 :: ls) n (p +! (n_output l * n)) out). cbn [length]. f_equal. apply IH.
Qed.
Lemma last_bacts n out a : forall ls p, ls <> [] -> last (bacts ls n p out) a = out.
Proof.
  induction ls as [|l ls IH]; intros p H; [congruence|]. destruct ls as [|l2 ls]; auto.
  change (bacts (l :: l2 :: ls) n p out) with (p :: bacts (l2 :: ls) n (p +! (n_output l * n)) out).
  transitivity (last (bacts (l2 :: ls) n (p +! (n_output l * n)) out) a); [|apply IH; congruence].
  pose proof (length_bacts n out (l2 :: ls) (p +! (n_output l * n))) as L.
  destruct (bacts (l2 :: ls) n (p +! (n_output l * n)) out) as [|q t]; [simpl in L; discriminate|reflexivity].
Qed.
Definition last_size (ls : list layer) : nat := last (map n_output ls) 0.
Lemma bacts_areas n out L : blk out <> L -> forall ls o,
  (forall r, In r (areas ls (bacts ls n (mkptr L o) out) n) ->
     r = (out, n * last_size ls) \/ (blk (fst r) = L /\ o <= off (fst r) /\ off (fst r) + snd r <= o + sum_outputs ls * n)) /\
  ForallOrdPairs dis (areas ls (bacts ls n (mkptr L o) out) n).
Proof.
  intros HB. induction ls as [|l ls IH]; intros o. { simpl. split; [intros r []|constructor]. }
  destruct ls as [|l2 ls]. { simpl. split; [|repeat constructor]. intros r [<-|[]]. left. reflexivity. }
  destruct (IH (o + n_output l * n)) as [I1 I2]. 
  change (bacts (l :: l2 :: ls) n (mkptr L o) out) with (mkptr L o :: bacts (l2 :: ls) n (mkptr L (o + n_output l * n)) out).
  set (bs := bacts (l2 :: ls) n (mkptr L (o + n_output l * n)) out) in *.
  change (areas (l :: l2 :: ls) (mkptr L o :: bs) n) with ((mkptr L o, n * n_output l) :: areas (l2 :: ls) bs n).
  rewrite sum_outputs_cons. change (last_size (l :: l2 :: ls)) with (last_size (l2 :: ls)). split.
  - intros r [<-|Hr]. + right. simpl fst. simpl snd. simpl blk. simpl off. split; auto. split; auto. rewrite Nat.mul_add_distr_r. lia.
    + destruct (I1 r Hr) as [E|(A & B & C)]; auto. right. split; auto. rewrite Nat.mul_add_distr_r. split; lia.
  - constructor; auto. apply Forall_forall. intros r Hr. unfold dis. cbn [fst snd]. destruct (I1 r Hr) as [->|(A & B & C)].
    + left. simpl. auto.
    + right. left. simpl. rewrite Nat.mul_comm. lia.
Qed.

Lemma net_holds_app_l c m b : forall ls net k, net_holds c m k ls net -> net_holds c (m ++ [b]) k ls net.
Proof. induction ls as [|l ls IH]; intros [|f net] k H; simpl in *; auto. destruct H. split; auto. apply layer_holds_app_l. auto. Qed.
Lemma regions_in_m m ls : Forall (in_m m) ls -> forall r, In r (regions ls) -> blk (fst r) < length m.
Proof.
  intros H r Hr. unfold regions in Hr. apply in_flat_map in Hr. destruct Hr as (l & Hl & Hr). rewrite Forall_forall in H.
  destruct (H l Hl) as [A B]. destruct Hr as [<-|[<-|[]]]; auto.
Qed.
Lemma oci_freea m b m' rs p k : only_changes_in (m ++ [b]) m' rs -> (forall r, In r rs -> r = (p, k) \/ blk (fst r) = length m) ->
  only_changes_in m (removelast m') [(p, k)] /\ (forall q xs, blk q < length m -> holds m' q xs -> holds (removelast m') q xs).
Proof.
  intros (A & B & C & D) H.
  assert (N : forall j, j < length m -> nth_error (removelast m') j = nth_error m' j).
  { intros j Hj. rewrite app_length in A. simpl in A. destruct (exists_last (l := m')) as (m1 & b1 & ->). { intros ->. simpl in A. lia. }
    rewrite removelast_last. rewrite app_length in A. simpl in A. rewrite nth_error_app1; auto. lia. }
  assert (LM : length (removelast m') = length m).
  { rewrite app_length in A. simpl in A. destruct (exists_last (l := m')) as (m1 & b1 & ->). { intros ->. simpl in A. lia. }
    rewrite removelast_last. rewrite app_length in A. simpl in A. lia. }
  assert (NM : forall j, length m <= j -> nth_error (removelast m') j = None /\ nth_error m j = None).
  { intros j Hj. split; apply nth_error_None; lia. }
  split; [|intros q xs Hq (bb & Hb & HL); exists bb; rewrite N by auto; auto].
  split; auto. split; [|split].
  - intros j. destruct (Nat.lt_ge_cases j (length m)) as [Hj|Hj]; [|destruct (NM j Hj) as [-> ->]; auto].
    rewrite N by auto. rewrite B, nth_error_app1; auto.
  - intros j. destruct (Nat.lt_ge_cases j (length m)) as [Hj|Hj]; [|destruct (NM j Hj) as [-> ->]; auto].
    rewrite N by auto. rewrite C, nth_error_app1; auto.
  - intros j i Hi. unfold cell_at. destruct (Nat.lt_ge_cases j (length m)) as [Hj|Hj]; [|destruct (NM j Hj) as [-> ->]; auto].
    rewrite N by auto. specialize (D j i). unfold cell_at in D. rewrite D; [rewrite nth_error_app1; auto|].
    intros p' n' Hr [F1 F2]. destruct (H _ Hr) as [E|E]; [|simpl in E; lia]. inversion E; subst. apply (Hi p k (or_introl eq_refl)). auto.
Qed.
End Gen.

Section Real.
Variable c : cfg.

(** cblas_sgemm in exact arithmetic: C + A B, row-major *)
Definition sgemm_exact (sgemm : nat -> nat -> nat -> list R -> list R -> list R -> list R) : Prop :=
  forall m n k A B C, length A = m * k -> length B = k * n -> length C = m * n ->
    length (sgemm m n k A B C) = m * n /\
    forall i j, i < m -> j < n ->
      vec (sgemm m n k A B C) (i * n + j) = (vec C (i * n + j) + sumf k (fun p => vec A (i * k + p) * vec B (p * n + j)))%R.

Variable sgemm : nat -> nat -> nat -> list R -> list R -> list R -> list R.
Hypothesis SG : sgemm_exact sgemm.

Lemma vec_concat (f : nat -> list R) n k i j : (forall i, i < n -> length (f i) = k) -> i < n -> j < k ->
  vec (concat (map f (seq 0 n))) (i * k + j) = vec (f i) j.
Proof.
  intros HL Hi Hj.
  assert (E : slice (i * k) k (concat (map f (seq 0 n))) = f i).
  { apply (concat_row (FO := opsR) (map f (seq 0 n)) k).
    - intros q y Hy. apply nth_error_In in Hy. apply in_map_iff in Hy. destruct Hy as (z & <- & Hz). apply in_seq in Hz. apply HL. lia.
    - rewrite nth_error_map, (nth_error_nth' (seq 0 n) 0) by (rewrite seq_length; auto). rewrite seq_nth by auto. reflexivity. }
  rewrite <- E. unfold slice. rewrite vec_firstn by auto. rewrite vec_skipn. reflexivity.
Qed.

Definition blas_tanh_ok (n : nat) (l : layer) : Prop := l_act l = Tanh -> has_avx2 c = false \/ n_output l * n < 16.

Lemma act_rows (m : @mem opsR) l n b (V : list R) : @holds opsR m b V -> length V = n * n_output l -> 1 <= n -> 1 <= n_output l ->
  blas_tanh_ok n l ->
  exists m' (U : list R),
    (match l_act l with
     | Softmax => loop1 n 0 (fun j => @activation_func opsR c exp Softmax (n_output l) (b +! (j * n_output l)))
     | g => @activation_func opsR c exp g (n_output l * n) b
     end) m = Ok (tt, m') /\
    only_changes_in m m' [(b, n * n_output l)] /\ @holds opsR m' b U /\ length U = n * n_output l /\
    forall i j, i < n -> j < n_output l -> vec U (i * n_output l + j) = act_math (l_act l) (n_output l) (fun q => vec V (i * n_output l + q)) j.
Proof.
  intros H LV Hn Hk HT. set (k := n_output l) in *.
  assert (NS : forall g, l_act l = g -> g <> Softmax -> exists m' (U : list R), @activation_func opsR c exp g (k * n) b m = Ok (tt, m') /\
    only_changes_in m m' [(b, n * k)] /\ @holds opsR m' b U /\ length U = n * k /\
    forall i j, i < n -> j < k -> vec U (i * k + j) = act_math g k (fun q => vec V (i * k + q)) j).
  { intros g Eg Ng. exists (writem m b (@act_f opsR c exp g (addr m b) V)), (@act_f opsR c exp g (addr m b) V).
    assert (LA : length (@act_f opsR c exp g (addr m b) V) = n * k) by (rewrite length_act_f; exact LV).
    assert (VV : valid m b (length (@act_f opsR c exp g (addr m b) V))).
    { rewrite LA, <- LV. apply holds_valid. exact H. }
    split. { replace (k * n) with (length V) by rlia. apply activation_func_ok; auto. - rlia || (rewrite LV; nia).
      - destruct g; simpl; auto. intros A2 L16. destruct (HT Eg) as [E|E]; [congruence|]. fold k in E. change (@F opsR) with R in *. lia. }
    split. { rewrite <- LA. apply oci_writem; auto. simpl. auto. }
    split. { apply holds_writem_same; auto. }
    split; [exact LA|]. intros i j Hi Hj. pose proof (row_fit i n k Hi). rewrite (act_R c g) by (change (@F opsR) with R in *; lia).
    destruct g; simpl; auto. congruence. }
  destruct (l_act l) eqn:EA; try (apply NS; [reflexivity|congruence]).
  clear NS. set (row := fun i => slice (i * k) k V).
  assert (LR : forall i, i < n -> length (row i) = k).
  { intros i Hi. unfold row. apply length_slice. pose proof (row_fit i n k Hi). lia. }
  destruct (@rows_loop opsR n k b (fun j => @activation_func opsR c exp Softmax k (b +! (j * k))) row
    (fun i => @act_f opsR c exp Softmax (addr m (b +! (i * k))) (row i)) m) as (m' & R1 & OC & H1).
  - rewrite <- LV. apply holds_valid. exact H.
  - intros i Hi. rewrite length_act_f. apply LR. auto.
  - intros i Hi. split. { change (@F opsR) with R. rewrite (LR i Hi). lia. } apply holds_sub; auto. pose proof (row_fit i n k Hi). rlia.
  - intros i m1 Hi OC Hh. rewrite <- (oci_addr m m1 _ _ OC). pose proof (LR i Hi) as LI.
    replace k with (length (row i)) at 1 by auto. apply activation_func_ok; auto. { change (@F opsR) with R in *. lia. } simpl. auto.
  - exists m', (concat (map (fun i => @act_f opsR c exp Softmax (addr m (b +! (i * k))) (row i)) (seq 0 n))).
    assert (LA : forall i, i < n -> length (@act_f opsR c exp Softmax (addr m (b +! (i * k))) (row i)) = k).
    { intros i Hi. rewrite length_act_f. apply LR. auto. }
    split; auto. split; auto. split; auto. split.
    + rewrite (length_concat_k _ _ k).
      * rewrite map_length, seq_length. auto.
      * intros y Hy. apply in_map_iff in Hy. destruct Hy as (i & <- & Hi). apply in_seq in Hi. apply LA. lia.
    + intros i j Hi Hj. rewrite (vec_concat _ n k) by auto.
      rewrite (act_R c Softmax) by (rewrite LR; auto). rewrite (LR i Hi). apply act_math_ext; auto.
      intros q Hq. unfold row, slice. rewrite vec_firstn by auto. rewrite vec_skipn. reflexivity.
Qed.

Lemma forward_rows : forall ls (net : list (@flayer opsR)) k a acts n (m : @mem opsR) (A : list R),
  net_holds c m k ls net -> length acts = length ls -> 1 <= n ->
  @holds opsR m a A -> length A = n * k ->
  Forall (fun r => valid m (fst r) (snd r)) (areas ls acts n) -> ForallOrdPairs dis ((a, n * k) :: areas ls acts n) ->
  (forall r r', In r (areas ls acts n) -> In r' (regions ls) -> dis r r') ->
  Forall (blas_tanh_ok n) ls -> bias_filled m net acts n ->
  exists m' (ys : list R), batch_forward c exp sgemm ls a acts n m = Ok (tt, m') /\ only_changes_in m m' (areas ls acts n) /\
    @holds opsR m' (last acts a) ys /\ length ys = n * n_outputs (shape_of net) k /\
    forall i j, i < n -> j < n_outputs (shape_of net) k ->
      vec ys (i * n_outputs (shape_of net) k + j) = eval (shape_of net) k (vec (params_of net)) (fun q => vec A (i * k + q)) j.
Proof.
  induction ls as [|l ls IH]; intros [|f net] k a [|p acts] n m A HN HL Hn HA LA HV HP HD HT HB; simpl in HN, HL; try tauto; try lia.
  { exists m, A. simpl. split; auto. split; [apply oci_refl|]. auto. }
  destruct HN as [HLy HN]. cbn [areas map2] in HV, HP. fold (areas ls acts n) in HV, HP.
  apply FOP_inv in HP. destruct HP as [HP0 HP]. pose proof HP as HPP. apply FOP_inv in HP. destruct HP as [HP1 HP2].
  inversion HV as [|? ? V1 V2]; subst. inversion HT as [|? ? T1 T2]; subst. simpl in V1. destruct HB as [B1 B2].
  pose proof HLy as (E1 & E2 & E3 & E4 & E5 & E6 & E7 & E8). 
  set (no := n_output l) in *. set (C := concat (map (fun _ => fb f) (seq 0 n))) in *.
  assert (LC : length C = n * no). { unfold C. rewrite length_bias_rows. fold (fn_out f). rlia. }
  assert (Lw : length (fw f) = k * no) by (rewrite E5, E3; auto).
  destruct (SG n no k A (fw f) C LA Lw LC) as [LG SGv]. set (G := sgemm n no k A (fw f) C) in *.
  assert (VG : valid m p (length G)) by (change (@F opsR) with R; rewrite LG; auto).
  set (m1 := writem m p G).
  assert (OC1 : only_changes_in m m1 [(p, n * no)]). { rewrite <- LG. apply oci_writem; auto. simpl. auto. }
  destruct (act_rows m1 l n p G) as (m2 & U & R2 & OC2 & HU & LU & VU); auto. { apply holds_writem_same. auto. }
  fold no in OC2, LU, VU.
  assert (OC12 : only_changes_in m m2 [(p, n * no)]) by (eapply oci_trans; eauto).
  destruct (IH net no p acts n m2 U) as (m3 & ys & R3 & OC3 & Hy & Ly & Vy); auto.
  - eapply oci_net_holds; eauto. intros r r' [<-|[]] Hr'. apply HD; simpl; auto.
  - eapply Forall_impl; [|exact V2]. intros r Hr. eapply oci_valid; eauto.
  - intros r r' Hr Hr'. apply HD; simpl; auto.
  - eapply bias_filled_oci; eauto. intros r r' [<-|[]] Hr'. rewrite Forall_forall in HP1. apply HP1. auto.
  - exists m3, ys. split.
    { cbn [batch_forward]. fold no.
      erewrite bind_ok by (apply (@loadv_holds0 opsR m a A); [auto|rewrite E1; symmetry; exact LA]).
      erewrite bind_ok by (apply (@loadv_holds0 opsR m (weight l) (fw f)); [auto|rewrite E1; symmetry; exact Lw]).
      erewrite bind_ok by (apply (@loadv_holds0 opsR m p C); [auto|symmetry; exact LC]).
      rewrite E1. fold G. erewrite bind_ok. 2: { rewrite <- (padd_0 p) at 1. apply (@storev_valid opsR m p (n * no) 0 G); auto. change (@F opsR) with R. lia. }
      rewrite padd_0. fold m1. erewrite bind_ok by exact R2. exact R3. }
    split. { eapply oci_trans; [eapply oci_incl; [|exact OC12]|eapply oci_incl; [|exact OC3]].
      - intros r [<-|[]]. simpl. auto. - intros r Hr. simpl. auto. }
    split. { replace (last (p :: acts) a) with (last acts p); auto.
      clear. revert p a. induction acts as [|q acts IH]; intros p a; auto. change (last (q :: acts) p = last (q :: acts) a).
      rewrite <- (IH q p), <- (IH q a). reflexivity. }
    assert (ES : shape_of (f :: net) = (no, l_act l) :: shape_of net). { unfold shape_of. simpl. rewrite E3, E4. auto. }
    rewrite ES. simpl n_outputs. split; [exact Ly|].
    intros i j Hi Hj. rewrite (Vy i j Hi Hj). simpl eval.
    assert (FT : fits no net) by (eapply (net_holds_fits c m); exact HN).
    apply eval_ext; auto.
    + intros q Hq. rewrite <- (vec_params_r f net q). f_equal. rewrite E5, <- E3. reflexivity.
    + intros q Hq. rewrite (VU i q Hi Hq). apply act_math_ext; auto. intros q' Hq'. rewrite (SGv i q' Hi Hq').
      f_equal.
      * unfold C. rewrite (vec_concat (fun _ => fb f) n no); auto. symmetry. apply vec_params_b. rewrite <- E3. auto.
      * apply sumf_ext. intros t Ht. f_equal. rewrite <- (vec_params_w f net). { rewrite E3. reflexivity. }
        change (@F opsR) with R in *. rewrite Lw. pose proof (row_fit t k no Ht). lia.
Qed.

Lemma net_last_size (m : @mem opsR) : forall ls net k, net_holds c m k ls net -> ls <> [] -> last_size ls = n_outputs (shape_of net) k.
Proof.
  induction ls as [|l ls IH]; intros [|f net] k H Hne; simpl in H; try tauto. destruct H as [(E1 & E2 & E3 & _) H].
  destruct ls as [|l2 ls]. { destruct net; simpl in H; [|tauto]. unfold last_size. simpl. rewrite E3. reflexivity. }
  change (last_size (l :: l2 :: ls)) with (last_size (l2 :: ls)). rewrite (IH net (n_output l)); auto; [|congruence].
  simpl. rewrite E3. reflexivity.
Qed.
Lemma out_size_last nn : out_size nn = last_size (nn_layers nn).
Proof.
  unfold out_size, last_size. destruct (rev (nn_layers nn)) as [|l r] eqn:E; apply (f_equal (@rev layer)) in E; rewrite rev_involutive in E; rewrite E; auto.
  cbn [rev]. rewrite map_app. cbn [map]. rewrite last_last. reflexivity.
Qed.

Variable nstack : nat.
Variable nn : neuralnet.
Variable net : list (@flayer opsR).
Let ls := nn_layers nn.
Let ni := in_size nn.
Let no := out_size nn.
Hypothesis Hne : ls <> [].
Hypothesis HS : sum_outputs ls <= nstack.
Variable wbs : nat -> ptr -> Z.

Definition batch_pre (m : @mem opsR) (n : nat) (pin po : ptr) (A : list R) : Prop :=
  net_holds c m ni ls net /\ @holds opsR m pin A /\ length A = n * ni /\ valid m po (n * no) /\
  Forall (off_params po (n * no)) ls /\ disjoint po (n * no) pin (n * ni) /\ Forall (blas_tanh_ok n) ls.
Definition batch_post (m m' : @mem opsR) (n : nat) (po : ptr) (A ys : list R) : Prop :=
  only_changes_in m m' [(po, n * no)] /\ @holds opsR m' po ys /\ length ys = n * no /\
  forall i j, i < n -> j < no -> vec ys (i * no + j) = eval (shape_of net) ni (vec (params_of net)) (fun q => vec A (i * ni + q)) j.

Lemma leaf_ok (m : @mem opsR) n pin po A : 1 <= n -> sum_outputs ls * n <= nstack -> batch_pre m n pin po A ->
  exists m' ys,
    (workmem <- alloca (wbs n po) nstack ;;
     fill_biases ls (batch_acts ls n workmem po) n ;;;
     batch_forward c exp sgemm ls pin (batch_acts ls n workmem po) n ;;;
     freea) m = Ok (tt, m') /\ batch_post m m' n po A ys.
Proof.
  intros Hn HN (NH & Hin & LA & V & OFF & DI & HT).
  set (b := @mkblock opsR (wbs n po) (repeat None nstack)).
  erewrite bind_ok by reflexivity. fold b. rewrite batch_acts_eq by exact Hne.
  pose proof (holds_blk _ _ _ Hin) as Bi. pose proof (valid_blk _ _ _ V) as Bo. pose proof (net_holds_in_m _ _ _ _ _ NH) as IM.
  set (acts := bacts ls n (mkptr (length m) 0) po).
  assert (Bne : blk po <> length m) by lia.
  destruct (bacts_areas n po (length m) Bne ls 0) as [AR FP]. fold acts in AR, FP.
  assert (EL : last_size ls = no) by (symmetry; apply out_size_last). rewrite EL in AR.
  assert (LAc : length acts = length ls) by apply length_bacts.
  assert (NH' : net_holds c (m ++ [b]) ni ls net) by (apply net_holds_app_l; auto).
  assert (VA : Forall (fun r => valid (m ++ [b]) (fst r) (snd r)) (areas ls acts n)).
  { apply Forall_forall. intros r Hr. destruct (AR r Hr) as [->|(A1 & A2 & A3)].
    - simpl. apply valid_app_l; auto.
    - exists b. rewrite A1, nth_error_last. split; auto. simpl cells. rewrite repeat_length. lia. }
  assert (DR : forall r r', In r (areas ls acts n) -> In r' (regions ls) -> dis r r').
  { intros r r' Hr Hr'. destruct (AR r Hr) as [->|(A1 & _)].
    - apply (proj1 (off_params_regions po (n * no) ls) OFF r' Hr').
    - left. rewrite A1. pose proof (regions_in_m m ls IM r' Hr'). lia. }
  destruct (fill_ok c ls net ni acts n (m ++ [b]) NH' LAc VA FP DR) as (m1 & R1 & OC1 & BF).
  assert (DA : forall r, In r (areas ls acts n) -> dis r (pin, n * ni)).
  { intros r Hr. destruct (AR r Hr) as [->|(A1 & _)]. - exact DI. - left. rewrite A1. simpl. lia. }
  destruct (forward_rows ls net ni pin acts n m1 A) as (m2 & ys & R2 & OC2 & Hy & Ly & Vy); auto.
  - eapply oci_net_holds; eauto.
  - eapply oci_holds; [exact OC1|apply holds_app_l; auto|]. intros q w Hq. specialize (DA _ Hq). unfold dis in DA. simpl in DA.
    change (@F opsR) with R. rewrite LA. auto.
  - eapply Forall_impl; [|exact VA]. intros r Hr. eapply oci_valid; eauto.
  - constructor; auto. apply Forall_forall. intros r Hr. unfold dis. apply disjoint_sym. apply (DA r Hr).
  - assert (OC : only_changes_in (m ++ [b]) m2 (areas ls acts n)) by (eapply oci_trans; eauto).
    destruct (oci_freea m b m2 _ po (n * no) OC) as [OCF HF]. { intros r Hr. destruct (AR r Hr) as [->|(A1 & _)]; auto. }
    rewrite <- (net_last_size m ls net ni NH Hne), EL in Ly, Vy.
    exists (removelast m2), ys. split. { erewrite bind_ok by exact R1. erewrite bind_ok by exact R2. reflexivity. }
    split; auto. split. { apply HF; auto. unfold acts in Hy. rewrite last_bacts in Hy by exact Hne. exact Hy. }
    split; auto.
Qed.

Lemma blas_ok : forall fuel n m pin po A, n < fuel -> 1 <= n -> batch_pre m n pin po A ->
  exists m' ys, @predict_batch_blas opsR c exp nstack sgemm fuel wbs nn n pin po m = Ok (tt, m') /\ batch_post m m' n po A ys.
Proof.
  induction fuel as [|fuel IH]; intros n m pin po A HF Hn HP; [lia|]. cbn [predict_batch_blas]. fold ls ni no.
  destruct (Nat.ltb_spec nstack (sum_outputs ls * n)) as [Hs|Hs].
  2: { destruct (Nat.eqb_spec (length ls) 0) as [E|E]. { destruct ls; simpl in E; congruence. } apply leaf_ok; auto. }
  assert (Hn2 : 2 <= n). { destruct (Nat.eq_dec n 1) as [->|]; [rewrite Nat.mul_1_r in Hs; lia|lia]. }
  set (h := n / 2). assert (Hh : 1 <= h /\ h < n). { unfold h. split. - apply Nat.div_le_lower_bound; lia. - apply Nat.div_lt; lia. }
  destruct HP as (NH & Hin & LA & V & OFF & DI & HT).
  assert (En : n = h + (n - h)) by lia.
  assert (M1 : h * no <= n * no) by (apply Nat.mul_le_mono_r; lia).
  assert (M1' : h * no + (n - h) * no = n * no) by (rewrite <- Nat.mul_add_distr_r; f_equal; lia).
  assert (M2 : h * ni + (n - h) * ni = n * ni) by (rewrite <- Nat.mul_add_distr_r; f_equal; lia).
  assert (TM : forall k, k <= n -> Forall (blas_tanh_ok k) ls).
  { intros k Hk. eapply Forall_impl; [|exact HT]. intros l Hl Ht. destruct (Hl Ht); auto. right. eapply Nat.le_lt_trans; [|eassumption]. apply Nat.mul_le_mono_l. auto. }
  assert (OFS : forall q w, blk q = blk po -> off po <= off q -> off q + w <= off po + n * no -> Forall (off_params q w) ls).
  { intros q w A1 A2 A3. eapply Forall_impl; [|exact OFF]. intros l [D1 D2]. split; eapply disjoint_sub; eauto. }
  destruct (IH h m pin po (firstn (h * ni) A)) as (m1 & y1 & R1 & OC1 & H1 & L1 & V1); [lia|lia| |].
  { split; auto. split. { apply holds_firstn; auto. rlia. } split. { rewrite firstn_length. rlia. }
    split. { eapply valid_le; eauto. } split. { apply OFS; auto. lia. } split; [|apply TM; lia].
    eapply disjoint_sub; [eapply disjoint_sub_r; [exact DI| | |]| | |]; simpl; auto; lia. }
  assert (OC1' : only_changes_in m m1 [(po, n * no)]). { eapply oci_wider; [exact OC1| | |]; auto; lia. }
  destruct (IH (n - h) m1 (pin +! (h * ni)) (po +! (h * no)) (skipn (h * ni) A)) as (m2 & y2 & R2 & OC2 & H2 & L2 & V2); [lia|lia| |].
  { split. { eapply oci_net_holds; eauto. intros r r' [<-|[]] Hr'. apply (proj1 (off_params_regions po (n * no) ls) OFF r' Hr'). }
    split. { apply holds_skipn; [|rlia]. eapply oci_holds; [exact OC1'|exact Hin|]. intros q w [E|[]]. inversion E; subst. change (@F opsR) with R. rewrite LA. auto. }
    split. { rewrite skipn_length, LA. rewrite <- M2. rewrite Nat.add_comm. apply Nat.add_sub. }
    split. { eapply valid_sub; [eapply oci_valid; eauto|]. lia. }
    split. { apply OFS; simpl; auto; lia. } split; [|apply TM; lia].
    eapply disjoint_sub; [eapply disjoint_sub_r; [exact DI| | |]| | |]; simpl; auto; lia. }
  exists m2, (y1 ++ y2). split. { erewrite bind_ok by exact R1. exact R2. }
  split. { eapply oci_trans; [exact OC1'|]. eapply oci_wider; [exact OC2| | |]; simpl; auto; lia. }
  split. { apply holds_app. - eapply oci_holds; [exact OC2|exact H1|]. intros q w [E|[]]. inversion E; subst. right. right. simpl. change (@F opsR) with R. lia.
    - change (@F opsR) with R. rewrite L1. exact H2. }
  split. { rewrite app_length. lia. }
  intros i j Hi Hj. destruct (Nat.lt_ge_cases i h) as [Hlt|Hge].
  - pose proof (row_fit i h no Hlt). rewrite vec_app1 by lia. rewrite V1 by auto. apply eval_ext; auto.
    + intros q Hq. pose proof (row_fit i h ni Hlt). apply vec_firstn. lia.
    + rewrite <- (net_last_size m ls net ni NH Hne). unfold ls. rewrite <- out_size_last. exact Hj.
  - replace (i * no + j) with (length y1 + ((i - h) * no + j)).
    2: { rewrite L1. assert (i * no = h * no + (i - h) * no) by (rewrite <- Nat.mul_add_distr_r; f_equal; lia). lia. }
    rewrite vec_app2, V2 by lia. apply eval_ext; auto.
    + intros q Hq. rewrite vec_skipn. f_equal. assert (i * ni = h * ni + (i - h) * ni) by (rewrite <- Nat.mul_add_distr_r; f_equal; lia). lia.
    + rewrite <- (net_last_size m ls net ni NH Hne). unfold ls. rewrite <- out_size_last. exact Hj.
Qed.
End Real.
