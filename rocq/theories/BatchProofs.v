(** BatchProofs.v -- batch prediction, OpenMP version *)
From Coq Require Import List Arith ZArith Lia Bool Permutation.
From Verif Require Import Base BaseProofs Ops Mem MemProofs Kernels KernelProofs Activation ActivationProofs
  Loss Neuralnet ForwardProofs PredictProofs BitsProofs GradProofs SpecMem ParamProofs Batch.
Import ListNotations.
Local Open Scope mem_scope.

Section Rows.
Context {FO : fops}.
Lemma concat_row (Y : list (list F)) k : (forall i x, nth_error Y i = Some x -> length x = k) -> forall i x, nth_error Y i = Some x ->
  length (concat Y) = length Y * k /\ slice (i * k) k (concat Y) = x.
Proof.
  induction Y as [|y Y IH]; intros H i x Hi; [destruct i; discriminate|].
  assert (Ly : length y = k) by (apply (H 0); auto).
  assert (HY : forall i x, nth_error Y i = Some x -> length x = k) by (intros j z Hz; apply (H (S j)); auto).
  assert (LL : length (concat Y) = length Y * k).
  { clear -HY. induction Y as [|y Y IH]; simpl; auto. rewrite app_length, IH. - rewrite (HY 0 y); auto. - intros i x Hi. apply (HY (S i)). auto. }
  split. { simpl. rewrite app_length. lia. }
  destruct i; simpl in Hi.
  - inversion Hi; subst. simpl. rewrite slice_app_l by lia. apply slice_0_all.
  - simpl. replace (k + i * k) with (length y + i * k) by lia. rewrite slice_app_r. apply IH; auto.
Qed.

Lemma oci_wider m1 m2 p k q w : only_changes_in m1 m2 [(q, w)] -> blk q = blk p -> off p <= off q -> off q + w <= off p + k ->
  only_changes_in m1 m2 [(p, k)].
Proof.
  intros (A & B & C & D) E1 E2 E3. split; auto. split; auto. split; auto. intros b i H. apply D. intros p' n' [E|[]]. inversion E; subst.
  specialize (H p k (or_introl eq_refl)). intros [F1 F2]. apply H. split; [congruence|lia].
Qed.

Lemma holds_rows m' : forall (L : list (list F)) p k, (forall y, In y L -> length y = k) ->
  valid m' p (length L * k) -> (forall i y, nth_error L i = Some y -> holds m' (p +! (i * k)) y) -> holds m' p (concat L).
Proof.
  induction L as [|y L IH]; intros p k HL V' H; simpl.
  { destruct V' as (b & Hb & Lb). exists b. repeat split; auto. }
  apply holds_app.
  - specialize (H 0 y eq_refl). simpl in H. rewrite padd_0 in H. exact H.
  - rewrite (HL y (or_introl eq_refl)). apply (IH _ k).
    + intros z Hz. apply HL. simpl. auto.
    + eapply valid_sub; eauto.
    + intros i z Hz. rewrite padd_padd. apply (H (S i) z Hz).
Qed.

Lemma length_concat_k A (L : list (list A)) k : (forall y, In y L -> length y = k) -> length (concat L) = length L * k.
Proof.
  induction L as [|y L IH]; intros H; simpl; auto. rewrite app_length, IH; [|intros; apply H; simpl; auto].
  rewrite (H y); simpl; auto.
Qed.
End Rows.

Section Any.
Context {FO : fops}.
Variable c : cfg.
Variable vexp : F -> F.
Hypothesis mulC : forall a b : F, fmul a b = fmul b a.

Lemma out_size_nth nn l : nth_error (nn_layers nn) (length (nn_layers nn) - 1) = Some l -> out_size nn = n_output l.
Proof.
  unfold out_size. intros H. destruct (rev (nn_layers nn)) as [|l' r] eqn:E.
  - apply (f_equal (@rev layer)) in E. rewrite rev_involutive in E. rewrite E in H. discriminate.
  - apply (f_equal (@rev layer)) in E. rewrite rev_involutive in E. simpl in E. rewrite E in H.
    rewrite app_length in H. simpl in H. rewrite nth_error_app2 in H by lia. replace (length (rev r) + 1 - 1 - length (rev r)) with 0 in H by lia.
    simpl in H. congruence.
Qed.

Section Omp.
Variables (nn : neuralnet) (net : list flayer) (m : mem) (pin po : ptr) (X : list (list F)) (wbs : nat -> Z).
Let ni := in_size nn.
Let no := out_size nn.
Let n := length X.
Hypothesis Hne : nn_layers nn <> [].
Hypothesis HB : forall i, aligned_base c (wbs i).
Hypothesis HN : net_holds c m ni (nn_layers nn) net.
Hypothesis HX : forall i x, nth_error X i = Some x -> length x = ni.
Hypothesis Hin : holds m pin (concat X).
Hypothesis V : valid m po (n * no).
Hypothesis OFF : Forall (off_params po (n * no)) (nn_layers nn).
Hypothesis DI : disjoint po (n * no) pin (n * ni).
Hypothesis HO : forall i l, i < n -> nth_error (nn_layers nn) (length (nn_layers nn) - 1) = Some l ->
  kal c (n_output l) m (po +! (i * no)) /\ act_pre c (l_act l) m (po +! (i * no)) (n_output l).

Definition brow (i : nat) : list F := forward_f c vexp net (addr m (po +! (i * no))) (nth i X []).


Lemma lastl : exists l, nth_error (nn_layers nn) (length (nn_layers nn) - 1) = Some l /\ no = n_output l /\ 1 <= no.
Proof.
  destruct (@nth_error_ex _ (nn_layers nn) (length (nn_layers nn) - 1)) as [l Hl]. { destruct (nn_layers nn); simpl; [congruence|lia]. }
  exists l. split; auto. split; [apply out_size_nth; auto|]. unfold no. rewrite (out_size_nth _ _ Hl).
  assert (G : forall ls nt k, net_holds c m k ls nt -> Forall (fun l => 1 <= n_output l) ls).
  { clear. induction ls; intros [|f nt] k H; simpl in H; try tauto; constructor. - destruct H as [(A & B & _) _]. auto. - destruct H. eapply IHls; eauto. }
  specialize (G _ _ _ HN). rewrite Forall_forall in G. apply G. eapply nth_error_In; eauto.
Qed.

Lemma length_brow i x : nth_error X i = Some x -> length (brow i) = no.
Proof.
  intros Hi. destruct lastl as (l & Hl & E & _). destruct (net_holds_fits_len c m _ _ _ HN Hne l Hl) as (f & Hf & E2 & _).
  unfold brow. rewrite (nth_error_nth X i [] Hi). rewrite (forward_f_length c vexp net _ x f); auto.
  - lia. - rewrite (HX i x Hi). eapply net_holds_fits_f; eauto.
Qed.

(** one iteration in any memory that differs only in the output *)
Lemma iter_ok m' i x : only_changes_in m m' [(po, n * no)] -> nth_error X i = Some x ->
  neuralnet_predict c vexp (wbs i) nn (pin +! (i * ni)) (po +! (i * no)) m' = Ok (tt, writem m' (po +! (i * no)) (brow i)).
Proof.
  intros OC Hi. pose proof (nth_error_lt _ _ Hi) as Li. fold n in Li.
  destruct (concat_row X ni HX i x Hi) as [LC SL]. fold n in LC.
  assert (Hin' : holds m' pin (concat X)).
  { eapply oci_holds; eauto. intros p k [E|[]]. inversion E; subst. rewrite LC. auto. }
  destruct lastl as (l & Hl & E & _).
  assert (Lx : length x = ni) by (eapply HX; eauto).
  assert (LE : i * no + no <= n * no). { replace (i * no + no) with ((i + 1) * no) by lia. apply Nat.mul_le_mono_r. lia. }
  assert (LE2 : i * ni + ni <= n * ni). { replace (i * ni + ni) with ((i + 1) * ni) by lia. apply Nat.mul_le_mono_r. lia. }
  rewrite (predict_ok c vexp mulC (wbs i) nn net m' (pin +! (i * ni)) (po +! (i * no)) x); auto.
  - unfold brow. rewrite (nth_error_nth X i [] Hi). rewrite (oci_addr m m' _ _ OC). reflexivity.
  - rewrite Lx. eapply oci_net_holds; eauto. intros r r' [<-|[]] Hr'. apply (proj1 (off_params_regions po (n * no) (nn_layers nn)) OFF r' Hr').
  - replace x with (slice (i * ni) ni (concat X)). apply holds_sub; auto. lia.
  - intros l' Hl'. assert (l' = l) by congruence. subst l'.
    destruct (HO i l Li Hl) as [K A]. split; [|split; [|split; [|split]]].
    + eapply oci_valid; eauto. rewrite <- E. eapply valid_sub; eauto.
    + eapply oci_kal; eauto.
    + destruct (l_act l); simpl in *; auto. unfold aligned_to in *. rewrite (oci_addr m m' _ _ OC). auto.
    + rewrite Forall_forall in OFF. destruct (OFF l (nth_error_In _ _ Hl)) as [O1 O2].
      split; eapply disjoint_sub with (n := n * no) (p := po); eauto; simpl; lia.
    + intros _. rewrite <- E, Lx. eapply disjoint_sub with (n := n * no) (p := po); [| | |]; simpl; try lia; auto.
      eapply disjoint_sub_r with (k := n * ni) (q := pin); simpl; eauto; lia.
Qed.

Lemma row_le i : i < n -> i * no + no <= n * no.
Proof. intros. replace (i * no + no) with ((i + 1) * no) by lia. apply Nat.mul_le_mono_r. lia. Qed.
Lemma rows_disjoint i j : i <> j -> disjoint (po +! (i * no)) no (po +! (j * no)) no.
Proof.
  intros H. right. simpl. destruct (Nat.lt_ge_cases i j).
  - left. replace (off po + i * no + no) with (off po + (i + 1) * no) by lia.
    apply Nat.add_le_mono_l. apply Nat.mul_le_mono_r. lia.
  - right. replace (off po + j * no + no) with (off po + (j + 1) * no) by lia.
    apply Nat.add_le_mono_l. apply Nat.mul_le_mono_r. lia.
Qed.

Lemma omp_run : forall order m', only_changes_in m m' [(po, n * no)] -> NoDup order -> (forall i, In i order -> i < n) ->
  exists m'', predict_batch_omp c vexp order wbs nn pin po m' = Ok (tt, m'') /\ only_changes_in m m'' [(po, n * no)] /\
    (forall i, In i order -> holds m'' (po +! (i * no)) (brow i)) /\
    (forall i, i < n -> ~ In i order -> forall ys, length ys = no -> holds m' (po +! (i * no)) ys -> holds m'' (po +! (i * no)) ys).
Proof.
  induction order as [|i r IH]; intros m' OC ND HI.
  { exists m'. split; [reflexivity|]. split; auto. split; [intros i []|auto]. }
  inversion ND as [|? ? Hni ND']; subst.
  assert (Li : i < n) by (apply HI; simpl; auto).
  destruct (@nth_error_ex _ X i Li) as [x Hx].
  pose proof (iter_ok m' i x OC Hx) as E. pose proof (length_brow i x Hx) as LB.
  assert (Vi : valid m' (po +! (i * no)) (length (brow i))).
  { rewrite LB. eapply valid_sub; [eapply oci_valid; eauto|apply row_le; auto]. }
  set (m1 := writem m' (po +! (i * no)) (brow i)) in *.
  assert (OC1 : only_changes_in m m1 [(po, n * no)]).
  { eapply oci_trans; [exact OC|]. eapply oci_wider; [apply (oci_writem m' (po +! (i * no)) (brow i)); [auto|left; reflexivity]| | |]; simpl; auto; try lia.
    rewrite LB. pose proof (row_le i Li). lia. }
  destruct (IH m1 OC1 ND') as (m2 & R2 & OC2 & H2 & K2). { intros j Hj. apply HI. simpl. auto. }
  exists m2. split. { simpl. erewrite bind_ok by exact E. exact R2. }
  split; auto. split.
  - intros j [<-|Hj]; [|apply H2; auto]. apply K2; auto. apply holds_writem_same; auto.
  - intros j Lj Hj ys Ly Hys. apply K2; auto. { intros Hr. apply Hj. simpl. auto. }
    apply holds_writem_disjoint; auto. rewrite LB, Ly. apply rows_disjoint. intros ->. apply Hj. simpl. auto.
Qed.


Lemma map_brow_length L : (forall i, In i L -> i < n) -> forall y, In y (map brow L) -> length y = no.
Proof.
  intros HL y Hy. apply in_map_iff in Hy. destruct Hy as (i & <- & Hi). specialize (HL i Hi).
  destruct (@nth_error_ex _ X i HL) as [x Hx]. eapply length_brow; eauto.
Qed.


Lemma omp_proof order : Permutation order (seq 0 n) ->
  exists ys, writes_only (predict_batch_omp c vexp order wbs nn pin po) m po ys /\ length ys = n * no /\
    forall i, i < n -> writes_only (neuralnet_predict c vexp (wbs i) nn (pin +! (i * ni)) (po +! (i * no))) m
                         (po +! (i * no)) (slice (i * no) no ys).
Proof.
  intros HP. set (ys := concat (map brow (seq 0 n))).
  assert (HI : forall i, In i (seq 0 n) -> i < n) by (intros i Hi; apply in_seq in Hi; lia).
  assert (LR : forall y, In y (map brow (seq 0 n)) -> length y = no) by (apply map_brow_length; auto).
  assert (Ly : length ys = n * no). { unfold ys. rewrite (length_concat_k _ _ _ LR), map_length, seq_length. reflexivity. }
  exists ys. split; [|split; auto].
  - destruct (omp_run order m (oci_refl m _)) as (m' & R' & OC & H & _).
    { eapply Permutation_NoDup; [symmetry; exact HP|apply seq_NoDup]. }
    { intros i Hi. apply HI. eapply Permutation_in; eauto. }
    exists m'. split; auto. split.
    + unfold ys. apply (holds_rows m' _ _ no LR).
      * rewrite map_length, seq_length. eapply oci_valid; eauto.
      * intros i y Hi. rewrite nth_error_map in Hi. destruct (nth_error (seq 0 n) i) as [k|] eqn:Hk; [|discriminate].
        inversion Hi; subst y. pose proof (nth_error_lt _ _ Hk) as Lk. rewrite seq_length in Lk.
        assert (k = i). { apply nth_error_nth with (d := 0) in Hk. rewrite seq_nth in Hk by auto. lia. } subst k.
        apply H. eapply Permutation_in; [symmetry; exact HP|]. apply in_seq. lia.
    + destruct OC as (A & B & _ & D). split; auto. split; auto. intros b i Hn. apply D. intros p k [E|[]]. inversion E; subst.
      rewrite Ly in Hn. exact Hn.
  - intros i Hi. destruct (@nth_error_ex _ X i Hi) as [x Hx].
    assert (E : slice (i * no) no ys = brow i).
    { apply (concat_row (map brow (seq 0 n)) no).
      - intros k y Hy. apply LR. eapply nth_error_In; eauto.
      - rewrite nth_error_map, (nth_error_nth' (seq 0 n) 0) by (rewrite seq_length; auto). rewrite seq_nth by auto. reflexivity. }
    rewrite E. apply writes_only_intro.
    + rewrite (length_brow i x Hx). eapply valid_sub; [exact V|apply row_le; auto].
    + apply (iter_ok m i x (oci_refl m _) Hx).
Qed.
End Omp.
End Any.
