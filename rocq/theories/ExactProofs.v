(** ExactProofs.v -- the alignment of the output decides whether a prediction works *)
From Coq Require Import List Arith ZArith Lia Bool Permutation.
From Verif Require Import Base BaseProofs Ops Mem MemProofs Kernels KernelProofs Activation ActivationProofs
  Loss Neuralnet NetKernels ForwardProofs PredictProofs BitsProofs GradProofs SpecMem ParamProofs Batch BatchProofs.
Import ListNotations.
Local Open Scope mem_scope.

Section Exact.
Context {FO : fops}.
Variable c : cfg.
Variable vexp : F -> F.
Hypothesis mulC : forall a b : F, fmul a b = fmul b a.

Lemma bind_fault A B (x : M A) (f : A -> M B) m e : x m = Fault e -> bind x f m = Fault e.
Proof. unfold bind. intros ->. reflexivity. Qed.
Lemma loop_le_fault w n i body m e : i + w <= n -> body i m = Fault e -> loop_le w n i body m = Fault e.
Proof.
  intros H E. unfold loop_le. cbn [for_loop]. apply Nat.leb_le in H. rewrite H. apply bind_fault. exact E.
Qed.

(** kal can be decided *)
Definition kalb (n : nat) (m : mem) (p : ptr) : bool :=
  (negb (has_avx512 c) || negb (16 <=? n) || aligned_to 16 m p) && (negb (has_avx c) || negb (8 <=? n) || aligned_to 8 m p).
Lemma kalb_spec n m p : kalb n m p = true <-> kal c n m p.
Proof.
  unfold kalb, kal. destruct (has_avx512 c), (has_avx c); destruct (Nat.leb_spec 16 n), (Nat.leb_spec 8 n);
    destruct (aligned_to 16 m p), (aligned_to 8 m p); simpl; split; intros H1; try reflexivity; try discriminate H1;
    try (split; intros; try reflexivity; try discriminate; lia); destruct H1 as [H1 H2];
    try (specialize (H1 eq_refl ltac:(lia))); try (specialize (H2 eq_refl ltac:(lia))); congruence.
Qed.
Lemma avx512_avx : has_avx512 c = true -> has_avx c = true.
Proof. unfold has_avx512, has_avx. destruct (cfg_isa c); auto. Qed.

Lemma bias_vec_fault w pb py m bs : holds m pb bs -> w <= length bs -> aligned_to w m pb = true -> aligned_to w m py = false ->
  (b <- loadv_al w (pb +! 0) ;; storev_al (py +! 0) b) m = Fault Misaligned.
Proof.
  intros HB HL A1 A2. rewrite !padd_0. erewrite bind_ok.
  2:{ rewrite loadv_al_ok by exact A1. replace pb with (pb +! 0) by apply padd_0. apply loadv_holds with (xs := bs); auto. }
  unfold storev_al. rewrite length_slice by lia. rewrite A2. reflexivity.
Qed.

Lemma copy_bias_fault n pb py m bs : holds m pb bs -> length bs = n -> kal c n m pb -> ~ kal c n m py ->
  vmm_copy_bias c n pb py m = Fault Misaligned.
Proof.
  intros HB L [K1 K2] NK. unfold vmm_copy_bias, three_loops.
  assert (Q : (has_avx512 c = true /\ 16 <= n /\ aligned_to 16 m py = false)
              \/ ((has_avx512 c = false \/ n < 16) /\ has_avx c = true /\ 8 <= n /\ aligned_to 8 m py = false)).
  { destruct (has_avx512 c) eqn:E5.
    - pose proof (avx512_avx E5) as E1. destruct (le_lt_dec 16 n) as [L16|L16].
      + left. split; auto. split; auto. destruct (aligned_to 16 m py) eqn:A; auto. exfalso. apply NK.
        split; intros; auto. apply (@aligned_to_half FO 8); [lia|exact A].
      + right. split; auto. split; auto. destruct (le_lt_dec 8 n) as [L8|L8].
        * split; auto. destruct (aligned_to 8 m py) eqn:A; auto. exfalso. apply NK. split; intros; [lia|auto].
        * exfalso. apply NK. split; intros; lia.
    - right. split; auto. destruct (has_avx c) eqn:E1.
      + split; auto. destruct (le_lt_dec 8 n) as [L8|L8].
        * split; auto. destruct (aligned_to 8 m py) eqn:A; auto. exfalso. apply NK. split; intros; [congruence|auto].
        * exfalso. apply NK. split; intros; [congruence|lia].
      + exfalso. apply NK. split; intros; congruence. }
  destruct Q as [(E5 & L16 & A)|(H5 & E1 & L8 & A)].
  - apply bind_fault. unfold when. rewrite E5. apply loop_le_fault; [lia|].
    apply (bias_vec_fault 16 pb py m bs); auto. lia.
  - erewrite bind_ok with (a := 0) (m' := m).
    2:{ unfold when. destruct H5 as [-> |H5]; [reflexivity|]. destruct (has_avx512 c); [|reflexivity].
        unfold loop_le. cbn [for_loop]. destruct (Nat.leb_spec (0 + 16) n); [lia|reflexivity]. }
    apply bind_fault. unfold when. rewrite E1. apply loop_le_fault; [lia|].
    apply (bias_vec_fault 8 pb py m bs); auto. lia.
Qed.

Lemma layer_fault l f n a po m rest : layer_holds c m n l f -> ~ kal c (n_output l) m po ->
  forward c vexp [l] (a :: po :: rest) m = Fault Misaligned.
Proof.
  intros (Hi & Ho1 & Ho & Hact & Lw & Hw & Hb & Kb) NK. cbn [forward]. apply bind_fault.
  unfold vector_matrix_multiply. apply bind_fault. apply (copy_bias_fault _ _ _ _ (fb f)); auto.
Qed.

Lemma last_cons A (l : list A) : forall q a, last (q :: l) a = last l q.
Proof. induction l as [|x l IH]; intros q a; [reflexivity|]. change (last (q :: x :: l) a) with (last (x :: l) a). rewrite !IH. reflexivity. Qed.
Lemma forward_app : forall ls l a ps p m, length ps = length ls ->
  forward c vexp (ls ++ [l]) (a :: ps ++ [p]) m = bind (forward c vexp ls (a :: ps)) (fun _ => forward c vexp [l] [last ps a; p]) m.
Proof.
  induction ls as [|k ls IH]; intros l a [|q ps] p m L; simpl in L; try lia; [reflexivity|].
  cbn [app forward]. unfold bind.
  destruct (vector_matrix_multiply c (n_input k) (n_output k) (weight k) (bias k) a q m) as [[u m1]|]; [|reflexivity].
  destruct (activation_func c vexp (l_act k) (n_output k) q m1) as [[u2 m2]|]; [|reflexivity].
  rewrite (IH l q ps p m2) by lia. unfold bind. rewrite (last_cons _ ps q a). reflexivity.
Qed.

Lemma net_holds_app_l m : forall ls l net n, net_holds c m n (ls ++ [l]) net ->
  exists net0 f k, net = net0 ++ [f] /\ net_holds c m n ls net0 /\ layer_holds c m k l f.
Proof.
  induction ls as [|a ls IH]; intros l [|f net] n H; cbn [app net_holds] in H; try tauto.
  - destruct H as [H1 H2]. destruct net; [|tauto]. exists [], f, n. auto.
  - destruct H as [H1 H2]. destruct (IH l net _ H2) as (net0 & f0 & k & -> & H3 & H4). exists (f :: net0), f0, k.
    split; [reflexivity|]. split; [split; assumption|exact H4].
Qed.

Theorem predict_fault wb nn net m pin po xs l :
  aligned_base c wb -> net_holds c m (length xs) (nn_layers nn) net -> holds m pin xs ->
  nth_error (nn_layers nn) (length (nn_layers nn) - 1) = Some l -> blk po < length m ->
  ~ kal c (n_output l) m po ->
  neuralnet_predict c vexp wb nn pin po m = Fault Misaligned.
Proof.
  intros HB HN Hin Hl Hpo NK. unfold neuralnet_predict.
  assert (Els : exists ls0, nn_layers nn = ls0 ++ [l]).
  { exists (removelast (nn_layers nn)). destruct (nn_layers nn) as [|a r] eqn:E; [discriminate|].
    rewrite <- E in *. assert (NE : nn_layers nn <> []) by (rewrite E; discriminate).
    rewrite (app_removelast_last l NE) at 1. f_equal. f_equal.
    rewrite (app_removelast_last l NE) in Hl at 1. rewrite nth_error_app2 in Hl.
    - rewrite removelast_firstn_len, firstn_length in Hl. replace (_ - _ - _) with 0 in Hl by lia. simpl in Hl. congruence.
    - rewrite removelast_firstn_len, firstn_length. lia. }
  destruct Els as [ls0 Els]. rewrite Els in *. set (nl := length (ls0 ++ [l])).
  assert (NL : nl = S (length ls0)) by (unfold nl; rewrite app_length; simpl; lia).
  destruct (Nat.eqb_spec nl 0) as [E0|E0]; [lia|].
  set (N := sum_outputs (ls0 ++ [l]) + fps c * nl). set (b := mkblock wb (repeat None N)).
  assert (LB : length (cells b) = N) by (simpl; apply repeat_length).
  erewrite bind_ok by reflexivity. fold b.
  erewrite bind_ok by (apply setup_ok; auto; apply Nat.divide_0_r).
  set (w0 := mkptr (length m) 0).
  destruct (net_holds_app_l m ls0 l net _ HN) as (net0 & f & k & -> & HN0 & HLf).
  apply bind_fault.
  assert (FE : firstn (nl - 2) (ls0 ++ [l]) = removelast ls0).
  { rewrite NL. destruct ls0 as [|a r]; [reflexivity|]. rewrite removelast_firstn_len. simpl length.
    replace (S (S (length r)) - 2) with (length r) by lia. simpl Nat.pred.
    rewrite firstn_app. simpl length. replace (length r - S (length r)) with 0 by lia. rewrite app_nil_r. reflexivity. }
  rewrite FE. destruct ls0 as [|l0 ls1].
  - rewrite NL. cbn [length firstn app]. apply (layer_fault l f k).
    + apply layer_holds_app_l. exact HLf.
    + rewrite kal_app_l by exact Hpo. exact NK.
  - set (ls0 := l0 :: ls1) in *.
    assert (FP : fwd_pre c (m ++ [b]) ls0 net0 pin (length xs) (w0 :: work_ptrs c (removelast ls0) w0)).
    { apply fwd_pre_work; auto.
      - apply Nat.divide_0_r.
      - left. eapply holds_blk; eauto.
      - rewrite LB. unfold N. assert (SO : sum_outputs (ls0 ++ [l]) = sum_outputs ls0 + n_output l).
        { clear. induction ls0 as [|a r IH]; [unfold sum_outputs; simpl; lia|]. cbn [app]. rewrite !sum_outputs_cons, IH. lia. }
        rewrite SO. assert (fps c * length ls0 <= fps c * nl) by (apply Nat.mul_le_mono_l; lia). lia.
      - discriminate. }
    assert (LP : length (w0 :: work_ptrs c (removelast ls0) w0) = length ls0).
    { assert (G : forall r p, length (work_ptrs c r p) = length r) by (induction r; intros; simpl; auto).
      cbn [length]. rewrite G, removelast_firstn_len, firstn_length. assert (1 <= length ls0) by (unfold ls0; simpl; lia). lia. }
    set (ps := w0 :: work_ptrs c (removelast ls0) w0) in *.
    assert (EA : firstn nl (pin :: ps) ++ [po] = pin :: ps ++ [po]).
    { rewrite firstn_all2 by (cbn [length]; lia). reflexivity. }
    rewrite EA. rewrite forward_app by exact LP. erewrite bind_ok.
    2:{ eapply (forward_ok c vexp mulC); [exact FP| |reflexivity]. apply holds_app_l; [eapply holds_blk; eauto|exact Hin]. }
    destruct (@writes_last FO m (combine ps (acts_f c vexp net0 (map (addr (m ++ [b])) ps) xs)) b) as (b' & EW & _).
    { apply Forall_forall. intros [q v] Hq. apply in_combine_l in Hq. cbn [fst]. unfold ps in Hq. destruct Hq as [<-|Hq]; [reflexivity|].
      pose proof (work_ptrs_blk c (removelast ls0) w0) as G. rewrite Forall_forall in G. apply G in Hq. exact Hq. }
    rewrite EW. apply (layer_fault l f k).
    + apply layer_holds_app_l. exact HLf.
    + rewrite kal_app_l by exact Hpo. exact NK.
Qed.

Lemma kal_act_pre l m p : kal c (n_output l) m p -> act_pre c (l_act l) m p (n_output l).
Proof.
  intros [_ K]. destruct (l_act l); simpl; auto. intros H1 H2. apply K; [|lia].
  unfold has_avx2, has_avx in *. destruct (cfg_isa c); congruence.
Qed.

(** ** batches *)
Section Omp.
Variables (nn : neuralnet) (net : list flayer) (m : mem) (pin po : ptr) (X : list (list F)) (wbs : nat -> Z).
Let ni := in_size nn.
Let no := out_size nn.
Let n := length X.
Hypothesis Hne : nn_layers nn <> [].
Hypothesis HB : forall i, aligned_base c (wbs i).
Hypothesis HN : net_holds c m ni (nn_layers nn) net.
Hypothesis HX : forall i x, nth_error X i = Some x -> length x = ni.
Hypothesis Hin : holds m pin (concat X).
Hypothesis V : valid m po (n * no).
Hypothesis OFF : Forall (off_params po (n * no)) (nn_layers nn).
Hypothesis DI : disjoint po (n * no) pin (n * ni).

Lemma row_x i x : nth_error X i = Some x -> holds m (pin +! (i * ni)) x.
Proof.
  intros Hi. destruct (concat_row X ni HX i x Hi) as [LC SL]. pose proof (nth_error_lt _ _ Hi) as Li.
  rewrite <- SL. apply holds_sub; auto. rewrite LC. replace (i * ni + ni) with ((i + 1) * ni) by lia. apply Nat.mul_le_mono_r. lia.
Qed.
Lemma row_le_ i k q : i < k -> i * q + q <= k * q.
Proof. intros. replace (i * q + q) with ((i + 1) * q) by lia. apply Nat.mul_le_mono_r. lia. Qed.

(** one iteration in a memory that differs only in the output *)
Lemma iter_cases m' i x : only_changes_in m m' [(po, n * no)] -> nth_error X i = Some x ->
  (kal c no m (po +! (i * no)) -> exists m'', neuralnet_predict c vexp (wbs i) nn (pin +! (i * ni)) (po +! (i * no)) m' = Ok (tt, m'') /\
       only_changes_in m m'' [(po, n * no)]) /\
  (~ kal c no m (po +! (i * no)) -> neuralnet_predict c vexp (wbs i) nn (pin +! (i * ni)) (po +! (i * no)) m' = Fault Misaligned).
Proof.
  intros OC Hi. pose proof (nth_error_lt _ _ Hi) as Li. fold n in Li.
  destruct (concat_row X ni HX i x Hi) as [LC SL]. fold n in LC.
  assert (Lx : length x = ni) by (eapply HX; eauto).
  assert (LE : i * no + no <= n * no) by (apply row_le_; auto).
  assert (LE2 : i * ni + ni <= n * ni) by (apply row_le_; auto).
  assert (Hx : holds m' (pin +! (i * ni)) x).
  { eapply oci_holds; [exact OC|apply row_x; auto|]. intros p k [E|[]]. inversion E; subst p k. rewrite Lx.
    eapply disjoint_sub_r with (k := n * ni) (q := pin); simpl; eauto; lia. }
  assert (HN' : net_holds c m' (length x) (nn_layers nn) net).
  { rewrite Lx. eapply oci_net_holds; eauto. intros r r' [<-|[]] Hr'. apply (proj1 (off_params_regions po (n * no) (nn_layers nn)) OFF r' Hr'). }
  destruct (@nth_error_ex _ (nn_layers nn) (length (nn_layers nn) - 1)) as [l Hl]. { destruct (nn_layers nn); simpl; [congruence|lia]. }
  assert (E : no = n_output l) by (apply out_size_nth; exact Hl).
  assert (Vi : valid m' (po +! (i * no)) no). { eapply oci_valid; eauto. eapply valid_sub; eauto. }
  split; intros K.
  - assert (K' : kal c (n_output l) m' (po +! (i * no))) by (rewrite <- E; eapply oci_kal; eauto).
    eexists. split.
    + apply (predict_ok c vexp mulC (wbs i) nn net m' (pin +! (i * ni)) (po +! (i * no)) x); auto.
      intros l' Hl'. assert (l' = l) by congruence. subst l'. split; [rewrite <- E; exact Vi|]. split; [exact K'|].
      split; [apply kal_act_pre; exact K'|]. split.
      * rewrite Forall_forall in OFF. destruct (OFF l (nth_error_In _ _ Hl)) as [O1 O2].
        split; eapply disjoint_sub with (n := n * no) (p := po); eauto; simpl; lia.
      * intros _. rewrite <- E, Lx. eapply disjoint_sub with (n := n * no) (p := po); [| | |]; simpl; try lia; auto.
        eapply disjoint_sub_r with (k := n * ni) (q := pin); simpl; eauto; lia.
    + destruct (net_holds_fits_len c m' _ _ _ HN' Hne l Hl) as (f & Hf & E2 & _).
      assert (LF : length (forward_f c vexp net (addr m' (po +! (i * no))) x) = no).
      { rewrite (forward_f_length c vexp net _ x f); auto; [lia|]. eapply net_holds_fits_f; eauto. }
      eapply oci_trans; [exact OC|]. eapply oci_wider; [apply (oci_writem m' (po +! (i * no)))| | |].
      * rewrite LF. exact Vi. * left; reflexivity. * simpl; auto. * simpl; lia. * simpl. rewrite LF. lia.
  - eapply predict_fault with (net := net) (xs := x) (l := l); auto.
    + destruct Vi as (b & Hb & _). simpl in Hb. simpl. apply nth_error_Some. congruence.
    + intros K'. apply K. rewrite <- E in K'. unfold kal, aligned_to in *. rewrite (oci_addr _ _ _ _ OC) in K'. exact K'.
Qed.

Lemma omp_cases : forall order m', only_changes_in m m' [(po, n * no)] -> (forall i, In i order -> i < n) ->
  (exists m'', predict_batch_omp c vexp order wbs nn pin po m' = Ok (tt, m'') /\ forall i, In i order -> kal c no m (po +! (i * no))) \/
  (predict_batch_omp c vexp order wbs nn pin po m' = Fault Misaligned /\ exists i, In i order /\ ~ kal c no m (po +! (i * no))).
Proof.
  induction order as [|i r IH]; intros m' OC HI. { left. exists m'. split; [reflexivity|intros i []]. }
  destruct (@nth_error_ex _ X i) as [x Hx]. { apply HI. left. reflexivity. }
  destruct (iter_cases m' i x OC Hx) as [K1 K2].
  destruct (kalb no m (po +! (i * no))) eqn:KB.
  - apply kalb_spec in KB. destruct (K1 KB) as (m1 & E1 & OC1).
    destruct (IH m1 OC1) as [(m2 & E2 & A)|(E2 & k & Hk & NK)]. { intros k Hk. apply HI. right. exact Hk. }
    + left. exists m2. split; [cbn [predict_batch_omp]; erewrite bind_ok by exact E1; exact E2|]. intros k [<-|Hk]; auto.
    + right. split; [cbn [predict_batch_omp]; erewrite bind_ok by exact E1; exact E2|]. exists k. split; [right; exact Hk|exact NK].
  - assert (NK : ~ kal c no m (po +! (i * no))) by (intros K; apply kalb_spec in K; congruence).
    right. split; [cbn [predict_batch_omp]; apply bind_fault; apply K2; exact NK|]. exists i. split; [left; reflexivity|exact NK].
Qed.
End Omp.
End Exact.
