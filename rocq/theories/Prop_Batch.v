(** Prop_Batch.v -- C07, C08, C09: neuralnet_predict_batch *)
From Coq Require Import List Arith ZArith Lia Bool Permutation Reals.
From Verif Require Import Base BaseProofs Ops Mem MemProofs Kernels KernelProofs Activation ActivationProofs
  Loss Neuralnet ForwardProofs OpsR SpecReal RealForward PredictProofs BitsProofs GradProofs OpsB32 B32Facts SpecMem ParamProofs
  Batch BatchProofs BlasProofs Ex_Mem.
Import ListNotations.
Local Open Scope nat_scope.
Local Open Scope mem_scope.

(** the memory of a batch call: the network [net] in [nn], the rows of X at [pin], a writable output
    matrix at [po] that overlaps neither parameters nor inputs *)
Definition batch_mem {FO : fops} (c : cfg) (nn : neuralnet) (net : list flayer) (m : mem) (pin po : ptr) (X : list (list F)) : Prop :=
  nn_layers nn <> [] /\ net_holds c m (in_size nn) (nn_layers nn) net /\
  (forall x, In x X -> length x = in_size nn) /\ holds m pin (concat X) /\
  valid m po (length X * out_size nn) /\ Forall (off_params po (length X * out_size nn)) (nn_layers nn) /\
  disjoint po (length X * out_size nn) pin (length X * in_size nn).
(** every row of the output matrix is a place where neuralnet_predict can store its result *)
Definition rows_pre {FO : fops} (c : cfg) (nn : neuralnet) (m : mem) (po : ptr) (n : nat) : Prop :=
  forall i l, i < n -> nth_error (nn_layers nn) (length (nn_layers nn) - 1) = Some l ->
    kal c (n_output l) m (po +! (i * out_size nn)) /\ act_pre c (l_act l) m (po +! (i * out_size nn)) (n_output l).

(** C07, OpenMP build: in every order of the iterations and for every (aligned) address of the
    work arrays the batch writes in row i exactly what neuralnet_predict writes for row i of the input. *)
Theorem predict_batch_omp_rows (FO : fops) (c : cfg) (vexp : F -> F) (wbs : nat -> Z) (nn : neuralnet) (net : list flayer)
    (m : mem) (pin po : ptr) (X : list (list F)) (order : list nat) :
  (forall a b : F, fmul a b = fmul b a) -> (forall i, aligned_base c (wbs i)) ->
  batch_mem c nn net m pin po X -> rows_pre c nn m po (length X) ->
  Permutation order (seq 0 (length X)) ->
  exists ys, writes_only (predict_batch_omp c vexp order wbs nn pin po) m po ys /\
    length ys = length X * out_size nn /\
    forall i, i < length X ->
      writes_only (neuralnet_predict c vexp (wbs i) nn (pin +! (i * in_size nn)) (po +! (i * out_size nn))) m
        (po +! (i * out_size nn)) (slice (i * out_size nn) (out_size nn) ys).
Proof.
  intros HC HB (Hne & HN & HX & Hin & V & OFF & DI) HO HP.
  apply (omp_proof c vexp HC nn net m pin po X wbs Hne HB HN) with (order := order); auto.
  intros i x Hi. apply HX. eapply nth_error_In; eauto.
Qed.
Print Assumptions predict_batch_omp_rows.

(** the same in IEEE binary32 arithmetic *)
Theorem predict_batch_omp_rows_float32 (lm : libm) (c : cfg) (wbs : nat -> Z) (nn : neuralnet) (net : list (@flayer (opsB32 lm)))
    (m : @mem (opsB32 lm)) (pin po : ptr) (X : list (list b32)) (order : list nat) :
  let vexp := @exp256_lane (opsB32 lm) in
  (forall i, aligned_base c (wbs i)) ->
  @batch_mem (opsB32 lm) c nn net m pin po X -> rows_pre c nn m po (length X) ->
  Permutation order (seq 0 (length X)) ->
  exists ys : list b32, writes_only (@predict_batch_omp (opsB32 lm) c vexp order wbs nn pin po) m po ys /\
    length ys = length X * out_size nn /\
    forall i, i < length X ->
      writes_only (@neuralnet_predict (opsB32 lm) c vexp (wbs i) nn (pin +! (i * in_size nn)) (po +! (i * out_size nn))) m
        (po +! (i * out_size nn)) (slice (i * out_size nn) (out_size nn) ys).
Proof. exact (predict_batch_omp_rows (opsB32 lm) c _ wbs nn net m pin po X order (mulC_B32 lm)). Qed.
Print Assumptions predict_batch_omp_rows_float32.

(** C07, BLAS build, in exact arithmetic: through any number of splits, for any addresses of the stack arrays,
    the result is the network applied to each row.  Missing for the full claim: networks wider
    than the stack limit (see C08) and tanh layers with 16 or more values in AVX2 builds (see below). *)
Theorem predict_batch_blas_rows_partial (c : cfg) (nstack : nat) (sgemm : nat -> nat -> nat -> list R -> list R -> list R -> list R)
    (wbs : nat -> ptr -> Z) (nn : neuralnet) (net : list (@flayer opsR)) (m : @mem opsR) (pin po : ptr) (X : list (list R)) (fuel : nat) :
  sgemm_exact sgemm -> sum_outputs (nn_layers nn) <= nstack -> 1 <= length X < fuel ->
  @batch_mem opsR c nn net m pin po X ->
  Forall (blas_tanh_ok c (length X)) (nn_layers nn) ->
  exists ys : list R,
    writes_only (@predict_batch_blas opsR c exp nstack sgemm fuel wbs nn (length X) pin po) m po ys /\
    length ys = length X * out_size nn /\
    forall i x j, nth_error X i = Some x -> j < out_size nn ->
      vec ys (i * out_size nn + j) = eval (shape_of net) (in_size nn) (vec (params_of net)) (vec x) j.
Proof.
  intros SG HS [Hn HF] (Hne & HN & HX & Hin & V & OFF & DI) HT.
  assert (HX' : forall i x, nth_error X i = Some x -> length x = in_size nn) by (intros i x Hi; apply HX; eapply nth_error_In; eauto).
  assert (LC : length (concat X) = length X * in_size nn) by (apply length_concat_k; auto).
  destruct (blas_ok c sgemm SG nstack nn net Hne HS wbs fuel (length X) m pin po (concat X) HF Hn)
    as (m' & ys & R1 & OC & H & L & Vy).
  { repeat (split; auto). }
  exists ys. split; [|split; auto].
  - exists m'. split; auto. split; auto. destruct OC as (A & B & _ & D). split; auto. split; auto.
    intros b i Hi. apply D. intros p k [E|[]]. inversion E; subst. change (@F opsR) with R in Hi. rewrite L in Hi. exact Hi.
  - intros i x j Hi Hj. pose proof (nth_error_lt _ _ Hi) as Li. change (@F opsR) with R in Li. rewrite Vy by auto.
    pose proof (net_holds_fits c m _ _ _ HN) as FT.
    apply eval_ext; auto.
    + intros q Hq. destruct (concat_row (FO := opsR) X (in_size nn) HX' i x Hi) as [_ E].
      change (@F opsR) with R in E. rewrite <- E. unfold slice. rewrite vec_firstn by auto. rewrite vec_skipn. reflexivity.
    + rewrite <- (net_last_size c m _ _ _ HN Hne), <- out_size_last. exact Hj.
Qed.
Print Assumptions predict_batch_blas_rows_partial.

(** the BLAS build returns the same numbers as neuralnet_predict *)
Theorem predict_batch_blas_is_predict_partial (c : cfg) (nstack : nat) (sgemm : nat -> nat -> nat -> list R -> list R -> list R -> list R)
    (wbs : nat -> ptr -> Z) (nn : neuralnet) (net : list (@flayer opsR)) (m : @mem opsR) (pin po : ptr) (X : list (list R)) (fuel : nat) :
  sgemm_exact sgemm -> sum_outputs (nn_layers nn) <= nstack -> 1 <= length X < fuel ->
  @batch_mem opsR c nn net m pin po X ->
  Forall (blas_tanh_ok c (length X)) (nn_layers nn) ->
  exists ys : list R,
    writes_only (@predict_batch_blas opsR c exp nstack sgemm fuel wbs nn (length X) pin po) m po ys /\
    forall i wb po', i < length X -> aligned_base c wb -> out_pre c m (nn_layers nn) (pin +! (i * in_size nn)) (in_size nn) po' ->
      writes_only (@neuralnet_predict opsR c exp wb nn (pin +! (i * in_size nn)) po') m po' (slice (i * out_size nn) (out_size nn) ys).
Proof.
  intros SG HS HL HM HT.
  destruct (predict_batch_blas_rows_partial c nstack sgemm wbs nn net m pin po X fuel SG HS HL HM HT) as (ys & W & Ly & Vy).
  exists ys. split; auto. intros i wb po' Hi HB HO. destruct HM as (Hne & HN & HX & Hin & V & OFF & DI).
  destruct (@nth_error_ex _ X i Hi) as [x Hx].
  assert (HX' : forall i x, nth_error X i = Some x -> length x = in_size nn) by (intros k z Hz; apply HX; eapply nth_error_In; eauto).
  destruct (concat_row (FO := opsR) X (in_size nn) HX' i x Hx) as [LC E]. pose proof (HX' i x Hx) as Lx. change (@F opsR) with R in *.
  assert (Hrow : @holds opsR m (pin +! (i * in_size nn)) x).
  { rewrite <- E. apply holds_sub; auto. change (@F opsR) with R in *. rewrite LC. apply row_fit. auto. }
  destruct (predict_exact_proof c wb nn net m (pin +! (i * in_size nn)) po' x Hne HB) as (zs & Wz & Lz & Vz); auto; try (rewrite Lx; auto).
  rewrite Lx in Lz, Vz. rewrite <- (net_last_size c m _ _ _ HN Hne), <- out_size_last in Lz, Vz.
  replace (slice (i * out_size nn) (out_size nn) ys) with zs; auto.
  pose proof (row_fit i (length X) (out_size nn) Hi).
  apply vec_ext. { rewrite Lz. symmetry. apply length_slice. lia. }
  intros j Hj. rewrite Lz in Hj. rewrite Vz by auto. unfold slice. rewrite vec_firstn by auto. rewrite vec_skipn. symmetry. apply Vy; auto.
Qed.
Print Assumptions predict_batch_blas_is_predict_partial.

(** C07 is false for the BLAS build with AVX2 and a tanh layer: the work array is an ordinary float
    array on the stack, and the vectorised tanh needs aligned addresses.  Here the stack array
    has the alignment 16 that the ABI guarantees (AVX2 build, 1 input, 16 tanh units, 1 output). *)
Theorem predict_batch_blas_rows_refuted (FO : fops) (vexp : F -> F) (sgemm : nat -> nat -> nat -> list F -> list F -> list F -> list F) :
  (forall m n k A B C, length C = m * n -> length (sgemm m n k A B C) = m * n) ->
  exists (c : cfg) (nstack : nat) (wbs : nat -> ptr -> Z) (nn : neuralnet) (net : list flayer) (m : mem) (pin po : ptr) (X : list (list F)),
    sum_outputs (nn_layers nn) <= nstack /\ batch_mem c nn net m pin po X /\ 1 <= length X /\ (forall n p, (wbs n p mod 16 = 0)%Z) /\
    forall fuel, 1 <= fuel -> predict_batch_blas c vexp nstack sgemm fuel wbs nn (length X) pin po m = Fault Misaligned.
Proof.
  intros SL.
  exists {| cfg_isa := AVX2; cfg_fma := false |}, 100, (fun _ _ => 1040%Z),
    {| nn_layers := [Build_layer 1 16 (mkptr 0 0) (mkptr 1 0) Tanh None; Build_layer 16 1 (mkptr 2 0) (mkptr 3 0) Linear None]; nn_loss := None |},
    [@Build_flayer FO (repeat f0 16) (repeat f0 16) Tanh; @Build_flayer FO (repeat f0 16) (repeat f0 1) Linear],
    [mkblock 640 (repeat (Some f0) 16); mkblock 1280 (repeat (Some f0) 16); mkblock 2560 (repeat (Some f0) 16); mkblock 3840 (repeat (Some f0) 1);
     mkblock 6400 [Some f0]; mkblock 7680 [None]],
    (mkptr 4 0), (mkptr 5 0), [[f0]].
  split. { apply Nat.leb_le. reflexivity. }
  split. { split; [discriminate|]. split. { simpl. unfold layer_holds, kal. mem_tac; simpl; lia. }
    split. { intros x [<-|[]]. reflexivity. } split. { mem_tac. } split. { mem_tac. }
    split. { repeat (apply Forall_cons; [split; mem_tac|]); apply Forall_nil. } mem_tac. }
  split. { simpl. lia. } split. { reflexivity. }
  intros [|fuel] Hf; [lia|]. cbn [predict_batch_blas nn_layers].
  match goal with |- context [100 <? ?x] => replace (100 <? x) with false by reflexivity end. cbn [length Nat.eqb].
  erewrite bind_ok by reflexivity.
  erewrite bind_ok by reflexivity.
  cbn [batch_forward].
  specialize (SL 1 16 1 [f0] (repeat f0 16) (repeat f0 16) eq_refl).
  remember (sgemm 1 16 1 [f0] (repeat f0 16) (repeat f0 16)) as G eqn:EG.
  do 16 (destruct G as [|? G]; [discriminate SL|]). destruct G; [|discriminate SL].
  cbn [repeat] in EG. unfold bind at 1. unfold bind at 1. cbn. rewrite <- EG. reflexivity.
Qed.
Print Assumptions predict_batch_blas_rows_refuted.

(** C08 is false: for every stack limit there is a network (one layer, one output more than the
    limit) for which a batch of one sample recurses for ever: no recursion depth is enough. *)
Theorem predict_batch_blas_terminates_refuted (FO : fops) (vexp : F -> F) (c : cfg) (nstack : nat)
    (sgemm : nat -> nat -> nat -> list F -> list F -> list F -> list F) (wbs : nat -> ptr -> Z) :
  (forall m n k A B C, length C = m * n -> length (sgemm m n k A B C) = m * n) ->
  exists (nn : neuralnet) (net : list flayer) (m : mem) (pin po : ptr) (X : list (list F)),
    batch_mem c nn net m pin po X /\ length X = 1 /\
    forall fuel, predict_batch_blas c vexp nstack sgemm fuel wbs nn (length X) pin po m = Fault OutOfFuel.
Proof.
  intros SL. set (k := S nstack).
  set (l := Build_layer 1 k (mkptr 0 0) (mkptr 1 0) Linear None).
  set (nn := {| nn_layers := [l]; nn_loss := None |}).
  set (m := [mkblock 640 (repeat (Some f0) k); mkblock 6400 (repeat (Some f0) k); mkblock 64000 [Some f0]; mkblock 640000 (repeat None k)] : mem).
  assert (HR : forall i b q, nth_error m i = Some b -> cells b = repeat (Some f0) k -> q = mkptr i 0 -> holds m q (repeat f0 k)).
  { intros i b q Hb Hc ->. exists b. split; auto. rewrite Hc, !repeat_length. split; [simpl; lia|].
    simpl off. rewrite <- (repeat_length (Some (f0 : F)) k) at 1. rewrite slice_0_all.
    clear. induction k; simpl; f_equal; auto. }
  exists nn, [@Build_flayer FO (repeat f0 k) (repeat f0 k) Linear], m, (mkptr 2 0), (mkptr 3 0), [[f0]].
  assert (HW : holds m (mkptr 0 0) (repeat f0 k)) by (eapply (HR 0); reflexivity).
  assert (HBi : holds m (mkptr 1 0) (repeat f0 k)) by (eapply (HR 1); reflexivity).
  split. { split; [discriminate|]. split.
    { split; [|exact I]. change (layer_holds c m 1 l (@Build_flayer FO (repeat f0 k) (repeat f0 k) Linear)).
      unfold layer_holds, fn_out, fb, fw, fact. rewrite !repeat_length. cbn [n_input n_output l l_act weight bias].
      split; [auto|]. split; [unfold k; lia|]. split; [auto|]. split; [auto|]. split; [lia|]. split; [exact HW|]. split; [exact HBi|].
      split; intros; reflexivity. }
    split. { intros x [<-|[]]. reflexivity. } split. { mem_tac. }
    split. { exists (mkblock 640000 (repeat None k)). split; auto. simpl. rewrite repeat_length. lia. }
    split. { apply Forall_cons; [split; left; simpl; lia|constructor]. } left. simpl. lia. }
  split; auto. cbn [length].
  assert (H0 : forall f p q, blk p = 2 -> off p <= 1 -> blk q = 3 -> off q <= k ->
     predict_batch_blas c vexp nstack sgemm (S f) wbs nn 0 p q m = Ok (tt, m)).
  { intros f [pb po] [qb qo] Ep Ep2 Eq Eq2. cbn [blk off] in *. subst pb qb.
    cbn [predict_batch_blas]. rewrite Nat.mul_0_r. replace (nstack <? 0) with false by (symmetry; apply Nat.ltb_ge; lia). cbn [nn_layers nn length Nat.eqb].
    erewrite bind_ok by reflexivity. erewrite bind_ok by reflexivity. cbn [batch_acts length Nat.sub firstn app batch_forward].
    set (mm := m ++ [mkblock (wbs 0 (mkptr 3 qo)) (repeat None nstack)]).
    rewrite (@bind_ok FO _ _ _ (fun _ => freea) mm tt mm); [unfold freea, mm; rewrite removelast_last; reflexivity|].
    erewrite bind_ok. 2: { apply (@loadv_holds0 FO mm (mkptr 2 po) []); auto. exists (mkblock 64000 [Some f0]). split; auto. simpl. split; auto. lia. }
    erewrite bind_ok. 2: { apply (@loadv_holds0 FO mm (weight l) (repeat f0 k)); [apply holds_app_l; [simpl; lia|exact HW]|]. rewrite repeat_length. simpl. lia. }
    erewrite bind_ok. 2: { apply (@loadv_holds0 FO mm (mkptr 3 qo) []); auto. exists (mkblock 640000 (repeat None k)). split; auto. simpl. rewrite repeat_length. split; auto. lia. }
    pose proof (SL 0 (n_output l) (n_input l) [] (repeat f0 k) [] eq_refl) as L0. destruct (sgemm 0 _ _ _ _ _); [|discriminate L0].
    erewrite bind_ok. 2: { rewrite <- (padd_0 (mkptr 3 qo)). apply (@storev_valid FO mm (mkptr 3 qo) 0 0 []); auto.
      exists (mkblock 640000 (repeat None k)). split; auto. simpl. rewrite repeat_length. lia. }
    rewrite writem_nil. erewrite bind_ok by reflexivity. reflexivity. }
  assert (G : forall fuel p q, blk p = 2 -> off p = 0 -> blk q = 3 -> off q = 0 -> predict_batch_blas c vexp nstack sgemm fuel wbs nn 1 p q m = Fault OutOfFuel).
  { induction fuel as [|fuel IH]; intros p q E1 E2 E3 E4; [reflexivity|].
    cbn [predict_batch_blas]. rewrite Nat.mul_1_r.
    replace (nstack <? sum_outputs (nn_layers nn)) with true.
    2: { symmetry. apply Nat.ltb_lt. unfold nn, nn_layers. rewrite sum_outputs_cons. unfold l, n_output, k. lia. }
    change (1 / 2) with 0. cbn [Nat.sub Nat.mul]. destruct fuel as [|fuel]; [reflexivity|].
    erewrite bind_ok by (apply H0; lia). apply IH; simpl; lia. }
  intros fuel. apply G; reflexivity.
Qed.
Print Assumptions predict_batch_blas_terminates_refuted.

(** C08 holds for networks whose outputs fit on the stack for one sample: in every memory and
    with every data a recursion depth of n is enough. *)
Theorem predict_batch_blas_terminates_partial (FO : fops) (vexp : F -> F) (c : cfg) (nstack : nat)
    (sgemm : nat -> nat -> nat -> list F -> list F -> list F -> list F) (wbs : nat -> ptr -> Z) (nn : neuralnet) :
  sum_outputs (nn_layers nn) <= nstack ->
  forall n fuel fuel' pin po m, n < fuel -> n < fuel' ->
    predict_batch_blas c vexp nstack sgemm fuel wbs nn n pin po m = predict_batch_blas c vexp nstack sgemm fuel' wbs nn n pin po m.
Proof.
  intros HS n. induction n as [n IH] using (well_founded_induction lt_wf). intros [|f] [|f'] pin po m H1 H2; try lia.
  cbn [predict_batch_blas]. destruct (Nat.ltb_spec nstack (sum_outputs (nn_layers nn) * n)) as [Hs|Hs]; [|reflexivity].
  assert (Hn2 : 2 <= n). { destruct n as [|[|n]]; try lia. }
  assert (Hh : 1 <= n / 2 /\ n / 2 < n). { split. - apply Nat.div_le_lower_bound; lia. - apply Nat.div_lt; lia. }
  unfold bind. rewrite (IH (n / 2)) with (fuel' := f') by lia.
  destruct (predict_batch_blas c vexp nstack sgemm f' wbs nn (n / 2) pin po m) as [[u m1]|]; auto. apply IH; lia.
Qed.
Print Assumptions predict_batch_blas_terminates_partial.

(** C09 is false: AVX build, one layer with 9 outputs, output matrix aligned to 64 bytes, two samples:
    the second row is not aligned, in every order of the iterations. *)
Theorem predict_batch_every_shape_refuted (FO : fops) (vexp : F -> F) :
  (forall a b : F, fmul a b = fmul b a) ->
  exists (c : cfg) (nn : neuralnet) (net : list flayer) (m : mem) (pin po : ptr) (X : list (list F)) (wbs : nat -> Z),
    batch_mem c nn net m pin po X /\ (forall i, aligned_base c (wbs i)) /\ aligned_to 16 m po = true /\
    forall order, Permutation order (seq 0 (length X)) -> predict_batch_omp c vexp order wbs nn pin po m = Fault Misaligned.
Proof.
  intros HC. set (c := {| cfg_isa := AVX; cfg_fma := false |}).
  set (nn := {| nn_layers := [Build_layer 1 9 (mkptr 0 0) (mkptr 1 0) Linear None]; nn_loss := None |}).
  set (net := [@Build_flayer FO (repeat f0 9) (repeat f0 9) Linear]).
  set (m := [mkblock 640 (repeat (Some f0) 9); mkblock 1280 (repeat (Some f0) 9); mkblock 2560 [Some f0; Some f0]; mkblock 3840 (repeat None 18)] : mem).
  exists c, nn, net, m, (mkptr 2 0), (mkptr 3 0), [[f0]; [f0]], (fun _ => 0%Z).
  assert (HN : net_holds c m 1 (nn_layers nn) net). { simpl. unfold layer_holds, kal. mem_tac; simpl; lia. }
  split. { split; [discriminate|]. split; [exact HN|].
    split. { intros x [<-|[<-|[]]]; reflexivity. } split. { mem_tac. } split. { mem_tac. }
    split. { repeat (apply Forall_cons; [split; mem_tac|]); apply Forall_nil. } mem_tac. }
  split. { intros _. reflexivity. } split. { reflexivity. }
  intros order HP. assert (HE : order = [0; 1] \/ order = [1; 0]).
  { apply Permutation_sym, Permutation_length_2_inv in HP. exact HP. }
  destruct HE as [-> | ->].
  - cbn [predict_batch_omp].
    erewrite bind_ok. 2: { apply (predict_ok c vexp HC 0 nn net m _ _ [f0]).
      - discriminate. - reflexivity. - exact HN. - mem_tac.
      - intros l Hl. inversion Hl; subst l. unfold off_params, kal. simpl. mem_tac; auto; lia. }
    reflexivity.
  - reflexivity.
Qed.
Print Assumptions predict_batch_every_shape_refuted.

(** C09 holds for an aligned output matrix when the number of outputs is a multiple of the register
    width, for fewer than 8 outputs and in scalar/SSE builds. *)
Theorem predict_batch_every_shape_partial (FO : fops) (c : cfg) (vexp : F -> F) (wbs : nat -> Z) (nn : neuralnet) (net : list flayer)
    (m : mem) (pin po : ptr) (X : list (list F)) (order : list nat) :
  (forall a b : F, fmul a b = fmul b a) -> (forall i, aligned_base c (wbs i)) ->
  batch_mem c nn net m pin po X -> Permutation order (seq 0 (length X)) ->
  aligned_to 16 m po = true -> out_size nn < 8 \/ Nat.divide (fps c) (out_size nn) \/ cfg_isa c = SSE ->
  exists ys, writes_only (predict_batch_omp c vexp order wbs nn pin po) m po ys.
Proof.
  intros HC HB HM HP HA HO.
  destruct (predict_batch_omp_rows FO c vexp wbs nn net m pin po X order HC HB HM) as (ys & W & _); auto; [|eauto].
  intros i l Hi Hl. rewrite (out_size_nth _ _ Hl) in *. destruct HM as (_ & _ & _ & _ & V & _).
  assert (A8 : aligned_to 8 m po = true) by (apply (@aligned_to_half FO 8); [lia|exact HA]).
  pose proof (valid_some V) as VS.
  assert (K16 : has_avx512 c = true -> 16 <= n_output l -> aligned_to 16 m (po +! (i * n_output l)) = true).
  { intros H1 H2. destruct HO as [E|[E|E]]; [lia| |unfold has_avx512 in H1; rewrite E in H1; discriminate].
    apply aligned_to_padd; auto; [lia|]. unfold fps, has_avx512 in *. destruct (cfg_isa c); try discriminate. apply Nat.divide_mul_r. auto. }
  assert (K8 : has_avx c = true -> 8 <= n_output l -> aligned_to 8 m (po +! (i * n_output l)) = true).
  { intros H1 H2. destruct HO as [E|[E|E]]; [lia| |unfold has_avx in H1; rewrite E in H1; discriminate].
    apply aligned_to_padd; auto; [lia|]. apply Nat.divide_mul_r. unfold fps, has_avx in *. destruct (cfg_isa c); try discriminate; auto.
    eapply Nat.divide_trans; [|exact E]. exists 2. reflexivity. }
  split; [split; auto|]. destruct (l_act l); simpl; auto. intros H1 H2. apply K8; [|lia]. unfold has_avx2, has_avx in *. destruct (cfg_isa c); congruence.
Qed.
Print Assumptions predict_batch_every_shape_partial.

(** Cases that meet the hypotheses: two layers (2 inputs, 16 sigmoid units, 3 softmax outputs),
    3 samples, AVX-512 build; the stack limit 40 makes the BLAS version split. *)
Section Case.
Variable FO : fops.
Definition bcase_nn : neuralnet :=
  {| nn_layers := [Build_layer 2 16 (mkptr 0 0) (mkptr 1 0) Sigmoid None; Build_layer 16 3 (mkptr 2 0) (mkptr 3 0) Softmax None]; nn_loss := None |}.
Definition bcase_net : list flayer := [@Build_flayer FO (repeat f1 32) (repeat f0 16) Sigmoid; @Build_flayer FO (repeat f1 48) (repeat f1 3) Softmax].
Definition bcase_m : mem :=
  [mkblock 640 (repeat (Some f1) 32); mkblock 1280 (repeat (Some f0) 16); mkblock 2560 (repeat (Some f1) 48);
   mkblock 5120 (repeat (Some f1) 3); mkblock 6400 (map Some [f0; f1; f1; f1; f1; f0]); mkblock 6656 (repeat None 9)].
Lemma bcase_holds : batch_mem {| cfg_isa := AVX512; cfg_fma := true |} bcase_nn bcase_net bcase_m (mkptr 4 0) (mkptr 5 0) [[f0; f1]; [f1; f1]; [f1; f0]].
Proof.
  split; [discriminate|]. split. { simpl. unfold layer_holds, kal. mem_tac; simpl; try lia. }
  split. { intros x Hx. repeat (destruct Hx as [<-|Hx]; [reflexivity|]). destruct Hx. } split. { mem_tac. } split. { mem_tac. }
  split. { repeat (apply Forall_cons; [split; mem_tac|]); apply Forall_nil. } mem_tac.
Qed.
End Case.
Example batch_case :
  let c := {| cfg_isa := AVX512; cfg_fma := true |} in
  (exists X, length X = 3 /\ @batch_mem opsR c bcase_nn (bcase_net opsR) (bcase_m opsR) (mkptr 4 0) (mkptr 5 0) X) /\
  rows_pre c bcase_nn (bcase_m opsR) (mkptr 5 0) 3 /\ Permutation [2; 0; 1] (seq 0 3) /\
  sum_outputs (nn_layers bcase_nn) <= 40 < sum_outputs (nn_layers bcase_nn) * 3 /\
  Forall (blas_tanh_ok c 3) (nn_layers bcase_nn) /\ out_size bcase_nn = 3 /\ in_size bcase_nn = 2.
Proof.
  split. { eexists. split; [|apply (bcase_holds opsR)]. reflexivity. }
  split. { intros i l Hi Hl. inversion Hl; subst l. split; [|exact I]. split; simpl; lia. }
  split. { simpl. apply Permutation_cons_app with (l1 := [0;1]) (l2 := []). reflexivity. }
  split. { split; [apply Nat.leb_le|apply Nat.ltb_lt]; reflexivity. }
  split. { repeat constructor; discriminate. } split; reflexivity.
Qed.
(** an exact matrix multiplication exists *)
Example sgemm_case : exists sgemm, sgemm_exact sgemm.
Proof.
  exists (fun m n k A B C => map (fun q => (vec C q + sumf k (fun p => vec A (q / n * k + p) * vec B (p * n + q mod n)))%R) (seq 0 (m * n))).
  intros m n k A B C _ _ LC. split. { rewrite map_length, seq_length. auto. }
  intros i j Hi Hj. pose proof (row_fit i m n Hi).
  set (g := fun q => (vec C q + sumf k (fun p => vec A (q / n * k + p) * vec B (p * n + q mod n)))%R).
  unfold vec at 1. rewrite nth_indep with (d' := g 0) by (rewrite map_length, seq_length; lia).
  rewrite map_nth, seq_nth by lia. simpl Nat.add. unfold g. f_equal. rewrite Nat.div_add_l, Nat.div_small, Nat.add_0_r by lia.
  rewrite (Nat.add_comm (i * n) j), Nat.mod_add, Nat.mod_small by lia. reflexivity.
Qed.
