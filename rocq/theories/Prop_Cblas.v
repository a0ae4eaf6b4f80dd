(** Prop_Cblas.v -- C63, C64: the USE_CBLAS build of src/matrix_operations.c in exact arithmetic

    [cblas_exact cb]: the BLAS routines compute what their documentation says (SpecCblas.v). *)
From Coquelicot Require Import Coquelicot.
From Coq Require Import List Arith ZArith Bool Lia Reals Lra.
From Verif Require Import Base BaseProofs Ops OpsR Mem MemProofs SpecMem Kernels KernelProofs KernelProofs2
  KernelProofs3 Activation ActivationProofs Loss Neuralnet NetKernels ForwardProofs BackpropProofs SpecReal RealForward RealGrad LossGrad
  GradProofs BitsProofs PredictProofs GradPropProofs Cblas SpecCblas CblasProofs Ex_Mem Prop_Predict Prop_Grad.
Import ListNotations.
Local Open Scope R_scope.

(** ** C63: the kernels *)

(** The vector kernels have the same outcome (result and the rest of the memory) in both builds,
    under the conditions of C10. *)
Theorem vector_kernels_blas_same (cb : @cblas opsR) (c : cfg) (m : @mem opsR) (a b : ptr) (al be : R) (xs ys : list R) :
  cblas_exact cb ->
  holds m a xs -> holds m b ys -> length ys = length xs -> disjoint a (length xs) b (length xs) ->
  vector_accumulate_blas cb (length xs) a b m = vector_accumulate_unaligned c (length xs) a b m /\
  (kal c (length xs) m a -> kal c (length xs) m b ->
   vector_accumulate_blas cb (length xs) a b m = vector_accumulate c (length xs) a b m /\
   @vector_saxpy_blas opsR cb (length xs) a al b m = @vector_saxpy opsR c (length xs) a al b m /\
   @vector_saxpby_blas opsR cb (length xs) a al b be m = @vector_saxpby opsR c (length xs) a al b be m).
Proof.
  intros HB H1 H2 L D. split; [|intros K1 K2; split; [|split]].
  - etransitivity; [exact (accumulate_any cb HB m a b xs ys H1 H2 L)|].
    symmetry. exact (@vector_accumulate_unaligned_ok opsR c m a b xs ys H1 H2 L D).
  - etransitivity; [exact (accumulate_any cb HB m a b xs ys H1 H2 L)|].
    symmetry. exact (@vector_accumulate_ok opsR c m a b xs ys H1 H2 L D K1 K2).
  - etransitivity; [exact (saxpy_any cb HB m a b al xs ys H1 H2 L)|].
    symmetry. exact (@vector_saxpy_ok opsR c m a b xs ys al H1 H2 L D K1 K2).
  - etransitivity; [exact (saxpby_any cb HB m a b al be xs ys H1 H2 L)|].
    symmetry. exact (@vector_saxpby_ok opsR c mulC_R m a b xs ys al be H1 H2 L D K1 K2).
Qed.
Print Assumptions vector_kernels_blas_same.

(** So has vector_matrix_multiply. *)
Theorem vector_matrix_multiply_blas_same (cb : @cblas opsR) (c : cfg) (m : @mem opsR) (pw pb px py : ptr) (mo : nat)
    (ws bs xs : list R) :
  cblas_exact cb ->
  let n := length xs in
  holds m pw ws -> holds m pb bs -> holds m px xs -> valid m py mo ->
  length bs = mo -> length ws = (n * mo)%nat ->
  disjoint py mo pw (n * mo) -> disjoint py mo pb mo -> disjoint py mo px n ->
  kal c mo m py -> kal c mo m pb ->
  @vector_matrix_multiply_blas opsR cb n mo pw pb px py m = @vector_matrix_multiply opsR c n mo pw pb px py m.
Proof.
  intros HB n Hw Hb Hx V Lb Lw Dw Db Dx Ky Kb. rewrite <- Lw in Dw.
  etransitivity; [exact (vmm_blas_any c cb HB m pw pb px py mo ws bs xs Hw Hb Hx V Lb Lw Dw Db Dx)|].
  symmetry. exact (@vector_matrix_multiply_ok opsR c mulC_R m pw pb px py mo ws bs xs Hw Hb Hx V Lb Lw Dw Db Dx Ky Kb).
Qed.
Print Assumptions vector_matrix_multiply_blas_same.

(** matrix_vector_multiply: the built-in kernel adds to y except in the AVX-512 build, the BLAS call
    overwrites y.  The outcomes are the same exactly if the build is AVX-512 or y was zero. *)
Theorem matrix_vector_multiply_blas_iff (cb : @cblas opsR) (c : cfg) (m : @mem opsR) (pm pv py : ptr) (n : nat)
    (ms vs ys : list R) :
  cblas_exact cb ->
  let k := length vs in
  holds m pm ms -> holds m pv vs -> holds m py ys -> length ms = (n * k)%nat -> length ys = n ->
  disjoint py n pm (n * k) -> disjoint py n pv k ->
  (forall i, (i < n)%nat -> kal c k m (padd pm (i * k))) ->
  (@matrix_vector_multiply_blas opsR cb n k pm pv py m = @matrix_vector_multiply opsR c n k pm pv py m <->
   has_avx512 c = true \/ forall i, (i < n)%nat -> vec ys i = 0).
Proof.
  intros HB k Hm Hv Hy Lm Ly Dm Dv K. rewrite <- Lm in Dm.
  assert (V : valid m py n). { apply holds_valid in Hy. change (@F opsR) with R in *. rewrite Ly in Hy. exact Hy. }
  pose proof (mvm_blas_any c cb HB m pm pv py n ms vs Hm Hv Lm V) as E1.
  assert (HY : if has_avx512 c then valid m py n else holds m py ys) by (destruct (has_avx512 c); auto).
  pose proof (@matrix_vector_multiply_gen opsR c m pm pv py n ms vs ys Hm Hv Lm Ly HY Dm Dv K) as E2.
  fold k in E1, E2. set (l1 := @mvm_f opsR c vs (rows n k ms) 0) in *. set (l2 := @mvm_gen opsR c vs (rows n k ms) ys) in *.
  assert (L1 : length l1 = n) by (unfold l1, mvm_f; rewrite map_length, length_rows; reflexivity).
  assert (L2 : length l2 = n) by (unfold l2, mvm_gen; rewrite length_map2, length_rows; change (@F opsR) with R in *; lia).
  assert (V1 : forall i, (i < n)%nat -> vec l1 i = sumf k (fun j => vec ms (i * k + j) * vec vs j)).
  { intros i Hi. etransitivity; [exact (mvm_R c vs n ms 0 Lm i Hi)|]. destruct (has_avx512 c); unfold k; lra. }
  assert (V2 : forall i, (i < n)%nat -> vec l2 i = (if has_avx512 c then 0 else vec ys i) +
                           sumf k (fun j => vec ms (i * k + j) * vec vs j)).
  { intros i Hi. exact (mvm_gen_R c vs n ms ys Lm Ly i Hi). }
  split.
  - intros E. destruct (has_avx512 c) eqn:E5; [left; reflexivity|right]. intros i Hi.
    assert (EL : l1 = l2).
    { apply (@writem_inj opsR m py); [rewrite L1; exact V|congruence|].
      assert (X : Ok (tt, @writem opsR m py l1) = Ok (tt, @writem opsR m py l2)) by (etransitivity; [symmetry; exact E1|]; etransitivity; [exact E|exact E2]).
      congruence. }
    specialize (V1 i Hi). specialize (V2 i Hi). rewrite <- EL in V2. cbv iota in V2.
    clearbody l1 l2. change (@F opsR) with R in *. lra.
  - intros H. etransitivity; [exact E1|]. etransitivity; [|symmetry; exact E2]. do 3 f_equal.
    apply vec_ext; [etransitivity; [exact L1|symmetry; exact L2]|]. intros i Hi.
    assert (Hi' : (i < n)%nat) by (rewrite <- L1; exact Hi).
    etransitivity; [exact (V1 i Hi')|]. etransitivity; [|symmetry; exact (V2 i Hi')].
    destruct H as [->|H]; [lra|]. rewrite (H i Hi'). destruct (has_avx512 c); lra.
Qed.
Print Assumptions matrix_vector_multiply_blas_iff.

(** vector_vector_outer: the built-in kernel stores x_i*y_j and skips the rows with x_i = 0, the BLAS call
    adds x_i*y_j.  The outcomes are the same exactly if the matrix was zero in all rows with x_i <> 0. *)
Theorem vector_vector_outer_blas_iff (cb : @cblas opsR) (c : cfg) (m : @mem opsR) (px py pm : ptr) (xs ys ms : list R) :
  cblas_exact cb ->
  let n := length xs in let k := length ys in
  holds m px xs -> holds m py ys -> holds m pm ms -> length ms = (n * k)%nat ->
  disjoint pm (n * k) px n -> disjoint pm (n * k) py k ->
  (@vector_vector_outer_blas opsR cb n k px py pm m = @vector_vector_outer opsR c n k px py pm m <->
   forall i j, (i < n)%nat -> (j < k)%nat -> vec xs i <> 0 -> vec ms (i * k + j) = 0).
Proof.
  intros HB n k Hx Hy Hm Lm Dx Dy.
  pose proof (outer_blas_any cb HB m px py pm xs ys ms Hx Hy Hm Lm) as E1.
  pose proof (@vector_vector_outer_old opsR c m px py pm xs ys ms Hx Hy Hm Lm Dx Dy) as E2.
  destruct (outer_add_R cb HB xs ys ms Lm) as [L1 V1].
  pose proof (@length_outer_old opsR xs ys ms Lm) as L2. pose proof (outer_old_R xs ys ms Lm) as V2.
  assert (V : valid m pm (n * k)). { apply holds_valid in Hm. change (@F opsR) with R in *. rewrite Lm in Hm. exact Hm. }
  fold n k in E1, E2, L1, L2, V1, V2.
  set (l1 := outer_add cb xs ys ms) in *. set (l2 := @outer_old opsR xs ys ms) in *. clearbody l1 l2.
  split.
  - intros E i j Hi Hj Hxi.
    assert (EL : l1 = l2).
    { apply (@writem_inj opsR m pm); [|etransitivity; [exact L1|symmetry; exact L2]|].
      - assert (X : valid m pm (length l1)) by (rewrite L1; exact V). exact X.
      - assert (X : Ok (tt, @writem opsR m pm l1) = Ok (tt, @writem opsR m pm l2)) by (etransitivity; [symmetry; exact E1|]; etransitivity; [exact E|exact E2]).
        congruence. }
    specialize (V1 i j Hi Hj). specialize (V2 i j Hi Hj). rewrite <- EL in V2.
    destruct (Reqb_spec (vec xs i) 0); [contradiction|]. change (@F opsR) with R in *. lra.
  - intros H. etransitivity; [exact E1|]. etransitivity; [|symmetry; exact E2]. do 3 f_equal.
    apply (mat_ext n k); [exact L1|exact L2|]. intros i j Hi Hj.
    etransitivity; [exact (V1 i j Hi Hj)|]. etransitivity; [|symmetry; exact (V2 i j Hi Hj)].
    destruct (Reqb_spec (vec xs i) 0) as [->|Hne]; [lra|]. rewrite (H i j Hi Hj Hne). lra.
Qed.
Print Assumptions vector_vector_outer_blas_iff.

(** C63 is false for these two kernels, with every BLAS: y = 1 before y = (1)(1) in the SSE and the AVX
    build, and a matrix holding 1 before the outer product of (1) and (1). *)
Definition one3 : @mem opsR := [mkblock 640 [Some 1]; mkblock 1280 [Some 1]; mkblock 2560 [Some 1]].
Lemma one3_holds i : (i < 3)%nat -> @holds opsR one3 (mkptr i 0) [1].
Proof. intros H. destruct i as [|[|[|i]]]; [| | |lia]; eexists; (split; [reflexivity|]); split; simpl; auto. Qed.
Theorem kernels_blas_same_refuted (cb : @cblas opsR) (c : cfg) : cblas_exact cb -> has_avx512 c = false ->
  @matrix_vector_multiply_blas opsR cb 1 1 (mkptr 0 0) (mkptr 1 0) (mkptr 2 0) one3 <>
  @matrix_vector_multiply opsR c 1 1 (mkptr 0 0) (mkptr 1 0) (mkptr 2 0) one3 /\
  @vector_vector_outer_blas opsR cb 1 1 (mkptr 0 0) (mkptr 1 0) (mkptr 2 0) one3 <>
  @vector_vector_outer opsR c 1 1 (mkptr 0 0) (mkptr 1 0) (mkptr 2 0) one3.
Proof.
  intros HB H5. pose proof (one3_holds 0 ltac:(lia)) as A. pose proof (one3_holds 1 ltac:(lia)) as B.
  pose proof (one3_holds 2 ltac:(lia)) as C. split; intros E.
  - pose proof (matrix_vector_multiply_blas_iff cb c one3 (mkptr 0 0) (mkptr 1 0) (mkptr 2 0) 1 [1] [1] [1] HB A B C eq_refl eq_refl) as I.
    destruct I as [I _].
    + left. simpl. lia.
    + left. simpl. lia.
    + intros i Hi. unfold kal. split; intros; simpl in *; lia.
    + destruct (I E) as [I'|I']; [congruence|]. specialize (I' 0%nat ltac:(lia)). unfold vec in I'. simpl in I'. lra.
  - pose proof (vector_vector_outer_blas_iff cb c one3 (mkptr 0 0) (mkptr 1 0) (mkptr 2 0) [1] [1] [1] HB A B C eq_refl) as I.
    destruct I as [I _].
    + left. simpl. lia.
    + left. simpl. lia.
    + specialize (I E 0%nat 0%nat ltac:(simpl; lia) ltac:(simpl; lia)). unfold vec in I. simpl in I. lra.
Qed.
Print Assumptions kernels_blas_same_refuted.

(** ** C64: the network functions.  Both clear what the kernels add to, so neither difference shows:
    prediction and backpropagation have the outcome of the built-in build. *)
Theorem predict_blas_exact (cb : @cblas opsR) (c : cfg) (wb : Z) (nn : neuralnet) (net : list (@flayer opsR)) (m : @mem opsR)
    (pin po : ptr) (xs : list R) :
  cblas_exact cb ->
  nn_layers nn <> [] -> aligned_base c wb ->
  net_holds c m (length xs) (nn_layers nn) net -> holds m pin xs ->
  out_pre c m (nn_layers nn) pin (length xs) po ->
  let sh := shape_of net in
  predict_blas c exp cb wb nn pin po m = @neuralnet_predict opsR c exp wb nn pin po m /\
  exists ys : list R,
    writes_only (predict_blas c exp cb wb nn pin po) m po ys /\
    length ys = n_outputs sh (length xs) /\
    forall j, (j < n_outputs sh (length xs))%nat ->
      vec ys j = eval sh (length xs) (vec (params_of net)) (vec xs) j.
Proof.
  intros HB Hne Hwb HN Hin HO sh.
  assert (E : predict_blas c exp cb wb nn pin po m = @neuralnet_predict opsR c exp wb nn pin po m).
  { etransitivity; [exact (@predict_with_ok opsR c exp _ wb nn net m pin po xs (vmm_blas_spec c cb HB) Hne Hwb HN Hin HO)|].
    symmetry. exact (@predict_ok opsR c exp mulC_R wb nn net m pin po xs Hne Hwb HN Hin HO). }
  split; [exact E|].
  destruct (predict_exact c wb nn net m pin po xs Hne Hwb HN Hin HO) as (ys & (m' & R1 & R2 & R3) & L & V).
  exists ys. split; [|split; [exact L|exact V]]. exists m'. split; [|split; [exact R2|exact R3]].
  etransitivity; [exact E|exact R1].
Qed.
Print Assumptions predict_blas_exact.

Theorem backprop_blas_exact (cb : @cblas opsR) (c : cfg) (wb : Z) (nn : neuralnet) (net : list (@flayer opsR)) (lf : loss)
    (m : @mem opsR) (pin pt pg : ptr) (xs ts : list R) :
  cblas_exact cb ->
  @bp_ready opsR c wb nn net lf m pin pt pg xs ts ->
  let sh := shape_of net in
  let n := length xs in
  let th := vec (params_of net) in
  let no := n_outputs sh n in
  let run := backprop_blas c exp cb wb (neuralnet_set_loss nn (Some lf)) pin pt pg in
  run m = @neuralnet_backpropagation opsR c exp wb (neuralnet_set_loss nn (Some lf)) pin pt pg m /\
  (trainable lf sh -> smooth sh n th (vec xs) -> target_ok lf no (vec ts) (eval sh n th (vec xs)) ->
   exists g : list R,
    writes_only run m pg g /\
    length g = n_params sh n /\
    forall k, (k < n_params sh n)%nat ->
      is_derive (fun v => loss_math lf no (vec ts) (eval sh n (upd th k v) (vec xs))) (th k) (vec g k)).
Proof.
  intros HB HR sh n th no run.
  assert (E : run m = @neuralnet_backpropagation opsR c exp wb (neuralnet_set_loss nn (Some lf)) pin pt pg m).
  { etransitivity; [exact (@backprop_run_with opsR c exp mulC_R _ _ _ wb nn net lf m pin pt pg xs ts
      (vmm_blas_spec c cb HB) (mvm_blas_spec c cb HB) (outer_blas_spec cb HB) HR)|].
    symmetry. exact (@backprop_run opsR c exp mulC_R wb nn net lf m pin pt pg xs ts HR). }
  split; [exact E|]. intros T S G.
  destruct (backprop_exact c wb nn net lf m pin pt pg xs ts HR T S G) as (g & (m' & R1 & R2 & R3) & L & V).
  exists g. split; [|split; [exact L|exact V]]. exists m'. split; [|split; [exact R2|exact R3]].
  etransitivity; [exact E|exact R1].
Qed.
Print Assumptions backprop_blas_exact.

(** Cases that meet the hypotheses: there is an exact BLAS, and with it the cases of C01 and C16. *)
Example cblas_case : cblas_exact ref_cblas.
Proof. exact ref_cblas_exact. Qed.
Example predict_blas_case : exists ys : list R,
  writes_only (predict_blas case_c exp ref_cblas 128 case_nn (mkptr 4 0) (mkptr 5 0)) (case_m opsR 5) (mkptr 5 0) ys.
Proof.
  destruct (case_holds opsR 5) as (A & B & C & D & E).
  destruct (predict_blas_exact ref_cblas case_c 128 case_nn (case_net opsR 5) (case_m opsR 5) (mkptr 4 0) (mkptr 5 0) [0; 1]
    ref_cblas_exact A B C D E) as (_ & ys & H & _). exists ys. exact H.
Qed.
Example backprop_blas_case : exists g : list R,
  writes_only (backprop_blas gcase_c exp ref_cblas 8192 (neuralnet_set_loss gcase_nn (Some CCE)) (mkptr 4 0) (mkptr 5 0) (mkptr 6 0))
    gcase_m (mkptr 6 0) g /\ length g = 10%nat.
Proof.
  destruct grad_case as (A & B & C & D).
  destruct (backprop_blas_exact ref_cblas gcase_c 8192 gcase_nn gcase_net CCE gcase_m (mkptr 4 0) (mkptr 5 0) (mkptr 6 0) [5] [0; 1]
    ref_cblas_exact A) as (_ & H).
  destruct (H B C D) as (g & H1 & H2 & _). exists g. split; [exact H1|exact H2].
Qed.
