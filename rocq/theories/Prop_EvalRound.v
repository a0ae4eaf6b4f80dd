(** Prop_EvalRound.v -- C81: a float32 evaluation is close to the exact one *)
From Coquelicot Require Import Coquelicot.
From Flocq Require Import Core BinarySingleNaN.
From Coq Require Import ZArith Bool List Arith Reals Lia Lra Permutation.
From Verif Require Import Base BaseProofs Ops Mem MemProofs Kernels KernelProofs Activation ActivationProofs Loss Neuralnet Batch Optimizer Evaluate
  ForwardProofs OpsB32 B32Facts MetricB32 SpecReal RealForward SpecOpt SpecBits BitsProofs SpecMem PredictProofs Prop_Predict MetricProofs EvalProofs Prop_Evaluate Ex_Mem Ex_Train
  SpecMetric ActReal Exp256B32 SpecLibm SpecRound RoundProofs RoundNet LibmCase Prop_Round SpecGradRound SlopeRound LossRound SpecStepRound SumRound StepRound Prop_GradRound Prop_StepRound SpecEvalRound MetricRound EvalRound.
Import ListNotations.
Local Open Scope R_scope.

Section Eval.
  Variables (lm : libm) (c : cfg) (nn : neuralnet) (net : list (@flayer (opsB32 lm))) (m : @mem (opsB32 lm)) (X Y : ptr) (xs ts : list (list b32)) (s : esched).
  Notation OP := (opsB32 lm).
  Notation VE := (@exp256_lane OP).
  Hypothesis EM : @eval_mem OP c nn net m X Y xs ts.
  Hypothesis CN : covered_net lm (triples net).
  Hypothesis FD : Forall (Forall (fun x : b32 => fin x = true)) (xs ++ ts).
  Let sh := shape_b32 (triples net).
  Let n := in_size nn.
  Let th := vec (params_b32 (triples net)).

  Lemma finite_row i (l : list (list b32)) : Forall (Forall (fun x : b32 => fin x = true)) l -> Forall (fun x : b32 => fin x = true) (nth i l []).
  Proof. intros H. destruct (lt_dec i (length l)); [|rewrite nth_overflow by lia; constructor]. rewrite Forall_forall in H. apply H, nth_In. assumption. Qed.

  Lemma sample_near t i : (i < length xs)%nat -> metric_covered lm t ->
    (let x := vec (nth i (map reals xs) []) in
     in_range sh n 0 th (fun i => Rabs (x i)) (fun _ => 0) /\
     metric_safe t (n_outputs sh n) (outputs sh n th x) (eval sh n th x) (vec (nth i (map reals ts) []))) ->
    let v := @metric_f OP t (@pred_f OP c VE net xs s i) (nth i ts []) in
    fin v = true /\
    is_near (sample_metric t sh n th (map reals xs) (map reals ts) i) (bv v)
      (metric_math t (n_outputs sh n) (vec (nth i (map reals ts) [])) (eval sh n th (vec (nth i (map reals xs) [])))).
  Proof.
    intros Hi HL HS v. change [] with (reals []) in HS |- *. unfold sample_metric. change (@nil R) with (reals []). rewrite !map_nth in HS |- *. cbv zeta in HS |- *. destruct HS as (HR & HS).
    destruct (@nth_error_ex _ xs i Hi) as [x Hx]. pose proof EM as (Hne & HN & _ & _ & LT & HX & HT).
    destruct (@sample_holds OP c nn net m X Y xs ts EM i x Hx) as (Lx & _ & r & Hr & Lr & _).
    pose proof (@length_pred OP c VE nn net m X Y xs ts s EM i x Hx) as LP.
    destruct (@last_layer OP c nn net m X Y xs ts EM) as (l & _ & _ & Hno).
    assert (Ex : nth i xs [] = x) by (apply nth_error_nth; exact Hx). assert (Er : nth i ts [] = r) by (apply nth_error_nth; exact Hr).
    assert (FX : Forall (fun x : b32 => fin x = true) (nth i xs [])) by (apply finite_row; apply Forall_app in FD; apply FD).
    assert (FT : Forall (fun x : b32 => fin x = true) (nth i ts [])) by (apply finite_row; apply Forall_app in FD; apply FD).
    set (ys := @pred_f OP c VE net xs s i) in *.
    assert (Ln : length (nth i xs []) = n) by (rewrite Ex; exact Lx).
    assert (HREL : @net_rel OP VE (cfg_fma c) (triples net) (nth i xs []) ys).
    { apply (@forward_f_rel OP c VE (mul1_B32 lm)). pose proof (@net_holds_fits_f OP c m _ _ _ HN) as HF. exact (eq_ind_r (fun k => fits_f k net) HF Ln). }
    pose proof (net_err lm (cfg_fma c) (triples net) 0 (nth i xs []) ys th (fun k => Rabs (vec (reals (nth i xs [])) k)) (fun _ => 0) (vec (reals (nth i xs []))) HREL CN FX) as NE.
    cbv zeta in NE. change (@F OP) with b32 in *. rewrite Ln in NE. destruct NE as (LY & FY & EY).
    - apply params_par; [reflexivity|]. pose proof (@net_holds_fits_f OP c m _ _ _ HN) as HF. fold n in HF. clear - HF. change (@F (opsB32 lm)) with b32 in *.
      revert HF. generalize n. induction net as [|a nt IH]; intros k HF; [exact I|]. destruct HF as (LW & _ & HF).
      split; [exact LW|]. exact (IH _ HF).
    - intros k Hk. split; [lra|]. unfold reals. rewrite Prop_Round.vec_bv. apply approx_exact.
    - exact HR.
    - fold sh in LY, EY. assert (NO : n_outputs sh n = out_size nn) by exact (eq_trans (eq_sym LY) LP).
      apply metric_is_near; try assumption.
      + rewrite NO. exact Hno.
      + rewrite Er, NO. exact Lr.
  Qed.
End Eval.

(** In every build, for every thread schedule, every network, all finite parameters and
    samples: what evaluate stores for a metric is finite and at most the bound away from the exact mean of that metric,
    if libm is accurate where it is used and the magnitudes stay in range. *)
Theorem evaluate_rounding_error (lm : libm) (c : cfg) (nn : neuralnet) (net : list (@flayer (opsB32 lm))) (m : @mem (opsB32 lm)) (X Y results : ptr)
    (xs ts : list (list b32)) (mets : list metric) (junk : list (option metric)) (s : esched) :
  @eval_mem (opsB32 lm) c nn net m X Y xs ts -> @valid (opsB32 lm) m results (length mets) ->
  (forall i, aligned_base c (es_pred s i)) -> (forall i, aligned_base c (es_work s i)) -> omp_covers (es_omp s) (length xs) ->
  (0 < length xs)%nat -> covered_net lm (triples net) -> Forall (Forall (fun x : b32 => fin x = true)) (xs ++ ts) ->
  let sh := shape_b32 (triples net) in
  let th := vec (params_b32 (triples net)) in
  let rxs := map reals xs in let rts := map reals ts in
  exists res : list b32,
    writes_only (@evaluate (opsB32 lm) c (@exp256_lane (opsB32 lm)) s nn (length xs) X Y (terminated mets junk) results) m results res /\
    length res = length mets /\
    forall j t, nth_error mets j = Some t -> metric_covered lm t -> evaluation_safe t sh (in_size nn) th rxs rts ->
      fin (nth j res b32_zero) = true /\
      Rabs (bv (nth j res b32_zero) - mean_metric t sh (in_size nn) th rxs rts) <= err (mean_near (eval_nears t sh (in_size nn) th rxs rts)).
Proof.
  intros EM V HP HW CV H1 CN FD sh th rxs rts.
  destruct (@evaluate_ok (opsB32 lm) c (@exp256_lane (opsB32 lm)) (mulC_B32 lm) nn net m X Y xs ts mets s EM HP HW _ results (metric_list_terminated mets junk) CV V) as [E L].
  exists (@eval_f (opsB32 lm) c (@exp256_lane (opsB32 lm)) net xs ts mets s).
  split. { apply (@writes_only_intro (opsB32 lm)); [|exact E]. exact (eq_ind_r (fun k => @valid (opsB32 lm) m results k) V L). }
  split; [exact L|]. intros j t Hj HL (HS & MF).
  pose proof (nth_error_lt _ _ Hj) as Lj.
  set (g := @mets_f (opsB32 lm) c (@exp256_lane (opsB32 lm)) net xs ts mets s).
  assert (LR : length rxs = length xs) by apply map_length.
  assert (LG : forall i, (i < length xs)%nat -> length (g i) = length mets) by (intros; apply map_length).
  assert (GJ : forall i, nth j (g i) b32_zero = @metric_f (opsB32 lm) t (@pred_f (opsB32 lm) c (@exp256_lane (opsB32 lm)) net xs s i) (nth i ts [])).
  { intros i. apply nth_error_nth. unfold g, mets_f. rewrite nth_error_map, Hj. reflexivity. }
  destruct (mean_red lm (length mets) (length xs) g j LG Lj (es_omp s) (sample_metric t sh (in_size nn) th rxs rts)
    (fun i => metric_math t (n_outputs sh (in_size nn)) (vec (nth i rts [])) (eval sh (in_size nn) th (vec (nth i rxs [])))) H1 CV) as (FR & ER).
  - intros i Hi. rewrite GJ. apply (sample_near lm c nn net m X Y xs ts s EM CN FD t i Hi HL). apply HS. rewrite LR. exact Hi.
  - unfold eval_nears in MF. rewrite LR in MF. exact MF.
  - assert (EN : nth j (@eval_f (opsB32 lm) c (@exp256_lane (opsB32 lm)) net xs ts mets s) b32_zero =
      Bdiv mode_NE (nth j (@omp_f (opsB32 lm) (length mets) g (es_omp s) (length xs)) b32_zero) (b32_ofZ (Z.of_nat (length xs)))).
    { destruct (omp_adds lm (length mets) (length xs) g j LG Lj (es_omp s) CV) as (_ & _ & LO & _).
      apply nth_error_nth. unfold eval_f. rewrite nth_error_map. fold g.
      assert (NO : nth_error (@omp_f (opsB32 lm) (length mets) g (es_omp s) (length xs)) j = Some (nth j (@omp_f (opsB32 lm) (length mets) g (es_omp s) (length xs)) b32_zero)).
      { apply nth_error_nth'. exact (eq_ind_r (fun k => (j < k)%nat) Lj LO). }
      change (@F (opsB32 lm)) with b32 in *. rewrite NO. reflexivity. }
    unfold mean_metric, eval_nears. rewrite LR. refine (eq_ind_r (fun z : b32 => fin z = true /\ Rabs (bv z - _) <= _) _ EN). split; [exact FR|exact ER].
Qed.
Print Assumptions evaluate_rounding_error.

(** two builds, two machines, two schedules: the same network and data, means that differ by at most twice the bound *)
Theorem evaluations_agree (lm lm' : libm) (c c' : cfg) (nn nn' : neuralnet) (net : list (@flayer (opsB32 lm))) (net' : list (@flayer (opsB32 lm')))
    (m : @mem (opsB32 lm)) (m' : @mem (opsB32 lm')) (X Y results X' Y' results' : ptr)
    (xs ts : list (list b32)) (mets : list metric) (junk junk' : list (option metric)) (s s' : esched) :
  @eval_mem (opsB32 lm) c nn net m X Y xs ts -> @valid (opsB32 lm) m results (length mets) ->
  (forall i, aligned_base c (es_pred s i)) -> (forall i, aligned_base c (es_work s i)) -> omp_covers (es_omp s) (length xs) ->
  @eval_mem (opsB32 lm') c' nn' net' m' X' Y' xs ts -> @valid (opsB32 lm') m' results' (length mets) ->
  (forall i, aligned_base c' (es_pred s' i)) -> (forall i, aligned_base c' (es_work s' i)) -> omp_covers (es_omp s') (length xs) ->
  triples net' = triples net -> (0 < length xs)%nat -> covered_net lm (triples net) -> covered_net lm' (triples net) ->
  Forall (Forall (fun x : b32 => fin x = true)) (xs ++ ts) ->
  let sh := shape_b32 (triples net) in
  let th := vec (params_b32 (triples net)) in
  let rxs := map reals xs in let rts := map reals ts in
  exists res res' : list b32,
    writes_only (@evaluate (opsB32 lm) c (@exp256_lane (opsB32 lm)) s nn (length xs) X Y (terminated mets junk) results) m results res /\
    writes_only (@evaluate (opsB32 lm') c' (@exp256_lane (opsB32 lm')) s' nn' (length xs) X' Y' (terminated mets junk') results') m' results' res' /\
    forall j t, nth_error mets j = Some t -> metric_covered lm t -> metric_covered lm' t -> evaluation_safe t sh (in_size nn) th rxs rts ->
      Rabs (bv (nth j res b32_zero) - bv (nth j res' b32_zero)) <= 2 * err (mean_near (eval_nears t sh (in_size nn) th rxs rts)).
Proof.
  intros A1 A2 A3 A4 A5 B1 B2 B3 B4 B5 ET H1 CN CN' FD sh th rxs rts.
  assert (EI : in_size nn' = in_size nn).
  { destruct xs as [|x xs']; [cbn in H1; lia|]. destruct A1 as (_ & _ & _ & _ & _ & HX & _). destruct B1 as (_ & _ & _ & _ & _ & HX' & _).
    exact (eq_trans (eq_sym (HX' x (or_introl eq_refl))) (HX x (or_introl eq_refl))). }
  destruct (evaluate_rounding_error lm c nn net m X Y results xs ts mets junk s A1 A2 A3 A4 A5 H1 CN FD) as (res & W & _ & E).
  destruct (evaluate_rounding_error lm' c' nn' net' m' X' Y' results' xs ts mets junk' s' B1 B2 B3 B4 B5 H1) as (res' & W' & _ & E').
  - rewrite ET. exact CN'.
  - exact FD.
  - rewrite ET, EI in E'. fold sh th rxs rts in E, E'. exists res, res'. split; [exact W|]. split; [exact W'|].
    intros j t Hj L L' S. destruct (E j t Hj L S) as (_ & D). destruct (E' j t Hj L' S) as (_ & D').
    set (M := mean_metric t sh (in_size nn) th rxs rts) in *.
    replace (bv (nth j res b32_zero) - bv (nth j res' b32_zero)) with ((bv (nth j res b32_zero) - M) - (bv (nth j res' b32_zero) - M)) by ring.
    eapply Rle_trans; [apply Rabs_triang|]. rewrite Rabs_Ropp. lra.
Qed.
Print Assumptions evaluations_agree.

(** ** a case: y = w x + b with w = 1, b = 0, the samples (1, 1) and (0, 1), shared by two threads, all seven metrics, a correctly rounding libm *)
Lemma rounded_log_unit : accurate_log_unit (LibmCase.rounded ln).
Proof.
  intros x Fx (HL & HU). pose proof u32_val as U. pose proof eta32_tiny as T. unfold LibmCase.rounded.
  assert (LB : -63 <= ln (B2R x)).
  { assert (ln 10 <= 9) by (pose proof (exp_ineq1_le (ln 10)) as E; rewrite exp_ln in E by lra; lra).
    assert (L7 : ln (1 / 10 ^ 7) = - (7 * ln 10)). { unfold Rdiv. rewrite Rmult_1_l, ln_Rinv by lra. rewrite <- Rpower_pow by lra. unfold Rpower. rewrite ln_exp. rewrite (INR_IZR_INZ 7). reflexivity. }
    pose proof (ln_mono (1 / 10 ^ 7) (B2R x) ltac:(lra) HL). lra. }
  assert (UB : ln (B2R x) <= 0) by (rewrite <- ln_1; apply ln_mono; lra).
  assert (BG : 63 <= 2 ^ 127) by (apply Rle_trans with (2 ^ 6); [lra|apply Rle_pow; [lra|lia]]).
  destruct (b32_of_R_small (ln (B2R x))) as (F & E); [apply Rabs_le; lra|]. split; [exact F|]. rewrite E.
  destruct HU as [HU|HU].
  - eapply Rle_trans; [apply rnd_err|]. assert (G : 3 / 10 ^ 8 <= Rabs (ln (B2R x))).
    { rewrite Rabs_left1 by lra. assert (B : B2R x <= 1 - 3 / 10 ^ 8).
      { pose proof (bv_fmt' x) as Fm. pose proof (bv_fmt' (b32_ofZ 1)) as F1. rewrite one_R in F1.
        pose proof (pred_ge_gt radix2 (SpecFloat.fexp 24 128) (bv x) 1 Fm F1 HU) as S. change 1 with (bpow radix2 0) in S. rewrite pred_bpow in S.
        change (SpecFloat.fexp 24 128 0) with (-24)%Z in S. change (bpow radix2 0) with 1 in S.
        assert (BP : bpow radix2 (-24) = / 2 ^ 24) by (rewrite bpow_powerRZ; reflexivity). rewrite BP in S. lra. }
      pose proof (exp_ineq1_le (ln (B2R x))) as X. rewrite exp_ln in X by lra. lra. }
    rewrite U. lra.
  - rewrite HU, ln_1, LibmCase.rnd_0', Rminus_0_r, Rabs_R0. lra.
Qed.

Lemma within_mean l M E k : length l = k -> (0 < k <= 2)%nat -> (forall b, In b l -> within b M E) ->
  within (mean_near l) M (E + 5 / 10 ^ 7 * (M + E) + 1 / 10 ^ 20) /\ within (sum_near l) (INR k * M) (INR k * (E + 3 / 10 ^ 7 * (M + E))) /\ (M + E <= 400 -> mean_fits l).
Proof.
  intros L Hk H. assert (K : 1 <= INR k <= 2) by (split; [apply (le_INR 1)|apply (le_INR k 2)]; lia).
  assert (S : (0 <= rsum (map mag l) <= INR k * M) /\ (0 <= rsum (map err l) <= INR k * E)).
  { rewrite <- L. clear - H. induction l as [|b l IH]; [cbn; lra|]. change (length (b :: l)) with (S (length l)). rewrite S_INR. cbn [map rsum].
    destruct (IH (fun b Hb => H b (or_intror Hb))) as (A & B). destruct (H b (or_introl eq_refl)) as (C & D). lra. }
  assert (C : rsum (map cap l) = rsum (map mag l) + rsum (map err l)) by (clear; induction l as [|b l IH]; cbn [map rsum]; [lra|unfold cap at 1; lra]).
  destruct S as (A & B). set (a := rsum (map mag l)) in *. set (e := rsum (map err l)) in *.
  assert (ME : 0 <= M /\ 0 <= E) by (split; destruct l as [|b l]; try (cbn in L; lia); destruct (H b (or_introl eq_refl)); lra).
  assert (P : (1 + u32) ^ k - 1 <= 24 / 10 ^ 8). { pose proof (pow_small k ltac:(lia)) as P. assert (INR k * (12 / 10 ^ 8) <= 2 * (12 / 10 ^ 8)) by (apply Rmult_le_compat_r; lra). lra. }
  pose proof (up1 k) as U.
  assert (X0 : 0 <= ((1 + u32) ^ k - 1) * (a + e)) by (apply Rmult_le_pos; lra).
  assert (X1 : ((1 + u32) ^ k - 1) * (a + e) <= 24 / 10 ^ 8 * (INR k * (M + E))) by (apply Rmult_le_compat; lra).
  assert (X2 : 24 / 10 ^ 8 * (INR k * (M + E)) <= INR k * (3 / 10 ^ 7 * (M + E))). { replace (INR k * (3 / 10 ^ 7 * (M + E))) with (3 / 10 ^ 7 * (INR k * (M + E))) by ring. apply Rmult_le_compat_r; [apply Rmult_le_pos; lra|lra]. }
  split; [|split].
  - unfold mean_near. fold a e. rewrite L. eapply within_le; [apply within_r1 with (M := M) (E := E + 25 / 10 ^ 8 * (M + E))|lra|lra].
    assert (I : 0 < / INR k) by (apply Rinv_0_lt_compat; lra). assert (IK : INR k * / INR k = 1) by (apply Rinv_r; lra).
    split; cbn [mag err]; unfold Rdiv; (split; [apply Rmult_le_pos; lra|]).
    + apply Rle_trans with (INR k * M * / INR k); [apply Rmult_le_compat_r; lra|]. replace (INR k * M * / INR k) with (M * (INR k * / INR k)) by ring. rewrite IK. lra.
    + apply Rle_trans with (INR k * (E + 25 * / 10 ^ 8 * (M + E)) * / INR k); [apply Rmult_le_compat_r; lra|].
      replace (INR k * (E + 25 * / 10 ^ 8 * (M + E)) * / INR k) with ((E + 25 * / 10 ^ 8 * (M + E)) * (INR k * / INR k)) by ring. rewrite IK. lra.
  - unfold sum_near. fold a e. rewrite L. split; cbn [mag err]; lra.
  - intros B4. unfold mean_fits. rewrite L, C. split; [lra|]. destruct big126 as (_ & B2 & _).
    assert (a + e <= INR k * (M + E)) by lra. assert (INR k * (M + E) <= 2 * 400) by (apply Rmult_le_compat; lra).
    assert ((1 + u32) ^ k * (a + e) <= (1 + 24 / 10 ^ 8) * 800) by (apply Rmult_le_compat; lra). lra.
Qed.
Lemma prob_range y : 1 / 10 ^ 7 <= prob y <= 1 - 1 / 10 ^ 7.
Proof. unfold prob, SpecMetric.clamp, clamp, Rmin, Rmax. repeat destruct (Rle_dec _ _); lra. Qed.
Lemma ln_range p : 1 / 10 ^ 7 <= p <= 1 -> Rabs (ln p) <= 63.
Proof.
  intros H. assert (L10 : ln 10 <= 9) by (pose proof (exp_ineq1_le (ln 10)) as E; rewrite exp_ln in E by lra; lra).
  assert (L7 : ln (1 / 10 ^ 7) = - (7 * ln 10)). { unfold Rdiv. rewrite Rmult_1_l, ln_Rinv by lra. rewrite <- Rpower_pow by lra. unfold Rpower. rewrite ln_exp. rewrite (INR_IZR_INZ 7). reflexivity. }
  pose proof (ln_mono (1 / 10 ^ 7) p ltac:(lra) (proj1 H)). assert (ln p <= 0) by (rewrite <- ln_1; apply ln_mono; lra). apply Rabs_le. lra.
Qed.
Lemma within_log p e : 1 / 10 ^ 7 <= p <= 1 -> 0 <= e <= 9 / 10 ^ 7 -> within (log_near p e) 63 10.
Proof.
  intros Hp He. pose proof (ln_range p Hp) as L. pose proof (Rabs_pos (ln p)). unfold log_near. set (q := Rmax (1 / 10 ^ 7) (p - e)).
  assert (Q : 1 / 10 ^ 7 <= q) by apply Rmax_l. assert (D : 0 <= e / q <= 9). { split; [apply Rdiv_le_0_compat; lra|]. apply Rle_div_l; lra. }
  split; cbn [mag err]; lra.
Qed.

Section LineEval.
  Variables (T x t : nat -> R).
  Hypothesis HT : forall q, Rabs (T q) <= 1.
  Hypothesis HX : forall q, Rabs (x q) <= 1.
  Hypothesis Ht : t 0%nat = 1.
  Let sh := [(1%nat, Linear)].
  Let o := outputs sh 1 T x.
  Let y := eval sh 1 T x.
  Hypothesis Hy : y 0%nat = 1 \/ y 0%nat = 0.
  Lemma line_o : within (o 0%nat) 2 (6 / 10 ^ 7). Proof. exact (line_out T x HT HX 0). Qed.
  Lemma line_term m : within (term_near m (o 0%nat) (y 0%nat) (t 0%nat)) 130 25 /\ (m = M_MSE \/ m = M_MAE \/ m = M_BinAcc -> within (term_near m (o 0%nat) (y 0%nat) (t 0%nat)) 9 (1 / 10 ^ 5)) /\
    (m = M_MAPE -> within (term_near m (o 0%nat) (y 0%nat) (t 0%nat)) 3 (1 / 10 ^ 5)).
  Proof.
    destruct line_o as (OM & OE). rewrite Ht. set (b := o 0%nat) in *. clearbody b. pose proof eta32_tiny as ET. pose proof eta32_pos as EP.
    assert (WD : within (diff b 1) 3 (1 / 10 ^ 6)).
    { unfold diff. rewrite Rabs_R1. eapply within_le; [apply within_r1 with (M := 3) (E := 6 / 10 ^ 7); split; cbn [mag err]; lra|lra|lra]. }
    assert (PE : 0 <= prob_err b (y 0%nat) <= 7 / 10 ^ 7). { unfold prob_err. pose proof (prob_range (y 0%nat)). lra. }
    pose proof (prob_range (y 0%nat)) as PR.
    assert (WC : within (rounded 1 (times (exact 1) (log_near (prob (y 0%nat)) (prob_err b (y 0%nat))))) 63 12).
    { eapply within_le; [apply within_r1, within_times; [apply within_exact with (M := 1); rewrite Rabs_R1; lra|apply within_log; lra]|lra|lra]. }
    destruct m; cbn [term_near].
    - assert (W : within (rounded 1 (times (diff b 1) (diff b 1))) 9 (1 / 10 ^ 5)) by (eapply within_le; [apply within_r1, within_times; exact WD|lra|lra]).
      split; [eapply within_le; [exact W|lra|lra]|]. split; [auto|discriminate].
    - split; [eapply within_le; [exact WD|lra|lra]|]. split; [intros _; eapply within_le; [exact WD|lra|lra]|discriminate].
    - assert (W : within (rounded 3 (mk_near ((mag b + Rabs 1) / Rmax 1 (1 / 10 ^ 7)) (err b / Rmax 1 (1 / 10 ^ 7)))) 3 (1 / 10 ^ 5)).
      { rewrite Rabs_R1, Rmax_left by lra. pose proof (pow_small 3 ltac:(lia)) as P3. cbn [INR] in P3.
        eapply within_le; [apply within_rounded with (M := 3) (E := 6 / 10 ^ 7) (P := 36 / 10 ^ 8); [split; cbn [mag err]; lra|lra]|lra|cbn [INR]; lra]. }
      split; [eapply within_le; [exact W|lra|lra]|]. split; [intros [|[|]]; discriminate|auto].
    - split; [|split; [intros [|[|]]; discriminate|discriminate]]. cbv zeta.
      assert (E2 : 0 <= prob_err b (y 0%nat) + u32 * (1 - prob (y 0%nat) + prob_err b (y 0%nat)) <= 9 / 10 ^ 7).
      { pose proof u32_val as U. rewrite U. lra. }
      assert (WB : within (rounded 1 (times (rounded 1 (exact (1 - 1))) (log_near (1 - prob (y 0%nat)) (prob_err b (y 0%nat) + u32 * (1 - prob (y 0%nat) + prob_err b (y 0%nat)))))) 1 1).
      { eapply within_le; [apply within_r1, within_times; [apply within_r1, within_exact with (M := 0); rewrite Rminus_eq_0, Rabs_R0; lra|apply within_log; lra]|lra|lra]. }
      eapply within_le; [apply within_r1, within_plus; [exact WC|exact WB]|lra|lra].
    - split; [|split; [intros [|[|]]; discriminate|discriminate]]. eapply within_le; [exact WC|lra|lra].
    - split; [split; cbn [mag err]; lra|]. split; [intros [|[|]]; discriminate|discriminate].
    - split; [split; cbn [mag err]; lra|]. split; [intros _; split; cbn [mag err]; lra|discriminate].
  Qed.
  Lemma line_metric_safe m : metric_safe m 1 o y t.
  Proof.
    destruct line_o as (OM & OE). destruct (line_term m) as (W & _ & WP). destruct big126 as (_ & B2 & _).
    assert (MF : mean_fits (terms m 1 o y t)) by (apply (within_mean _ 130 25 1); [reflexivity|lia|intros b [<-|[]]; exact W|lra]).
    split.
    - destruct m; try (split; [exact MF|]); intros j Hj; assert (j = 0%nat) by lia; subst j.
      + rewrite Ht, Rabs_R1. unfold cap. lra.
      + rewrite Ht, Rabs_R1. unfold cap. lra.
      + rewrite Ht, Rabs_R1. unfold cap. lra.
      + rewrite Ht, Rabs_R1. apply pow_R1_Rle; lra.
      + rewrite Ht, Rabs_R1. apply pow_R1_Rle; lra.
      + intros k D. exfalso. apply D. symmetry. destruct (first_max_ok 1 y ltac:(lia)) as (K & _). unfold k. lia.
      + intros h [<-|[<-|[<-|[]]]]; destruct Hy as [-> | ->]; unfold Rabs; destruct (Rcase_abs _); lra.
    - destruct m; try exact I. pose proof (within_mean (terms M_MAPE 1 o y t) 3 (1 / 10 ^ 5) 1 eq_refl ltac:(lia) ltac:(intros b [<-|[]]; exact (WP eq_refl))) as (_ & WS & _). cbn [INR] in WS.
      eapply within_cap; [apply within_r1, within_times; [apply within_exact with (M := 100); rewrite Rabs_pos_eq; lra|exact WS]|lra].
  Qed.
  Lemma line_metric m : within (metric_near m 1 o y t) 310 26 /\ (m = M_MSE \/ m = M_MAE \/ m = M_BinAcc -> within (metric_near m 1 o y t) 9 (3 / 10 ^ 5)).
  Proof.
    destruct (line_term m) as (W & WS & WP).
    destruct (within_mean (terms m 1 o y t) 130 25 1 eq_refl ltac:(lia) ltac:(intros b [<-|[]]; exact W)) as (W1 & _).
    assert (W2 : m = M_MSE \/ m = M_MAE \/ m = M_BinAcc -> within (mean_near (terms m 1 o y t)) 9 (3 / 10 ^ 5)).
    { intros E. destruct (within_mean (terms m 1 o y t) 9 (1 / 10 ^ 5) 1 eq_refl ltac:(lia) ltac:(intros b [<-|[]]; exact (WS E))) as (W2 & _). eapply within_le; [exact W2|lra|lra]. }
    destruct m; cbn [metric_near]; try (split; [eapply within_le; [exact W1|lra|lra]|exact W2]).
    - split; [|intros [|[|]]; discriminate].
      pose proof (within_mean (terms M_MAPE 1 o y t) 3 (1 / 10 ^ 5) 1 eq_refl ltac:(lia) ltac:(intros b [<-|[]]; exact (WP eq_refl))) as (_ & WQ & _). cbn [INR] in WQ.
      assert (WT : within (rounded 1 (times (exact 100) (sum_near (terms M_MAPE 1 o y t)))) 301 1).
      { eapply within_le; [apply within_r1, within_times; [apply within_exact with (M := 100); rewrite Rabs_pos_eq; lra|exact WQ]|lra|lra]. }
      eapply within_le; [apply within_r1 with (M := 301) (E := 1)|lra|lra]. destruct WT as (A & B). unfold over, within. cbn [mag err INR]. unfold Rdiv. rewrite Rinv_1, !Rmult_1_r. lra.
    - split; [|intros [|[|]]; discriminate]. split; cbn [mag err]; lra.
  Qed.
End LineEval.

Section CaseMem.
  Variable FO : fops.
  Definition ev1_net : list flayer := [@Build_flayer FO [f1] [f0] Linear].
  Definition ev1_mem : mem :=
    [mkblock 1024 [Some f1]; mkblock 2048 [Some f0]; mkblock 3072 [Some f1; Some f0]; mkblock 4096 [Some f1; Some f1]; mkblock 5120 (repeat None 7)].
  Lemma ev1_holds c : eval_mem c tc_nn ev1_net ev1_mem (mkptr 2 0) (mkptr 3 0) [[f1]; [f0]] [[f1]; [f1]] /\ valid ev1_mem (mkptr 4 0) 7.
  Proof.
    split.
    - split; [discriminate|]. split.
      { simpl. unfold layer_holds, kal. simpl. repeat split; auto; try discriminate; try lia;
          [exact (holds_block ev1_mem 0 1024 [f1] eq_refl)|exact (holds_block ev1_mem 1 2048 [f0] eq_refl)]. }
      split; [exact (holds_block ev1_mem 2 3072 [f1; f0] eq_refl)|]. split; [exact (holds_block ev1_mem 3 4096 [f1; f1] eq_refl)|]. split; [reflexivity|].
      split; intros z [<-|[<-|[]]]; reflexivity.
    - eexists. split; [reflexivity|]. simpl. lia.
  Qed.
End CaseMem.
Definition ev1_sched : esched :=
  {| es_omp := Some [Comb (Thread 0 [1%nat]) (Thread 0 [0%nat])]; es_local := 0; es_pred := fun _ => 0%Z; es_work := fun _ => 0%Z; es_predictions := 0 |}.
Example evaluate_rounding_case :
  let lm := lm_rounded in let OP := opsB32 lm in
  let c := {| cfg_isa := AVX512; cfg_fma := true |} in
  let mets := [M_MSE; M_MAE; M_MAPE; M_BCE; M_CCE; M_CatAcc; M_BinAcc] in
  let xs := [[@f1 OP]; [@f0 OP]] in let ts := [[@f1 OP]; [@f1 OP]] in
  let net := ev1_net OP in let s := ev1_sched in
  let sh := shape_b32 (triples net) in let th := vec (params_b32 (triples net)) in
  let rxs := map reals xs in let rts := map reals ts in
  @eval_mem OP c tc_nn net (ev1_mem OP) (mkptr 2 0) (mkptr 3 0) xs ts /\ @valid OP (ev1_mem OP) (mkptr 4 0) (length mets) /\
  (forall i, aligned_base c (es_pred s i)) /\ (forall i, aligned_base c (es_work s i)) /\ omp_covers (es_omp s) (length xs) /\
  (0 < length xs)%nat /\ covered_net lm (triples net) /\ Forall (Forall (fun x : b32 => fin x = true)) (xs ++ ts) /\
  (forall t, metric_covered lm t /\ evaluation_safe t sh (in_size tc_nn) th rxs rts) /\
  (forall t, t = M_MSE \/ t = M_MAE \/ t = M_BinAcc -> err (mean_near (eval_nears t sh (in_size tc_nn) th rxs rts)) <= 4 / 10 ^ 5) /\
  mean_metric M_MSE sh (in_size tc_nn) th rxs rts = 1 / 2 /\ mean_metric M_BinAcc sh (in_size tc_nn) th rxs rts = 1 / 2.
Proof.
  intros lm OP c mets xs ts net s sh th rxs rts.
  destruct (ev1_holds OP c) as (EM & V). split; [exact EM|]. split; [exact V|].
  split; [intros; apply aligned_base_0|]. split; [intros; apply aligned_base_0|]. split; [apply (Permutation_app_comm [1%nat] [0%nat])|]. split; [cbn; lia|].
  split. { repeat constructor. } split. { repeat constructor. }
  assert (O1 : bv (@f1 OP) = 1) by exact one_R. assert (O0 : bv (@f0 OP) = 0) by reflexivity.
  assert (TH : th 0%nat = 0 /\ th 1%nat = 1 /\ forall q, th (S (S q)) = 0).
  { unfold th, vec, params_b32, net, ev1_net, triples. cbn [map flat_map fst snd fact fw fb app nth]. rewrite O1, O0. repeat split. intros [|q]; reflexivity. }
  destruct TH as (T0 & T1 & TR).
  assert (HT : forall q, Rabs (th q) <= 1). { intros [|[|q]]; rewrite ?T0, ?T1, ?TR, ?Rabs_R0, ?Rabs_R1; lra. }
  assert (ER : forall i, vec (nth i rxs []) 0%nat = match i with 0%nat => 1 | _ => 0 end /\ forall q, vec (nth i rxs []) (S q) = 0).
  { intros [|[|i]]; unfold rxs, xs, vec, reals; cbn [map nth]; rewrite ?O1, ?O0; repeat split; try (destruct i; reflexivity); try (intros [|q]; reflexivity); intros q; destruct i; reflexivity. }
  assert (HX : forall i q, Rabs (vec (nth i rxs []) q) <= 1).
  { intros i q. destruct (ER i) as (E0 & ES). destruct q as [|q]; [rewrite E0; destruct i; rewrite ?Rabs_R0, ?Rabs_R1; lra|rewrite ES, Rabs_R0; lra]. }
  assert (HY : forall i, (i < 2)%nat -> vec (nth i rts []) 0%nat = 1).
  { intros [|[|i]] Hi; [| |lia]; unfold rts, ts, vec, reals; cbn [map nth]; exact O1. }
  assert (EV : forall i, eval [(1%nat, Linear)] 1 th (vec (nth i rxs [])) 0%nat = match i with 0%nat => 1 | _ => 0 end).
  { intros i. destruct (ER i) as (E0 & _). set (x := vec (nth i rxs [])) in *. clearbody x. cbn [eval]. unfold act_math, zf. cbn [sumf]. change (1 + (0 * 1 + 0))%nat with 1%nat. cbn [act_math1]. rewrite E0, T1, T0. destruct i; lra. }
  assert (EV2 : forall i, eval [(1%nat, Linear)] 1 th (vec (nth i rxs [])) 0%nat = 1 \/ eval [(1%nat, Linear)] 1 th (vec (nth i rxs [])) 0%nat = 0) by (intros i; rewrite EV; destruct i; auto).
  assert (WN : forall t, within (mean_near (eval_nears t sh 1 th rxs rts)) 310 27 /\ (t = M_MSE \/ t = M_MAE \/ t = M_BinAcc -> within (mean_near (eval_nears t sh 1 th rxs rts)) 9 (4 / 10 ^ 5)) /\ mean_fits (eval_nears t sh 1 th rxs rts)).
  { intros t. assert (IN : forall b, In b (eval_nears t sh 1 th rxs rts) -> within b 310 26 /\ (t = M_MSE \/ t = M_MAE \/ t = M_BinAcc -> within b 9 (3 / 10 ^ 5))).
    { intros b [<-|[<-|[]]]; apply line_metric; auto. }
    destruct (within_mean (eval_nears t sh 1 th rxs rts) 310 26 2 eq_refl ltac:(lia) (fun b Hb => proj1 (IN b Hb))) as (W1 & _ & W2).
    split; [eapply within_le; [exact W1|lra|lra]|]. split; [|apply W2; lra]. intros ET.
    destruct (within_mean (eval_nears t sh 1 th rxs rts) 9 (3 / 10 ^ 5) 2 eq_refl ltac:(lia) (fun b Hb => proj2 (IN b Hb) ET)) as (W3 & _). eapply within_le; [exact W3|lra|lra]. }
  split; [|split; [|split]].
  - intros t. split; [destruct t; try exact I; exact rounded_log_unit|]. split; [|apply (WN t)].
    intros i Hi. cbv zeta. split; [exact (line_range th (vec (nth i rxs [])) HT (HX i))|].
    apply (line_metric_safe th (vec (nth i rxs [])) (vec (nth i rts [])) HT (HX i)); auto.
  - intros t ET. destruct (WN t) as (_ & W & _). destruct (W ET) as (_ & W2). exact (proj2 W2).
  - unfold mean_metric. change (length rxs) with 2%nat. cbn [seq map rsum metric_math]. unfold mse. change (n_outputs sh (in_size tc_nn)) with 1%nat. cbn [sumf].
    change (eval sh (in_size tc_nn) th) with (eval [(1%nat, Linear)] 1 th). rewrite !EV, !HY by lia. cbn [INR]. field.
  - unfold mean_metric. change (length rxs) with 2%nat. cbn [seq map rsum metric_math]. change (n_outputs sh (in_size tc_nn)) with 1%nat.
    change (eval sh (in_size tc_nn) th) with (eval [(1%nat, Linear)] 1 th). cbn [count_lt]. rewrite !EV, !HY by lia.
    assert (H1 : hit 1 1 = true). { unfold hit. repeat match goal with |- context [Rle_dec ?a ?b] => destruct (Rle_dec a b) | |- context [Rlt_dec ?a ?b] => destruct (Rlt_dec a b) end; try reflexivity; lra. }
    assert (H0 : hit 1 0 = false). { unfold hit. repeat match goal with |- context [Rle_dec ?a ?b] => destruct (Rle_dec a b) | |- context [Rlt_dec ?a ?b] => destruct (Rlt_dec a b) end; try reflexivity; lra. }
    rewrite H1, H0. cbn [Nat.add INR]. field.
Qed.
