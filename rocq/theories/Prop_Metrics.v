(** Prop_Metrics.v -- C34: the metrics compute their definitions; C15: losses and metrics of the same name *)
From Coquelicot Require Import Coquelicot.
From Flocq Require Import Core BinarySingleNaN.
From Coq Require Import String List Arith ZArith Lia Bool Reals Lra.
From Verif Require Import Base BaseProofs Ops OpsR OpsB32 Mem MemProofs Activation Loss Names SpecReal SpecMetric SpecMem BackpropProofs
  RealForward RealGrad LossGrad MetricProofs MetricB32 MetricGrad.
Import ListNotations.
Local Open Scope nat_scope.

(** a call of the metric with prediction ps and target rs returns x, does not fault and changes nothing,
    wherever the two arrays are stored *)
Definition metric_returns {FO : fops} (t : metric) (ps rs : list F) (x : F) : Prop :=
  forall m pp pr, holds m pp ps -> holds m pr rs -> metric_func t (length ps) pp pr m = Ok (x, m).

Lemma metric_returns_f {FO : fops} t (ps rs : list F) : 1 <= length ps -> length rs = length ps -> metric_returns t ps rs (metric_f t ps rs).
Proof. intros Hn L m pp pr Hp Hr. apply metric_func_ok; auto. Qed.

Local Open Scope R_scope.

Lemma list_vec_eq (ps rs : list R) : length rs = length ps ->
  ((forall j, (j < length ps)%nat -> vec ps j = vec rs j) <-> ps = rs).
Proof.
  intros L. split; [|intros ->; auto]. intros H. apply nth_ext with (d := 0) (d' := 0); auto.
Qed.

(** C34 (1): mean squared, absolute and absolute percentage error, exact arithmetic *)
Theorem mean_error_metrics (t : metric) (ps rs : list R) :
  t = M_MSE \/ t = M_MAE \/ t = M_MAPE -> (1 <= length ps)%nat -> length rs = length ps ->
  exists x : R, metric_returns t ps rs x /\
    x = match t with
        | M_MSE => mse (length ps) (vec rs) (vec ps) | M_MAE => mae (length ps) (vec rs) (vec ps)
        | _ => mape (length ps) (vec rs) (vec ps) end /\
    0 <= x /\ (x = 0 <-> ps = rs).
Proof.
  intros Ht Hn L. exists (metric_f t ps rs). split; [apply (metric_returns_f t ps rs); auto|].
  split. { rewrite metric_R by auto. destruct Ht as [-> | [-> | ->]]; reflexivity. }
  assert (HN : 0 < INR (length ps)) by (apply lt_0_INR; lia).
  assert (Q : forall f k, (forall j, (j < length ps)%nat -> 0 <= f j) -> (forall j, (j < length ps)%nat -> f j = 0 <-> vec ps j = vec rs j) -> 0 < k ->
    0 <= k * sumf (length ps) f / INR (length ps) /\ (k * sumf (length ps) f / INR (length ps) = 0 <-> ps = rs)).
  { intros f k P Z Hk. pose proof (sumf_nonneg _ _ P) as S0. pose proof (sumf_zero_iff _ _ P) as SZ.
    assert (IN : 0 < / INR (length ps)) by (apply Rinv_0_lt_compat; auto).
    split. { unfold Rdiv. apply Rmult_le_pos; [apply Rmult_le_pos; lra|lra]. }
    rewrite <- list_vec_eq by auto. split.
    - intros E. unfold Rdiv in E. apply Rmult_integral in E. destruct E as [E|E]; [|lra]. apply Rmult_integral in E. destruct E as [E|E]; [lra|].
      intros j Hj. apply Z; auto. apply SZ; auto.
    - intros E. rewrite (proj2 SZ). { unfold Rdiv. ring. } intros j Hj. apply Z; auto. }
  rewrite metric_R by auto. cbv zeta.
  destruct Ht as [-> | [-> | ->]].
  - unfold mse. rewrite <- (Rmult_1_l (sumf _ _)). apply Q; [| |lra]; intros j Hj.
    + apply pow2_ge_0.
    + split. * intros E. rewrite <- Rsqr_pow2 in E. apply Rsqr_0_uniq in E. lra. * intros ->. ring.
  - unfold mae. rewrite <- (Rmult_1_l (sumf _ _)). apply Q; [| |lra]; intros j Hj.
    + apply Rabs_pos.
    + split. * intros E. destruct (Req_dec (vec ps j - vec rs j) 0); [lra|]. apply Rabs_no_R0 in H. lra.
      * intros ->. rewrite Rminus_diag_eq by auto. apply Rabs_R0.
  - unfold mape. apply Q; [| |lra]; intros j Hj.
    + apply Rabs_pos.
    + assert (P : 0 < Rmax (vec rs j) (1 / 10000000)) by (eapply Rlt_le_trans; [|apply Rmax_r]; lra).
      split.
      * intros E. destruct (Req_dec (vec rs j - vec ps j) 0); [lra|]. exfalso. revert E. apply Rabs_no_R0.
        unfold Rdiv. apply Rmult_integral_contrapositive. split; auto. apply Rinv_neq_0_compat. lra.
      * intros ->. rewrite Rminus_diag_eq by auto. unfold Rdiv. rewrite Rmult_0_l. apply Rabs_R0.
Qed.
Print Assumptions mean_error_metrics.

(** C34 (2): categorical_accuracy, exact comparison *)
Theorem categorical_accuracy_first_max (ps rs : list R) :
  (1 <= length ps)%nat -> length rs = length ps ->
  exists x : R, metric_returns M_CatAcc ps rs x /\ (x = 1 \/ x = 0) /\
    (x = 1 <-> exists i, is_first_max (length ps) (vec ps) i /\ is_first_max (length ps) (vec rs) i).
Proof.
  intros Hn L. exists (metric_f M_CatAcc ps rs). split; [apply (metric_returns_f M_CatAcc ps rs); auto|].
  rewrite metric_R by auto. cbv zeta.
  assert (Np : ps <> []) by (intros ->; simpl in Hn; lia). assert (Nr : rs <> []) by (intros ->; simpl in L; lia).
  pose proof (argmax_R ps Np) as Ap. pose proof (argmax_R rs Nr) as Ar. rewrite L in Ar.
  destruct (Nat.eqb_spec (@argmax opsR ps) (@argmax opsR rs)) as [E|E].
  - split; auto. split; auto. intros _. exists (@argmax opsR ps). split; auto. rewrite E. auto.
  - split; auto. split; [lra|]. intros (i & Hi1 & Hi2). exfalso. apply E.
    rewrite (first_max_unique _ _ _ _ Ap Hi1), (first_max_unique _ _ _ _ Ar Hi2). auto.
Qed.
Print Assumptions categorical_accuracy_first_max.

(** C34 (3): binary_accuracy.  rp and rt are the rounded predictions and the rounded clipped targets. *)
Theorem binary_accuracy_fraction (ps rs : list R) (rp rt : nat -> R) :
  (1 <= length ps)%nat -> length rs = length ps ->
  (forall j, (j < length ps)%nat -> rounds_to (vec ps j) (rp j)) ->
  (forall j, (j < length ps)%nat -> rounds_to (clamp 0 1 (vec rs j)) (rt j)) ->
  metric_returns M_BinAcc ps rs (INR (count_lt (length ps) (fun j => if Req_EM_T (rp j) (rt j) then true else false)) / INR (length ps)).
Proof.
  intros Hn L Hp Hr. pose proof (metric_returns_f M_BinAcc ps rs Hn L) as M.
  rewrite metric_R in M by auto. cbv zeta in M.
  assert (CE : forall n p q, (forall j, (j < n)%nat -> p j = q j) -> count_lt n p = count_lt n q).
  { induction n; intros p q H; simpl; auto. rewrite H by lia. erewrite IHn; eauto. }
  rewrite (CE _ _ (fun j => if Req_EM_T (rp j) (rt j) then true else false)) in M; auto.
  intros j Hj. rewrite <- (rounds_to_unique _ _ _ (Hp j Hj) (round_R _)), <- (rounds_to_unique _ _ _ (Hr j Hj) (round_R _)).
  unfold Reqb. destruct (Req_EM_T (rt j) (rp j)), (Req_EM_T (rp j) (rt j)); auto; congruence.
Qed.
Print Assumptions binary_accuracy_fraction.

(** C34 (4): the crossentropies are the crossentropies of the clipped prediction *)
Theorem crossentropy_definition (ps rs : list R) :
  (1 <= length ps)%nat -> length rs = length ps ->
  metric_returns M_BCE ps rs (bce (length ps) (vec rs) (vec ps)) /\
  metric_returns M_CCE ps rs (cce (length ps) (vec rs) (vec ps)).
Proof.
  intros Hn L. pose proof (metric_returns_f M_BCE ps rs Hn L) as A. pose proof (metric_returns_f M_CCE ps rs Hn L) as B.
  rewrite metric_R in A, B by auto. auto.
Qed.
Print Assumptions crossentropy_definition.

(** C34 (5): float32, any prediction including NaN and infinities, targets between 0 and 1; logf finite
    between 1e-7f and 1 *)
Theorem crossentropy_finite_float32 (lm : libm) (ps rs : list b32) (t : metric) :
  logf_ok lm -> t = M_BCE \/ t = M_CCE -> (1 <= length ps)%nat -> length rs = length ps -> Forall prob32 rs ->
  exists x : b32, @metric_returns (opsB32 lm) t ps rs x /\ is_finite x = true.
Proof.
  intros LG Ht Hn L Hr. exists (@metric_f (opsB32 lm) t ps rs). split.
  - apply (@metric_returns_f (opsB32 lm)); auto.
  - apply crossentropy_fin; auto.
Qed.
Print Assumptions crossentropy_finite_float32.

(** In float32 the mean squared error of different vectors can be zero (underflow): the statement of C34
    about zero is one about exact arithmetic. *)
Theorem mse_zero_float32_refuted (lm : libm) :
  exists p r : b32, B2R p <> B2R r /\ exists x : b32, @metric_returns (opsB32 lm) M_MSE [p] [r] x /\ B2R x = 0.
Proof.
  set (p := b32_of 1 (-100)). exists p, b32_zero.
  destruct (sf_R p false 8388608 (-123)) as [E _]. { vm_compute. reflexivity. }
  split.
  - rewrite E. unfold F2R. simpl Fnum. simpl Fexp. change (B2R b32_zero) with 0. apply Rgt_not_eq. apply Rmult_lt_0_compat; [lra|apply bpow_gt_0].
  - exists (@metric_f (opsB32 lm) M_MSE [p] [b32_zero]). split; [apply (@metric_returns_f (opsB32 lm)); auto|].
    assert (Z : B2SF (@metric_f (opsB32 lm) M_MSE [p] [b32_zero]) = SpecFloat.S754_zero false).
    { set (q := Bdiv mode_NE (Bplus mode_NE b32_zero (Bmult mode_NE (Bminus mode_NE p b32_zero) (Bminus mode_NE p b32_zero))) (b32_ofZ 1)).
      change (B2SF q = SpecFloat.S754_zero false). vm_compute. reflexivity. }
    revert Z. generalize (@metric_f (opsB32 lm) M_MSE [p] [b32_zero]). intros q Hq.
    destruct (q : b32); simpl in *; try discriminate; auto.
Qed.
Print Assumptions mse_zero_float32_refuted.

(** ** C15 *)
Definition loss_writes (l : loss) (ps rs g : list R) : Prop :=
  forall m pp pr po, @holds opsR m pp ps -> @holds opsR m pr rs -> @valid opsR m po (length ps) ->
    disjoint po (length ps) pp (length ps) -> disjoint po (length ps) pr (length ps) ->
    writes_only (loss_func l (length ps) pp pr po) m po g.

Lemma loss_writes_f l (ps rs : list R) : length rs = length ps -> loss_writes l ps rs (loss_f l ps rs).
Proof.
  intros L m pp pr po Hp Hr V D1 D2.
  assert (LL : length (@loss_f opsR l ps rs) = length ps). { unfold loss_f. rewrite length_map2. change (@F opsR) with R. rewrite L. apply Nat.min_id. }
  apply writes_only_intro.
  - change (@F opsR) with R in *. rewrite LL. auto.
  - apply loss_func_ok; auto.
Qed.

(** For every loss name: g, the vector written by the loss function at prediction out(z), is the gradient with
    respect to z of the metric with the same name, taken at out(z); out is the identity for the mean errors,
    sigmoid for binary_crossentropy, softmax for categorical_crossentropy.  For categorical_crossentropy the
    metric has to be multiplied by the number of outputs.  Exact arithmetic, where the metric is differentiable. *)
Theorem loss_is_metric_gradient_partial (l : loss) (t : metric) (rs : list R) (z : nat -> R) :
  let n := length rs in let out := fun z => tab n (act_math (out_act l) n z) in
  let k := match l with CCE => INR n | _ => 1 end in
  get_metric_func (get_loss_name l) = Some t -> (1 <= n)%nat ->
  (l = CCE -> sumf n (vec rs) = 1) -> regular l n (vec rs) z ->
  exists (g : list R) (mf : list R -> R),
    loss_writes l (out z) rs g /\
    (forall ps, length ps = n -> metric_returns t ps rs (mf ps)) /\
    forall j, (j < n)%nat -> is_derive (fun v => k * mf (out (upd z j v))) (z j) (vec g j).
Proof.
  intros n out k Ht Hn H1 Hr. exists (loss_f l (out z) rs), (fun ps => metric_f t ps rs). split; [|split].
  - apply loss_writes_f. unfold out. rewrite length_tab. auto.
  - intros ps L. apply (metric_returns_f t ps rs); unfold n in *; rlia.
  - intros j Hj. apply metric_loss_grad; auto. destruct l; inversion Ht; auto.
Qed.
Print Assumptions loss_is_metric_gradient_partial.

(** C15 is false for categorical_crossentropy: with two outputs the loss function writes twice the gradient of
    the metric.  Logits 0 and 0, target (1,0). *)
Theorem loss_is_metric_gradient_refuted :
  exists (rs g : list R) (mf : list R -> R) (z : nat -> R),
    get_metric_func (get_loss_name CCE) = Some M_CCE /\ sumf 2 (vec rs) = 1 /\ regular CCE 2 (vec rs) z /\
    loss_writes CCE (tab 2 (act_math Softmax 2 z)) rs g /\
    (forall ps, length ps = 2%nat -> metric_returns M_CCE ps rs (mf ps)) /\
    ~ is_derive (fun v => mf (tab 2 (act_math Softmax 2 (upd z 0 v)))) (z 0%nat) (vec g 0).
Proof.
  set (z := fun _ : nat => 0).
  assert (A : forall j, act_math Softmax 2 z j = 1 / 2). { intros j. unfold act_math, z. simpl. rewrite exp_0. lra. }
  assert (RG : regular CCE 2 (vec [1; 0]) z). { intros j Hj. cbn [out_act]. rewrite A. lra. }
  exists [1; 0], (@loss_f opsR CCE (tab 2 (act_math Softmax 2 z)) [1; 0]), (fun ps => metric_f M_CCE ps [1; 0]), z.
  split; auto. split. { unfold vec. simpl. lra. } split; auto. split. { apply loss_writes_f. rewrite length_tab. auto. }
  split. { intros ps L. apply (metric_returns_f M_CCE ps [1; 0]); simpl; rlia. }
  intros D.
  pose proof (metric_loss_grad CCE M_CCE 2 [1; 0] z 0 ltac:(lia) eq_refl eq_refl ltac:(intros _; unfold vec; simpl; lra) RG) as D2.
  cbv zeta in D2. cbn [out_act] in D2.
  apply is_derive_scal' with (k := INR 2) in D. apply is_derive_unique in D. apply is_derive_unique in D2. rewrite D in D2.
  assert (V : vec (@loss_f opsR CCE (tab 2 (act_math Softmax 2 z)) [1; 0]) 0 = - (1 / 2)).
  { unfold loss_f. rewrite vec_map2 by (rewrite ?length_tab; simpl; lia). rewrite vec_tab, A by lia. unfold vec. simpl. lra. }
  rewrite V in D2. simpl in D2. lra.
Qed.
Print Assumptions loss_is_metric_gradient_refuted.

(** ** concrete cases *)
Example metric_case : metric_returns M_MSE [1; 3] [0; 1] (5 / 2) /\
  (exists x, metric_returns M_CatAcc [1; 5; 5] [0; 1; 0] x /\ x = 1) /\
  metric_returns M_BinAcc [1 / 2; 3 / 10; 2] [1; 1; 1] (1 / 3).
Proof.
  split; [|split].
  - destruct (mean_error_metrics M_MSE [1; 3] [0; 1]) as (x & M & E & _); auto; [simpl; lia|].
    replace (5 / 2) with x; auto. rewrite E. unfold mse, vec. simpl. lra.
  - destruct (categorical_accuracy_first_max [1; 5; 5] [0; 1; 0]) as (x & M & _ & E); auto; [simpl; lia|]. exists x. split; auto.
    apply E. exists 1%nat. split; (split; [simpl; lia|split]).
    + intros [|[|[|j]]] Hj; unfold vec; simpl; try lra. simpl in Hj. lia.
    + intros [|j] Hj; unfold vec; simpl; [lra|lia].
    + intros [|[|[|j]]] Hj; unfold vec; simpl; try lra. simpl in Hj. lia.
    + intros [|j] Hj; unfold vec; simpl; [lra|lia].
  - pose proof (binary_accuracy_fraction [1 / 2; 3 / 10; 2] [1; 1; 1] (fun j => match j with 0%nat => 1 | 1%nat => 0 | _ => 2 end) (fun _ => 1)) as H.
    assert (E : 1 / 3 = INR (count_lt 3 (fun j => if Req_EM_T match j with 0%nat => 1 | 1%nat => 0 | _ => 2 end 1 then true else false)) / INR 3).
    { cbn [count_lt]. destruct (Req_EM_T 2 1); [lra|]. destruct (Req_EM_T 0 1); [lra|]. destruct (Req_EM_T 1 1); [|lra]. simpl. lra. }
    rewrite E. apply H; auto; [simpl; lia| |].
    + intros [|[|[|j]]] Hj; unfold vec; simpl nth; unfold rounds_to.
      * split; [exists 1%Z; auto|]. rewrite (Rabs_right (1 - 1 / 2)), (Rabs_right (1 / 2)), (Rabs_right 1) by lra. lra.
      * split; [exists 0%Z; auto|]. rewrite (Rabs_left (0 - 3 / 10)) by lra. lra.
      * split; [exists 2%Z; auto|]. replace (2 - 2) with 0 by lra. rewrite Rabs_R0. lra.
      * simpl in Hj. lia.
    + intros j Hj. assert (V : vec [1; 1; 1] j = 1). { destruct j as [|[|[|j]]]; auto. simpl in Hj. lia. } rewrite V.
      unfold clamp. rewrite Rmax_right by lra. rewrite Rmin_left by lra.
      split; [exists 1%Z; auto|]. replace (1 - 1) with 0 by lra. rewrite Rabs_R0. lra.
Qed.

(** predictions NaN, infinity and 2, targets 1, 0 and 1 *)
Example crossentropy_case : Forall prob32 [b32_ofZ 1; b32_zero; b32_ofZ 1] /\
  length [b32_ofZ 1; b32_zero; b32_ofZ 1] = length [b32_nan; b32_inf; b32_ofZ 2].
Proof.
  assert (A : prob32 (b32_ofZ 1)). { split; [apply B32Facts.one_fin|rewrite B32Facts.one_R; lra]. }
  assert (B : prob32 b32_zero). { split; [reflexivity|simpl; lra]. }
  split; auto.
Qed.

(** regular points for the crossentropies: logits 0 and 0 *)
Example regular_case : regular BCE 2 (vec [1; 0]) (fun _ => 0) /\ regular CCE 2 (vec [1; 0]) (fun _ => 0).
Proof.
  split; intros j Hj; cbn [out_act]; unfold act_math, act_math1; simpl; rewrite ?Ropp_0, exp_0; lra.
Qed.
