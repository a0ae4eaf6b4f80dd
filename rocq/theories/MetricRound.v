(** MetricRound.v -- rounding errors of the metrics *)
From Flocq Require Import Core BinarySingleNaN.
From Coq Require Import ZArith Bool List Arith Reals Lia Lra Permutation.
From Verif Require Import Base BaseProofs Ops OpsR Activation Loss OpsB32 B32Facts MetricB32 SpecReal RealForward SpecOpt MetricProofs SpecMetric
  Exp256B32 SpecLibm SpecRound RoundProofs SpecGradRound SlopeRound LossRound SpecStepRound SumRound StepRound SpecEvalRound.
Import ListNotations.
Local Open Scope R_scope.
Local Notation NZ := b32_zero.

(** ** sums and quotients *)
Lemma over_near n (x : b32) b z : INR n < 2 ^ 24 -> (0 < n)%nat -> fin x = true -> is_near b (bv x) z -> cap b <= 2 ^ 127 ->
  let q := Bdiv mode_NE x (b32_ofZ (Z.of_nat n)) in fin q = true /\ is_near (rounded 1 (over n b)) (bv q) (z / INR n).
Proof.
  intros HN Hn Fx Hx HC q. destruct (ofZ_small n HN) as (FN & EN). pose proof (near_abs _ _ _ Hx) as AX.
  assert (N1 : 1 <= INR n) by (apply (le_INR 1); lia). set (N := INR n) in *. assert (IN : 0 < / N <= 1). { split; [apply Rinv_0_lt_compat; lra|]. rewrite <- Rinv_1. apply Rinv_le_contravar; lra. }
  destruct Hx as (A & B).
  assert (NE : is_near (over n b) (bv x / N) (z / N)).
  { unfold over, Rdiv. split; cbn [mag err]; fold N.
    - rewrite Rabs_mult, (Rabs_pos_eq (/ N)) by lra. apply Rmult_le_compat_r; lra.
    - rewrite <- Rmult_minus_distr_r, Rabs_mult, (Rabs_pos_eq (/ N)) by lra. apply Rmult_le_compat_r; lra. }
  assert (AQ : Rabs (bv x / N) <= 2 ^ 127 + 1).
  { unfold Rdiv. rewrite Rabs_mult, (Rabs_pos_eq (/ N)) by lra. pose proof (Rabs_pos (bv x)). assert (Rabs (bv x) * / N <= Rabs (bv x) * 1) by (apply Rmult_le_compat_l; lra). lra. }
  destruct (divide_R x (b32_ofZ (Z.of_nat n)) Fx) as (FQ & EQ); [rewrite EN; lra|rewrite EN; exact AQ|]. rewrite EN in EQ. split; [exact FQ|].
  apply near_rnd with (v := bv x / N); [exact NE|]. cbn [pow INR]. fold q in EQ. lra.
Qed.
Lemma opp_near b (x : b32) z : is_near b (bv x) z -> is_near b (bv (Bopp x)) (- z).
Proof. intros (A & B). rewrite B2R_Bopp. split; [rewrite Rabs_Ropp; exact A|]. replace (- bv x - - z) with (- (bv x - z)) by ring. rewrite Rabs_Ropp. exact B. Qed.
Section Sum.
  Variables (g : nat -> b32) (b : nat -> near) (s : nat -> R).
  Lemma sum_is_near l l' v : adds g l v -> Permutation l l' -> (forall i, In i l -> fin (g i) = true /\ is_near (b i) (bv (g i)) (s i)) ->
    cap (sum_near (map b l')) <= 2 ^ 127 ->
    fin v = true /\ is_near (sum_near (map b l')) (bv v) (rsum (map s l')).
  Proof.
    intros HA HP HI HC. pose proof (Permutation_length HP) as LP.
    assert (CE : cap (sum_near (map b l')) = (1 + u32) ^ length l * rsum (map (fun i => cap (b i)) l)).
    { unfold cap, sum_near. cbn [mag err]. rewrite !map_map, map_length, <- LP, (rsum_perm2 _ _ (Permutation_map (fun i => mag (b i)) (Permutation_sym HP))), (rsum_perm2 _ _ (Permutation_map (fun i => err (b i)) (Permutation_sym HP))), rsum_plus. ring. }
    rewrite CE in HC. destruct (adds_near g b s l v HA HI HC) as (FV & _ & EV). split; [exact FV|].
    set (A := rsum (map (fun i => mag (b i)) l)) in *. set (E := rsum (map (fun i => err (b i)) l)) in *. 
    assert (CAE : rsum (map (fun i => cap (b i)) l) = A + E) by (unfold A, E, cap; apply rsum_plus). rewrite CAE in EV.
    assert (TA : Rabs (rsum (map s l)) <= A) by (apply rsum_abs; intros i Hi; destruct (HI i Hi) as (_ & (M & _)); exact M).
    assert (E0 : 0 <= E) by (apply rsum_pos; intros i Hi; destruct (HI i Hi) as (_ & M); apply (near_pos _ _ _ M)).
    pose proof (Rabs_pos (rsum (map s l))) as T0.
    rewrite <- (rsum_perm2 _ _ (Permutation_map s HP)). unfold sum_near. split; cbn [mag err]; rewrite !map_map.
    - rewrite <- (rsum_perm2 _ _ (Permutation_map (fun i => mag (b i)) HP)). exact TA.
    - rewrite <- (rsum_perm2 _ _ (Permutation_map (fun i => mag (b i)) HP)), <- (rsum_perm2 _ _ (Permutation_map (fun i => err (b i)) HP)), map_length, <- LP. fold A E.
      pose proof (up_le (length l - 1) (length l) ltac:(lia)) as U. assert (((1 + u32) ^ (length l - 1) - 1) * (A + E) <= ((1 + u32) ^ length l - 1) * (A + E)) by (apply Rmult_le_compat_r; lra). lra.
  Qed.
End Sum.
Lemma mean_split l : mean_near l = rounded 1 (over (length l) (sum_near l)). Proof. reflexivity. Qed.
Lemma fits_sum l : mean_fits l -> cap (sum_near l) <= 2 ^ 126.
Proof.
  intros (_ & H). unfold cap, sum_near in *. cbn [mag err]. fold (cap) in H. 
  assert (E : rsum (map cap l) = rsum (map mag l) + rsum (map err l)) by apply rsum_plus. rewrite E in H. lra.
Qed.

(** ** the summands *)
Lemma plus_near b c (x y : b32) s t : fin x = true -> fin y = true -> is_near b (bv x) s -> is_near c (bv y) t -> cap (plus b c) <= 2 ^ 127 ->
  fin (Bplus mode_NE x y) = true /\ is_near (rounded 1 (plus b c)) (bv (Bplus mode_NE x y)) (s + t).
Proof.
  intros Fx Fy (A1 & B1) (A2 & B2) HC.
  assert (NP : is_near (plus b c) (bv x + bv y) (s + t)).
  { split; cbn [plus mag err]; [eapply Rle_trans; [apply Rabs_triang|]; lra|]. replace (bv x + bv y - (s + t)) with ((bv x - s) + (bv y - t)) by ring. eapply Rle_trans; [apply Rabs_triang|]. lra. }
  pose proof (near_abs _ _ _ NP) as AB. destruct (add_R x y Fx Fy ltac:(lra)) as (F & E). split; [exact F|].
  apply near_rnd with (v := bv x + bv y); [exact NP|]. cbn [pow INR]. pose proof eta32_pos. lra.
Qed.
Lemma diff_near o (p r : b32) y : fin p = true -> fin r = true -> is_near o (bv p) y -> cap o + Rabs (bv r) <= 2 ^ 126 ->
  fin (Bminus mode_NE p r) = true /\ is_near (diff o (bv r)) (bv (Bminus mode_NE p r)) (y - bv r) /\
  fin (Bminus mode_NE r p) = true /\ is_near (diff o (bv r)) (bv (Bminus mode_NE r p)) (bv r - y) /\ cap (diff o (bv r)) <= 2 ^ 127.
Proof.
  intros Fp Fr Hp HC. pose proof (near_abs _ _ _ Hp) as AP. destruct Hp as (A & B). pose proof eta32_pos as EP. pose proof (eta32_small) as ES. pose proof u32_pos as UP. pose proof u32_small as US.
  assert (B27 : 2 ^ 127 = 2 * 2 ^ 126) by (cbn [pow]; ring). assert (B1 : 1 <= 2 ^ 126) by (apply pow_R1_Rle; lra).
  assert (AD : Rabs (bv p - bv r) <= cap o + Rabs (bv r)). { unfold Rminus. eapply Rle_trans; [apply Rabs_triang|]. rewrite Rabs_Ropp. lra. }
  assert (N : forall z z' : b32, Rabs (bv z - y) <= err o -> True) by auto. clear N.
  assert (M1 : is_near (mk_near (mag o + Rabs (bv r)) (err o)) (bv p - bv r) (y - bv r)).
  { split; cbn [mag err]; [unfold Rminus; eapply Rle_trans; [apply Rabs_triang|]; rewrite Rabs_Ropp; lra|]. replace (bv p - bv r - (y - bv r)) with (bv p - y) by ring. exact B. }
  assert (M2 : is_near (mk_near (mag o + Rabs (bv r)) (err o)) (bv r - bv p) (bv r - y)).
  { split; cbn [mag err]; [rewrite Rabs_minus_sym; exact (proj1 M1)|]. replace (bv r - bv p - (bv r - y)) with (- (bv p - y)) by ring. rewrite Rabs_Ropp. exact B. }
  destruct (minus_R p r Fp Fr ltac:(lra)) as (F1 & E1). destruct (minus_R r p Fr Fp) as (F2 & E2). { rewrite Rabs_minus_sym. lra. }
  split; [exact F1|]. split. { apply near_rnd with (v := bv p - bv r); [exact M1|]. cbn [pow INR]. lra. }
  split; [exact F2|]. split. { apply near_rnd with (v := bv r - bv p); [exact M2|]. cbn [pow INR]. lra. }
  unfold diff. rewrite cap_rounded. unfold cap in *. cbn [mag err pow INR]. pose proof (Rabs_pos (bv r)). assert (u32 * (mag o + Rabs (bv r) + err o) <= 1 / 2 * (2 ^ 126)) by (apply Rmult_le_compat; try lra; pose proof (Rabs_pos y); pose proof (Rabs_pos (bv p - y)); lra). lra.
Qed.
Lemma abs_near b (x : b32) z : is_near b (bv x) z -> is_near b (bv (Babs x)) (Rabs z).
Proof. intros (A & B). rewrite B2R_Babs. split; [rewrite Rabs_Rabsolu; exact A|]. eapply Rle_trans; [apply Rabs_triang_inv2|exact B]. Qed.

Lemma mape_near o (p r : b32) y : fin p = true -> fin r = true -> is_near o (bv p) y -> cap o + Rabs (bv r) <= 2 ^ 126 ->
  cap (term_near M_MAPE o y (bv r)) <= 2 ^ 126 ->
  let x := Babs (Bdiv mode_NE (Bminus mode_NE r p) (b32_max r eps32)) in
  fin x = true /\ is_near (term_near M_MAPE o y (bv r)) (bv x) (Rabs ((bv r - y) / Rmax (bv r) (1 / 10000000))).
Proof.
  intros Fp Fr Hp HC HT x. destruct (max_eps r Fr) as (FM & EM). set (M := b32_max r eps32) in *. set (t := bv r) in *.
  set (m := Rmax t (1 / 10000000)). set (m' := bv M) in *. pose proof u32_pos as U. pose proof u32_small as US. pose proof eta32_pos as ET.
  assert (MB : m <= m' <= (1 + u32) * m /\ 1 / 10000000 <= m).
  { destruct eps32_R as (EE & _). assert (EB1 : 1 / 10000000 <= bv eps32 <= (1 + u32) * (1 / 10000000)). { rewrite EE. unfold u32. simpl. lra. }
    unfold m. rewrite EM. clear - EB1 U. unfold Rmax. destruct (Rle_dec t (1 / 10000000)), (Rle_dec t (bv eps32)); repeat split; try lra; nra. }
  destruct MB as ((M1 & M2) & M3). assert (IM : 0 < / m) by (apply Rinv_0_lt_compat; lra). assert (IM' : 0 < / m' <= / m) by (split; [apply Rinv_0_lt_compat; lra|apply Rinv_le_contravar; lra]).
  cbn [term_near] in *. replace (1 / 10 ^ 7) with (1 / 10000000) in * by lra. fold m in HT |- *.
  set (b := mk_near ((mag o + Rabs t) / m) (err o / m)) in *.
  destruct Hp as (A & B). set (v := t - bv p).
  assert (NB : is_near b (v / m) ((t - y) / m)).
  { unfold b, Rdiv. split; cbn [mag err].
    - rewrite Rabs_mult, (Rabs_pos_eq (/ m)) by lra. apply Rmult_le_compat_r; [lra|]. unfold Rminus. eapply Rle_trans; [apply Rabs_triang|]. rewrite Rabs_Ropp. lra.
    - rewrite <- Rmult_minus_distr_r, Rabs_mult, (Rabs_pos_eq (/ m)) by lra. apply Rmult_le_compat_r; [lra|]. unfold v. replace (t - bv p - (t - y)) with (- (bv p - y)) by ring. rewrite Rabs_Ropp. exact B. }
  pose proof (near_abs _ _ _ NB) as AB. pose proof (Rabs_pos (v / m)) as PB.
  assert (CB : cap b * (1 + u32) ^ 3 + 3 * eta32 <= 2 ^ 126). { rewrite cap_rounded, inr3 in HT. lra. }
  assert (VB : Rabs v <= 2 ^ 127 + 1).
  { unfold v, Rminus. eapply Rle_trans; [apply Rabs_triang|]. rewrite Rabs_Ropp. assert (2 ^ 126 <= 2 ^ 127) by (apply Rle_pow; [lra|lia]). pose proof (near_abs _ _ _ (conj A B : is_near o (bv p) y)). lra. }
  destruct (minus_R r p Fr Fp VB) as (F1 & E1). fold t in E1. fold v in E1. set (q := Bminus mode_NE r p) in *.
  assert (R1 : rel 1 0 (bv q) v) by (unfold rel; rewrite pow_1; lra). pose proof (rel_abs _ _ _ _ R1) as A1. rewrite pow_1, Rplus_0_r in A1.
  assert (VM : Rabs v * / m' <= cap b).
  { eapply Rle_trans; [|exact AB]. unfold Rdiv. rewrite Rabs_mult, (Rabs_pos_eq (/ m)) by lra. apply Rmult_le_compat_l; [apply Rabs_pos|lra]. }
  pose proof (Rabs_pos v) as PV. assert (PVM : 0 <= Rabs v * / m') by (apply Rmult_le_pos; lra).
  assert (QB : Rabs (bv q / m') <= 2 ^ 127 + 1).
  { unfold Rdiv. rewrite Rabs_mult, (Rabs_pos_eq (/ m')) by lra. assert (Rabs (bv q) * / m' <= (1 + u32) * Rabs v * / m') by (apply Rmult_le_compat_r; lra).
    assert (u32 * (Rabs v * / m') <= u32 * cap b) by (apply Rmult_le_compat_l; lra). assert (2 ^ 126 <= 2 ^ 127) by (apply Rle_pow; [lra|lia]).
    assert ((1 + u32) <= (1 + u32) ^ 3) by (cbn [pow]; nra). assert (cap b * (1 + u32) <= cap b * (1 + u32) ^ 3) by (apply Rmult_le_compat_l; lra). lra. }
  destruct (divide_R q M F1) as (FD & ED); [fold m'; lra|fold m'; exact QB|]. fold m' in ED. unfold Rdiv in ED.
  pose proof (rel_step _ _ _ _ (/ m') _ _ R1 ED) as R2. rewrite Rmult_0_r, Rmult_0_r, Rplus_0_l in R2.
  split. { unfold x. rewrite is_finite_Babs. exact FD. }
  apply abs_near. apply near_rnd with (v := v / m); [exact NB|]. rewrite inr3. set (z := bv (Bdiv mode_NE q M)) in *.
  replace (z - v / m) with ((z - v * / m') + (v * / m' - v / m)) by ring. eapply Rle_trans; [apply Rabs_triang|].
  assert (D2 : Rabs (v * / m' - v / m) <= u32 * Rabs (v / m)).
  { replace (v * / m' - v / m) with (v / m * ((m - m') * / m')) by (field; lra). rewrite Rabs_mult, Rmult_comm. apply Rmult_le_compat_r; [exact PB|].
    rewrite Rabs_mult, Rabs_minus_sym, (Rabs_pos_eq (m' - m)), (Rabs_pos_eq (/ m')) by lra. apply Rmult_le_reg_r with m'; [lra|]. rewrite Rmult_assoc, Rinv_l by lra. assert (u32 * m <= u32 * m') by (apply Rmult_le_compat_l; lra). lra. }
  unfold rel in R2. assert (VL : Rabs (v * / m') <= Rabs (v / m)).
  { unfold Rdiv. rewrite !Rabs_mult, (Rabs_pos_eq (/ m')), (Rabs_pos_eq (/ m)) by lra. apply Rmult_le_compat_l; lra. }
  assert (((1 + u32) ^ 2 - 1) * Rabs (v * / m') <= ((1 + u32) ^ 2 - 1) * Rabs (v / m)) by (apply Rmult_le_compat_l; [cbn [pow]; nra|exact VL]).
  assert (((1 + u32) ^ 2 - 1) + u32 <= (1 + u32) ^ 3 - 1) by (cbn [pow]; nra).
  assert (((1 + u32) ^ 2 - 1 + u32) * Rabs (v / m) <= ((1 + u32) ^ 3 - 1) * Rabs (v / m)) by (apply Rmult_le_compat_r; lra). lra.
Qed.

(** ** logarithms *)
Lemma ln_diff a b : 0 < a -> 0 < b -> ln a - ln b <= (a - b) / b.
Proof.
  intros Ha Hb. assert (Q : 0 < a / b) by (apply Rdiv_lt_0_compat; assumption).
  replace (ln a - ln b) with (ln (a / b)) by (unfold Rdiv; rewrite ln_mult, ln_Rinv by (try assumption; apply Rinv_0_lt_compat; assumption); ring).
  pose proof (exp_ineq1_le (ln (a / b))) as H. rewrite exp_ln in H by exact Q. replace ((a - b) / b) with (a / b - 1) by (field; lra). lra.
Qed.
Lemma ln_close a b l e : 0 < l -> l <= a -> l <= b -> Rabs (a - b) <= e -> Rabs (ln a - ln b) <= e / l.
Proof.
  intros Hl Ha Hb He. pose proof (Rabs_pos (a - b)) as P0.
  assert (K : forall a b, l <= a -> l <= b -> Rabs (a - b) <= e -> ln a - ln b <= e / l).
  { clear a b Ha Hb He P0. intros a b Ha Hb He'. eapply Rle_trans; [apply ln_diff; lra|]. unfold Rdiv. pose proof (Rle_abs (a - b)) as AB. pose proof (Rabs_pos (a - b)).
    assert (IB : 0 < / b <= / l) by (split; [apply Rinv_0_lt_compat; lra|apply Rinv_le_contravar; lra]).
    apply Rle_trans with (e * / b); [apply Rmult_le_compat_r; lra|apply Rmult_le_compat_l; lra]. }
  apply Rabs_le. split; [|apply K; assumption]. assert (ln b - ln a <= e / l) by (apply K; [assumption|assumption|rewrite Rabs_minus_sym; exact He]). lra.
Qed.
Lemma log_is_near (f : b32 -> b32) (x : b32) p e : accurate_log_unit f -> fin x = true -> 1 / 10 ^ 7 <= bv x <= 1 -> 1 / 10 ^ 7 <= p ->
  Rabs (bv x - p) <= e -> fin (f x) = true /\ is_near (log_near p e) (bv (f x)) (ln p).
Proof.
  intros Hf Fx Bx Bp He. destruct (Hf x Fx Bx) as (F & E). split; [exact F|]. unfold log_near. split; cbn [mag err]; [lra|].
  assert (LN : Rabs (ln (bv x) - ln p) <= e / Rmax (1 / 10 ^ 7) (p - e)).
  { apply Rabs_le_inv in He. apply ln_close.
    - eapply Rlt_le_trans; [|apply Rmax_l]. lra.
    - apply Rmax_lub; lra.
    - apply Rmax_lub; lra.
    - apply Rabs_le. lra. }
  set (d := e / Rmax (1 / 10 ^ 7) (p - e)) in *.
  assert (LX : Rabs (ln (bv x)) <= Rabs (ln p) + d). { replace (ln (bv x)) with (ln p + (ln (bv x) - ln p)) by ring. eapply Rle_trans; [apply Rabs_triang|]. lra. }
  replace (bv (f x) - ln p) with ((bv (f x) - ln (bv x)) + (ln (bv x) - ln p)) by ring. eapply Rle_trans; [apply Rabs_triang|]. lra.
Qed.

(** the clipped probability *)
Lemma min_top (x : b32) : fin x = true -> fin (b32_min x top32) = true /\ bv (b32_min x top32) = Rmin (bv x) (bv top32).
Proof.
  intros Fx. destruct top32_R as (_ & Fe). unfold b32_min. assert (N : is_nan x = false) by (destruct x; reflexivity || discriminate). rewrite N.
  change (is_nan top32) with false. cbn iota. rewrite ltb_R by assumption. destruct (Rlt_bool_spec (bv top32) (bv x)) as [L|L].
  - rewrite Rmin_right by lra. split; [exact Fe|reflexivity].
  - rewrite Rmin_left by lra. split; [exact Fx|reflexivity].
Qed.
Lemma clip_near (lm : libm) o (p : b32) y : fin p = true -> is_near o (bv p) y ->
  let q := @clip (opsB32 lm) p in
  fin q = true /\ 1 / 10 ^ 7 <= bv q <= 1 /\ 1 / 10 ^ 7 <= prob y <= 1 - 1 / 10 ^ 7 /\ Rabs (bv q - prob y) <= prob_err o y.
Proof.
  intros Fp (_ & B) q. assert (Q : q = b32_min (b32_max p eps32) top32) by reflexivity. destruct (max_eps p Fp) as (FM & EM). destruct (min_top _ FM) as (FQ & EQ). rewrite <- Q in FQ, EQ. rewrite EM in EQ.
  destruct eps32_R as [Ee _], top32_R as [Et _]. simpl Z.pow in *. 
  assert (BE : 1 / 10 ^ 7 <= bv eps32 <= 1 / 10 ^ 7 + 2 / 10 ^ 15) by (rewrite Ee; simpl; lra).
  assert (BT : 1 - 1193 / 10 ^ 10 <= bv top32 <= 1 - 119 / 10 ^ 9) by (rewrite Et; simpl; lra).
  split; [exact FQ|]. rewrite EQ. unfold prob_err, prob, clamp. replace (1 / 10000000) with (1 / 10 ^ 7) by lra. apply Rabs_le_inv in B.
  set (e1 := bv eps32) in *. set (t1 := bv top32) in *. set (v := bv p) in *. clearbody e1 t1 v. clear - B BE BT.
  unfold Rmin, Rmax. 
  repeat match goal with |- context [Rle_dec ?a ?b] => destruct (Rle_dec a b) | H : context [Rle_dec ?a ?b] |- _ => destruct (Rle_dec a b) end; (split; [lra|split; [lra|apply Rabs_le; lra]]).
Qed.
Lemma rest_near (lm : libm) o (p : b32) y : fin p = true -> is_near o (bv p) y ->
  let q := Bminus mode_NE (b32_ofZ 1) (@clip (opsB32 lm) p) in let e := prob_err o y in
  fin q = true /\ 1 / 10 ^ 7 <= bv q <= 1 /\ 1 / 10 ^ 7 <= 1 - prob y /\ Rabs (bv q - (1 - prob y)) <= e + u32 * (1 - prob y + e).
Proof.
  intros Fp Hp q e. destruct (clip_near lm o p y Fp Hp) as (FC & BC & BP & EC). fold e in EC. destruct (one_minus_clip lm p) as (FQ & BQ). fold q in FQ, BQ.
  destruct eps32_R as [Ee _]. simpl Z.pow in *. assert (BE : 1 / 10 ^ 7 <= bv eps32) by (rewrite Ee; simpl; lra). split; [exact FQ|]. split; [lra|]. split; [lra|].
  set (w := bv (@clip (opsB32 lm) p)) in *. assert (O1 : bv (b32_ofZ 1) = 1) by exact one_R.
  assert (B127 : 1 <= 2 ^ 127) by (apply pow_R1_Rle; lra).
  destruct (minus_R (b32_ofZ 1) (@clip (opsB32 lm) p) eq_refl FC) as (_ & E). { rewrite O1. fold w. rewrite Rabs_pos_eq by lra. lra. }
  rewrite O1 in E. fold w q in E. rewrite (Rabs_pos_eq (1 - w)) in E by lra. apply Rabs_le_inv in EC. pose proof u32_pos.
  replace (bv q - (1 - prob y)) with ((bv q - (1 - w)) + (prob y - w)) by ring. eapply Rle_trans; [apply Rabs_triang|].
  assert (u32 * (1 - w) <= u32 * (1 - prob y + e)) by (apply Rmult_le_compat_l; lra). assert (Rabs (prob y - w) <= e) by (apply Rabs_le; lra). lra.
Qed.

(** ** nonnegative pairs *)
Definition pos (b : near) : Prop := 0 <= mag b /\ 0 <= err b.
Lemma pos_cap b : pos b -> 0 <= cap b. Proof. intros (A & B). unfold cap. lra. Qed.
Lemma pos_exact x : pos (exact x). Proof. split; cbn; [apply Rabs_pos|lra]. Qed.
Lemma pos_times b c : pos b -> pos c -> pos (times b c).
Proof.
  intros (A & B) (C & D). split; cbn [times mag err]; [apply Rmult_le_pos; assumption|].
  assert (0 <= mag b * err c) by (apply Rmult_le_pos; assumption). assert (0 <= err b * mag c) by (apply Rmult_le_pos; assumption). assert (0 <= err b * err c) by (apply Rmult_le_pos; assumption). lra.
Qed.
Lemma pos_rounded k b : pos b -> pos (rounded k b).
Proof.
  intros H. pose proof (pos_cap b H) as C. destruct H as (A & B). split; cbn [rounded mag err]; [exact A|].
  pose proof (up1 k). pose proof (pos_INR k). pose proof eta32_pos. assert (0 <= ((1 + u32) ^ k - 1) * cap b) by (apply Rmult_le_pos; lra). assert (0 <= INR k * eta32) by (apply Rmult_le_pos; lra). lra.
Qed.
Lemma pos_log p e : 0 <= e -> pos (log_near p e).
Proof.
  intros He. unfold log_near. split; cbn [mag err]; [apply Rabs_pos|]. pose proof (Rabs_pos (ln p)).
  assert (0 <= e / Rmax (1 / 10 ^ 7) (p - e)). { apply Rmult_le_pos; [exact He|]. left. apply Rinv_0_lt_compat. eapply Rlt_le_trans; [|apply Rmax_l]. lra. } lra.
Qed.
Lemma near_exact (x : b32) : is_near (exact (bv x)) (bv x) (bv x).
Proof. split; cbn [exact mag err]; [lra|]. unfold Rminus. rewrite Rplus_opp_r, Rabs_R0. lra. Qed.

Section Term.
  Variable lm : libm.
  Notation OP := (opsB32 lm).
  (** the float summand and the exact one *)
  Definition fterm (t : metric) (p r : b32) : b32 :=
    match t with
    | M_MSE => Bmult mode_NE (Bminus mode_NE p r) (Bminus mode_NE p r)
    | M_MAE => Babs (Bminus mode_NE r p)
    | M_MAPE => Babs (Bdiv mode_NE (Bminus mode_NE r p) (b32_max r eps32))
    | M_BCE => Bplus mode_NE (Bmult mode_NE r (lm_log lm (@clip OP p))) (Bmult mode_NE (Bminus mode_NE (b32_ofZ 1) r) (lm_log lm (Bminus mode_NE (b32_ofZ 1) (@clip OP p))))
    | M_CCE => Bmult mode_NE r (lm_log lm (@clip OP p))
    | M_BinAcc => if Beqb (Bnearbyint mode_NA (b32_min (b32_max r NZ) (b32_ofZ 1))) (Bnearbyint mode_NA p) then b32_ofZ 1 else NZ
    | M_CatAcc => NZ
    end.
  Lemma step_term t (e p r : b32) : t <> M_CatAcc -> @step OP t e p r = Bplus mode_NE e (fterm t p r).
  Proof. destruct t; intros H; try reflexivity. congruence. Qed.
  Definition mterm (t : metric) (y r : R) : R :=
    match t with
    | M_MSE => (y - r) ^ 2
    | M_MAE => Rabs (y - r)
    | M_MAPE => Rabs ((r - y) / Rmax r (1 / 10000000))
    | M_BCE => r * ln (prob y) + (1 - r) * ln (1 - prob y)
    | M_CCE => r * ln (prob y)
    | M_BinAcc => if hit r y then 1 else 0
    | M_CatAcc => 0
    end.

  (** rounding to an integer *)
  Lemma round_R (x : b32) : fin x = true -> fin (Bnearbyint mode_NA x) = true /\ bv (Bnearbyint mode_NA x) = IZR (ZnearestA (bv x)).
  Proof.
    intros Fx. destruct (Bnearbyint_correct 24 128 prec_lt_emax_32 mode_NA x) as (E & F & _). split; [rewrite F; exact Fx|].
    rewrite E. unfold round, F2R, scaled_mantissa, cexp, FIX_exp. cbn [Fnum Fexp round_mode bpow Z.opp]. rewrite !Rmult_1_r. reflexivity.
  Qed.
  Lemma nearA z x : IZR z - 1 / 2 < x < IZR z + 1 / 2 -> ZnearestA x = z.
  Proof. intros H. apply Znearest_imp. apply Rabs_lt. lra. Qed.
  Lemma nearA_ge z x : IZR z - 1 / 2 <= x -> (0 < z)%Z -> (z <= ZnearestA x)%Z.
  Proof.
    intros H Hz. assert (ZA : ZnearestA (IZR z - 1 / 2) = z).
    { unfold Znearest. assert (FL : Zfloor (IZR z - 1 / 2) = (z - 1)%Z) by (apply Zfloor_imp; rewrite !plus_IZR, !minus_IZR; split; lra).
      rewrite FL. rewrite minus_IZR. replace (IZR z - 1 / 2 - (IZR z - 1)) with (/ 2) by lra. rewrite Rcompare_Eq by reflexivity.
      replace (Z.leb 0 (z - 1)) with true by (symmetry; apply Z.leb_le; lia). rewrite Zceil_floor_neq by (rewrite FL, minus_IZR; lra). rewrite FL. lia. }
    rewrite <- ZA at 1. apply (Zrnd_le ZnearestA). exact H.
  Qed.
  Lemma nearA_le z x : x <= IZR z + 1 / 2 -> (z < 0)%Z -> (ZnearestA x <= z)%Z.
  Proof.
    intros H Hz. pose proof (nearA_ge (- z) (- x)) as K. rewrite opp_IZR in K. specialize (K ltac:(lra) ltac:(lia)).
    rewrite Znearest_opp in K.
    assert (E : forall w, Znearest (fun t => negb (Z.leb 0 (- (t + 1)))) w = ZnearestA w).
    { intros w. unfold Znearest. f_equal. destruct (Rcompare _ _); try reflexivity. destruct (Z.leb_spec 0 (- (Zfloor w + 1))), (Z.leb_spec 0 (Zfloor w)); try reflexivity; lia. }
    rewrite E in K. lia.
  Qed.

  Lemma unit_R (r : b32) : fin r = true -> let c := b32_min (b32_max r NZ) (b32_ofZ 1) in fin c = true /\ bv c = Rmin (Rmax (bv r) 0) 1.
  Proof.
    intros Fr c. assert (N : is_nan r = false) by (destruct r; reflexivity || discriminate).
    assert (M : fin (b32_max r NZ) = true /\ bv (b32_max r NZ) = Rmax (bv r) 0).
    { unfold b32_max. rewrite N. change (is_nan NZ) with false. cbn iota. rewrite ltb_R by (assumption || reflexivity). change (bv NZ) with 0. destruct (Rlt_bool_spec (bv r) 0) as [L|L].
      - rewrite Rmax_right by lra. split; reflexivity.
      - rewrite Rmax_left by lra. split; [exact Fr|reflexivity]. }
    destruct M as (FM & EM). unfold c, b32_min. assert (N2 : is_nan (b32_max r NZ) = false) by (destruct (b32_max r NZ); reflexivity || discriminate). rewrite N2.
    change (is_nan (b32_ofZ 1)) with false. cbn iota. rewrite ltb_R by (assumption || reflexivity). rewrite one_R, EM. destruct (Rlt_bool_spec 1 (Rmax (bv r) 0)) as [L|L].
    - rewrite Rmin_right by lra. rewrite one_R. split; reflexivity.
    - rewrite Rmin_left by lra. split; [exact FM|exact EM].
  Qed.
  Lemma eqb_R (x y : b32) : fin x = true -> fin y = true -> Beqb x y = Req_bool (bv x) (bv y).
  Proof.
    intros Fx Fy. unfold Beqb, SpecFloat.SFeqb. pose proof (Bcompare_correct 24 128 x y Fx Fy) as C. unfold Bcompare in C. rewrite C. unfold Req_bool. destruct (Rcompare (bv x) (bv y)); reflexivity.
  Qed.
  Lemma hit_R (p r : b32) : fin p = true -> fin r = true ->
    Beqb (Bnearbyint mode_NA (b32_min (b32_max r NZ) (b32_ofZ 1))) (Bnearbyint mode_NA p) = hit (bv r) (bv p).
  Proof.
    intros Fp Fr. destruct (unit_R r Fr) as (FC & EC). destruct (round_R _ FC) as (FR & ER). destruct (round_R p Fp) as (FP & EP).
    rewrite eqb_R, ER, EP by assumption. rewrite EC. clear FC EC FR ER FP EP. set (t := bv r). set (y := bv p). unfold hit.
    destruct (Rle_dec (1 / 2) t) as [H|H].
    - assert (E : ZnearestA (Rmin (Rmax t 0) 1) = 1%Z).
      { rewrite Rmax_left by lra. destruct (Rle_dec 1 t); [rewrite Rmin_right by lra; apply nearA; lra|]. rewrite Rmin_left by lra.
        pose proof (nearA_ge 1 t ltac:(lra) ltac:(lia)). pose proof (Zrnd_le ZnearestA t 1 ltac:(lra)) as K. rewrite (nearA 1 1) in K by lra. lia. }
      rewrite E. destruct (Rle_dec (1 / 2) y) as [A|A]; [destruct (Rlt_dec y (3 / 2)) as [B|B]|].
      + assert (K : ZnearestA y = 1%Z). { destruct (Req_dec y (1 / 2)) as [->|D]; [|apply nearA; lra].
          pose proof (nearA_ge 1 (1 / 2) ltac:(lra) ltac:(lia)). pose proof (Zrnd_le ZnearestA (1 / 2) 1 ltac:(lra)) as K. rewrite (nearA 1 1) in K by lra. lia. }
        rewrite K. apply Req_bool_true. reflexivity.
      + pose proof (nearA_ge 2 y ltac:(lra) ltac:(lia)) as K. apply Req_bool_false. intros Q. apply eq_IZR in Q. lia.
      + pose proof (Zrnd_le ZnearestA y (Rmax y 0)) as K. apply Req_bool_false. intros Q. apply eq_IZR in Q.
        specialize (K (Rmax_l _ _)). rewrite (nearA 0 (Rmax y 0)) in K; [lia|]. split; unfold Rmax; destruct (Rle_dec y 0); lra.
    - assert (E : ZnearestA (Rmin (Rmax t 0) 1) = 0%Z).
      { apply nearA. unfold Rmin, Rmax. destruct (Rle_dec t 0); match goal with |- context [Rle_dec ?a ?b] => destruct (Rle_dec a b) end; lra. }
      rewrite E. destruct (Rlt_dec (Rabs y) (1 / 2)) as [A|A].
      + apply Rabs_lt_inv in A. rewrite (nearA 0 y) by lra. apply Req_bool_true. reflexivity.
      + apply Req_bool_false. intros Q. apply eq_IZR in Q. destruct (Rle_dec 0 y) as [B|B].
        * rewrite Rabs_pos_eq in A by exact B. pose proof (nearA_ge 1 y ltac:(lra) ltac:(lia)). lia.
        * rewrite Rabs_left1 in A by lra. pose proof (nearA_le (-1) y ltac:(lra) ltac:(lia)). lia.
  Qed.
  Lemma hit_same t v y e : Rabs (v - y) <= e -> (forall h, In h [-1 / 2; 1 / 2; 3 / 2] -> e < Rabs (y - h)) -> hit t v = hit t y.
  Proof.
    intros E H. assert (S : forall h, In h [-1 / 2; 1 / 2; 3 / 2] -> (h < v <-> h < y) /\ v <> h /\ y <> h).
    { intros h Hh. specialize (H h Hh). apply Rabs_le_inv in E. unfold Rabs in H. destruct (Rcase_abs (y - h)); repeat split; lra. }
    pose proof (S (-1 / 2) (or_introl eq_refl)) as (S1 & N1 & N1'). pose proof (S (1 / 2) (or_intror (or_introl eq_refl))) as (S2 & N2 & N2'). pose proof (S (3 / 2) (or_intror (or_intror (or_introl eq_refl)))) as (S3 & N3 & N3').
    assert (A1 : -1 / 2 < v <-> -1 / 2 < y) by exact S1. unfold hit.
    assert (D1 : -1 / 2 < y \/ y < -1 / 2) by lra. assert (D2 : 1 / 2 < y \/ y < 1 / 2) by lra. assert (D3 : 3 / 2 < y \/ y < 3 / 2) by lra.
    assert (V1 : (-1 / 2 < v /\ -1 / 2 < y) \/ (v < -1 / 2 /\ y < -1 / 2)) by (destruct D1; [left; tauto|right; split; [|lra]]; destruct (Rlt_dec v (-1 / 2)); [lra|]; exfalso; assert (-1 / 2 < v) by lra; tauto || (assert (-1 / 2 < y) by tauto; lra)).
    assert (V2 : (1 / 2 < v /\ 1 / 2 < y) \/ (v < 1 / 2 /\ y < 1 / 2)) by (destruct D2; [left; tauto|right; split; [|lra]]; destruct (Rlt_dec v (1 / 2)); [lra|]; exfalso; assert (1 / 2 < v) by lra; tauto || (assert (1 / 2 < y) by tauto; lra)).
    assert (V3 : (3 / 2 < v /\ 3 / 2 < y) \/ (v < 3 / 2 /\ y < 3 / 2)) by (destruct D3; [left; tauto|right; split; [|lra]]; destruct (Rlt_dec v (3 / 2)); [lra|]; exfalso; assert (3 / 2 < v) by lra; tauto || (assert (3 / 2 < y) by tauto; lra)).
    clear - V1 V2 V3. assert (AB : forall z, Rabs z < 1 / 2 <-> -1 / 2 < z < 1 / 2) by (intros z; split; intros K; [apply Rabs_lt_inv in K; lra|apply Rabs_lt; lra]).
    pose proof (AB v) as AV. pose proof (AB y) as AY.
    destruct (Rle_dec (1 / 2) t).
    - destruct (Rle_dec (1 / 2) v), (Rle_dec (1 / 2) y), (Rlt_dec v (3 / 2)), (Rlt_dec y (3 / 2)); try reflexivity; lra.
    - destruct (Rlt_dec (Rabs v) (1 / 2)) as [K|K], (Rlt_dec (Rabs y) (1 / 2)) as [K'|K']; try reflexivity; [apply AV in K; exfalso; apply K', AY; lra|apply AY in K'; exfalso; apply K, AV; lra].
  Qed.

  Lemma term_is_near t o (p r : b32) y : t <> M_CatAcc -> metric_covered lm t -> fin p = true -> fin r = true -> is_near o (bv p) y ->
    match t with M_BinAcc => forall h, In h [-1 / 2; 1 / 2; 3 / 2] -> err o < Rabs (y - h) | M_BCE | M_CCE => Rabs (bv r) <= 2 ^ 100 | _ => cap o + Rabs (bv r) <= 2 ^ 126 end ->
    cap (term_near t o y (bv r)) <= 2 ^ 126 ->
    fin (fterm t p r) = true /\ is_near (term_near t o y (bv r)) (bv (fterm t p r)) (mterm t y (bv r)).
  Proof.
    intros Ht HL Fp Fr Ho HS HC. assert (B127 : 2 ^ 126 <= 2 ^ 127) by (apply Rle_pow; [lra|lia]).
    destruct t; cbn [term_near fterm mterm metric_covered] in *; try congruence.
    - destruct (diff_near o p r y Fp Fr Ho HS) as (F1 & N1 & _). destruct (near_fmul _ _ _ _ _ _ F1 F1 N1 N1 ltac:(lra)) as (F & N). split; [exact F|]. replace ((y - bv r) ^ 2) with ((y - bv r) * (y - bv r)) by ring. exact N.
    - destruct (diff_near o p r y Fp Fr Ho HS) as (_ & _ & F2 & N2 & _). rewrite is_finite_Babs. split; [exact F2|]. rewrite Rabs_minus_sym. apply abs_near. exact N2.
    - exact (mape_near o p r y Fp Fr Ho HS HC).
    - pose proof (clip_near lm o p y Fp Ho) as (FC & BC & BP & EC). pose proof (rest_near lm o p y Fp Ho) as (FQ & BQ & BR & EQ). cbv zeta in *.
      destruct (log_is_near _ _ _ _ HL FC BC (proj1 BP) EC) as (FL & NL). destruct (log_is_near _ _ _ _ HL FQ BQ BR EQ) as (FL2 & NL2).
      assert (O1 : bv (b32_ofZ 1) = 1) by exact one_R.
      assert (S1 : fin (Bminus mode_NE (b32_ofZ 1) r) = true /\ is_near (rounded 1 (exact (1 - bv r))) (bv (Bminus mode_NE (b32_ofZ 1) r)) (1 - bv r)).
      { assert (2 ^ 100 <= 2 ^ 127) by (apply Rle_pow; [lra|lia]). destruct (minus_R (b32_ofZ 1) r eq_refl Fr) as (F & E). { rewrite O1. unfold Rminus. eapply Rle_trans; [apply Rabs_triang|]. rewrite Rabs_R1, Rabs_Ropp. lra. }
        rewrite O1 in E. split; [exact F|]. apply near_rnd with (v := 1 - bv r).
        - split; cbn [exact mag err]; [lra|]. unfold Rminus at 1. rewrite Rplus_opp_r, Rabs_R0. lra.
        - cbn [pow INR]. pose proof eta32_pos. lra. }
      destruct S1 as (FS & NS).
      assert (P0 : 0 <= prob_err o y) by (eapply Rle_trans; [apply Rabs_pos|exact EC]).
      set (A := rounded 1 (times (exact (bv r)) (log_near (prob y) (prob_err o y)))) in *.
      set (B := rounded 1 (times (rounded 1 (exact (1 - bv r))) (log_near (1 - prob y) (prob_err o y + u32 * (1 - prob y + prob_err o y))))) in *.
      assert (PA : pos A) by (apply pos_rounded, pos_times; [apply pos_exact|apply pos_log; exact P0]).
      assert (PB : pos B).
      { apply pos_rounded, pos_times; [apply pos_rounded, pos_exact|apply pos_log]. eapply Rle_trans; [apply Rabs_pos|exact EQ]. }
      apply pos_cap in PA as CA. apply pos_cap in PB as CB. assert (CP : cap (plus A B) = cap A + cap B) by (unfold cap, plus; cbn [mag err]; ring).
      pose proof (cap_rounded_ge 1 (plus A B) ltac:(lra)) as CG.
      destruct (near_fmul _ _ _ _ _ _ Fr FL (near_exact r) NL) as (F1 & N1). { fold A. lra. }
      destruct (near_fmul _ _ _ _ _ _ FS FL2 NS NL2) as (F2 & N2). { fold B. lra. }
      exact (plus_near _ _ _ _ _ _ F1 F2 N1 N2 ltac:(fold A B; lra)).
    - pose proof (clip_near lm o p y Fp Ho) as (FC & BC & BP & EC). cbv zeta in *.
      destruct (log_is_near _ _ _ _ HL FC BC (proj1 BP) EC) as (FL & NL). exact (near_fmul _ _ _ _ _ _ Fr FL (near_exact r) NL ltac:(lra)).
    - rewrite (hit_R p r Fp Fr), (hit_same (bv r) (bv p) y (err o) (proj2 Ho) HS). destruct (hit (bv r) y).
      + rewrite one_R. split; [reflexivity|]. split; cbn [mag err]; [rewrite Rabs_R1; lra|]. rewrite Rminus_eq_0, Rabs_R0. lra.
      + change (bv NZ) with 0. split; [reflexivity|]. split; cbn [mag err]; [rewrite Rabs_R0; lra|]. rewrite Rminus_eq_0, Rabs_R0. lra.
  Qed.
End Term.

(** ** the metric of one sample *)
Lemma rsum_seq n (f : nat -> R) : rsum (map f (seq 0 n)) = sumf n f.
Proof. induction n as [|n IH]; [reflexivity|]. rewrite seq_S, map_app, rsum_app2, IH. cbn. lra. Qed.
Lemma count_sum n (f : nat -> bool) : INR (count_lt n f) = sumf n (fun j => if f j then 1 else 0).
Proof. induction n as [|n IH]; [reflexivity|]. cbn [count_lt sumf]. rewrite plus_INR, IH. destruct (f n); cbn [INR]; lra. Qed.
Lemma fold_adds lm t (ps rs : list b32) : t <> M_CatAcc -> length rs = length ps ->
  adds (fun j => fterm lm t (nth j ps NZ) (nth j rs NZ)) (seq 0 (length ps)) (@fold2 (opsB32 lm) (@step (opsB32 lm) t) NZ ps rs).
Proof.
  intros Ht. unfold fold2. revert rs. induction ps as [|p ps IH] using rev_ind; intros rs L.
  - destruct rs; [|discriminate]. constructor.
  - destruct rs as [|r rs _] using rev_ind; [rewrite app_length in L; cbn in L; lia|]. rewrite !app_length in L. cbn [length] in L. assert (L' : length rs = length ps) by lia.
    rewrite app_length. cbn [length]. rewrite Nat.add_1_r, seq_S. cbn [Nat.add].
    assert (C : combine (ps ++ [p]) (rs ++ [r]) = combine ps rs ++ [(p, r)]).
    { clear - L'. revert rs L'. induction ps as [|a ps IH]; intros [|b rs] L'; try discriminate; [reflexivity|]. cbn. f_equal. apply IH. cbn in L'. lia. }
    change (@F (opsB32 lm)) with b32. rewrite C, fold_left_app. cbn [fold_left fst snd].
    rewrite (step_term lm t _ p r Ht). 
    assert (G : fterm lm t p r = (fun j => fterm lm t (nth j (ps ++ [p]) NZ) (nth j (rs ++ [r]) NZ)) (length ps)).
    { cbn beta. rewrite nth_middle. rewrite <- L'. rewrite nth_middle. reflexivity. }
    rewrite G. apply adds_plus; [|apply (adds_one (fun j => fterm lm t (nth j (ps ++ [p]) NZ) (nth j (rs ++ [r]) NZ)))].
    specialize (IH rs L'). clear - IH L'. 
    assert (K : forall (g h : nat -> b32) l v, adds g l v -> (forall i, In i l -> g i = h i) -> adds h l v).
    { induction 1 as [|i|a b x y H1 IH1 H2 IH2]; intros E; [constructor|rewrite (E i) by (left; reflexivity); constructor|].
      constructor; [apply IH1|apply IH2]; intros; apply E; apply in_or_app; auto. }
    eapply K; [exact IH|]. intros i Hi. apply in_seq in Hi. cbn beta. rewrite !app_nth1 by lia. reflexivity.
Qed.

(** the first maximum *)
Lemma first_max_ok n v : (0 < n)%nat -> is_first_max n v (first_max n v).
Proof.
  induction n as [|n IH]; [lia|]. intros _. cbn [first_max]. destruct n as [|n].
  { cbn [first_max]. destruct (Rlt_dec (v 0%nat) (v 0%nat)); split; try lia; split; intros j Hj; assert (j = 0%nat) by lia; subst; lra || lia. }
  destruct IH as (A & B & C); [lia|]. set (i := first_max (S n) v) in *. destruct (Rlt_dec (v i) (v (S n))) as [H|H].
  - split; [lia|]. split.
    + intros j Hj. destruct (Nat.eq_dec j (S n)) as [->|D]; [lra|]. specialize (B j ltac:(lia)). lra.
    + intros j Hj. specialize (B j ltac:(lia)). lra.
  - split; [lia|]. split; [|exact C]. intros j Hj. destruct (Nat.eq_dec j (S n)) as [->|D]; [lra|]. apply B. lia.
Qed.
Lemma argmax_b32 lm (l : list b32) : Forall (fun x : b32 => fin x = true) l -> @argmax (opsB32 lm) l = @argmax opsR (reals l).
Proof.
  intros FL. destruct l as [|x l]; [reflexivity|]. inversion FL; subst. cbn [argmax reals map].
  assert (G : forall (l : list b32) i (v : b32) idx, fin v = true -> Forall (fun x : b32 => fin x = true) l -> @amax (opsB32 lm) i v idx l = @amax opsR i (bv v) idx (map (@B2R 24 128) l)).
  { clear. induction l as [|x l IH]; intros i v idx Fv FL; [reflexivity|]. inversion FL; subst. cbn [map].
    change (@amax (opsB32 lm) i v idx (x :: l)) with (if Bltb v x then @amax (opsB32 lm) (S i) x i l else @amax (opsB32 lm) (S i) v idx l).
    change (@amax opsR i (bv v) idx (bv x :: map (@B2R 24 128) l)) with (if Rltb (bv v) (bv x) then @amax opsR (S i) (bv x) i (map (@B2R 24 128) l) else @amax opsR (S i) (bv v) idx (map (@B2R 24 128) l)).
    rewrite ltb_R by assumption. destruct (Rltb_spec (bv v) (bv x)); [rewrite Rlt_bool_true by assumption|rewrite Rlt_bool_false by lra]; apply IH; assumption. }
  apply G; assumption.
Qed.

Lemma vec_at (l : list b32) i : vec (map (@B2R 24 128) l) i = bv (nth i l NZ).
Proof. unfold vec. change 0 with (bv NZ). apply (map_nth (@B2R 24 128)). Qed.

Section Metric.
  Variables (lm : libm) (t : metric) (n : nat) (ps rs : list b32) (o : nat -> near) (y : nat -> R).
  Hypothesis Hn : (0 < n)%nat.
  Hypothesis Lp : length ps = n.
  Hypothesis Lr : length rs = n.
  Hypothesis FP : Forall (fun x : b32 => fin x = true) ps.
  Hypothesis FR : Forall (fun x : b32 => fin x = true) rs.
  Hypothesis HO : forall j, (j < n)%nat -> is_near (o j) (bv (nth j ps NZ)) (y j).
  Hypothesis HL : metric_covered lm t.
  Let tg := vec (reals rs).
  Hypothesis HS : metric_safe t n o y tg.
  Let bt j := term_near t (o j) (y j) (tg j).
  Let st j := mterm t (y j) (tg j).
  Lemma tg_bv j : tg j = bv (nth j rs NZ). Proof. exact (vec_at rs j). Qed.
  Lemma metric_sum : t <> M_CatAcc ->
    INR n < 2 ^ 24 /\ cap (sum_near (map bt (seq 0 n))) <= 2 ^ 126 /\
    fin (@fold2 (opsB32 lm) (@step (opsB32 lm) t) NZ ps rs) = true /\
    is_near (sum_near (map bt (seq 0 n))) (bv (@fold2 (opsB32 lm) (@step (opsB32 lm) t) NZ ps rs)) (sumf n st).
  Proof.
    intros Ht. destruct HS as (H1 & _).
    assert (H2 : mean_fits (terms t n o y tg) /\ forall j, (j < n)%nat ->
        match t with
        | M_BinAcc => forall h, In h [-1 / 2; 1 / 2; 3 / 2] -> err (o j) < Rabs (y j - h)
        | M_BCE | M_CCE => Rabs (tg j) <= 2 ^ 100
        | _ => cap (o j) + Rabs (tg j) <= 2 ^ 126
        end) by (destruct t; try congruence; exact H1).
    clear H1. destruct H2 as (MF & HE). change (terms t n o y tg) with (map bt (seq 0 n)) in MF. pose proof (fits_sum _ MF) as HC.
    split; [destruct MF as (A & _); rewrite map_length, seq_length in A; exact A|]. split; [exact HC|].
    assert (B127 : 2 ^ 126 <= 2 ^ 127) by (apply Rle_pow; [lra|lia]).
    pose proof (fold_adds lm t ps rs Ht (eq_trans Lr (eq_sym Lp))) as AD. rewrite Lp in AD.
    assert (FN : forall (l : list b32) j, Forall (fun x : b32 => fin x = true) l -> fin (nth j l NZ) = true).
    { intros l j F. destruct (lt_dec j (length l)); [|rewrite nth_overflow by lia; reflexivity]. rewrite Forall_forall in F. apply F, nth_In. assumption. }
    assert (PT : forall j, (j < n)%nat -> pos (bt j)).
    { intros j Hj. pose proof (HO j Hj) as N. pose proof (near_pos _ _ _ N) as (M1 & M2). pose proof (Rabs_pos (tg j)) as TP.
      assert (PD : pos (diff (o j) (tg j))) by (apply pos_rounded; split; cbn [mag err]; lra).
      unfold bt. destruct t; cbn [term_near]; try (split; cbn [mag err]; lra).
      - apply pos_rounded, pos_times; exact PD.
      - exact PD.
      - assert (I : 0 < / Rmax (tg j) (1 / 10 ^ 7)) by (apply Rinv_0_lt_compat; eapply Rlt_le_trans; [|apply Rmax_r]; lra).
        apply pos_rounded. split; cbn [mag err]; apply Rmult_le_pos; lra.
      - destruct (clip_near lm (o j) (nth j ps NZ) (y j) (FN ps j FP) N) as (_ & _ & _ & EC). destruct (rest_near lm (o j) (nth j ps NZ) (y j) (FN ps j FP) N) as (_ & _ & _ & EQ).
        apply pos_rounded. assert (PA : pos (rounded 1 (times (exact (tg j)) (log_near (prob (y j)) (prob_err (o j) (y j)))))) by (apply pos_rounded, pos_times; [apply pos_exact|apply pos_log; eapply Rle_trans; [apply Rabs_pos|exact EC]]).
        assert (PB : pos (rounded 1 (times (rounded 1 (exact (1 - tg j))) (log_near (1 - prob (y j)) (prob_err (o j) (y j) + u32 * (1 - prob (y j) + prob_err (o j) (y j))))))) by (apply pos_rounded, pos_times; [apply pos_rounded, pos_exact|apply pos_log; eapply Rle_trans; [apply Rabs_pos|exact EQ]]).
        destruct PA as (P1 & P2), PB as (P3 & P4). split; cbn [plus mag err]; lra.
      - destruct (clip_near lm (o j) (nth j ps NZ) (y j) (FN ps j FP) N) as (_ & _ & _ & EC). apply pos_rounded, pos_times; [apply pos_exact|apply pos_log; eapply Rle_trans; [apply Rabs_pos|exact EC]]. }
    assert (CB : forall j, (j < n)%nat -> cap (bt j) <= 2 ^ 126).
    { intros j Hj. assert (IN : In (bt j) (map bt (seq 0 n))) by (apply in_map, in_seq; lia). destruct MF as (_ & MF).
      assert (SP : forall l : list near, (forall b, In b l -> 0 <= cap b) -> forall b, In b l -> cap b <= rsum (map cap l)).
      { induction l as [|a l IH]; intros H b Hb; [destruct Hb|]. destruct Hb as [E|Hb]; cbn [map rsum fold_right].
        - subst b. assert (0 <= rsum (map cap l)) by (apply rsum_pos; intros; apply H; right; assumption). fold (rsum (map cap l)). lra.
        - fold (rsum (map cap l)). pose proof (H a (or_introl eq_refl)). specialize (IH (fun b Hb => H b (or_intror Hb)) b Hb). lra. }
      assert (P : forall b, In b (map bt (seq 0 n)) -> 0 <= cap b). { intros b Hb. apply in_map_iff in Hb. destruct Hb as (k & <- & Hk). apply in_seq in Hk. apply pos_cap, PT. lia. }
      pose proof (SP _ P _ IN) as K. pose proof (up1 (length (map bt (seq 0 n)))) as U. assert (0 <= rsum (map cap (map bt (seq 0 n)))) by (apply rsum_pos; exact P).
      assert (1 * rsum (map cap (map bt (seq 0 n))) <= (1 + u32) ^ length (map bt (seq 0 n)) * rsum (map cap (map bt (seq 0 n)))) by (apply Rmult_le_compat_r; lra). lra. }
    rewrite <- (rsum_seq n st). apply (sum_is_near _ bt st _ _ _ AD (Permutation_refl _)); [|lra].
    intros j Hj. apply in_seq in Hj. assert (Hj' : (j < n)%nat) by lia. unfold bt, st. rewrite tg_bv.
    apply term_is_near; auto.
    - rewrite <- tg_bv. exact (HE j Hj').
    - rewrite <- tg_bv. exact (CB j Hj').
  Qed.
  Lemma metric_is_near :
    fin (@metric_f (opsB32 lm) t ps rs) = true /\ is_near (metric_near t n o y tg) (bv (@metric_f (opsB32 lm) t ps rs)) (metric_math t n tg y).
  Proof.
    assert (TL : length (map bt (seq 0 n)) = n) by (rewrite map_length, seq_length; reflexivity).
    assert (B127 : 2 ^ 126 <= 2 ^ 127) by (apply Rle_pow; [lra|lia]).
    assert (DQ : forall (x : b32) z b, t <> M_CatAcc -> fin x = true -> is_near b (bv x) z -> cap b <= 2 ^ 126 -> fin (Bdiv mode_NE x (b32_ofZ (Z.of_nat (length ps)))) = true /\ is_near (rounded 1 (over n b)) (bv (Bdiv mode_NE x (b32_ofZ (Z.of_nat (length ps))))) (z / INR n)).
    { intros x z b Ht Fx Nx Cx. destruct (metric_sum Ht) as (HN & _). rewrite Lp. apply over_near; try assumption. lra. }
    assert (MS : t <> M_CatAcc -> mean_near (terms t n o y tg) = rounded 1 (over n (sum_near (map bt (seq 0 n))))) by (intros _; rewrite mean_split; unfold terms; fold bt; rewrite TL; reflexivity).
    pose proof metric_sum as SUM. destruct t.
    - destruct (SUM ltac:(discriminate)) as (HN & HC & FV & NV). cbn [metric_near metric_math]. rewrite (MS ltac:(discriminate)). exact (DQ _ _ _ ltac:(discriminate) FV NV HC).
    - destruct (SUM ltac:(discriminate)) as (HN & HC & FV & NV). cbn [metric_near metric_math]. rewrite (MS ltac:(discriminate)). exact (DQ _ _ _ ltac:(discriminate) FV NV HC).
    - destruct (SUM ltac:(discriminate)) as (HN & HC & FV & NV). cbn [metric_near metric_math]. destruct HS as (_ & H100). destruct hundred_R as (FH & EH).
      change (terms M_MAPE n o y tg) with (map bt (seq 0 n)) in *.
      destruct (near_fmul _ _ (b32_ofZ 100) _ 100 _ FH FV ltac:(rewrite <- EH; exact (near_exact _)) NV) as (FM & NM). { rewrite EH. lra. }
      rewrite EH in NM. exact (DQ _ _ _ ltac:(discriminate) FM NM H100).
    - destruct (SUM ltac:(discriminate)) as (HN & HC & FV & NV). cbn [metric_near metric_math]. rewrite (MS ltac:(discriminate)).
      refine (DQ (Bopp _) _ _ ltac:(discriminate) _ (opp_near _ _ _ NV) HC). exact (eq_trans (is_finite_Bopp _ _ _) FV).
    - destruct (SUM ltac:(discriminate)) as (HN & HC & FV & NV). cbn [metric_near metric_math]. rewrite (MS ltac:(discriminate)).
      refine (DQ (Bopp _) _ _ ltac:(discriminate) _ (opp_near _ _ _ NV) HC). exact (eq_trans (is_finite_Bopp _ _ _) FV).
    - cbn [metric_near metric_math]. destruct HS as (H1 & _).
      assert (EQ : (@argmax (opsB32 lm) ps =? @argmax (opsB32 lm) rs)%nat = (first_max n y =? first_max n tg)%nat).
      { change (@F (opsB32 lm)) with b32. rewrite !argmax_b32 by assumption. unfold reals.
        assert (NE : forall l : list b32, length l = n -> map (@B2R 24 128) l <> []) by (intros [|a l] E; [cbn in E; lia|discriminate]).
        assert (LM : forall l : list b32, length l = n -> length (map (@B2R 24 128) l) = n) by (intros; rewrite map_length; assumption).
        pose proof (eq_ind _ (fun k => is_first_max k (vec (map (@B2R 24 128) ps)) (@argmax opsR (map (@B2R 24 128) ps))) (argmax_R _ (NE ps Lp)) _ (LM ps Lp)) as A1. cbv beta in A1.
        pose proof (eq_ind _ (fun k => is_first_max k (vec (map (@B2R 24 128) rs)) (@argmax opsR (map (@B2R 24 128) rs))) (argmax_R _ (NE rs Lr)) _ (LM rs Lr)) as A2. cbv beta in A2.
        rewrite (first_max_unique _ _ _ _ A2 (first_max_ok n tg Hn)). f_equal. apply (first_max_unique _ _ _ _ A1).
        pose proof (first_max_ok n y Hn) as (K1 & K2 & K3). set (k := first_max n y) in *.
        assert (SEP : forall j, (j < n)%nat -> j <> k -> vec (map (@B2R 24 128) ps) j < vec (map (@B2R 24 128) ps) k).
        { intros j Hj D. specialize (H1 j Hj D). cbv zeta in H1. fold k in H1. rewrite !vec_at. destruct (HO j Hj) as (_ & Ej). destruct (HO k K1) as (_ & Ek). apply Rabs_le_inv in Ej. apply Rabs_le_inv in Ek. lra. }
        split; [exact K1|]. split.
        - intros j Hj. destruct (Nat.eq_dec j k) as [->|D]; [lra|]. left. exact (SEP j Hj D).
        - intros j Hj. apply SEP; lia. }
      change (@metric_f (opsB32 lm) M_CatAcc ps rs) with (if (@argmax (opsB32 lm) ps =? @argmax (opsB32 lm) rs)%nat then b32_ofZ 1 else NZ). rewrite EQ.
      destruct (first_max n y =? first_max n tg)%nat.
      + rewrite one_R. split; [reflexivity|]. split; cbn [mag err]; [rewrite Rabs_R1; lra|]. rewrite Rminus_eq_0, Rabs_R0. lra.
      + change (bv NZ) with 0. split; [reflexivity|]. split; cbn [mag err]; [rewrite Rabs_R0; lra|]. rewrite Rminus_eq_0, Rabs_R0. lra.
    - destruct (SUM ltac:(discriminate)) as (HN & HC & FV & NV). cbn [metric_near metric_math]. rewrite (MS ltac:(discriminate)), count_sum. exact (DQ _ _ _ ltac:(discriminate) FV NV HC).
  Qed.
End Metric.
