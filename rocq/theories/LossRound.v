(** LossRound.v -- rounding errors of the gradients of the losses and of the error signal through an activation function *)
From Flocq Require Import Core BinarySingleNaN.
From Coq Require Import ZArith Bool List Arith Reals Lia Lra.
From Verif Require Import Base BaseProofs Ops OpsR Mem Kernels KernelProofs KernelProofs2 OpsB32 B32Facts MetricB32 Activation ActivationProofs Loss SpecReal RealForward
  SpecBits SpecLibm SpecRound RoundProofs DivD ActB32 DotTree SpecGradRound SlopeRound.
Import ListNotations.
Local Open Scope R_scope.

(** ** small integers are exact *)
Lemma ofZ_small n : INR n < 2 ^ 24 -> fin (b32_ofZ (Z.of_nat n)) = true /\ bv (b32_ofZ (Z.of_nat n)) = INR n.
Proof.
  intros H. pose proof (binary_normalize_correct 24 128 prec_gt_0_32 prec_lt_emax_32 mode_NE (Z.of_nat n) 0 false) as C. cbv zeta in C.
  change (binary_normalize 24 128 prec_gt_0_32 prec_lt_emax_32 mode_NE (Z.of_nat n) 0 false) with (b32_ofZ (Z.of_nat n)) in C.
  assert (E : F2R (Float radix2 (Z.of_nat n) 0) = INR n) by (unfold F2R; cbn [Fnum Fexp bpow]; rewrite Rmult_1_r, <- INR_IZR_INZ; reflexivity).
  assert (LZ : (Z.of_nat n < 2 ^ 24)%Z). { apply lt_IZR. rewrite <- INR_IZR_INZ. replace (IZR (2 ^ 24)) with (2 ^ 24); [exact H|]. change (2 ^ 24)%Z with 16777216%Z. lra. }
  assert (G : generic_format radix2 (SpecFloat.fexp 24 128) (INR n)).
  { rewrite <- E. change (SpecFloat.fexp 24 128) with (FLT_exp (-149) 24). apply generic_format_FLT.
    exists (Float radix2 (Z.of_nat n) 0); cbn [Fnum Fexp]; [reflexivity|rewrite Z.abs_eq by lia; exact LZ|lia]. }
  rewrite E in C. rewrite round_generic in C by (try apply valid_rnd_round_mode; exact G).
  rewrite Rlt_bool_true in C.
  - destruct C as (C1 & C2 & _). split; [exact C2|exact C1].
  - rewrite Rabs_pos_eq by apply pos_INR. eapply Rlt_trans; [exact H|]. change (bpow radix2 128) with (IZR (Zpower_pos 2 128)). change (Zpower_pos 2 128) with (2 ^ 128)%Z.
    replace (2 ^ 24) with (IZR (2 ^ 24)) by (change (2 ^ 24)%Z with 16777216%Z; lra). apply IZR_lt. lia.
Qed.

(** ** r is v after k roundings, up to e *)
Definition rel (k : nat) (e r v : R) : Prop := Rabs (r - v) <= ((1 + u32) ^ k - 1) * Rabs v + e.
Lemma rel_abs k e r v : rel k e r v -> Rabs r <= (1 + u32) ^ k * Rabs v + e.
Proof. unfold rel. intros H. replace r with ((r - v) + v) by ring. eapply Rle_trans; [apply Rabs_triang|]. lra. Qed.
Lemma rel_step k e r v c r' e' : rel k e r v -> Rabs (r' - r * c) <= u32 * Rabs (r * c) + e' ->
  rel (S k) ((1 + u32) * (Rabs c * e) + e') r' (v * c).
Proof.
  intros H H'. pose proof (rel_abs _ _ _ _ H) as HA. unfold rel in *. replace (r' - v * c) with ((r' - r * c) + (r - v) * c) by ring.
  eapply Rle_trans; [apply Rabs_triang|]. rewrite Rabs_mult in H'. rewrite !Rabs_mult. pose proof u32_pos as U. pose proof (Rabs_pos c) as PC.
  assert (T1 : u32 * (Rabs r * Rabs c) <= u32 * (((1 + u32) ^ k * Rabs v + e) * Rabs c)) by (apply Rmult_le_compat_l; [lra|]; apply Rmult_le_compat_r; lra).
  assert (T2 : Rabs (r - v) * Rabs c <= (((1 + u32) ^ k - 1) * Rabs v + e) * Rabs c) by (apply Rmult_le_compat_r; lra). cbn [pow]. lra.
Qed.
Lemma rel_mono k e k' e' r v : rel k e r v -> (k <= k')%nat -> e <= e' -> rel k' e' r v.
Proof. unfold rel. intros H HK HE. pose proof (up_le k k' HK) as UL. pose proof (Rabs_pos v). assert (((1 + u32) ^ k - 1) * Rabs v <= ((1 + u32) ^ k' - 1) * Rabs v) by (apply Rmult_le_compat_r; lra). lra. Qed.

Section Loss.
  Variable lm : libm.
  Notation OP := (opsB32 lm).
  Lemma two_R : fin (b32_ofZ 2) = true /\ bv (b32_ofZ 2) = 2.
  Proof. destruct (ofZ_small 2) as (A & B); [cbn [INR]; lra|]. split; [exact A|]. change (b32_ofZ 2) with (b32_ofZ (Z.of_nat 2)). rewrite B. cbn. lra. Qed.

  Lemma hundred_R : fin (b32_ofZ 100) = true /\ bv (b32_ofZ 100) = 100.
  Proof. destruct (ofZ_small 100) as (A & B); [cbn [INR]; lra|]. split; [exact A|]. change (b32_ofZ 100) with (b32_ofZ (Z.of_nat 100)). rewrite B. cbn. lra. Qed.
  Lemma max_eps (r : b32) : fin r = true -> fin (b32_max r eps32) = true /\ bv (b32_max r eps32) = Rmax (bv r) (bv eps32).
  Proof.
    intros Fr. destruct eps32_R as (_ & Fe). unfold b32_max. assert (N : is_nan r = false) by (destruct r; reflexivity || discriminate). rewrite N.
    change (is_nan eps32) with false. cbn iota. rewrite ltb_R by assumption. destruct (Rlt_bool_spec (bv r) (bv eps32)) as [L|L].
    - rewrite Rmax_right by lra. split; [exact Fe|reflexivity].
    - rewrite Rmax_left by lra. split; [exact Fr|reflexivity].
  Qed.

  Lemma loss_slope_near (l : loss) (n : nat) (o : near) (p r : b32) (y : R) : (0 < n)%nat -> fin p = true -> fin r = true ->
    is_near o (bv p) y -> clear_loss l n o y (bv r) ->
    fin (@loss_elem OP l n p r) = true /\ is_near (loss_slope l n o (bv r)) (bv (@loss_elem OP l n p r)) (@loss_elem opsR l n y (bv r)).
  Proof.
    intros Hn Fp Fr Ho (HN & HB & HC). destruct (ofZ_small n HN) as (FN & EN). pose proof (near_abs _ _ _ Ho) as PA. destruct Ho as (MO & EO).
    assert (N1 : 1 <= INR n) by (replace 1 with (INR 1) by reflexivity; apply le_INR; lia).
    set (t := bv r) in *. set (v := bv p - t). set (w := y - t).
    assert (VB : Rabs v <= cap o + Rabs t). { unfold v, Rminus. eapply Rle_trans; [apply Rabs_triang|]. rewrite Rabs_Ropp. lra. }
    assert (WB : Rabs w <= mag o + Rabs t). { unfold w, Rminus. eapply Rle_trans; [apply Rabs_triang|]. rewrite Rabs_Ropp. lra. }
    assert (VW : Rabs (v - w) <= err o) by (unfold v, w; replace (bv p - t - (y - t)) with (bv p - y) by ring; exact EO).
    assert (TOP : 8 * 2 ^ 125 <= 2 ^ 127 * 2) by (replace 127%nat with (2 + 125)%nat by lia; rewrite pow_add; lra).
    pose proof u32_pos as U. pose proof u32_small as US. pose proof eta32_pos as ET. pose proof (Rabs_pos v) as PV.
    set (I := / INR n). assert (IP : 0 < I <= 1). { split; [apply Rinv_0_lt_compat; lra|]. unfold I. rewrite <- Rinv_1. apply Rinv_le; lra. }
    assert (UV : u32 * Rabs v <= 1 * Rabs v) by (apply Rmult_le_compat_r; lra).
    destruct (minus_R p r Fp Fr) as (F1 & E1). { fold t v. lra. } fold t in E1. fold v in E1.
    assert (R1 : rel 1 0 (bv (Bminus mode_NE p r)) v) by (unfold rel; rewrite pow_1; lra).
    pose proof (rel_abs _ _ _ _ R1) as A1. rewrite pow_1 in A1. set (q := Bminus mode_NE p r) in *.
    assert (DIV : forall k e (x : b32) z b, fin x = true -> rel k e (bv x) z -> Rabs (bv x) <= b -> b <= 2 ^ 127 ->
      fin (Bdiv mode_NE x (b32_ofZ (Z.of_nat n))) = true /\ rel (S k) ((1 + u32) * (I * e) + eta32) (bv (Bdiv mode_NE x (b32_ofZ (Z.of_nat n)))) (z * I)).
    { intros k e x z b Fx Rx Bx Bb. assert (DB : Rabs (bv x / bv (b32_ofZ (Z.of_nat n))) <= 2 ^ 127 + 1).
      { rewrite EN. unfold Rdiv. fold I. rewrite Rabs_mult, (Rabs_pos_eq I) by lra. pose proof (Rabs_pos (bv x)). assert (Rabs (bv x) * I <= Rabs (bv x) * 1) by (apply Rmult_le_compat_l; lra). lra. }
      destruct (divide_R x (b32_ofZ (Z.of_nat n)) Fx) as (FD & ED); [rewrite EN; lra|exact DB|]. split; [exact FD|].
      rewrite EN in ED. unfold Rdiv in ED. fold I in ED. pose proof (rel_step _ _ _ _ I _ _ Rx ED) as RS. rewrite (Rabs_pos_eq I) in RS by lra. exact RS. }
    assert (ES : forall k e z b, rel k e (bv z) b -> Rabs (bv z - b) <= ((1 + u32) ^ k - 1) * Rabs b + e) by (intros; assumption).
    assert (I3 : INR 3 = 3) by exact inr3.
    destruct l; cbn [loss_slope].
    - (* mean squared error *)
      change (@loss_elem OP MSE n p r) with (Bdiv mode_NE (Bmult mode_NE (b32_ofZ 2) q) (b32_ofZ (Z.of_nat n))). change (@loss_elem opsR MSE n y t) with (2 * (y - t) / IZR (Z.of_nat n)). rewrite <- INR_IZR_INZ.
      destruct two_R as (F2 & E2). destruct (mul_R (b32_ofZ 2) q F2 F1) as (FM & EM). { rewrite E2, Rabs_mult, (Rabs_pos_eq 2) by lra. lra. }
      rewrite E2, (Rmult_comm 2) in EM. pose proof (rel_step _ _ _ _ 2 _ _ R1 EM) as R2. pose proof (rel_abs _ _ _ _ R2) as A2. rewrite Rabs_mult, (Rabs_pos_eq 2) in A2 by lra. rewrite (Rabs_pos_eq 2) in R2 by lra.
      assert (U2 : (1 + u32) ^ 2 <= 2) by (cbn [pow]; nra). assert (UA : (1 + u32) ^ 2 * (Rabs v * 2) <= 2 * (Rabs v * 2)) by (apply Rmult_le_compat_r; lra).
      pose proof eta32_small as ETS. pose proof big127 as BG.
      destruct (DIV 2%nat _ _ (v * 2) (2 ^ 127) FM R2) as (FD & RD). { lra. } { lra. }
      split; [exact FD|]. apply near_rnd with (v := v * 2 * I).
      + unfold Rdiv. fold w I. split; cbn [mag err].
        * rewrite !Rabs_mult, (Rabs_pos_eq I), (Rabs_pos_eq 2) by lra. apply Rmult_le_compat_r; lra.
        * replace (v * 2 * I - 2 * w * I) with ((v - w) * (2 * I)) by ring. rewrite Rabs_mult, (Rabs_pos_eq (2 * I)) by lra. replace (2 * err o * I) with (err o * (2 * I)) by ring. apply Rmult_le_compat_r; lra.
      + rewrite I3. eapply rel_mono; [exact RD|lia|]. assert (IE : 0 <= I * eta32 <= eta32) by (split; [apply Rmult_le_pos; lra|]; assert (I * eta32 <= 1 * eta32) by (apply Rmult_le_compat_r; lra); lra).
        assert (u32 * (I * eta32) <= 1 * (I * eta32)) by (apply Rmult_le_compat_r; lra). lra.
    - (* mean absolute error *)
      change (@loss_elem OP MAE n p r) with (Bdiv mode_NE (if Bleb r p then b32_ofZ 1 else Bopp (b32_ofZ 1)) (b32_ofZ (Z.of_nat n))).
      change (@loss_elem opsR MAE n y t) with ((if Rleb t y then 1 else - (1)) / IZR (Z.of_nat n)). rewrite <- INR_IZR_INZ.
      rewrite (leb_fin r p Fr Fp). fold t. match goal with |- context [Bdiv mode_NE ?e _] => set (b := e) end.
      assert (BB : fin b = true /\ bv b = (if Rleb t y then 1 else - (1)) /\ Rabs (bv b) = 1).
      { unfold b. apply Rabs_le_inv in VW. unfold v, w in VW. fold w in HC. destruct (Rleb_spec t y) as [L|L].
        - unfold w in HC. rewrite Rabs_pos_eq in HC by lra. rewrite Rle_bool_true by lra. rewrite one_R, Rabs_R1. repeat split.
        - unfold w in HC. rewrite Rabs_left1 in HC by lra. rewrite Rle_bool_false by lra. rewrite B2R_Bopp, one_R, Rabs_Ropp, Rabs_R1. repeat split. }
      destruct BB as (FB & EB & AB). rewrite <- EB. clearbody b.
      assert (RB : rel 0 0 (bv b) (bv b)) by (unfold rel; cbn [pow]; unfold Rminus; rewrite Rplus_opp_r, Rabs_R0; lra).
      destruct (DIV 0%nat 0 b (bv b) 1 FB RB) as (FD & RD). { lra. } { pose proof big127. lra. }
      split; [exact FD|]. apply near_rnd with (v := bv b * I).
      + unfold Rdiv. fold I. split; cbn [mag err].
        * rewrite Rabs_mult, AB, (Rabs_pos_eq I) by lra. lra.
        * unfold Rminus. rewrite Rplus_opp_r, Rabs_R0. lra.
      + rewrite I3. eapply rel_mono; [exact RD|lia|lra].
    - (* mean absolute percentage error *)
      change (@loss_elem OP MAPE n p r) with (b32_divd (if Bleb r p then b32_ofZ 100 else Bopp (b32_ofZ 100)) (b32_max r eps32) (b32_ofZ (Z.of_nat n))).
      change (@loss_elem opsR MAPE n y t) with ((if Rleb t y then 100 else - (100)) / (Rmax t (1 / 10000000) * IZR (Z.of_nat n))). rewrite <- INR_IZR_INZ.
      rewrite (leb_fin r p Fr Fp). fold t. match goal with |- context [b32_divd ?e _ _] => set (b := e) end.
      destruct hundred_R as (FH & EH).
      assert (BB : fin b = true /\ bv b = (if Rleb t y then 100 else - (100)) /\ Rabs (bv b) = 100).
      { unfold b. apply Rabs_le_inv in VW. unfold v, w in VW. fold w in HC. destruct (Rleb_spec t y) as [L|L].
        - unfold w in HC. rewrite Rabs_pos_eq in HC by lra. rewrite Rle_bool_true by lra. rewrite EH, Rabs_pos_eq by lra. repeat split; try exact FH; try lra.
        - unfold w in HC. rewrite Rabs_left1 in HC by lra. rewrite Rle_bool_false by lra. rewrite is_finite_Bopp, B2R_Bopp, EH, Rabs_Ropp, Rabs_pos_eq by lra. repeat split; try exact FH; try lra. }
      destruct BB as (FB & EB & AB). rewrite <- EB. clearbody b.
      destruct (max_eps r Fr) as (FM & EM). fold t in EM. set (M := b32_max r eps32) in *. clearbody M.
      set (m := Rmax t (1 / 10000000)). set (m' := bv M) in *.
      assert (MB : m <= m' <= (1 + u32) * m /\ 1 / 10000000 <= m).
      { destruct eps32_R as (EE & _). assert (EB1 : 1 / 10000000 <= bv eps32 <= (1 + u32) * (1 / 10000000)). { rewrite EE. unfold u32. simpl. lra. }
        unfold m. rewrite EM. clear - EB1 U. unfold Rmax. destruct (Rle_dec t (1 / 10000000)), (Rle_dec t (bv eps32)); repeat split; try lra; nra. }
      destruct MB as ((M1 & M2) & M3). set (N := INR n) in *. set (h := bv b) in *.
      assert (QE : rel 1 0 (h / (m' * N)) (h / (m * N))).
      { unfold rel. rewrite pow_1. replace (h / (m' * N) - h / (m * N)) with (h / (m * N) * ((m - m') / m')) by (field; lra).
        rewrite Rabs_mult. replace (1 + u32 - 1) with u32 by ring. rewrite (Rmult_comm u32), Rplus_0_r. apply Rmult_le_compat_l; [apply Rabs_pos|].
        unfold Rdiv. rewrite Rabs_mult, Rabs_minus_sym, (Rabs_pos_eq (m' - m)), Rabs_pos_eq by (try lra; left; apply Rinv_0_lt_compat; lra).
        apply Rmult_le_reg_r with m'; [lra|]. rewrite Rmult_assoc, Rinv_l by lra. assert (u32 * m <= u32 * m') by (apply Rmult_le_compat_l; lra). lra. }
      assert (QB : Rabs (h / (m' * N)) <= 10 ^ 9).
      { unfold Rdiv. assert (MN : 1 / 10000000 <= m' * N) by nra. rewrite Rabs_mult, AB, Rabs_pos_eq by (left; apply Rinv_0_lt_compat; lra).
        assert (/ (m' * N) <= / (1 / 10000000)) by (apply Rinv_le; lra). lra. }
      assert (P126 : 10 ^ 9 <= 2 ^ 126). { replace 126%nat with (30 + 96)%nat by lia. rewrite pow_add. assert (1 <= 2 ^ 96) by (apply pow_R1_Rle; lra). lra. }
      destruct (divd_R b M (b32_ofZ (Z.of_nat n)) FB FM FN) as (FD & ED). { rewrite EN. fold m' N. nra. } { rewrite EN. fold m' N h. lra. }
      rewrite EN in ED. fold m' N h in ED. set (x := bv (b32_divd b M (b32_ofZ (Z.of_nat n)))) in *. split; [exact FD|].
      apply near_rnd with (v := h / (m * N)).
      + split; cbn [mag err].
        * replace (1 / 10 ^ 7) with (1 / 10000000) by lra. fold m. assert (MNP : 0 < m * N) by (apply Rmult_lt_0_compat; lra). unfold Rdiv. rewrite Rabs_mult, AB, Rabs_pos_eq by (left; apply Rinv_0_lt_compat; exact MNP). fold N. lra.
        * unfold Rminus. rewrite Rplus_opp_r, Rabs_R0. lra.
      + rewrite I3. set (qe := h / (m * N)) in *. set (qf := h / (m' * N)) in *. pose proof (rel_abs _ _ _ _ QE) as QA. unfold rel in QE. rewrite pow_1 in QA, QE.
        replace (x - qe) with ((x - qf) + (qf - qe)) by ring. eapply Rle_trans; [apply Rabs_triang|].
        assert (((1 + u32) ^ 2 - 1) * Rabs qf <= ((1 + u32) ^ 2 - 1) * ((1 + u32) * Rabs qe)) by (apply Rmult_le_compat_l; [cbn [pow]; nra|lra]). cbn [pow] in *. lra.
    - (* categorical cross-entropy *)
      change (@loss_elem OP CCE n p r) with q. change (@loss_elem opsR CCE n y t) with (y - t). fold w. split; [exact F1|].
      apply near_rnd with (v := v); [split; cbn [mag err]; lra|]. rewrite I3. apply (rel_mono 1 0); [exact R1|lia|lra].
    - (* binary cross-entropy *)
      change (@loss_elem OP BCE n p r) with (Bdiv mode_NE q (b32_ofZ (Z.of_nat n))). change (@loss_elem opsR BCE n y t) with ((y - t) / IZR (Z.of_nat n)). rewrite <- INR_IZR_INZ.
      destruct (DIV 1%nat 0 q v (2 ^ 127) F1 R1) as (FD & RD). { lra. } { lra. }
      split; [exact FD|]. apply near_rnd with (v := v * I).
      + unfold Rdiv. fold w I. split; cbn [mag err].
        * rewrite Rabs_mult, (Rabs_pos_eq I) by lra. apply Rmult_le_compat_r; lra.
        * rewrite <- Rmult_minus_distr_r, Rabs_mult, (Rabs_pos_eq I) by lra. apply Rmult_le_compat_r; lra.
      + rewrite I3. eapply rel_mono; [exact RD|lia|lra].
  Qed.

  (** ** an error signal through an activation function; z pre-activation, o value, both with their exact numbers *)
  Definition act_ok (g : act) (z o : b32) (z' s : R) : Prop :=
    match g with
    | Relu => bv o = Rmax 0 (bv z) /\ s = Rmax 0 z'
    | Hard_sigmoid => o = (if Bltb z (b32_lit (-5) 2) then b32_zero else if Bltb (b32_lit 5 2) z then b32_ofZ 1
         else Bplus mode_NE (Bmult mode_NE (b32_lit 1 5) z) (b32_lit 1 2)) /\ s = act_math1 Hard_sigmoid z'
    | Sigmoid => 0 <= s <= 1
    | Tanh => -1 <= s <= 1
    | Softplus => 0 <= s <= 82 /\ accurate_exp (lm_exp lm)
    | _ => True
    end.
  Lemma through_near (g : act) (no e : near) (x z o : b32) (sx z' s ez : R) : fin x = true -> fin z = true -> fin o = true ->
    is_near e (bv x) sx -> Rabs (bv z - z') <= ez -> is_near no (bv o) s -> act_ok g z o z' s -> clear g z' ez s (err no) ->
    cap (through g no e) <= 2 ^ 127 ->
    fin (match g with Linear | Softmax => x | _ => Bmult mode_NE x (@act_d OP g o) end) = true /\
    is_near (through g no e) (bv (match g with Linear | Softmax => x | _ => Bmult mode_NE x (@act_d OP g o) end))
      (match g with Linear | Softmax => sx | _ => sx * @act_d opsR g s end).
  Proof.
    intros Fx Fz Fo Hx HZ (HM & HE) OK CL HC.
    destruct g; cbn [through act_d clear act_ok slope] in *; try (split; assumption).
    - destruct OK as (SB & AE). destruct (softplus_slope lm o s (err no) AE Fo HE CL SB) as (FS & NS). exact (near_fmul _ _ _ _ _ _ Fx FS Hx NS HC).
    - destruct (softsign_slope lm o s (err no) Fo HE CL) as (FS & NS). exact (near_fmul _ _ _ _ _ _ Fx FS Hx NS HC).
    - destruct OK as (OK1 & OK2). destruct (hard_slope lm z o z' s ez (err no) Fz Fo OK1 HZ HE OK2 CL) as (FS & NS). exact (near_fmul _ _ _ _ _ _ Fx FS Hx NS HC).
    - exact (near_fmul _ _ _ _ _ _ Fx Fo Hx (conj HM HE) HC).
    - destruct OK as (OK1 & ->). exact (relu_step lm e x o z sx z' ez Fx Hx Fz Fo OK1 HZ CL).
    - destruct (sigmoid_slope lm o s (err no) Fo HE CL OK) as (FS & NS). exact (near_fmul _ _ _ _ _ _ Fx FS Hx NS HC).
    - destruct (tanh_slope lm o s (err no) Fo HE CL OK) as (FS & NS). exact (near_fmul _ _ _ _ _ _ Fx FS Hx NS HC).
  Qed.
End Loss.
