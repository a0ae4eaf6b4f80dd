(** LibmCase.v -- the correctly rounded functions satisfy what SpecLibm.v asks of libm *)
From Coquelicot Require Import Coquelicot.
From Flocq Require Import Core BinarySingleNaN Relative.
From Coq Require Import ZArith Bool List Arith Reals Lia Lra.
From Verif Require Import Base Ops OpsB32 B32Facts MetricB32 InitProofs Activation SpecReal SpecRound SpecLibm RoundProofs Exp256 Exp256B32 Exp256Reduce ExpB32Proofs ActB32 ActReal.
Local Open Scope R_scope.

#[local] Instance vexp32l : Valid_exp (SpecFloat.fexp 24 128) := fexp_correct 24 128 prec_gt_0_32.

(** the float nearest to a real number *)
Definition b32_of_R (r : R) : b32 :=
  binary_normalize 24 128 _ _ mode_NE (ZnearestE (scaled_mantissa radix2 (SpecFloat.fexp 24 128) r)) (cexp radix2 (SpecFloat.fexp 24 128) r) false.
Lemma b32_of_R_ok r : if Rlt_bool (Rabs (rnd r)) (bpow radix2 128) then fin (b32_of_R r) = true /\ bv (b32_of_R r) = rnd r
  else B2SF (b32_of_R r) = binary_overflow 24 128 mode_NE (Rlt_bool (rnd r) 0).
Proof.
  unfold b32_of_R. pose proof (binary_normalize_correct 24 128 _ _ mode_NE (ZnearestE (scaled_mantissa radix2 (SpecFloat.fexp 24 128) r)) (cexp radix2 (SpecFloat.fexp 24 128) r) false) as C.
  cbv zeta in C. change (F2R (Float radix2 (ZnearestE (scaled_mantissa radix2 (SpecFloat.fexp 24 128) r)) (cexp radix2 (SpecFloat.fexp 24 128) r))) with (rnd r) in C.
  assert (E : round radix2 (SpecFloat.fexp 24 128) (round_mode mode_NE) (rnd r) = rnd r).
  { apply round_generic; [apply valid_rnd_round_mode|]. apply generic_format_round; [apply fexp_correct; reflexivity|apply valid_rnd_round_mode]. }
  rewrite E in C. destruct (Rlt_bool (Rabs (rnd r)) (bpow radix2 128)); [split; apply C|exact C].
Qed.
Lemma b32_of_R_small r : Rabs r <= 2 ^ 127 -> fin (b32_of_R r) = true /\ bv (b32_of_R r) = rnd r.
Proof. intros H. pose proof (b32_of_R_ok r) as K. rewrite Rlt_bool_true in K by (apply rnd_range; lra). exact K. Qed.
Definition rounded (f : R -> R) (x : b32) : b32 := b32_of_R (f (B2R x)).

Lemma rnd_le x y : x <= y -> rnd x <= rnd y.
Proof. intros H. apply round_le; [apply fexp_correct; reflexivity|apply valid_rnd_round_mode|exact H]. Qed.
Lemma rnd_0' : rnd 0 = 0.
Proof. apply round_0. apply valid_rnd_round_mode. Qed.

Lemma rounded_exp : accurate_exp (rounded exp).
Proof.
  intros x Fx. pose proof u32_val as U. pose proof eta32_tiny as T. pose proof (exp_pos (B2R x)) as P. split.
  - intros L. assert (B : exp (B2R x) <= 24 * 10 ^ 37) by (eapply Rle_trans; [apply (exp_mono (B2R x) 88); exact L|apply exp_88_up]).
    unfold rounded. set (e := exp (B2R x)) in *. clearbody e. pose proof (rnd_err e) as R. rewrite (Rabs_pos_eq e) in R by lra.
    pose proof (b32_of_R_ok e) as K. rewrite Rlt_bool_true in K.
    2: { apply Rabs_le_between in R. pose proof max128. rewrite U in R. apply Rabs_lt. lra. }
    destruct K as (F & E).
    split; [exact F|]. rewrite E. split; [rewrite <- rnd_0'; apply rnd_le; lra|]. 
    eapply Rle_trans; [exact R|]. rewrite U. assert (1 / 10 ^ 40 <= / 10 ^ 36) by lra. lra.
  - intros L. unfold rounded. assert (B : 9 * 10 ^ 37 <= exp (B2R x)) by (eapply Rle_trans; [apply exp_88|apply exp_mono; lra]).
    set (e := exp (B2R x)) in *. clearbody e. pose proof (b32_of_R_ok e) as K.
    assert (R1 : 8 * 10 ^ 37 <= rnd e). { pose proof (rnd_err (9 * 10 ^ 37)) as R. rewrite (Rabs_pos_eq (9 * 10 ^ 37)) in R by lra. apply Rabs_le_between in R. pose proof (rnd_le _ _ B). rewrite U in R. lra. }
    destruct (Rlt_bool (Rabs (rnd e)) (bpow radix2 128)).
    + right. destruct K as (F & E). split; [exact F|]. rewrite E. lra.
    + left. rewrite Rlt_bool_false in K by lra. destruct (b32_of_R e); try discriminate K. cbn in K. injection K as ->. reflexivity.
Qed.

Lemma rounded_tanh : accurate_tanh (rounded tanhR).
Proof.
  intros x Fx. pose proof u32_val as U. pose proof eta32_tiny as T. unfold rounded.
  assert (B : Rabs (tanhR (B2R x)) <= 1).
  { rewrite tanh_sigma. pose proof (sigma_pos (2 * B2R x)). apply Rabs_le. lra. }
  pose proof big127. destruct (b32_of_R_small (tanhR (B2R x)) ltac:(lra)) as (F & E). split; [exact F|]. rewrite E.
  eapply Rle_trans; [apply rnd_err|]. rewrite U. lra.
Qed.
Lemma ln_2_up : ln 2 <= 1.
Proof. apply Rle_trans with (ln (exp 1)); [apply ln_mono; [lra|pose proof (exp_ineq1_le 1); lra]|rewrite ln_exp; lra]. Qed.
(** the logarithm of a float is 0 or not small *)
Lemma ln_gap (x : b32) : fin x = true -> 1 < bv x -> 1 / 10 ^ 7 <= ln (bv x).
Proof.
  intros Fx H. assert (G : 1 + bpow radix2 (-23) <= bv x).
  { pose proof (bv_fmt' x) as Fm. pose proof (bv_fmt' (b32_ofZ 1)) as F1. rewrite one_R in F1.
    pose proof (succ_le_lt radix2 (SpecFloat.fexp 24 128) 1 (bv x) F1 Fm H) as S. rewrite succ_eq_pos in S by lra.
    replace (ulp radix2 (SpecFloat.fexp 24 128) 1) with (bpow radix2 (-23)) in S; [exact S|].
    change 1 with (bpow radix2 0). rewrite ulp_bpow. reflexivity. }
  assert (B : bpow radix2 (-23) = / 2 ^ 23) by (rewrite bpow_powerRZ; reflexivity). rewrite B in G. assert (/ 2 ^ 23 = 1 / 8388608) by lra. 
  apply Rle_trans with (ln (1 + / 2 ^ 23)); [|apply ln_mono; lra].
  rewrite <- (ln_exp (1 / 10 ^ 7)). apply ln_mono; [apply exp_pos|].
  assert (X : exp (- (1 / 10 ^ 7)) >= 1 - 1 / 10 ^ 7) by (pose proof (exp_ineq1_le (- (1 / 10 ^ 7))); lra).
  rewrite exp_Ropp in X. pose proof (exp_pos (1 / 10 ^ 7)) as P. set (e := exp (1 / 10 ^ 7)) in *. clearbody e.
  assert (e * / e = 1) by (apply Rinv_r; lra). assert (e * (1 - 1 / 10 ^ 7) <= 1) by nra. lra.
Qed.
Lemma rounded_log : accurate_log (rounded ln).
Proof.
  intros x Fx H. pose proof u32_val as U. pose proof eta32_tiny as T. unfold rounded.
  assert (B : 0 <= ln (B2R x) <= 2 ^ 127).
  { split; [rewrite <- ln_1; apply ln_mono; lra|]. pose proof (abs_B2R_lt_emax 24 128 x) as A. apply Rabs_lt_between in A. pose proof big127.
    apply Rle_trans with (ln (2 ^ 128)).
    - apply ln_mono; [lra|]. rewrite <- top128 in A. assert (2 ^ 127 + 2 ^ 127 = 2 ^ 128) by (rewrite <- (Nat.add_1_l 127), pow_add; lra). lra.
    - rewrite <- Rpower_pow by lra. unfold Rpower. rewrite ln_exp. pose proof ln_2_up. assert (0 <= ln 2) by (rewrite <- ln_1; apply ln_mono; lra).
      assert (INR 128 = 128) by (rewrite INR_IZR_INZ; simpl; lra). nra. }
  destruct (b32_of_R_small (ln (B2R x))) as (F & E); [rewrite Rabs_pos_eq; lra|]. split; [exact F|]. rewrite E.
  destruct H as [H|H].
  - eapply Rle_trans; [apply rnd_err|]. rewrite (Rabs_pos_eq (ln (B2R x))) by lra. pose proof (ln_gap x Fx H). set (l := ln (B2R x)) in *. rewrite U. lra.
  - rewrite <- H, ln_1, rnd_0', Rminus_0_r, Rabs_R0. lra.
Qed.

(** a libm that rounds correctly *)
Definition lm_rounded : libm := {| lm_exp := rounded exp; lm_log := rounded ln; lm_tanh := rounded tanhR |}.
