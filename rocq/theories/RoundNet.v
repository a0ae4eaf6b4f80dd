(** RoundNet.v -- rounding errors of a whole network in binary32 *)
From Coquelicot Require Import Coquelicot.
From Flocq Require Import Core BinarySingleNaN Relative.
From Coq Require Import ZArith Bool List Arith Reals Lia Lra.
From Verif Require Import Base Ops OpsB32 B32Facts MetricB32 InitProofs Activation SpecReal RealForward SpecBits SpecRound SpecLibm RoundProofs
  Exp256 Exp256B32 Exp256Reduce ExpB32Proofs ActB32 SoftmaxB32 ActReal.
Import ListNotations.
Local Open Scope R_scope.

#[local] Instance vexp32n : Valid_exp (SpecFloat.fexp 24 128) := fexp_correct 24 128 prec_gt_0_32.

(** ** softplus *)
Lemma softplus_R (lm : libm) (x : b32) : accurate_exp (lm_exp lm) -> accurate_log (lm_log lm) -> fin x = true -> Rabs (bv x) <= 80 ->
  let y := lm_log lm (Bplus mode_NE (lm_exp lm x) (b32_ofZ 1)) in
  fin y = true /\ Rabs (bv y - softplus (bv x)) <= ((1 + u32) ^ 7 - 1) * Rabs (softplus (bv x)) + 5 / 10 ^ 7.
Proof.
  intros AE AL Fx Bx y. pose proof u32_val as U. apply Rabs_le_between in Bx.
  destruct (AE x Fx) as (A & _). destruct (A ltac:(lra)) as (Fe & Pe & Ee). clear A. set (E := lm_exp lm x) in *. clearbody E.
  pose proof (exp_pos (B2R x)) as PX. set (e := exp (B2R x)) in *.
  assert (EB : e <= 24 * 10 ^ 37) by (eapply Rle_trans; [apply (exp_mono (B2R x) 88); lra|apply exp_88_up]).
  apply Rabs_le_between in Ee.
  pose proof (Bplus_correct 24 128 _ _ mode_NE E (b32_ofZ 1) Fe one_fin) as C. rewrite one_R in C.
  pose proof (rnd_plus_err E (b32_ofZ 1)) as R. rewrite one_R in R. rewrite (Rabs_pos_eq (bv E + 1)) in R by lra.
  assert (GE1 : 1 <= rnd (bv E + 1)).
  { apply round_ge_generic; [apply fexp_correct; reflexivity|apply valid_rnd_round_mode| |lra]. rewrite <- one_R. apply (generic_format_B2R 24 128). }
  pose proof R as R'. apply Rabs_le_between in R'. change (rnd (bv E + 1)) with (round radix2 (SpecFloat.fexp 24 128) (round_mode mode_NE) (B2R E + 1)) in *.
  rewrite Rlt_bool_true in C.
  2: { rewrite <- top128. apply Rabs_lt. rewrite U in R'. pose proof top128. pose proof max128. lra. }
  destruct C as (C1 & C2 & _). set (s := Bplus mode_NE E (b32_ofZ 1)) in *. rewrite <- C1 in *. clear C1.
  destruct (AL s C2 GE1) as (Fy & Ey). fold y in Fy, Ey. split; [exact Fy|].
  assert (LS : Rabs (ln (B2R s) - softplus (bv x)) <= 48 / 10 ^ 8).
  { unfold softplus. fold e. assert (D : Rabs (B2R s - (1 + e)) <= 47 / 10 ^ 8 * (1 + e)) by (rewrite U in R'; apply Rabs_le; lra).
    apply Rabs_le_between in D. apply Rabs_le. split.
    - assert (L : ln (1 + e) <= ln (B2R s * (1 + 48 / 10 ^ 8))) by (apply ln_mono; lra). rewrite ln_mult in L by lra.
      assert (ln (1 + 48 / 10 ^ 8) <= 48 / 10 ^ 8) by (eapply Rle_trans; [apply ln_mono; [lra|apply exp_ineq1_le]|rewrite ln_exp; lra]). lra.
    - assert (L : ln (B2R s) <= ln ((1 + e) * (1 + 47 / 10 ^ 8))) by (apply ln_mono; lra). rewrite ln_mult in L by lra.
      assert (ln (1 + 47 / 10 ^ 8) <= 47 / 10 ^ 8) by (eapply Rle_trans; [apply ln_mono; [lra|apply exp_ineq1_le]|rewrite ln_exp; lra]). lra. }
  assert (P7 : 7 * u32 <= (1 + u32) ^ 7 - 1) by (rewrite U; lra).
  assert (SP : 0 <= softplus (bv x)). { unfold softplus. rewrite <- ln_1. apply ln_mono; [lra|]. fold e. lra. }
  rewrite (Rabs_pos_eq (softplus (bv x))) by exact SP. set (L := softplus (bv x)) in *. set (W := (1 + u32) ^ 7) in *. set (v := B2R y) in *. set (t := ln (B2R s)) in *.
  change (bv y) with v. clearbody L W v t. clear - U LS P7 SP Ey. apply Rabs_le_between in LS, Ey. assert (7 * u32 * L <= (W - 1) * L) by (apply Rmult_le_compat_r; lra).
  rewrite U in *. apply Rabs_le. lra.
Qed.

(** ** exponential: an error of at most 1/2 at most doubles, times the exponential of the magnitude *)
Lemma exp_R (lm : libm) (x : b32) s A E : accurate_exp (lm_exp lm) -> fin x = true -> Rabs s <= A -> Rabs (bv x - s) <= E -> E <= 1 / 2 -> bv x <= 88 ->
  fin (lm_exp lm x) = true /\ Rabs (bv (lm_exp lm x) - exp s) <= exp A * (2 * E + 1 / 10 ^ 6).
Proof.
  intros AE Fx SB XB EB X88. destruct (AE x Fx) as (H & _). destruct (H X88) as (FY & _ & EY). split; [exact FY|].
  set (y := bv (lm_exp lm x)) in *. change (B2R (lm_exp lm x)) with y in EY. change (B2R x) with (bv x) in EY. set (v := bv x) in *.
  pose proof (Rabs_pos (v - s)) as E0. pose proof (Rabs_pos s) as A0. apply Rabs_le_inv in XB. apply Rabs_le_inv in SB.
  pose proof (exp_pos s) as PS. assert (ES : exp s <= exp A) by (apply exp_mono; lra).
  assert (EA : 1 <= exp A) by (rewrite <- exp_0 at 1; apply exp_mono; lra).
  assert (UP : exp (v - s) <= 1 + 2 * E).
  { assert (L : 1 - E <= exp (- E)) by (pose proof (exp_ineq1_le (- E)); lra). assert (M : exp (v - s) <= exp E) by (apply exp_mono; lra).
    assert (I : exp E * exp (- E) = 1) by (rewrite <- exp_plus, Rplus_opp_r; apply exp_0). pose proof (exp_pos E) as PE.
    assert (exp E * (1 - E) <= 1) by (rewrite <- I; apply Rmult_le_compat_l; lra).
    assert (1 <= (1 + 2 * E) * (1 - E)) by nra. 
    assert (exp E * (1 - E) <= (1 + 2 * E) * (1 - E)) by lra. apply Rmult_le_reg_r in H2; lra. }
  assert (DN : 1 - E <= exp (v - s)) by (pose proof (exp_ineq1_le (v - s)); lra).
  assert (EV : exp v = exp s * exp (v - s)) by (rewrite <- exp_plus; f_equal; ring).
  assert (D1 : Rabs (exp v - exp s) <= exp A * (2 * E)).
  { rewrite EV. replace (exp s * exp (v - s) - exp s) with (exp s * (exp (v - s) - 1)) by ring. rewrite Rabs_mult, (Rabs_pos_eq (exp s)) by lra.
    apply Rmult_le_compat; [lra|apply Rabs_pos|exact ES|]. apply Rabs_le. lra. }
  assert (D2 : exp v <= exp A * 2). { rewrite EV. apply Rmult_le_compat; [lra|pose proof (exp_pos (v - s)); lra|exact ES|lra]. }
  replace (y - exp s) with ((y - exp v) + (exp v - exp s)) by ring. eapply Rle_trans; [apply Rabs_triang|].
  assert (/ 10 ^ 36 <= 1 / 10 ^ 7) by lra. lra.
Qed.

Lemma elem_nth (s v : b32 -> b32) (zs ys : list b32) : Forall2 (fun z y => y = s z \/ y = v z) zs ys ->
  length ys = length zs /\ forall j, (j < length zs)%nat -> nth j ys b32_zero = s (nth j zs b32_zero) \/ nth j ys b32_zero = v (nth j zs b32_zero).
Proof.
  induction 1 as [|z y zs ys H F (L & IH)]; [split; [reflexivity|intros j Hj; cbn in Hj; lia]|].
  split; [cbn; congruence|]. intros [|j] Hj; [exact H|]. cbn [nth]. apply IH. cbn in Hj. lia.
Qed.

Section Layer.
  Variable lm : libm.
  Notation OP := (opsB32 lm).
  (** error of one application: y is within c roundings and e of f(z); f magnifies errors by at most q and
      magnitudes by q, plus b *)
  Lemma act_step (f : R -> R) q b c k a d v s y e : 0 <= q <= 1 -> 0 <= b -> 0 <= d ->
    (forall p r, Rabs (f p - f r) <= Rabs (p - r) * q) -> (forall p, Rabs (f p) <= Rabs p * q + b) ->
    approx k a d v s -> Rabs (y - f v) <= ((1 + u32) ^ c - 1) * Rabs (f v) + e ->
    approx (k + c) (a * q + b) ((1 + u32) ^ c * (d * q) + e) y (f s).
  Proof.
    intros Q B D L M (H & E) R. apply approx_rnd with (v := f v); [|exact R]. split.
    - eapply Rle_trans; [apply M|]. assert (Rabs s * q <= a * q) by (apply Rmult_le_compat_r; lra). lra.
    - eapply Rle_trans; [apply L|]. pose proof (up1 k). assert (Rabs (v - s) * q <= (((1 + u32) ^ k - 1) * a + d) * q) by (apply Rmult_le_compat_r; lra).
      assert (0 <= ((1 + u32) ^ k - 1) * b) by (apply Rmult_le_pos; lra). lra.
  Qed.

  Lemma act_err g k A D (zs hs' : list b32) (s : nat -> R) m :
    covered lm g -> width_ok g m (fun j => ((1 + u32) ^ k - 1) * A j + D j) -> length zs = m -> @act_rel OP (@exp256_lane OP) g zs hs' ->
    (forall j, (j < m)%nat -> fin (nth j zs b32_zero) = true /\ approx k (A j) (D j) (bv (nth j zs b32_zero)) (s j) /\
      0 <= D j /\ (1 + u32) ^ k * A j + D j <= top g) ->
    length hs' = m /\ forall j, (j < m)%nat ->
      fin (nth j hs' b32_zero) = true /\ 0 <= low_act g m A D j /\
      approx (k + act_roundings g) (abs_act g m A j) (low_act g m A D j) (bv (nth j hs' b32_zero)) (act_math g m s j).
  Proof.
    intros PG WD LZ HA HZ. pose proof u32_pos as U. pose proof eta32_pos as ET. pose proof (up1 3) as U3. pose proof (up1 7) as U7.
    assert (LOW : forall j, (j < m)%nat -> 0 <= low_act g m A D j).
    { intros j Hj. destruct (HZ j Hj) as (_ & _ & D0 & _). unfold low_act.
      assert (0 <= (1 + u32) ^ 7 * D j) by (apply Rmult_le_pos; lra). pose proof (pos_INR m). pose proof (maxf_pos m D).
      assert (0 <= (3 * INR m + 20) * u32) by (apply Rmult_le_pos; lra).
      assert (0 <= (1 + u32) ^ act_roundings g * (D j + eta32)) by (pose proof (up1 (act_roundings g)); apply Rmult_le_pos; lra).
      assert (0 <= exp (A j) * (2 * D j + 1 / 10 ^ 6)) by (apply Rmult_le_pos; [left; apply exp_pos|lra]).
      destruct g; lra. }
    destruct g; cbn [act_rel] in HA.
    - (* softplus *)
      destruct PG as (AE & AL). set (f := fun x : b32 => lm_log lm (Bplus mode_NE (lm_exp lm x) (b32_ofZ 1))). change (hs' = map f zs) in HA.
      subst hs'. split; [rewrite map_length; exact LZ|]. intros j Hj. destruct (HZ j Hj) as (FZ & AP & D0 & CAP). pose proof (approx_abs _ _ _ _ _ AP) as ZB.
      rewrite (nth_map32 f) by (rewrite LZ; exact Hj). unfold f. cbn [top] in CAP.
      destruct (softplus_R lm (nth j zs b32_zero) AE AL FZ ltac:(lra)) as (FY & EY). split; [exact FY|]. split; [apply LOW; exact Hj|].
      cbn [act_math act_math1 abs_act act_roundings low_act]. fold (softplus (s j)).
      eapply approx_mono; [apply (act_step softplus 1 1 7 k (A j) (D j) (bv (nth j zs b32_zero)) (s j) _ (5 / 10 ^ 7)); [lra|lra|exact D0| | |exact AP|exact EY]|lia|lra|lra].
      + intros p r. rewrite Rmult_1_r. apply softplus_lip.
      + intros p. rewrite Rmult_1_r. apply softplus_bnd.
    - (* softsign *)
      set (f := fun x : b32 => Bdiv mode_NE x (Bplus mode_NE (Babs x) (b32_ofZ 1))). change (hs' = map f zs) in HA.
      subst hs'. split; [rewrite map_length; exact LZ|]. intros j Hj. destruct (HZ j Hj) as (FZ & AP & D0 & CAP). pose proof (approx_abs _ _ _ _ _ AP) as ZB.
      rewrite (nth_map32 f) by (rewrite LZ; exact Hj). unfold f. cbn [top] in CAP.
      destruct (softsign_R (nth j zs b32_zero) FZ ltac:(lra)) as (FY & EY). split; [exact FY|]. split; [apply LOW; exact Hj|].
      cbn [act_math act_math1 abs_act act_roundings low_act].
      eapply approx_mono; [apply (act_step (fun p => p / (1 + Rabs p)) 1 0 3 k (A j) (D j) (bv (nth j zs b32_zero)) (s j) _ eta32); [lra|lra|exact D0| | |exact AP|exact EY]|lia|lra|].
      + intros p r. rewrite Rmult_1_r. apply softsign_lip.
      + intros p. rewrite Rmult_1_r, Rplus_0_r. apply softsign_bnd.
      + assert (1 * eta32 <= (1 + u32) ^ 3 * eta32) by (apply Rmult_le_compat_r; lra). lra.
    - (* hard sigmoid *)
      set (f := fun x : b32 => if Bltb x (b32_lit (-5) 2) then b32_zero else if Bltb (b32_lit 5 2) x then b32_ofZ 1
             else Bplus mode_NE (Bmult mode_NE (b32_lit 1 5) x) (b32_lit 1 2)).
      change (hs' = map f zs) in HA.
      subst hs'. split; [rewrite map_length; exact LZ|]. intros j Hj. destruct (HZ j Hj) as (FZ & AP & D0 & CAP). pose proof (approx_abs _ _ _ _ _ AP) as ZB.
      rewrite (nth_map32 f) by (rewrite LZ; exact Hj). destruct (hs_R (nth j zs b32_zero) FZ) as (FY & EY). fold (f (nth j zs b32_zero)) in FY, EY. split; [exact FY|]. split; [apply LOW; exact Hj|].
      cbn [act_math act_math1 abs_act act_roundings]. fold (hs (s j)). destruct AP as (SB & SE). set (z := bv (nth j zs b32_zero)) in *. split.
      + eapply Rle_trans; [apply hs_bnd|]. lra.
      + replace (bv (f (nth j zs b32_zero)) - hs (s j)) with ((bv (f (nth j zs b32_zero)) - hs z) + (hs z - hs (s j))) by ring.
        eapply Rle_trans; [apply Rabs_triang|]. eapply Rle_trans; [apply Rplus_le_compat; [exact EY|apply hs_lip]|].
        unfold low_act. cbn [act_roundings]. rewrite pow_add. pose proof (up1 k) as UK. set (q := (1 + u32) ^ k) in *. set (r := (1 + u32) ^ 3) in *.
        assert (RR : (r - 1) * (Rabs z / 5) <= (r - 1) * ((q * A j + D j) / 5)) by (apply Rmult_le_compat_l; lra).
        assert (Q1 : 0 <= (q - 1) * r) by (apply Rmult_le_pos; lra). assert (Q2 : 0 <= r * D j) by (apply Rmult_le_pos; lra).
        assert (Q3 : (1 + u32) * eta32 <= r * eta32). { apply Rmult_le_compat_r; [lra|]. pose proof (up_le 1 3 ltac:(lia)) as UL. rewrite pow_1 in UL. exact UL. }
        assert (E : (q * r - 1) * (A j / 5 + 1 / 2) + r * (D j + eta32) - ((r - 1) * ((q * A j + D j) / 5) + (r - 1) * (1 / 2) + r * eta32 + ((q - 1) * A j + D j) / 5)
          = (q - 1) * r * (1 / 2) + r * D j * (4 / 5)) by field.
        lra.
    - (* exponential *)
      cbn [covered] in PG. set (f := fun x : b32 => lm_exp lm x). change (hs' = map f zs) in HA.
      subst hs'. split; [rewrite map_length; exact LZ|]. intros j Hj. destruct (HZ j Hj) as (FZ & AP & D0 & CAP). pose proof (approx_abs _ _ _ _ _ AP) as ZB.
      rewrite (nth_map32 f) by (rewrite LZ; exact Hj). unfold f. cbn [top width_ok] in CAP, WD. specialize (WD j Hj). cbv beta in WD.
      assert (Z88 : bv (nth j zs b32_zero) <= 88) by (eapply Rle_trans; [apply Rle_abs|]; lra).
      destruct (exp_R lm (nth j zs b32_zero) (s j) (A j) _ PG FZ (proj1 AP) (proj2 AP) WD Z88) as (FY & EY).
      split; [exact FY|]. split; [apply LOW; exact Hj|].
      cbn [act_math act_math1 abs_act act_roundings low_act]. rewrite Nat.add_0_r. pose proof (proj1 AP) as SB. pose proof (exp_pos (A j)) as EA. pose proof (Rabs_pos (s j)) as S0. split.
      + pose proof (exp_pos (s j)) as ES. rewrite (Rabs_pos_eq (exp (s j))) by lra.
        assert (exp (s j) <= exp (A j)) by (apply exp_mono; pose proof (Rle_abs (s j)); lra).
        assert (0 <= exp (A j) * (2 * A j)) by (apply Rmult_le_pos; lra). lra.
      + eapply Rle_trans; [exact EY|]. pose proof (up1 k) as UK. set (q := (1 + u32) ^ k) in *.
        assert (0 <= (q - 1) * exp (A j)) by (apply Rmult_le_pos; lra). lra.
    - (* linear *)
      subst hs'. split; [exact LZ|]. intros j Hj. destruct (HZ j Hj) as (FZ & AP & D0 & CAP). split; [exact FZ|]. split; [apply LOW; exact Hj|].
      cbn [act_math act_math1 abs_act act_roundings low_act pow]. eapply approx_mono; [exact AP|lia|lra|lra].
    - (* relu *)
      destruct (elem_nth _ _ _ _ HA) as (LH & NJ). rewrite LZ in LH, NJ. split; [exact LH|]. intros j Hj. destruct (HZ j Hj) as (FZ & AP & D0 & CAP). specialize (NJ j Hj).
      destruct (relu_R (nth j zs b32_zero) FZ) as (F1 & E1 & F2 & E2).
      assert (FE : fin (nth j hs' b32_zero) = true /\ bv (nth j hs' b32_zero) = Rmax 0 (bv (nth j zs b32_zero))) by (destruct NJ as [-> | -> ]; split; assumption).
      destruct FE as (FE & EE). split; [exact FE|]. split; [apply LOW; exact Hj|]. rewrite EE. cbn [act_math act_math1 abs_act act_roundings low_act pow].
      eapply approx_mono; [apply (approx_lip (Rmax 0) k _ _ _ _ Rabs_max); [|exact AP]|lia|lra|lra].
      intros p. unfold Rmax. destruct Rle_dec; [lra|]. rewrite Rabs_R0. apply Rabs_pos.
    - (* softmax *)
      cbn [covered width_ok top] in PG, WD, HZ. destruct (softmax_R lm zs hs' PG) as (LH & SM).
      { apply Forall_forall. intros z Hz. destruct (In_nth _ _ b32_zero Hz) as (j & Hj & <-). rewrite LZ in Hj. destruct (HZ j Hj) as (FZ & AP & D0 & CAP).
        split; [exact FZ|]. pose proof (approx_abs _ _ _ _ _ AP). lra. }
      { rewrite LZ. exact WD. }
      { exact HA. }
      rewrite LZ in LH, SM. split; [exact LH|]. intros j Hj. destruct (SM j Hj) as (FY & EY). split; [exact FY|]. split; [apply LOW; exact Hj|].
      cbn [act_roundings]. rewrite Nat.add_0_r. unfold abs_act, low_act. pose proof (maxf_pos m A). split; [pose proof (softmax_bnd m s j Hj); lra|].
      set (w := vec (map (@B2R 24 128) zs)) in *.
      assert (DW : forall i, (i < m)%nat -> Rabs (w i - s i) <= ((1 + u32) ^ k - 1) * maxf m A + maxf m D).
      { intros i Hi. destruct (HZ i Hi) as (_ & (_ & AE) & _). assert (EW : w i = bv (nth i zs b32_zero)).
        { unfold w, vec. rewrite <- (map_nth (@B2R 24 128)). reflexivity. }
        rewrite EW. eapply Rle_trans; [exact AE|]. pose proof (maxf_ge m A i Hi). pose proof (maxf_ge m D i Hi). pose proof (up1 k).
        assert (((1 + u32) ^ k - 1) * A i <= ((1 + u32) ^ k - 1) * maxf m A) by (apply Rmult_le_compat_l; lra). lra. }
      pose proof (softmax_lip m w s j _ Hj DW) as SL. pose proof (up1 k) as UK.
      replace (bv (nth j hs' b32_zero) - act_math Softmax m s j) with
        ((bv (nth j hs' b32_zero) - act_math Softmax m w j) + (act_math Softmax m w j - act_math Softmax m s j)) by ring.
      eapply Rle_trans; [apply Rabs_triang|]. lra.
    - (* sigmoid *)
      destruct (elem_nth _ _ _ _ HA) as (LH & NJ). rewrite LZ in LH, NJ. split; [exact LH|]. intros j Hj. destruct (HZ j Hj) as (FZ & AP & D0 & CAP). specialize (NJ j Hj).
      assert (FE : fin (nth j hs' b32_zero) = true /\ Rabs (bv (nth j hs' b32_zero) - 1 / (1 + exp (- bv (nth j zs b32_zero)))) <= 23 / 10 ^ 8).
      { destruct NJ as [-> | -> ]; [exact (sigmoid_s_R lm _ PG FZ)|exact (sigmoid_v_R lm _ FZ)]. }
      destruct FE as (FE & EE). split; [exact FE|]. split; [apply LOW; exact Hj|].
      cbn [act_math act_math1 abs_act act_roundings low_act]. fold (sigma (s j)). fold (sigma (bv (nth j zs b32_zero))) in EE.
      eapply approx_mono; [apply (act_step sigma (1/4) (1/2) 0 k (A j) (D j) (bv (nth j zs b32_zero)) (s j) _ (23 / 10 ^ 8)); [lra|lra|exact D0| | |exact AP|]|lia|lra|].
      + intros p r. eapply Rle_trans; [apply sigma_lip|]. lra.
      + intros p. eapply Rle_trans; [apply sigma_bnd|]. lra.
      + cbn [pow]. lra.
      + cbn [pow]. lra.
    - (* tanh *)
      destruct (elem_nth _ _ _ _ HA) as (LH & NJ). rewrite LZ in LH, NJ. split; [exact LH|]. intros j Hj. destruct (HZ j Hj) as (FZ & AP & D0 & CAP). specialize (NJ j Hj).
      assert (FE : fin (nth j hs' b32_zero) = true /\ Rabs (bv (nth j hs' b32_zero) - tanhR (bv (nth j zs b32_zero))) <= 6 / 10 ^ 7).
      { destruct NJ as [-> | -> ]; [exact (PG _ FZ)|exact (tanh_v_R lm _ FZ)]. }
      destruct FE as (FE & EE). split; [exact FE|]. split; [apply LOW; exact Hj|].
      cbn [act_math act_math1 abs_act act_roundings low_act]. fold (tanhR (s j)).
      eapply approx_mono; [apply (act_step tanhR 1 0 0 k (A j) (D j) (bv (nth j zs b32_zero)) (s j) _ (6 / 10 ^ 7)); [lra|lra|exact D0| | |exact AP|]|lia|lra|].
      + intros p r. rewrite Rmult_1_r. apply tanh_lip.
      + intros p. rewrite Rmult_1_r, Rplus_0_r. apply tanh_bnd.
      + cbn [pow]. lra.
      + cbn [pow]. lra.
  Qed.

  (** ** the network *)
  Fixpoint net_par (net : list (act * list b32 * list b32)) (n : nat) (th : nat -> R) : Prop :=
    match net with
    | [] => True
    | (g, w, b) :: r =>
        (forall j, (j < length b)%nat -> th j = bv (nth j b b32_zero)) /\
        (forall q, (q < n * length b)%nat -> th (length b + q)%nat = bv (nth q w b32_zero)) /\
        net_par r (length b) (fun k => th (length b + n * length b + k)%nat)
    end.

  Lemma low_lin_pos n m th d j : (forall i, (i < n)%nat -> 0 <= d i) -> 0 <= low_lin n m th d j.
  Proof.
    intros H. unfold low_lin. apply Rmult_le_pos; [pose proof (up1 (n + 1)); lra|]. pose proof eta32_pos.
    clear -H H0. induction n as [|n IH]; cbn [sumf]; [lra|]. pose proof (Rabs_pos (th (m + (n * m + j))%nat)).
    assert (0 <= d n * Rabs (th (m + (n * m + j))%nat)) by (apply Rmult_le_pos; [apply H; lia|lra]).
    assert (0 <= sumf n (fun i => d i * Rabs (th (m + (i * m + j))%nat) + eta32)) by (apply IH; intros i Hi; apply H; lia). lra.
  Qed.

  Lemma top_le g : top g <= 2 ^ 127.
  Proof. pose proof big127. assert (2 ^ 126 <= 2 ^ 127) by (apply Rle_pow; [lra|lia]). destruct g; cbn [top]; lra. Qed.
  Lemma net_err fma : forall (net : list (act * list b32 * list b32)) k (xs ys : list b32) (th a d s : nat -> R),
    let n := length xs in
    @net_rel OP (@exp256_lane OP) fma net xs ys ->
    Forall (fun t => covered lm (fst (fst t)) /\ Forall (fun x => fin x = true) (snd (fst t)) /\ Forall (fun x => fin x = true) (snd t)) net ->
    Forall (fun x => fin x = true) xs -> net_par net n th ->
    (forall i, (i < n)%nat -> 0 <= d i /\ approx k (a i) (d i) (bv (nth i xs b32_zero)) (s i)) ->
    in_range (shape_b32 net) n k th a d ->
    length ys = n_outputs (shape_b32 net) n /\ Forall (fun x => fin x = true) ys /\
    forall j, (j < n_outputs (shape_b32 net) n)%nat ->
      approx (k + roundings (shape_b32 net) n) (abs_eval (shape_b32 net) n th a j) (low_eval (shape_b32 net) n th a d j)
        (bv (nth j ys b32_zero)) (eval (shape_b32 net) n th s j).
  Proof.
    induction net as [|[[g w] b] net IH]; intros k xs ys th a d s n HN HF FX HP HX HR.
    - cbn [net_rel] in HN. subst ys. split; [reflexivity|]. split; [exact FX|]. intros j Hj. cbn in Hj |- *. rewrite Nat.add_0_r. exact (proj2 (HX j Hj)).
    - cbn [net_rel] in HN. destruct HN as (zs & hs1 & HL & HA & HN). change (@F OP) with b32 in *.
      pose proof (Forall_inv HF) as (PG & FW & FB). apply Forall_inv_tail in HF. cbn [fst snd] in PG, FW, FB.
      destruct HP as (TB & TW & HP). cbn [shape_b32 map fst snd] in HR |- *. fold (shape_b32 net) in HR |- *. cbn [in_range] in HR. destruct HR as (HW & HC & HR).
      set (m := length b) in *.
      assert (LIN : forall j, (j < m)%nat -> fin (nth j zs b32_zero) = true /\
        approx (k + n + 1) (abs_lin n m th a j) (low_lin n m th d j) (bv (nth j zs b32_zero)) (zf n m th s j)).
      { intros j Hj. apply (lin_err lm fma k m w b xs zs th a d s HL FX FW FB TB TW HX j Hj). eapply Rle_trans; [apply HC; exact Hj|apply top_le]. }
      assert (LZ : length zs = m) by exact (proj1 HL).
      assert (DP : forall j, 0 <= low_lin n m th d j) by (intros j; apply low_lin_pos; intros i Hi; apply HX; exact Hi).
      destruct (act_err g (k + n + 1) (abs_lin n m th a) (low_lin n m th d) zs hs1 (zf n m th s) m PG HW LZ HA) as (LH & ACT').
      { intros j Hj. destruct (LIN j Hj) as (FZ & AZ). split; [exact FZ|]. split; [exact AZ|]. split; [apply DP|apply HC; exact Hj]. }
      assert (FH : Forall (fun x => fin x = true) hs1).
      { apply Forall_forall. intros x Hx. destruct (In_nth _ _ b32_zero Hx) as (j & Hj & <-). apply ACT'. lia. }
      specialize (IH (k + n + 1 + act_roundings g)%nat hs1 ys (fun q => th (m + n * m + q)%nat)
        (abs_act g m (abs_lin n m th a)) (low_act g m (abs_lin n m th a) (low_lin n m th d)) (act_math g m (zf n m th s))).
      cbv zeta in IH. rewrite LH in IH. destruct (IH HN HF FH HP) as (LY & FY & EY).
      + intros i Hi. destruct (ACT' i Hi) as (_ & D0 & AP). split; assumption.
      + exact HR.
      + split; [exact LY|]. split; [exact FY|]. intros j Hj. specialize (EY j Hj).
        cbn [roundings abs_eval low_eval eval].
        replace (k + (n + 1 + act_roundings g + roundings (shape_b32 net) m))%nat with (k + n + 1 + act_roundings g + roundings (shape_b32 net) m)%nat by lia.
        exact EY.
  Qed.
End Layer.
