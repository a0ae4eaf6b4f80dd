(** DivD.v -- a / (b * c) computed in double and rounded to float: two roundings *)
From Flocq Require Import Core BinarySingleNaN Relative.
From Coq Require Import ZArith Bool List Arith Reals Lia Lra.
From Verif Require Import Base Ops OpsB32 B32Facts MetricB32 SpecRound RoundProofs.
Import ListNotations.
Local Open Scope R_scope.

Notation fin64 := (@is_finite 53 1024).
Notation dv := (@B2R 53 1024).
Notation rnd64 := (round radix2 (FLT_exp (-1074) 53) ZnearestE).

Lemma pow2_R n : bpow radix2 (Z.of_nat n) = 2 ^ n.
Proof. rewrite bpow_powerRZ. cbn [radix_val radix2]. rewrite <- pow_powerRZ. reflexivity. Qed.

Lemma fmt_of (x : b32) : exists f : float radix2, bv x = F2R f /\ (Z.abs (Fnum f) < 2 ^ 24)%Z /\ (-149 <= Fexp f)%Z.
Proof.
  assert (H : FLT_format radix2 (-149) 24 (bv x)) by (apply FLT_format_generic; [reflexivity|exact (bv_fmt x)]).
  destruct H as [f H1 H2 H3]. exists f. auto.
Qed.
Lemma fmt64_scale m e : (Z.abs m < 2 ^ 53)%Z -> (-1074 <= e)%Z -> generic_format radix2 (FLT_exp (-1074) 53) (F2R (Float radix2 m e)).
Proof. intros H1 H2. apply generic_format_FLT. exists (Float radix2 m e); auto. Qed.
Lemma fmt64_float (x : b32) : generic_format radix2 (FLT_exp (-1074) 53) (bv x).
Proof. destruct (fmt_of x) as ([m e] & E & H1 & H2). cbn [Fnum Fexp] in *. rewrite E. apply fmt64_scale; lia. Qed.
(** the product of two floats is a double *)
Lemma fmt64_mul (x y : b32) : generic_format radix2 (FLT_exp (-1074) 53) (bv x * bv y).
Proof.
  destruct (fmt_of x) as ([m e] & E & H1 & H2), (fmt_of y) as ([m' e'] & E' & H1' & H2'). cbn [Fnum Fexp] in *.
  rewrite E, E'. replace (F2R (Float radix2 m e) * F2R (Float radix2 m' e')) with (F2R (Float radix2 (m * m') (e + e'))) by (unfold F2R; cbn [Fnum Fexp]; rewrite mult_IZR, bpow_plus; ring). apply fmt64_scale; [|lia]. rewrite Z.abs_mul. nia.
Qed.
Lemma float_lt (x : b32) : Rabs (bv x) < bpow radix2 128. Proof. apply abs_B2R_lt_emax. Qed.

Lemma to_b64_R (x : b32) : fin x = true -> fin64 (to_b64 x) = true /\ dv (to_b64 x) = bv x.
Proof.
  destruct x as [s|s| |s m e B]; intros Fx; try discriminate Fx; [split; reflexivity|]. unfold to_b64.
  pose proof (binary_normalize_correct 53 1024 prec_gt_0_64 prec_lt_emax_64 mode_NE (cond_Zopp s (Zpos m)) e s) as C. cbv zeta in C.
  set (y := binary_normalize 53 1024 prec_gt_0_64 prec_lt_emax_64 mode_NE (cond_Zopp s (Zpos m)) e s) in *.
  change (F2R (Float radix2 (cond_Zopp s (Zpos m)) e)) with (bv (B754_finite s m e B)) in C.
  rewrite round_generic in C; [|apply valid_rnd_round_mode|exact (fmt64_float (B754_finite s m e B))].
  rewrite Rlt_bool_true in C by (eapply Rlt_trans; [apply float_lt|apply bpow_lt; lia]).
  destruct C as (C1 & C2 & _). split; assumption.
Qed.
Lemma of_b64_R (y : b64) : fin64 y = true -> Rabs (dv y) <= 2 ^ 127 + 1 ->
  fin (of_b64 y) = true /\ Rabs (bv (of_b64 y) - dv y) <= u32 * Rabs (dv y) + eta32.
Proof.
  destruct y as [s|s| |s m e B]; intros Fy HY; try discriminate Fy.
  - split; [reflexivity|]. cbn [of_b64 B2R]. unfold Rminus. rewrite Rplus_0_l, Ropp_0, Rabs_R0. pose proof eta32_pos. lra.
  - unfold of_b64. pose proof (binary_normalize_correct 24 128 prec_gt_0_32 prec_lt_emax_32 mode_NE (cond_Zopp s (Zpos m)) e s) as C. cbv zeta in C.
    set (x := binary_normalize 24 128 prec_gt_0_32 prec_lt_emax_32 mode_NE (cond_Zopp s (Zpos m)) e s) in *.
    change (F2R (Float radix2 (cond_Zopp s (Zpos m)) e)) with (dv (B754_finite s m e B)) in C.
    set (v := dv (B754_finite s m e B)) in *. rewrite Rlt_bool_true in C by (apply rnd_range; exact HY).
    destruct C as (C1 & C2 & _). split; [exact C2|]. rewrite C1. apply rnd_err.
Qed.

Lemma rnd64_err x : Rabs (rnd64 x - x) <= u32 * u32 * Rabs x + eta32.
Proof.
  destruct (error_N_FLT radix2 (-1074) 53 eq_refl (fun z => negb (Z.even z)) x) as (e & t & He & Ht & _ & E).
  change (Znearest (fun z => negb (Z.even z))) with ZnearestE in E. rewrite E. replace (x * (1 + e) + t - x) with (x * e + t) by ring.
  eapply Rle_trans; [apply Rabs_triang|]. rewrite Rabs_mult.
  assert (U : / 2 * bpow radix2 (-53 + 1) <= u32 * u32).
  { unfold u32. rewrite <- Rinv_mult, <- pow_add. change (-53 + 1)%Z with (Z.opp (Z.of_nat 52)). rewrite bpow_opp, pow2_R, <- Rinv_mult.
    apply Rinv_le; [apply pow_lt; lra|]. change (24 + 24)%nat with 48%nat. replace (2 * 2 ^ 52) with (2 ^ 53) by (change 53%nat with (S 52); cbn [pow]; ring). apply Rle_pow; [lra|lia]. }
  assert (T : / 2 * bpow radix2 (-1074) <= eta32).
  { unfold eta32. replace (/ 2) with (bpow radix2 (-1)) by (cbn; lra). rewrite <- bpow_plus. rewrite <- (pow2_R 150), <- bpow_opp. apply bpow_le. lia. }
  pose proof (Rabs_pos x). assert (He' : Rabs e <= u32 * u32) by (eapply Rle_trans; [exact He|exact U]). assert (Ht' : Rabs t <= eta32) by (eapply Rle_trans; [exact Ht|exact T]).
  assert (Rabs x * Rabs e <= Rabs x * (u32 * u32)) by (apply Rmult_le_compat_l; lra). lra.
Qed.

Lemma divd_R (a b c : b32) : fin a = true -> fin b = true -> fin c = true -> bv b * bv c <> 0 -> Rabs (bv a / (bv b * bv c)) <= 2 ^ 126 ->
  fin (b32_divd a b c) = true /\
  Rabs (bv (b32_divd a b c) - bv a / (bv b * bv c)) <= ((1 + u32) ^ 2 - 1) * Rabs (bv a / (bv b * bv c)) + 3 * eta32.
Proof.
  intros Fa Fb Fc Hbc HQ. destruct (to_b64_R a Fa) as (Fa' & Ea), (to_b64_R b Fb) as (Fb' & Eb), (to_b64_R c Fc) as (Fc' & Ec).
  unfold b32_divd. set (a' := to_b64 a) in *. set (b' := to_b64 b) in *. set (c' := to_b64 c) in *. clearbody a' b' c'.
  assert (PM : fin64 (Bmult mode_NE b' c') = true /\ dv (Bmult mode_NE b' c') = bv b * bv c).
  { pose proof (Bmult_correct 53 1024 _ _ mode_NE b' c') as C. rewrite Eb, Ec in C.
    rewrite round_generic in C; [|apply valid_rnd_round_mode|exact (fmt64_mul b c)].
    rewrite Rlt_bool_true in C.
    - destruct C as (C1 & C2 & _). split; [rewrite C2, Fb', Fc'; reflexivity|exact C1].
    - rewrite Rabs_mult. apply Rlt_le_trans with (bpow radix2 128 * bpow radix2 128).
      + apply Rmult_le_0_lt_compat; try apply Rabs_pos; apply float_lt.
      + rewrite <- bpow_plus. apply bpow_le. lia. }
  destruct PM as (FP & EP). set (p := Bmult mode_NE b' c') in *. clearbody p.
  set (q := bv a / (bv b * bv c)) in *. pose proof u32_pos as U. pose proof u32_small as US. pose proof eta32_pos as ET. pose proof eta32_small as ETS. pose proof big127 as BG. pose proof (Rabs_pos q) as PQ.
  assert (P7 : 2 ^ 127 = 2 * 2 ^ 126) by (change 127%nat with (S 126); cbn [pow]; ring).
  pose proof (rnd64_err q) as R64. set (w := rnd64 q) in *.
  assert (UU : u32 * u32 <= u32) by nra. assert (UQ : u32 * u32 * Rabs q <= 1 * Rabs q) by (apply Rmult_le_compat_r; lra).
  assert (W : Rabs w <= (1 + u32 * u32) * Rabs q + eta32). { replace w with ((w - q) + q) by ring. eapply Rle_trans; [apply Rabs_triang|]. lra. }
  assert (PD : fin64 (Bdiv mode_NE a' p) = true /\ dv (Bdiv mode_NE a' p) = w).
  { assert (Hp : dv p <> 0) by (rewrite EP; exact Hbc). pose proof (Bdiv_correct 53 1024 _ _ mode_NE a' p Hp) as C. rewrite Ea, EP in C.
    change (round radix2 (SpecFloat.fexp 53 1024) (round_mode mode_NE) (bv a / (bv b * bv c))) with w in C.
    rewrite Rlt_bool_true in C.
    - destruct C as (C1 & C2 & _). split; [rewrite C2; exact Fa'|exact C1].
    - apply Rlt_trans with (bpow radix2 128); [|apply bpow_lt; lia]. rewrite <- top128. lra. }
  destruct PD as (FD & ED). set (d := Bdiv mode_NE a' p) in *. clearbody d.
  destruct (of_b64_R d FD) as (FR & ER). { rewrite ED. lra. }
  split; [exact FR|]. rewrite ED in ER. replace (bv (of_b64 d) - q) with ((bv (of_b64 d) - w) + (w - q)) by ring.
  eapply Rle_trans; [apply Rabs_triang|]. cbn [pow].
  assert (UW : u32 * Rabs w <= u32 * ((1 + u32 * u32) * Rabs q + eta32)) by (apply Rmult_le_compat_l; lra).
  assert (UE : u32 * eta32 <= 1 * eta32) by (apply Rmult_le_compat_r; lra).
  assert (U3 : u32 * (u32 * u32) * Rabs q <= u32 * 1 * Rabs q) by (apply Rmult_le_compat_r; [lra|]; apply Rmult_le_compat_l; lra). nra.
Qed.
