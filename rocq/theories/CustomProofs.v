(** CustomProofs.v -- the activation function of the shared object *)
From Coquelicot Require Import Coquelicot.
From Flocq Require Import Core BinarySingleNaN Relative.
From Coq Require Import ZArith Bool List Arith Reals Lia Lra.
From Verif Require Import Base Ops OpsB32 B32Facts MetricB32 InitProofs SpecReal SpecRound SpecLibm RoundProofs DivD Exp256B32 ActReal ActB32 Custom.
Import ListNotations.
Local Open Scope R_scope.

Lemma exp_abs_le c : sigma c * (1 - sigma c) <= exp (- Rabs c).
Proof.
  unfold sigma. pose proof (exp_pos (- c)) as P. set (e := exp (- c)) in *.
  assert (H : 1 / (1 + e) * (1 - 1 / (1 + e)) = e / ((1 + e) * (1 + e))) by (field; lra). rewrite H.
  assert (I1 : / ((1 + e) * (1 + e)) <= 1) by (rewrite <- Rinv_1; apply Rinv_le_contravar; nra).
  unfold Rabs. destruct (Rcase_abs c) as [L|L].
  - rewrite Ropp_involutive. assert (E : exp c = / e) by (unfold e; rewrite exp_Ropp, Rinv_inv; reflexivity). rewrite E.
    apply Rmult_le_reg_r with ((1 + e) * (1 + e) * e); [apply Rmult_lt_0_compat; nra|].
    replace (e / ((1 + e) * (1 + e)) * ((1 + e) * (1 + e) * e)) with (e * e) by (field; lra).
    replace (/ e * ((1 + e) * (1 + e) * e)) with ((1 + e) * (1 + e)) by (field; lra). nra.
  - fold e. unfold Rdiv. nra.
Qed.
(** a relative error of the argument is an absolute error of the value *)
Lemma sigma_rel p q e h : 0 <= e <= 1/2 -> 0 <= h <= 1 -> Rabs (p - q) <= e * Rabs q + h -> Rabs (sigma p - sigma q) <= e / (1 - e) + h.
Proof.
  intros He Hh H. destruct (MVT_gen sigma q p (fun x => sigma x * (1 - sigma x))) as (c & B & E).
  - intros x _. apply sigma_derive.
  - intros x _. apply derivable_continuous_pt. exists (sigma x * (1 - sigma x)). apply is_derive_Reals, sigma_derive.
  - rewrite E, Rabs_mult. pose proof (sigma_pos c) as SP. rewrite (Rabs_pos_eq (sigma c * (1 - sigma c))) by (apply Rmult_le_pos; lra).
    pose proof (Rabs_pos q) as PQ. pose proof (Rabs_pos (p - q)) as PPQ.
    assert (CQ : Rabs (c - q) <= Rabs (p - q)).
    { revert B. unfold Rmin, Rmax. destruct (Rle_dec q p); intros B; unfold Rabs; repeat destruct (Rcase_abs _); lra. }
    assert (LC : (1 - e) * Rabs q - h <= Rabs c). { pose proof (Rabs_triang (q - c) c) as T. replace (q - c + c) with q in T by ring. rewrite (Rabs_minus_sym q c) in T. lra. }
    pose proof (exp_abs_le c) as X. pose proof (exp_pos (- Rabs c)) as XP. set (w := exp (- Rabs c)) in *.
    assert (X1 : w * (1 + Rabs c) <= 1). { unfold w. rewrite exp_Ropp. apply Rmult_le_reg_l with (exp (Rabs c)); [apply exp_pos|]. rewrite <- Rmult_assoc, Rinv_r by (apply Rgt_not_eq, exp_pos). pose proof (exp_ineq1_le (Rabs c)). lra. }
    assert (W1 : w <= 1) by (pose proof (Rabs_pos c); nra).
    assert (X2 : w * ((1 - e) * Rabs q) <= 1) by nra.
    apply Rle_trans with (w * (e * Rabs q + h)).
    + apply Rmult_le_compat; try lra. apply Rmult_le_pos; lra.
    + assert (X3 : w * Rabs q <= / (1 - e)). { apply Rmult_le_reg_r with (1 - e); [lra|]. rewrite Rinv_l by lra. lra. }
      assert (e * (w * Rabs q) <= e * / (1 - e)) by (apply Rmult_le_compat_l; lra). unfold Rdiv. nra.
Qed.

Definition b75 : R := bpow radix2 (-1075).
Lemma b75_pos : 0 < b75. Proof. apply bpow_gt_0. Qed.
Lemma b75_small : 2 ^ 100 * b75 <= / 2 ^ 10 * eta32.
Proof.
  unfold b75, eta32. rewrite <- !pow2_R, <- !bpow_opp, <- !bpow_plus. apply bpow_le. lia.
Qed.
Lemma rnd64_fine x : Rabs (rnd64 x - x) <= u32 * u32 * Rabs x + b75.
Proof.
  destruct (error_N_FLT radix2 (-1074) 53 eq_refl (fun z => negb (Z.even z)) x) as (e & t & He & Ht & _ & E).
  change (Znearest (fun z => negb (Z.even z))) with ZnearestE in E. rewrite E. replace (x * (1 + e) + t - x) with (x * e + t) by ring.
  eapply Rle_trans; [apply Rabs_triang|]. rewrite Rabs_mult.
  assert (U : / 2 * bpow radix2 (-53 + 1) <= u32 * u32).
  { unfold u32. rewrite <- Rinv_mult, <- pow_add. change (-53 + 1)%Z with (Z.opp (Z.of_nat 52)). rewrite bpow_opp, pow2_R, <- Rinv_mult.
    apply Rinv_le; [apply pow_lt; lra|]. change (24 + 24)%nat with 48%nat. replace (2 * 2 ^ 52) with (2 ^ 53) by (change 53%nat with (S 52); cbn [pow]; ring). apply Rle_pow; [lra|lia]. }
  assert (T : / 2 * bpow radix2 (-1074) = b75).
  { unfold b75. replace (/ 2) with (bpow radix2 (-1)) by (cbn; lra). rewrite <- bpow_plus. reflexivity. }
  pose proof (Rabs_pos x). assert (He' : Rabs e <= u32 * u32) by (eapply Rle_trans; [exact He|exact U]). rewrite T in Ht.
  assert (Rabs x * Rabs e <= Rabs x * (u32 * u32)) by (apply Rmult_le_compat_l; lra). lra.
Qed.
Lemma uu : u32 * u32 <= / 10 ^ 14.
Proof. rewrite u32_val. lra. Qed.
Lemma b75_1 : b75 <= 1. Proof. unfold b75. change 1 with (bpow radix2 0). apply bpow_le. lia. Qed.
Lemma mult64_R (a b : b64) : fin64 a = true -> fin64 b = true -> Rabs (dv a * dv b) <= 2 ^ 200 ->
  fin64 (Bmult mode_NE a b) = true /\ Rabs (dv (Bmult mode_NE a b) - dv a * dv b) <= / 10 ^ 14 * Rabs (dv a * dv b) + b75.
Proof.
  intros Fa Fb H. pose proof (Bmult_correct 53 1024 _ _ mode_NE a b) as C. pose proof (rnd64_fine (dv a * dv b)) as R.
  change (round radix2 (SpecFloat.fexp 53 1024) (round_mode mode_NE) (dv a * dv b)) with (rnd64 (dv a * dv b)) in C.
  set (t := dv a * dv b) in *. pose proof (Rabs_pos t) as PT. pose proof uu as UU. pose proof b75_1.
  assert (R2 : Rabs (rnd64 t - t) <= / 10 ^ 14 * Rabs t + b75). { assert (u32 * u32 * Rabs t <= / 10 ^ 14 * Rabs t) by (apply Rmult_le_compat_r; lra). lra. }
  rewrite Rlt_bool_true in C.
  - destruct C as (C1 & C2 & _). rewrite C1, C2, Fa, Fb. auto.
  - assert (P : 1 <= 2 ^ 200) by (apply pow_R1_Rle; lra). apply Rle_lt_trans with (2 ^ 202).
    + pose proof (Rabs_triang (rnd64 t - t) t) as T. replace (rnd64 t - t + t) with (rnd64 t) in T by ring. replace (2 ^ 202) with (4 * 2 ^ 200) by (change 202%nat with (2 + 200)%nat; rewrite pow_add; ring). lra.
    + rewrite <- pow2_R. apply bpow_lt. reflexivity.
Qed.
Lemma float_le (x : b32) : Rabs (bv x) <= 2 ^ 128.
Proof. left. rewrite <- pow2_R. apply float_lt. Qed.

Lemma scaled_sigmoid1_R lm (s : b64) k (x : b32) : accurate_exp (lm_exp lm) -> fin64 s = true -> Rabs k <= 1/4 -> Rabs (dv s - k) <= / 10 ^ 12 * Rabs k ->
  fin x = true ->
  fin (scaled_sigmoid1 lm s x) = true /\ Rabs (bv (scaled_sigmoid1 lm s x) - 1 / (1 + exp (- (k * bv x)))) <= 3 / 10 ^ 7.
Proof.
  intros A Fs Hk Hs Fx. destruct (to_b64_R x Fx) as (Fx' & Ex). pose proof (float_le x) as BX. pose proof (Rabs_pos (bv x)) as PX. pose proof (Rabs_pos k) as PK.
  assert (P128 : 2 ^ 128 = 2 * 2 ^ 127) by (change 128%nat with (S 127); cbn [pow]; ring). pose proof big127 as BG.
  set (t := k * bv x). assert (AT : Rabs t = Rabs k * Rabs (bv x)) by apply Rabs_mult. assert (BT : Rabs t <= 2 ^ 127 / 2) by (rewrite AT; nra).
  assert (SX : Rabs (dv (Bopp s) * dv (to_b64 x) - - t) <= / 10 ^ 12 * Rabs t).
  { rewrite B2R_Bopp, Ex. replace (- dv s * bv x - - t) with (- ((dv s - k) * bv x)) by (unfold t; ring). rewrite Rabs_Ropp, Rabs_mult, AT, <- Rmult_assoc. apply Rmult_le_compat_r; lra. }
  set (w := dv (Bopp s) * dv (to_b64 x)) in *. pose proof (Rabs_pos t) as PT.
  assert (W : Rabs w <= (1 + / 10 ^ 12) * Rabs t). { pose proof (Rabs_triang (w - - t) (- t)) as T. replace (w - - t + - t) with w in T by ring. rewrite Rabs_Ropp in T. lra. }
  assert (B200 : 2 ^ 127 <= 2 ^ 200) by (apply Rle_pow; [lra|lia]).
  destruct (mult64_R (Bopp s) (to_b64 x)) as (FM & EM); [rewrite is_finite_Bopp; exact Fs|exact Fx'|fold w; lra|]. fold w in EM.
  set (m := Bmult mode_NE (Bopp s) (to_b64 x)) in *. pose proof b75_small as BS. pose proof b75_pos as BP. pose proof eta32_pos as EP. pose proof eta32_small as ES. pose proof b75_1 as B1.
  assert (BE : b75 <= eta32). { assert (1 <= 2 ^ 100) by (apply pow_R1_Rle; lra). assert (1 * b75 <= 2 ^ 100 * b75) by (apply Rmult_le_compat_r; lra). lra. }
  assert (M1 : Rabs (dv m - - t) <= 2 * / 10 ^ 12 * Rabs t + eta32). { replace (dv m - - t) with ((dv m - w) + (w - - t)) by ring. eapply Rle_trans; [apply Rabs_triang|]. lra. }
  assert (M2 : Rabs (dv m) <= (1 + 2 * / 10 ^ 12) * Rabs t + eta32). { pose proof (Rabs_triang (dv m - - t) (- t)) as T. replace (dv m - - t + - t) with (dv m) in T by ring. rewrite Rabs_Ropp in T. lra. }
  destruct (of_b64_R m FM) as (FQ & EQ). { lra. }
  set (q := of_b64 m) in *. pose proof u32_val as U.
  assert (Q : Rabs (bv q - - t) <= 62 / 10 ^ 9 * Rabs t + 3 * eta32). { replace (bv q - - t) with ((bv q - dv m) + (dv m - - t)) by ring. eapply Rle_trans; [apply Rabs_triang|]. rewrite U in EQ. lra. }
  destruct (div_exp (lm_exp lm) (b32_ofZ 1) q A one_fin) as (FY & EY); rewrite ?one_R; try lra; try apply one_sign; [exact FQ|]. cbv zeta in *. rewrite one_R in EY.
  unfold scaled_sigmoid1. fold m. fold q. split; [exact FY|]. fold t.
  assert (S : Rabs (sigma (- bv q) - sigma t) <= (62 / 10 ^ 9) / (1 - 62 / 10 ^ 9) + 3 * eta32).
  { apply sigma_rel; [lra|lra|]. replace (- bv q - t) with (- (bv q - - t)) by ring. rewrite Rabs_Ropp. exact Q. }
  unfold sigma in S. rewrite Ropp_involutive in S. pose proof eta32_tiny as ET.
  match goal with |- Rabs (?y - ?z) <= _ => replace (y - z) with ((y - 1 / (1 + exp (bv q))) + (1 / (1 + exp (bv q)) - z)) by ring end.
  eapply Rle_trans; [apply Rabs_triang|]. lra.
Qed.

Lemma one_minus_R (a : b32) : fin a = true -> 0 <= bv a <= 1 -> fin (Bminus mode_NE (b32_ofZ 1) a) = true /\
  Rabs (bv (Bminus mode_NE (b32_ofZ 1) a) - (1 - bv a)) <= u32 * (1 - bv a).
Proof.
  intros Fa B. pose proof (rnd_plus_err (b32_ofZ 1) (Bopp a)) as R. rewrite B2R_Bopp, one_R in R. replace (1 + - bv a) with (1 - bv a) in R by ring. rewrite (Rabs_pos_eq (1 - bv a)) in R by lra.
  pose proof (Bminus_correct 24 128 _ _ mode_NE (b32_ofZ 1) a one_fin Fa) as C. rewrite one_R in C.
  rewrite Rlt_bool_true in C. { destruct C as (C1 & C2 & _). rewrite C1. auto. }
  rewrite <- top128. pose proof big127. pose proof u32_val as U. rewrite U in R. apply Rabs_le_between in R. apply Rabs_lt. lra.
Qed.
Lemma scaled_sigmoid_d1_R (s : b64) k (a d : b32) : fin64 s = true -> Rabs k <= 1/4 -> Rabs (dv s - k) <= / 10 ^ 12 * Rabs k ->
  fin a = true -> 0 <= bv a <= 1 -> fin d = true -> Rabs (bv d) <= 2 ^ 100 ->
  fin (scaled_sigmoid_d1 s a d) = true /\
  Rabs (bv (scaled_sigmoid_d1 s a d) - bv d * (k * (bv a * (1 - bv a)))) <= 13 / 10 ^ 8 * Rabs (bv d * (k * (bv a * (1 - bv a)))) + 2 * eta32.
Proof.
  intros Fs Hk Hs Fa Ba Fd Bd. destruct (to_b64_R a Fa) as (Fa' & Ea), (to_b64_R d Fd) as (Fd' & Ed).
  destruct (one_minus_R a Fa Ba) as (Fm & Em). set (m := Bminus mode_NE (b32_ofZ 1) a) in *. destruct (to_b64_R m Fm) as (Fm' & Em').
  unfold scaled_sigmoid_d1. fold m. set (a' := to_b64 a) in *. set (d' := to_b64 d) in *. set (m' := to_b64 m) in *. clearbody a' d' m' m.
  pose proof u32_val as U. rewrite U in Em. pose proof (Rabs_pos k) as PK. pose proof b75_small as BS. pose proof b75_pos as BP. pose proof eta32_pos as EP. pose proof eta32_small as ES. pose proof b75_1 as B1.
  set (x := bv a) in *. set (y := 1 - x) in *. assert (Y : 0 <= y <= 1) by (unfold y; lra).
  assert (M0 : Rabs (bv m) <= (1 + 6 / 10 ^ 8) * y). { pose proof (Rabs_triang (bv m - y) y) as T. replace (bv m - y + y) with (bv m) in T by ring. rewrite (Rabs_pos_eq y) in T by lra. lra. }
  assert (P100 : 2 <= 2 ^ 100). { change 100%nat with (1 + 99)%nat. rewrite pow_add. assert (1 <= 2 ^ 99) by (apply pow_R1_Rle; lra). nra. }
  assert (B200 : 2 ^ 100 * 2 ^ 100 = 2 ^ 200) by (rewrite <- pow_add; reflexivity).
  (* s * a *)
  assert (S1 : Rabs (dv s * dv a' - k * x) <= / 10 ^ 12 * (Rabs k * x)).
  { rewrite Ea. fold x. replace (dv s * x - k * x) with ((dv s - k) * x) by ring. rewrite Rabs_mult, (Rabs_pos_eq x), <- Rmult_assoc by lra. apply Rmult_le_compat_r; lra. }
  set (w := dv s * dv a') in *. assert (KX : 0 <= Rabs k * x <= 1/4) by (split; [apply Rmult_le_pos; lra|nra]).
  assert (AKX : Rabs (k * x) = Rabs k * x) by (rewrite Rabs_mult, (Rabs_pos_eq x); lra).
  assert (W : Rabs w <= (1 + / 10 ^ 12) * (Rabs k * x)). { pose proof (Rabs_triang (w - k * x) (k * x)) as T. replace (w - k * x + k * x) with w in T by ring. lra. }
  destruct (mult64_R s a' Fs Fa') as (F1 & E1). { fold w. rewrite <- B200. nra. } fold w in E1. set (p1 := Bmult mode_NE s a') in *. clearbody p1.
  assert (D1 : Rabs (dv p1 - k * x) <= 2 * / 10 ^ 12 * (Rabs k * x) + b75). { replace (dv p1 - k * x) with ((dv p1 - w) + (w - k * x)) by ring. eapply Rle_trans; [apply Rabs_triang|]. lra. }
  (* ( s * a ) * ( 1 - a ) *)
  set (T := k * (x * y)). assert (AT : Rabs T = Rabs k * x * y) by (unfold T; rewrite !Rabs_mult, (Rabs_pos_eq x), (Rabs_pos_eq y) by lra; ring).
  assert (BT : 0 <= Rabs T <= 1/4) by (split; [apply Rabs_pos|rewrite AT; nra]).
  assert (D2 : Rabs (dv p1 * dv m' - T) <= 601 / 10 ^ 10 * Rabs T + 2 * b75).
  { rewrite Em'. replace (dv p1 * bv m - T) with ((dv p1 - k * x) * bv m + k * x * (bv m - y)) by (unfold T; ring). eapply Rle_trans; [apply Rabs_triang|]. rewrite !(Rabs_mult (_ - _)), (Rabs_mult (k * x)), AKX.
    apply Rle_trans with ((2 * / 10 ^ 12 * (Rabs k * x) + b75) * ((1 + 6 / 10 ^ 8) * y) + Rabs k * x * (/ 16777216 * y)).
    - apply Rplus_le_compat; [apply Rmult_le_compat; try apply Rabs_pos; assumption|apply Rmult_le_compat_l; lra].
    - rewrite AT. assert (b75 * y <= b75 * 1) by (apply Rmult_le_compat_l; lra). assert (0 <= Rabs k * x * y) by (apply Rmult_le_pos; lra). lra. }
  set (w2 := dv p1 * dv m') in *. assert (W2 : Rabs w2 <= (1 + 601 / 10 ^ 10) * Rabs T + 2 * b75). { pose proof (Rabs_triang (w2 - T) T) as TT. replace (w2 - T + T) with w2 in TT by ring. lra. }
  destruct (mult64_R p1 m' F1 Fm') as (F2 & E2). { fold w2. rewrite <- B200. nra. } fold w2 in E2. set (p2 := Bmult mode_NE p1 m') in *. clearbody p2.
  assert (D3 : Rabs (dv p2 - T) <= 602 / 10 ^ 10 * Rabs T + 4 * b75). { replace (dv p2 - T) with ((dv p2 - w2) + (w2 - T)) by ring. eapply Rle_trans; [apply Rabs_triang|]. lra. }
  (* d * ... *)
  set (V := bv d * T). assert (AV : Rabs V = Rabs (bv d) * Rabs T) by apply Rabs_mult. pose proof (Rabs_pos (bv d)) as PD.
  assert (BV : Rabs V <= 2 ^ 100 * (1/4)) by (rewrite AV; apply Rmult_le_compat; lra).
  assert (D4 : Rabs (dv d' * dv p2 - V) <= 602 / 10 ^ 10 * Rabs V + / 2 ^ 8 * eta32).
  { rewrite Ed. replace (bv d * dv p2 - V) with (bv d * (dv p2 - T)) by (unfold V; ring). rewrite Rabs_mult, AV.
    apply Rle_trans with (Rabs (bv d) * (602 / 10 ^ 10 * Rabs T + 4 * b75)); [apply Rmult_le_compat_l; lra|].
    assert (Rabs (bv d) * b75 <= 2 ^ 100 * b75) by (apply Rmult_le_compat_r; lra). lra. }
  set (w3 := dv d' * dv p2) in *. pose proof (Rabs_pos V) as PV. assert (W3 : Rabs w3 <= (1 + 602 / 10 ^ 10) * Rabs V + eta32). { pose proof (Rabs_triang (w3 - V) V) as TT. replace (w3 - V + V) with w3 in TT by ring. lra. }
  destruct (mult64_R d' p2 Fd' F2) as (F3 & E3). { fold w3. rewrite <- B200. nra. } fold w3 in E3. set (p3 := Bmult mode_NE d' p2) in *. clearbody p3.
  assert (BE : b75 <= / 2 ^ 10 * eta32). { assert (1 * b75 <= 2 ^ 100 * b75) by (apply Rmult_le_compat_r; lra). lra. }
  assert (D5 : Rabs (dv p3 - V) <= 603 / 10 ^ 10 * Rabs V + / 2 ^ 6 * eta32). { replace (dv p3 - V) with ((dv p3 - w3) + (w3 - V)) by ring. eapply Rle_trans; [apply Rabs_triang|]. lra. }
  assert (W4 : Rabs (dv p3) <= (1 + 603 / 10 ^ 10) * Rabs V + eta32). { pose proof (Rabs_triang (dv p3 - V) V) as TT. replace (dv p3 - V + V) with (dv p3) in TT by ring. lra. }
  assert (B127 : 2 ^ 100 <= 2 ^ 127) by (apply Rle_pow; [lra|lia]).
  destruct (of_b64_R p3 F3) as (FR & ER). { lra. }
  split; [exact FR|]. fold V. replace (bv (of_b64 p3) - V) with ((bv (of_b64 p3) - dv p3) + (dv p3 - V)) by ring. eapply Rle_trans; [apply Rabs_triang|]. rewrite U in ER. lra.
Qed.

Lemma scalar_R : fin64 sigmoid_scalar = true /\ Rabs (dv sigmoid_scalar - 1/10) <= / 10 ^ 12 * Rabs (1/10).
Proof.
  split; [vm_compute; reflexivity|].
  assert (E : dv sigmoid_scalar = 7205759403792794 / 2 ^ 56).
  { unfold sigmoid_scalar. pose proof (binary_normalize_correct 53 1024 prec_gt_0_64 prec_lt_emax_64 mode_NE 7205759403792794 (-56) false) as C. cbv zeta in C.
    assert (V : F2R (Float radix2 7205759403792794 (-56)) = 7205759403792794 / 2 ^ 56) by (unfold F2R; cbn [Fnum Fexp]; change (-56)%Z with (Z.opp (Z.of_nat 56)); rewrite bpow_opp, pow2_R; reflexivity).
    rewrite round_generic in C; [|apply valid_rnd_round_mode|apply (fmt64_scale 7205759403792794 (-56)); lia].
    rewrite V in C. rewrite Rlt_bool_true in C; [exact (proj1 C)|].
    apply Rlt_trans with (bpow radix2 1); [|apply bpow_lt; reflexivity]. change (bpow radix2 1) with 2. apply Rabs_lt. lra. }
  rewrite E, (Rabs_pos_eq (1/10)) by lra. apply Rabs_le. lra.
Qed.
