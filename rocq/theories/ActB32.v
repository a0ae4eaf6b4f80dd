(** ActB32.v -- sigmoid and tanh in binary32 *)
From Coquelicot Require Import Coquelicot.
From Flocq Require Import Core BinarySingleNaN Relative.
From Coq Require Import ZArith Bool List Arith Reals Lia Lra.
From Verif Require Import Base Ops OpsB32 B32Facts MetricB32 InitProofs Activation SpecReal SpecRound SpecLibm RoundProofs Exp256 Exp256B32 Exp256Reduce ExpB32Proofs.
Local Open Scope R_scope.

#[local] Instance vexp32a : Valid_exp (SpecFloat.fexp 24 128) := fexp_correct 24 128 prec_gt_0_32.

Lemma exp256_accurate_exp lm : accurate_exp (@exp256_lane (opsB32 lm)).
Proof.
  intros x Fx. destruct (exp256_b32 lm x) as (F & P & A & Z & S & T & _). cbv zeta in *. destruct top_val as (FT & BT).
  set (v := @exp256_lane (opsB32 lm) x) in *. pose proof (exp_pos (bv x)) as PX. split.
  - intros L. split; [exact F|]. split; [exact P|]. destruct (Rle_dec (- (8768/100)) (bv x)) as [L1|L1].
    + specialize (A Fx ltac:(lra)). assert (0 < / 10 ^ 36) by lra. lra.
    + specialize (S Fx ltac:(lra)). pose proof (exp_mono (bv x) (-87) ltac:(lra)) as M. pose proof exp_m87 as M2. change (@B2R 24 128 v) with (bv v). apply Rabs_le. lra.
  - intros L. right. split; [exact F|]. change (@B2R 24 128 v) with (bv v). destruct (Rle_dec (bv x) (11583653/131072)) as [L1|L1].
    + specialize (A Fx ltac:(lra)). apply Rabs_le_between in A. pose proof (exp_mono 88 (bv x) ltac:(lra)) as M. pose proof exp_88 as M2. lra.
    + rewrite (T Fx ltac:(lra)). lra.
Qed.

Lemma exp_88_up : exp 88 <= 24 * 10 ^ 37.
Proof.
  assert (E1 : exp 1 <= 27293/10000).
  { assert (H : 3664/10000 <= exp (- (1))).
    { replace (- (1)) with (INR 128 * - (1/128)) by (rewrite INR_IZR_INZ; simpl; field). rewrite <- exp_pow.
      apply Rle_trans with ((1 - 1/128)^128); [lra|]. apply pow_incr. pose proof (exp_ineq1_le (- (1/128))). lra. }
    rewrite exp_Ropp in H. pose proof (exp_pos 1) as P. rewrite <- (Rinv_inv (exp 1)). apply Rle_trans with (/ (3664/10000)); [|lra].
    apply Rinv_le_contravar; lra. }
  replace 88 with (INR 88 * 1) by (rewrite INR_IZR_INZ; simpl; ring). rewrite <- exp_pow.
  apply Rle_trans with ((27293/10000) ^ 88); [|lra]. apply pow_incr. pose proof (exp_pos 1). lra.
Qed.
Lemma max128 : 34 * 10 ^ 37 <= bpow radix2 128. Proof. rewrite <- top128. lra. Qed.
Lemma one_plus (E : b32) : fin E = true -> - 1 / 2 <= bv E <= 3 * 10 ^ 38 ->
  fin (Bplus mode_NE (b32_ofZ 1) E) = true /\ Rabs (bv (Bplus mode_NE (b32_ofZ 1) E) - (1 + bv E)) <= u32 * (1 + bv E).
Proof.
  intros F H. pose proof (Bplus_correct 24 128 _ _ mode_NE (b32_ofZ 1) E one_fin F) as C. rewrite one_R in C.
  pose proof (rnd_plus_err (b32_ofZ 1) E) as R. rewrite one_R in R. rewrite (Rabs_pos_eq (1 + bv E)) in R by lra.
  rewrite Rlt_bool_true in C.
  - destruct C as (C1 & C2 & _). split; [exact C2|]. rewrite C1. exact R.
  - pose proof max128. pose proof u32_val as U. rewrite U in R. apply Rabs_le_between in R. apply Rabs_lt. lra.
Qed.
(** k / (1 + E), E large *)
Lemma div_big (k E : b32) : fin k = true -> 1 <= bv k <= 2 -> Bsign k = false -> (E = B754_infinity false \/ fin E = true /\ 10 ^ 37 <= bv E) ->
  let y := Bdiv mode_NE k (Bplus mode_NE (b32_ofZ 1) E) in fin y = true /\ 0 <= bv y <= 3 / 10 ^ 37.
Proof.
  intros Fk Bk Sk HE.
  assert (HS : Bplus mode_NE (b32_ofZ 1) E = B754_infinity false \/ fin (Bplus mode_NE (b32_ofZ 1) E) = true /\ 10 ^ 37 <= bv (Bplus mode_NE (b32_ofZ 1) E)).
  { destruct HE as [->|(FE & BE)]; [left; reflexivity|].
    pose proof (Bplus_correct 24 128 _ _ mode_NE (b32_ofZ 1) E one_fin FE) as C.
    destruct (Rlt_bool_spec (Rabs (rnd (bv (b32_ofZ 1) + bv E))) (bpow radix2 128)) as [L|L].
    - right. destruct C as (C1 & C2 & _). split; [exact C2|]. rewrite C1. apply Rle_trans with (bv E); [exact BE|]. apply rnd_ge; [apply bv_fmt'|]. rewrite one_R. lra.
    - left. destruct C as (C1 & _). rewrite one_sign in C1. destruct (Bplus mode_NE (b32_ofZ 1) E) as [s|s| |s m e He]; cbn in C1; try discriminate C1. inversion C1. reflexivity. }
  cbv zeta. set (s := Bplus mode_NE (b32_ofZ 1) E) in *. clearbody s. clear HE E. destruct HS as [->|(Fs & Bs)].
  - destruct k as [s|s| |s m e He]; try discriminate Fk; cbn in Sk; subst; cbn; split; try reflexivity; lra.
  - assert (PI : 0 < / bv s) by (apply Rinv_0_lt_compat; lra).
    assert (BI : / bv s <= / 10 ^ 37) by (apply Rinv_le_contravar; lra).
    assert (B : 0 <= bv k / bv s <= 2 / 10 ^ 37). { unfold Rdiv. split; [apply Rmult_le_pos; lra|]. apply Rmult_le_compat; lra. }
    destruct (divide_R k s Fk ltac:(lra)) as (FY & EY). { apply big_ok. rewrite Rabs_pos_eq; lra. }
    split; [exact FY|]. rewrite (Rabs_pos_eq (bv k / bv s)) in EY by lra. split.
    + pose proof (Bdiv_correct 24 128 _ _ mode_NE k s ltac:(lra)) as C. rewrite Rlt_bool_true in C by (apply rnd_range, big_ok; rewrite Rabs_pos_eq; lra).
      destruct C as (C1 & _). rewrite C1. apply rnd_ge; [apply generic_format_0|lra].
    + apply Rabs_le_between in EY. pose proof u32_val as U. pose proof eta32_tiny. rewrite U in EY. lra.
Qed.
(** k / (1 + E), E close to e *)
Lemma div_near (k E : b32) e : fin k = true -> 1 <= bv k <= 2 -> fin E = true -> 0 < e <= 24 * 10 ^ 37 -> Rabs (bv E - e) <= 4 / 10 ^ 7 * e + / 10 ^ 36 ->
  let y := Bdiv mode_NE k (Bplus mode_NE (b32_ofZ 1) E) in fin y = true /\ Rabs (bv y - bv k / (1 + e)) <= bv k * (23 / 10 ^ 8).
Proof.
  intros Fk Bk FE He HE. pose proof u32_val as U. pose proof eta32_tiny as T. pose proof eta32_pos as T0.
  pose proof HE as HE'. apply Rabs_le_between in HE'.
  destruct (one_plus E FE) as (Fs & Es). { lra. }
  cbv zeta. set (s := Bplus mode_NE (b32_ofZ 1) E) in *. clearbody s. set (D := 1 + e).
  assert (D1 : 1 <= D) by (unfold D; lra).
  assert (ES : Rabs (bv s - D) <= 4/10^7 * e + / 10 ^ 36 + u32 * (1000001/1000000 * D)).
  { replace (bv s - D) with ((bv s - (1 + bv E)) + (bv E - e)) by (unfold D; ring). eapply Rle_trans; [apply Rabs_triang|].
    assert (u32 * (1 + bv E) <= u32 * (1000001/1000000 * D)) by (apply Rmult_le_compat_l; [lra|unfold D; lra]). lra. }
  assert (LS : (1 - 1/1000000) * D <= bv s). { apply Rabs_le_between in ES. rewrite U in ES. unfold D in *. lra. }
  assert (SP : 0 < bv s) by lra. assert (ID : 0 < / D <= 1). { split; [apply Rinv_0_lt_compat; lra|]. rewrite <- Rinv_1. apply Rinv_le_contravar; lra. }
  assert (IS : / bv s <= 1000002/1000000 * / D).
  { apply Rle_trans with (/ ((1 - 1/1000000) * D)); [apply Rinv_le_contravar; lra|]. rewrite Rinv_mult. apply Rmult_le_compat_r; lra. }
  assert (IS0 : 0 < / bv s) by (apply Rinv_0_lt_compat; lra).
  assert (QD : e * (/ D * / D) <= 1/4).
  { apply Rmult_le_reg_r with (D * D); [apply Rmult_lt_0_compat; lra|]. replace (e * (/ D * / D) * (D * D)) with e by (field; lra). pose proof (Rle_0_sqr (1 - e)) as Q. unfold Rsqr in Q. unfold D. lra. }
  assert (QI : Rabs (/ bv s - / D) <= 165/10^9).
  { replace (/ bv s - / D) with ((D - bv s) * (/ bv s * / D)) by (field; lra). rewrite Rabs_mult, Rabs_minus_sym. rewrite (Rabs_pos_eq (/ bv s * / D)) by (apply Rmult_le_pos; lra).
    assert (P2 : 0 < / D * / D <= 1). { split; [apply Rmult_lt_0_compat; lra|]. apply Rle_trans with (1 * 1); [apply Rmult_le_compat; lra|lra]. }
    apply Rle_trans with ((4/10^7 * e + / 10 ^ 36 + u32 * (1000001/1000000 * D)) * (1000002/1000000 * (/ D * / D))).
    { apply Rmult_le_compat; [apply Rabs_pos|apply Rmult_le_pos; lra|exact ES|]. apply Rle_trans with (1000002/1000000 * / D * / D); [apply Rmult_le_compat_r; lra|lra]. }
    replace ((4/10^7 * e + / 10 ^ 36 + u32 * (1000001/1000000 * D)) * (1000002/1000000 * (/ D * / D))) with
      (1000002/1000000 * (4/10^7 * (e * (/ D * / D)) + / 10^36 * (/ D * / D) + u32 * (1000001/1000000) * / D)) by (field; lra).
    rewrite U. lra. }
  assert (QB : Rabs (bv k / bv s) <= 2000005/1000000).
  { unfold Rdiv. rewrite Rabs_pos_eq by (apply Rmult_le_pos; lra). apply Rle_trans with (2 * (1000002/1000000 * 1)); [|lra]. apply Rmult_le_compat; lra. }
  destruct (divide_R k s Fk ltac:(lra)) as (FY & EY). { apply big_ok. lra. }
  split; [exact FY|]. replace (bv (Bdiv mode_NE k s) - bv k / D) with ((bv (Bdiv mode_NE k s) - bv k / bv s) + bv k * (/ bv s - / D)) by (unfold Rdiv; ring).
  eapply Rle_trans; [apply Rabs_triang|]. rewrite (Rabs_mult (bv k)), (Rabs_pos_eq (bv k)) by lra.
  assert (K1 : bv k * Rabs (/ bv s - / D) <= bv k * (165/10^9)) by (apply Rmult_le_compat_l; lra).
  assert (K2 : Rabs (bv k / bv s) <= bv k * (1000002/1000000)).
  { unfold Rdiv. rewrite Rabs_pos_eq by (apply Rmult_le_pos; lra). apply Rmult_le_compat_l; [lra|]. assert (1000002/1000000 * / D <= 1000002/1000000 * 1) by (apply Rmult_le_compat_l; lra). lra. }
  rewrite U in EY. lra.
Qed.
Lemma div_exp (f : b32 -> b32) (k x : b32) : accurate_exp f -> fin k = true -> 1 <= bv k <= 2 -> Bsign k = false -> fin x = true ->
  let y := Bdiv mode_NE k (Bplus mode_NE (b32_ofZ 1) (f x)) in fin y = true /\ Rabs (bv y - bv k / (1 + exp (bv x))) <= bv k * (23 / 10 ^ 8).
Proof.
  intros A Fk Bk Sk Fx. destruct (A x Fx) as (A1 & A2). cbv zeta. destruct (Rle_dec (bv x) 88) as [L|L].
  - destruct (A1 L) as (F & _ & E). apply div_near; auto. split; [apply exp_pos|]. eapply Rle_trans; [apply exp_mono; exact L|apply exp_88_up].
  - destruct (div_big k (f x) Fk Bk Sk) as (F & B). { apply A2. lra. }
    split; [exact F|]. pose proof (exp_mono 88 (bv x) ltac:(lra)). pose proof exp_88.
    assert (/ (1 + exp (bv x)) <= / 10 ^ 37) by (apply Rinv_le_contravar; lra). assert (0 < / (1 + exp (bv x))) by (apply Rinv_0_lt_compat; lra).
    assert (0 <= bv k / (1 + exp (bv x)) <= 2 * / 10 ^ 37). { unfold Rdiv. split; [apply Rmult_le_pos; lra|]. apply Rmult_le_compat; lra. }
    apply Rabs_le. lra.
Qed.

Lemma ratio_le1 k e : 0 < k -> 0 < e -> 0 <= k / (1 + e) <= k.
Proof.
  intros K E. assert (0 < / (1 + e) <= 1). { split; [apply Rinv_0_lt_compat; lra|]. rewrite <- Rinv_1 at 2. apply Rinv_le_contravar; lra. }
  unfold Rdiv. split; [apply Rmult_le_pos; lra|]. apply Rle_trans with (k * 1); [apply Rmult_le_compat_l; lra|lra].
Qed.
Lemma sigmoid_s_R (lm : libm) (x : b32) : accurate_exp (lm_exp lm) -> fin x = true ->
  let y := Bdiv mode_NE (b32_ofZ 1) (Bplus mode_NE (b32_ofZ 1) (lm_exp lm (Bopp x))) in
  fin y = true /\ Rabs (bv y - 1 / (1 + exp (- bv x))) <= 23 / 10 ^ 8.
Proof.
  intros A Fx. destruct (div_exp (lm_exp lm) (b32_ofZ 1) (Bopp x) A one_fin) as (F & E); rewrite ?one_R; try lra; try apply one_sign.
  - rewrite is_finite_Bopp. exact Fx.
  - rewrite one_R, B2R_Bopp in E. split; [exact F|]. lra.
Qed.
Lemma neg_x (x : b32) : fin x = true -> fin (Bminus mode_NE b32_zero x) = true /\ bv (Bminus mode_NE b32_zero x) = - bv x.
Proof.
  intros Fx. pose proof (Bminus_correct 24 128 _ _ mode_NE b32_zero x eq_refl Fx) as C. change (bv b32_zero) with 0 in C.
  replace (0 - bv x) with (- bv x) in C by ring. rewrite rnd_id in C by (apply generic_format_opp, bv_fmt').
  rewrite Rlt_bool_true in C by (rewrite Rabs_Ropp; apply (abs_B2R_lt_emax 24 128)). destruct C as (C1 & C2 & _). auto.
Qed.
Lemma sigmoid_v_R (lm : libm) (x : b32) : fin x = true ->
  let y := Bdiv mode_NE (b32_ofZ 1) (Bplus mode_NE (b32_ofZ 1) (@exp256_lane (opsB32 lm) (Bminus mode_NE b32_zero x))) in
  fin y = true /\ Rabs (bv y - 1 / (1 + exp (- bv x))) <= 23 / 10 ^ 8.
Proof.
  intros Fx. destruct (neg_x x Fx) as (Fn & En).
  destruct (div_exp (@exp256_lane (opsB32 lm)) (b32_ofZ 1) (Bminus mode_NE b32_zero x) (exp256_accurate_exp lm) one_fin) as (F & E); rewrite ?one_R; try lra; try apply one_sign.
  - exact Fn.
  - rewrite one_R, En in E. split; [exact F|]. cbv zeta in *. lra.
Qed.
Lemma two_fin : fin (b32_ofZ 2) = true. Proof. vm_compute. reflexivity. Qed.
Lemma two_sign : Bsign (b32_ofZ 2) = false. Proof. vm_compute. reflexivity. Qed.
Lemma fmt_double x : fmt x -> fmt (-2 * x).
Proof.
  intros H. replace (-2 * x) with (- (x * bpow radix2 1)) by (change (bpow radix2 1) with 2; ring). apply generic_format_opp.
  change fmt with (generic_format radix2 (FLT_exp (-149) 24)) in *. apply FLT_format_generic in H; [|reflexivity]. destruct H as [f Ef M1 M2].
  apply generic_format_FLT. exists (Float radix2 (Fnum f) (Fexp f + 1)); cbn [Fnum Fexp]; [|exact M1|lia].
  rewrite Ef. unfold F2R. cbn [Fnum Fexp]. rewrite bpow_plus. ring.
Qed.
Lemma twice_x (x : b32) : fin x = true -> let p := Bmult mode_NE (Bopp (b32_ofZ 2)) x in
  (fin p = true /\ bv p = -2 * bv x) \/ (p = B754_infinity (negb (Bsign x)) /\ 2 ^ 127 <= Rabs (bv x)).
Proof.
  intros Fx. cbv zeta. pose proof (Bmult_correct 24 128 _ _ mode_NE (Bopp (b32_ofZ 2)) x) as C.
  assert (E2 : bv (Bopp (b32_ofZ 2)) = -2) by (rewrite B2R_Bopp, two_R; lra). rewrite E2 in C.
  rewrite rnd_id in C by (apply fmt_double, bv_fmt').
  destruct (Rlt_bool_spec (Rabs (-2 * bv x)) (bpow radix2 128)) as [L|L].
  - left. destruct C as (C1 & C2 & _). rewrite C1, C2, Fx, is_finite_Bopp, two_fin. auto.
  - right. split.
    + destruct (Bmult mode_NE (Bopp (b32_ofZ 2)) x) as [s|s| |s m e He]; cbn in C; try discriminate C. inversion C. reflexivity.
    + rewrite <- top128, Rabs_mult, (Rabs_left (-2)) in L by lra. lra.
Qed.
Lemma tanh_2 x : tanhR x = -1 + 2 / (1 + exp (-2 * x)).
Proof.
  unfold tanhR. replace (exp (-2 * x)) with (exp (- x) * exp (- x)) by (rewrite <- exp_plus; f_equal; ring).
  rewrite exp_Ropp. pose proof (exp_pos x). field. nra.
Qed.
Lemma tanh_end (k : b32) t : fin k = true -> 0 <= t <= 2 -> Rabs (bv k - t) <= 46 / 10 ^ 8 ->
  fin (Bplus mode_NE (Bopp (b32_ofZ 1)) k) = true /\ Rabs (bv (Bplus mode_NE (Bopp (b32_ofZ 1)) k) - (-1 + t)) <= 53 / 10 ^ 8.
Proof.
  intros Fk Ht E. pose proof u32_val as U. apply Rabs_le_between in E.
  assert (E1 : bv (Bopp (b32_ofZ 1)) = -1) by (rewrite B2R_Bopp, one_R; lra).
  assert (A : Rabs (-1 + bv k) <= 1000001/1000000) by (apply Rabs_le; lra).
  destruct (add_R (Bopp (b32_ofZ 1)) k) as (F & EA).
  - rewrite is_finite_Bopp. apply one_fin.
  - exact Fk.
  - apply big_ok. rewrite E1. lra.
  - split; [exact F|]. rewrite E1 in EA. rewrite U in EA. apply Rabs_le_between in EA. apply Rabs_le. lra.
Qed.
Lemma tanh_v_R (lm : libm) (x : b32) : fin x = true ->
  let y := Bplus mode_NE (Bopp (b32_ofZ 1)) (Bdiv mode_NE (b32_ofZ 2) (Bplus mode_NE (b32_ofZ 1) (@exp256_lane (opsB32 lm) (Bmult mode_NE (Bopp (b32_ofZ 2)) x)))) in
  fin y = true /\ Rabs (bv y - tanhR (bv x)) <= 6 / 10 ^ 7.
Proof.
  intros Fx. cbv zeta. rewrite tanh_2. pose proof (exp_pos (-2 * bv x)) as PX. pose proof (ratio_le1 2 (exp (-2 * bv x)) ltac:(lra) PX) as RX.
  assert (G : forall q, fin q = true /\ Rabs (bv q - 2 / (1 + exp (-2 * bv x))) <= 46 / 10 ^ 8 ->
    fin (Bplus mode_NE (Bopp (b32_ofZ 1)) q) = true /\ Rabs (bv (Bplus mode_NE (Bopp (b32_ofZ 1)) q) - (-1 + 2 / (1 + exp (-2 * bv x)))) <= 6 / 10 ^ 7).
  { intros q (Fq & Eq). destruct (tanh_end q _ Fq RX Eq) as (F & E). split; [exact F|]. lra. }
  apply G. clear G. destruct (twice_x x Fx) as [(Fp & Ep)|(Ep & Bx)].
  - destruct (div_exp (@exp256_lane (opsB32 lm)) (b32_ofZ 2) (Bmult mode_NE (Bopp (b32_ofZ 2)) x) (exp256_accurate_exp lm) two_fin) as (F & E); rewrite ?two_R; try lra; try apply two_sign.
    + exact Fp.
    + rewrite two_R, Ep in E. split; [exact F|]. cbv zeta in *. lra.
  - rewrite Ep. destruct (exp256_b32 lm (B754_infinity (negb (Bsign x)))) as (_ & _ & _ & _ & _ & _ & T). cbv zeta in T. specialize (T eq_refl).
    assert (B88 : 88 <= 2 ^ 127) by (pose proof big127; lra).
    destruct (Bsign x) eqn:SX; cbn [negb] in T |- *.
    + destruct T as [T|(_ & T)]; [|discriminate T]. rewrite T. pose proof (neg_sign x SX) as NX. rewrite (Rabs_left1 _ NX) in Bx.
      destruct top_val as (FT & BT).
      destruct (div_big (b32_ofZ 2) (res32 k_hi) two_fin) as (F & E); rewrite ?two_R; try lra; [apply two_sign|right; split; [exact FT|lra]|].
      split; [exact F|]. pose proof (exp_mono 88 (-2 * bv x) ltac:(lra)) as M. pose proof exp_88.
      assert (/ (1 + exp (-2 * bv x)) <= / 10 ^ 37) by (apply Rinv_le_contravar; lra). unfold Rdiv in *. cbv zeta in E. apply Rabs_le. lra.
    + destruct T as [T|(T & _)].
      * exfalso. assert (Q : @exp256_lane (opsB32 lm) (B754_infinity true) = b32_zero).
        { rewrite lane32, clamp_ninf. destruct k_lo_R as (FL & EL). destruct (res32_low k_lo FL) as (_ & _ & Z & _); [rewrite EL; unfold H32; apply Rabs_le; lra|]. apply Z. rewrite EL. lra. }
        rewrite Q in T. destruct top_val as (_ & BT). rewrite <- T in BT. cbn in BT. lra.
      * rewrite T. assert (PS : 0 <= bv x). { destruct x as [s|s| |s m e He]; try discriminate Fx; cbn in SX; subst; cbn; [lra|]. apply F2R_ge_0. cbn. lia. }
        rewrite (Rabs_pos_eq _ PS) in Bx. pose proof (exp_mono (-2 * bv x) (-87) ltac:(lra)) as M. pose proof exp_m87 as M2.
        assert (Q : fin (Bdiv mode_NE (b32_ofZ 2) (Bplus mode_NE (b32_ofZ 1) b32_zero)) = true /\ bv (Bdiv mode_NE (b32_ofZ 2) (Bplus mode_NE (b32_ofZ 1) b32_zero)) = 2).
        { split; [vm_compute; reflexivity|]. const32. }
        destruct Q as (F & E). split; [exact F|]. rewrite E.
        replace (2 - 2 / (1 + exp (-2 * bv x))) with (exp (-2 * bv x) * (2 / (1 + exp (-2 * bv x)))) by (field; lra).
        rewrite Rabs_pos_eq by (apply Rmult_le_pos; lra). apply Rle_trans with (1 / 10 ^ 37 * 2); [apply Rmult_le_compat; lra|lra].
Qed.
