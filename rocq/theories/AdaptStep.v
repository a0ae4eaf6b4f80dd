(** AdaptStep.v -- one component of a step of Adagrad and of RMSprop in binary32, for arbitrary gradients *)
From Flocq Require Import Core BinarySingleNaN.
From Coq Require Import ZArith Bool List Arith Reals Lia Lra.
From Verif Require Import Base BaseProofs Ops OpsB32 B32Facts MetricB32 SpecLibm SpecRound RoundProofs Exp256B32 InitProofs Optimizer SpecAdapt AdaptRound.
Import ListNotations.
Local Open Scope R_scope.
Local Notation NZ := b32_zero.
Local Notation INF := (B754_infinity false : b32).

Lemma decayed_shrinks (lm : libm) (lr d : b32) t : fin lr = true -> fin d = true ->
  let lr' := @decayed (opsB32 lm) lr d t in fin lr' = true /\ Rabs (bv lr') <= Rabs (bv lr).
Proof.
  intros Fl Fd. unfold decayed, fgt. change (@flt (opsB32 lm) (@f0 (opsB32 lm)) d) with (Bltb NZ d).
  rewrite ltb_R by (auto; reflexivity). change (bv NZ) with 0.
  destruct (Rlt_bool_spec 0 (bv d)) as [H|H]; [|split; [exact Fl|lra]]. cbn [fmul fdiv fadd fofZ f1 opsB32].
  set (Z := b32_ofZ (Z.of_nat t mod 4294967296)).
  assert (HZ : fin Z = true /\ 0 <= bv Z).
  { pose proof (Z.mod_pos_bound (Z.of_nat t) 4294967296 eq_refl) as HB.
    pose proof (binary_normalize_correct 24 128 prec_gt_0_32 prec_lt_emax_32 mode_NE (Z.of_nat t mod 4294967296) 0 false) as C. cbv zeta in C.
    change (binary_normalize 24 128 prec_gt_0_32 prec_lt_emax_32 mode_NE (Z.of_nat t mod 4294967296) 0 false) with Z in C.
    assert (E : F2R (Float radix2 (Z.of_nat t mod 4294967296) 0) = IZR (Z.of_nat t mod 4294967296)) by (unfold F2R; cbn [Fnum Fexp bpow]; apply Rmult_1_r).
    assert (P : 0 <= IZR (Z.of_nat t mod 4294967296) <= 4294967296) by (split; apply IZR_le; lia).
    rewrite E in C. rewrite Rlt_bool_true in C.
    - destruct C as (C1 & C2 & _). split; [exact C2|]. fold (bv Z) in C1. rewrite C1. apply rnd_pos. lra.
    - apply rnd_range. rewrite Rabs_pos_eq by lra. assert (2 ^ 33 <= 2 ^ 127) by (apply Rle_pow; [lra|lia]). lra. }
  destruct HZ as (FZ & HZ).
  assert (GP : Bmult mode_NE d Z = INF \/ (fin (Bmult mode_NE d Z) = true /\ bv (Bmult mode_NE d Z) = rnd (bv d * bv Z))).
  { apply mul_cases; auto. apply Rmult_le_pos; lra. }
  set (P := Bmult mode_NE d Z) in *.
  assert (NX : is_nan (Bplus mode_NE (b32_ofZ 1) P) = false /\ ge (Bplus mode_NE (b32_ofZ 1) P) 1).
  { destruct GP as [->|(FP & EP)]; [split; [reflexivity|right; left; reflexivity]|].
    assert (P0 : 0 <= bv P) by (rewrite EP; apply rnd_pos, Rmult_le_pos; lra).
    destruct (add_cases (b32_ofZ 1) P one_fin FP) as [->|(E1 & E2)]; rewrite ?one32; try lra.
    - split; [reflexivity|right; left; reflexivity].
    - split; [destruct (Bplus mode_NE (b32_ofZ 1) P); try reflexivity; discriminate|]. right; right. split; [exact E1|]. rewrite E2, one32.
      apply rnd_ge; [rewrite <- one32; apply bv_fmt'|lra]. }
  destruct NX as (NX & GX). destruct (inv_below_one _ GX NX) as (FW & HW). exact (shrink lr _ Fl FW HW).
Qed.

(** ** the update *)
Lemma inv_root k : / 2 ^ 24 <= k <= 1 -> 1 <= / sqrt k <= 2 ^ 12.
Proof.
  intros H. assert (I : 0 < / 2 ^ 24) by (apply Rinv_0_lt_compat, pow_lt; lra).
  assert (S0 : / 2 ^ 12 <= sqrt k).
  { replace (/ 2 ^ 12) with (sqrt (/ 2 ^ 24)). { apply sqrt_le_1_alt. lra. }
    replace (/ 2 ^ 24) with (/ 2 ^ 12 * / 2 ^ 12) by (rewrite <- Rinv_mult, <- pow_add; reflexivity). apply sqrt_square. lra. }
  assert (S1 : sqrt k <= 1) by (rewrite <- sqrt_1; apply sqrt_le_1_alt; lra).
  split; [rewrite <- Rinv_1; apply Rinv_le; lra|]. rewrite <- (Rinv_inv (2 ^ 12)). apply Rinv_le; [|exact S0]. apply Rinv_0_lt_compat. lra.
Qed.
Lemma step_cap_ok lr k j : / 2 ^ 24 <= k <= 1 -> 0 <= j <= 3 ->
  (1 + j * u32) / sqrt k * (Rabs lr * (1 + 5 * u32) + / 2 ^ 80) + eta32 <= largest_step lr k /\ 0 <= (1 + j * u32) / sqrt k <= 2 ^ 30.
Proof.
  intros Hk Hj. pose proof (inv_root k Hk) as (I1 & I2). pose proof u32_pos as U0. pose proof u32_small as US. pose proof (Rabs_pos lr) as L0.
  assert (J : 0 <= j * u32 <= 3 * u32) by (split; [apply Rmult_le_pos; lra|apply Rmult_le_compat_r; lra]).
  unfold largest_step, Rdiv. set (i := / sqrt k) in *. set (r := Rabs lr) in *. set (x := j * u32) in *.
  assert (I80 : 0 < / 2 ^ 80) by (apply Rinv_0_lt_compat, pow_lt; lra).
  split.
  - assert (T1 : (1 + x) * i * (r * (1 + 5 * u32)) <= r * i * (1 + 10 * u32)).
    { replace ((1 + x) * i * (r * (1 + 5 * u32))) with (r * i * ((1 + x) * (1 + 5 * u32))) by ring.
      apply Rmult_le_compat_l; [apply Rmult_le_pos; lra|]. assert (x * u32 <= / 1000000 * x) by (rewrite Rmult_comm; apply Rmult_le_compat_r; lra). lra. }
    assert (T2 : (1 + x) * i * / 2 ^ 80 <= / 2 ^ 66).
    { apply Rle_trans with (2 ^ 14 * / 2 ^ 80).
      - apply Rmult_le_compat_r; [lra|]. apply Rle_trans with (2 * 2 ^ 12); [apply Rmult_le_compat; lra|lra].
      - right. change 80%nat with (14 + 66)%nat. rewrite pow_add. field. }
    assert (T3 : / 2 ^ 66 + eta32 <= / 2 ^ 60).
    { assert (eta32 <= / 2 ^ 66) by (unfold eta32; apply Rinv_le; [apply pow_lt; lra|apply Rle_pow; [lra|lia]]).
      assert (/ 2 ^ 60 = 64 * / 2 ^ 66) by (change 66%nat with (6 + 60)%nat; rewrite pow_add; field). assert (0 < / 2 ^ 66) by (apply Rinv_0_lt_compat, pow_lt; lra). lra. }
    lra.
  - split; [apply Rmult_le_pos; lra|]. apply Rle_trans with (2 * 2 ^ 12); [apply Rmult_le_compat; lra|lra].
Qed.

Section Update.
Variables lr g : b32.
Hypothesis (Fl : fin lr = true) (Hl : Rabs (bv lr) <= 2 ^ 90).

Lemma sqr_low : 0 <= rnd (bv g * bv g) /\ (1 - u32) * (bv g * bv g) - eta32 <= rnd (bv g * bv g).
Proof. split; [apply rnd_pos, Rle_0_sqr|apply rnd_low, Rle_0_sqr]. Qed.
Lemma fin_not_nan (x : b32) : fin x = true -> is_nan x = false.
Proof. destruct x; try discriminate; reflexivity. Qed.

(** Adagrad *)
Lemma ag_update r : not_negative r -> let y := Bplus mode_NE r (Bmult mode_NE g g) in
  not_negative y /\ nan_or (upd32 lr g y) (fun z => Rabs z <= largest_step (bv lr) 1) /\
  (fin g = true -> is_nan r = false -> is_nan y = false /\ is_nan (upd32 lr g y) = false).
Proof.
  intros Hr y. apply ge_0 in Hr. destruct sqr_low as (S0 & S1). pose proof u32_pos as U0. pose proof u32_small as US. pose proof eta32_pos as T0.
  pose proof (ge_add r (Bmult mode_NE g g) 0 _ (Rle_refl 0) S0 Hr (ge_sqr g)) as GY. rewrite Rplus_0_l, rnd_rnd in GY. fold y in GY.
  assert (K : / 2 ^ 24 <= 1 <= 1) by (split; [rewrite <- Rinv_1; apply Rinv_le; lra|lra]).
  destruct (step_cap_ok (bv lr) 1 1 K ltac:(lra)) as (C1 & C2).
  assert (HX : Rabs (bv g) <= (1 + 1 * u32) / sqrt 1 * (sqrt (rnd (bv g * bv g)) + / 2 ^ 60)) by (apply low_root; lra).
  assert (NF : fin g = false -> fin y = false) by (intros H; apply nonfin_add_r, nonfin_mul_l; exact H).
  pose proof (upd_bound lr g y _ _ Fl Hl S0 GY NF C2 HX) as UB.
  split; [apply ge_0; apply (ge_weaken _ _ _ GY S0)|]. split.
  - destruct UB as [(N & _)|(F & B)]; [left; exact N|right]. split; [exact F|]. eapply Rle_trans; [exact B|exact C1].
  - intros Fg Nr. assert (NY : is_nan y = false) by (apply add_not_nan; [exact Hr|apply (ge_weaken _ _ _ (ge_sqr g) S0)|exact Nr|apply sqr_not_nan; exact Fg]).
    split; [exact NY|]. destruct UB as [(_ & [N|N])|(F & _)]; try congruence. apply fin_not_nan. exact F.
Qed.

(** RMSprop *)
Lemma rms_update rho r : fin rho = true -> 0 <= bv rho < 1 -> not_negative r ->
  let y := Bplus mode_NE (Bmult mode_NE rho r) (Bmult mode_NE (Bminus mode_NE (b32_ofZ 1) rho) (Bmult mode_NE g g)) in
  not_negative y /\ nan_or (upd32 lr g y) (fun z => Rabs z <= largest_step (bv lr) (1 - bv rho)) /\
  (fin g = true -> is_nan r = false -> 0 < bv rho -> is_nan y = false /\ is_nan (upd32 lr g y) = false).
Proof.
  intros Fr Hrho Hr y. apply ge_0 in Hr. destruct sqr_low as (S0 & S1). pose proof u32_pos as U0. pose proof u32_small as US. pose proof eta32_pos as T0.
  destruct (rho_R rho Fr Hrho) as (Fc & Ec & Hk & Hc). set (c := Bminus mode_NE (b32_ofZ 1) rho) in *.
  set (k := 1 - bv rho) in *. set (s := rnd (bv g * bv g)) in *.
  assert (K : / 2 ^ 24 <= k <= 1) by (unfold k in *; lra).
  assert (G1 : ge (Bmult mode_NE rho r) 0). { pose proof (ge_mul rho r (bv rho) 0 ltac:(lra) (Rle_refl 0) (ge_self rho Fr) Hr) as G. rewrite Rmult_0_r, rnd_0 in G. exact G. }
  pose proof (ge_mul c (Bmult mode_NE g g) (bv c) s Hc S0 (ge_self c Fc) (ge_sqr g)) as G2.
  assert (P0 : 0 <= rnd (bv c * s)) by (apply rnd_pos, Rmult_le_pos; assumption).
  pose proof (ge_add _ _ 0 _ (Rle_refl 0) P0 G1 G2) as GY. rewrite Rplus_0_l, rnd_rnd in GY. fold y in GY.
  assert (LOW : (1 - 3 * u32) * (k * (bv g * bv g)) - 4 * eta32 <= rnd (bv c * s)).
  { apply around in Ec. pose proof (rnd_low (bv c * s) ltac:(apply Rmult_le_pos; assumption)) as L.
    set (q := bv g * bv g) in *. assert (Q0 : 0 <= q) by apply Rle_0_sqr.
    assert (uk : 0 <= u32 * k <= u32) by (split; [apply Rmult_le_pos; lra|rewrite <- (Rmult_1_r u32) at 2; apply Rmult_le_compat_l; lra]).
    assert (C1 : (1 - u32) * k <= bv c <= 2) by lra.
    assert (CS : (1 - u32) * k * ((1 - u32) * q) - 2 * eta32 <= bv c * s).
    { apply Rle_trans with (bv c * ((1 - u32) * q - eta32)); [|apply Rmult_le_compat_l; lra].
      assert ((1 - u32) * k * ((1 - u32) * q) <= bv c * ((1 - u32) * q)) by (apply Rmult_le_compat_r; [apply Rmult_le_pos; lra|lra]).
      assert (bv c * eta32 <= 2 * eta32) by (apply Rmult_le_compat_r; lra). lra. }
    set (w := k * q) in *. replace ((1 - u32) * k * ((1 - u32) * q)) with ((1 - u32) * (1 - u32) * w) in CS by (unfold w; ring).
    assert (W0 : 0 <= w) by (apply Rmult_le_pos; lra).
    assert (L2 : (1 - u32) * ((1 - u32) * (1 - u32) * w - 2 * eta32) <= (1 - u32) * (bv c * s)) by (apply Rmult_le_compat_l; lra).
    assert (L3 : (1 - 3 * u32) * w <= (1 - u32) * ((1 - u32) * (1 - u32) * w)).
    { replace ((1 - u32) * ((1 - u32) * (1 - u32) * w)) with ((1 - u32) * (1 - u32) * (1 - u32) * w) by ring. apply Rmult_le_compat_r; [exact W0|].
      assert (0 <= u32 * (u32 * (3 - u32))) by (apply Rmult_le_pos; [lra|apply Rmult_le_pos; lra]). lra. }
    assert (0 <= u32 * eta32) by (apply Rmult_le_pos; lra). lra. }
  destruct (step_cap_ok (bv lr) k 3 K ltac:(lra)) as (C1 & C2).
  assert (I24 : 0 < / 2 ^ 24) by (apply Rinv_0_lt_compat, pow_lt; lra).
  assert (HX : Rabs (bv g) <= (1 + 3 * u32) / sqrt k * (sqrt (rnd (bv c * s)) + / 2 ^ 60)) by (apply low_root; lra).
  assert (NF : fin g = false -> fin y = false) by (intros H; apply nonfin_add_r, nonfin_mul_r, nonfin_mul_l; exact H).
  pose proof (upd_bound lr g y _ _ Fl Hl P0 GY NF C2 HX) as UB.
  split; [apply ge_0; apply (ge_weaken _ _ _ GY P0)|]. split.
  - destruct UB as [(N & _)|(F & B)]; [left; exact N|right]. split; [exact F|]. eapply Rle_trans; [exact B|exact C1].
  - intros Fg Nr Hrp.
    assert (CP : 0 < bv c). { apply around in Ec. assert (u32 * k <= u32 * 1) by (apply Rmult_le_compat_l; lra). assert (u32 * k <= / 1000000 * k) by (apply Rmult_le_compat_r; lra). lra. }
    assert (NY : is_nan y = false).
    { apply add_not_nan; [exact G1|apply (ge_weaken _ _ _ G2 P0)|apply mul_not_nan; assumption|].
      apply mul_not_nan; auto; [apply (ge_weaken _ _ _ (ge_sqr g) S0)|apply sqr_not_nan; exact Fg]. }
    split; [exact NY|]. destruct UB as [(_ & [N|N])|(F & _)]; try congruence. apply fin_not_nan. exact F.
Qed.
End Update.

(** ** moving a parameter *)
Lemma add_move (th d : b32) S : fin th = true -> Rabs (bv th) <= 2 ^ 126 -> S <= 2 ^ 125 -> nan_or d (fun z => Rabs z <= S) ->
  nan_or (Bplus mode_NE th d) (fun y => Rabs (y - bv th) <= S + u32 * (Rabs (bv th) + S)) /\ (is_nan d = false -> is_nan (Bplus mode_NE th d) = false).
Proof.
  intros Ft Ht HS [N|(Fd & Hd)].
  - split; [left; destruct d; try discriminate; destruct th; reflexivity|congruence].
  - assert (B : 2 ^ 125 + 2 ^ 126 <= 2 ^ 127) by lra.
    assert (A : Rabs (bv th + bv d) <= Rabs (bv th) + S) by (eapply Rle_trans; [apply Rabs_triang|]; fold (bv d) in Hd; lra).
    destruct (add_R th d Ft Fd) as (F & E). { lra. } split; [right; split; [exact F|]|intros _; apply fin_not_nan; exact F].
    change (B2R (Bplus mode_NE th d)) with (bv (Bplus mode_NE th d)).
    replace (bv (Bplus mode_NE th d) - bv th) with ((bv (Bplus mode_NE th d) - (bv th + bv d)) + bv d) by ring. eapply Rle_trans; [apply Rabs_triang|].
    assert (u32 * Rabs (bv th + bv d) <= u32 * (Rabs (bv th) + S)) by (apply Rmult_le_compat_l; [pose proof u32_pos; lra|exact A]). fold (bv d) in Hd. lra.
Qed.
Lemma move_plain (th d : b32) S : fin th = true -> Rabs (bv th) <= 2 ^ 126 -> 0 <= S <= 2 ^ 125 -> nan_or d (fun z => Rabs z <= S) ->
  nan_or (Bplus mode_NE th d) (moves (bv th) S) /\ (is_nan d = false -> is_nan (Bplus mode_NE th d) = false).
Proof.
  intros Ft Ht HS Hd. destruct (add_move th d S Ft Ht (proj2 HS) Hd) as (A & B). split; [|exact B].
  destruct A as [N|(F & A)]; [left; exact N|right]. split; [exact F|]. unfold moves. eapply Rle_trans; [exact A|].
  assert (0 <= u32 * (Rabs (bv th) + S)) by (apply Rmult_le_pos; [pose proof u32_pos; lra|pose proof (Rabs_pos (bv th)); lra]). lra.
Qed.
Lemma largest_step_pos lr k : / 2 ^ 24 <= k <= 1 -> Rabs lr <= 2 ^ 90 -> / 2 ^ 60 <= largest_step lr k <= 2 ^ 110.
Proof.
  intros Hk Hl. pose proof (inv_root k Hk) as (I1 & I2). pose proof u32_pos. pose proof u32_small. pose proof (Rabs_pos lr). unfold largest_step, Rdiv.
  set (i := / sqrt k) in *. assert (A : 0 <= Rabs lr * i <= 2 ^ 102).
  { split; [apply Rmult_le_pos; lra|]. change 102%nat with (90 + 12)%nat. rewrite pow_add. apply Rmult_le_compat; lra. }
  assert (B : 0 <= Rabs lr * i * (1 + 10 * u32) <= 2 ^ 102 * 2) by (split; [apply Rmult_le_pos|apply Rmult_le_compat]; lra).
  assert (I60 : 0 < / 2 ^ 60 <= 1) by (split; [apply Rinv_0_lt_compat, pow_lt; lra|rewrite <- Rinv_1; apply Rinv_le; lra]).
  split; [lra|]. assert (2 ^ 102 * 2 + 1 <= 2 ^ 110) by lra. lra.
Qed.

(** with momentum *)
Lemma move_velocity (th v mu d : b32) S (nest : bool) :
  fin th = true -> Rabs (bv th) <= 2 ^ 125 -> fin v = true -> Rabs (bv v) <= 2 ^ 120 -> fin mu = true -> 0 < bv mu <= 1 ->
  / 2 ^ 60 <= S <= 2 ^ 110 -> nan_or d (fun z => Rabs z <= S) ->
  let v1 := Bmult mode_NE v mu in
  let v2 := Bplus mode_NE v1 d in
  let th2 := Bplus mode_NE (if nest then Bplus mode_NE th v1 else th) (if nest then d else v2) in
  let V := velocity_cap (bv mu) (bv v) S in
  nan_or v2 (fun z => Rabs z <= V) /\ nan_or th2 (moves (bv th) V) /\
  (is_nan d = false -> is_nan v2 = false /\ is_nan th2 = false).
Proof.
  intros Ft Ht Fv Hv Fm Hm HS Hd v1 v2 th2 V.
  pose proof u32_pos as U0. pose proof u32_small as US. pose proof eta32_pos as T0. pose proof (Rabs_pos (bv v)) as V0. pose proof (Rabs_pos (bv th)) as H0.
  set (a := bv mu * Rabs (bv v)) in *. assert (A : 0 <= a <= 2 ^ 120).
  { split; [apply Rmult_le_pos; lra|]. apply Rle_trans with (1 * Rabs (bv v)); [apply Rmult_le_compat_r; lra|lra]. }
  assert (AM : Rabs (bv v * bv mu) = a) by (unfold a; rewrite Rabs_mult, (Rabs_pos_eq (bv mu)) by lra; ring).
  assert (B : 2 ^ 120 * 128 = 2 ^ 127) by lra. assert (B2 : 2 ^ 110 * 1024 = 2 ^ 120) by lra. assert (B3 : 2 ^ 125 * 4 = 2 ^ 127) by lra.
  assert (B4 : 1 <= 2 ^ 110) by (apply pow_R1_Rle; lra).
  destruct (mul_R v mu Fv Fm) as (F1 & E1). { lra. } fold v1 in F1, E1. rewrite AM in E1.
  assert (UA : 0 <= u32 * a <= / 1000000 * a) by (split; [apply Rmult_le_pos|apply Rmult_le_compat_r]; lra).
  assert (N1 : Rabs (bv v1) <= a + u32 * a + eta32).
  { replace (bv v1) with ((bv v1 - bv v * bv mu) + bv v * bv mu) by ring. eapply Rle_trans; [apply Rabs_triang|]. rewrite AM. lra. }
  assert (ES : eta32 <= / 4 * (u32 * S)).
  { apply Rle_trans with (/ 4 * (u32 * / 2 ^ 60)); [|apply Rmult_le_compat_l; [lra|apply Rmult_le_compat_l; lra]].
    unfold eta32, u32. rewrite <- Rinv_mult, <- pow_add. replace (/ 4) with (/ 2 ^ 2) by (cbn; lra). rewrite <- Rinv_mult, <- pow_add.
    apply Rinv_le; [apply pow_lt; lra|apply Rle_pow; [lra|lia]]. }
  assert (USS : 0 <= u32 * S <= / 1000000 * S). { assert (0 < / 2 ^ 60) by (apply Rinv_0_lt_compat, pow_lt; lra). split; [apply Rmult_le_pos|apply Rmult_le_compat_r]; lra. }
  assert (EV : V = a + S + 3 * (u32 * a) + 3 * (u32 * S)) by (unfold V, velocity_cap; fold a; ring).
  assert (UV : u32 * V = u32 * a + u32 * S + 3 * (u32 * (u32 * a)) + 3 * (u32 * (u32 * S))) by (rewrite EV; ring).
  assert (UUA : 0 <= u32 * (u32 * a) <= / 1000000 * (u32 * a)) by (split; [apply Rmult_le_pos|apply Rmult_le_compat_r]; lra).
  assert (UUS : 0 <= u32 * (u32 * S) <= / 1000000 * (u32 * S)) by (split; [apply Rmult_le_pos|apply Rmult_le_compat_r]; lra).
  assert (UT : 0 <= u32 * Rabs (bv th) <= / 1000000 * Rabs (bv th)) by (split; [apply Rmult_le_pos|apply Rmult_le_compat_r]; lra).
  assert (UUT : 0 <= u32 * (u32 * Rabs (bv th)) <= / 1000000 * (u32 * Rabs (bv th))) by (split; [apply Rmult_le_pos|apply Rmult_le_compat_r]; lra).
  assert (W2 : nan_or v2 (fun z => Rabs z <= V) /\ (is_nan d = false -> is_nan v2 = false)).
  { destruct Hd as [N|(Fd & Hd)]. { split; [left; unfold v2; destruct d; try discriminate; destruct v1; reflexivity|congruence]. }
    fold (bv d) in Hd. assert (A2 : Rabs (bv v1 + bv d) <= a + u32 * a + eta32 + S) by (eapply Rle_trans; [apply Rabs_triang|]; lra).
    destruct (add_R v1 d F1 Fd) as (F2 & E2). { lra. } fold v2 in F2, E2. split; [right; split; [exact F2|]|intros _; apply fin_not_nan; exact F2].
    fold (bv v2). replace (bv v2) with ((bv v2 - (bv v1 + bv d)) + (bv v1 + bv d)) by ring. eapply Rle_trans; [apply Rabs_triang|].
    assert (u32 * Rabs (bv v1 + bv d) <= u32 * (a + u32 * a + eta32 + S)) by (apply Rmult_le_compat_l; lra).
    assert (u32 * eta32 <= / 1000000 * eta32) by (apply Rmult_le_compat_r; lra). lra. }
  destruct W2 as (W2 & W2'). split; [exact W2|].
  assert (W3 : nan_or th2 (moves (bv th) V) /\ (is_nan d = false -> is_nan th2 = false)).
  { destruct nest.
    - assert (A1 : Rabs (bv th + bv v1) <= Rabs (bv th) + (a + u32 * a + eta32)) by (eapply Rle_trans; [apply Rabs_triang|]; lra).
      destruct (add_R th v1 Ft F1) as (F2 & E2). { lra. } set (th1 := Bplus mode_NE th v1) in *.
      assert (uA : u32 * Rabs (bv th + bv v1) <= u32 * (Rabs (bv th) + (a + u32 * a + eta32))) by (apply Rmult_le_compat_l; lra).
      assert (ue : 0 <= u32 * eta32 <= / 1000000 * eta32) by (split; [apply Rmult_le_pos|apply Rmult_le_compat_r]; lra).
      assert (M1 : Rabs (bv th1 - bv th) <= a + u32 * a + eta32 + u32 * (Rabs (bv th) + (a + u32 * a + eta32))).
      { replace (bv th1 - bv th) with ((bv th1 - (bv th + bv v1)) + bv v1) by ring. eapply Rle_trans; [apply Rabs_triang|]. lra. }
      assert (M2 : Rabs (bv th1) <= Rabs (bv th) + (a + u32 * a + eta32 + u32 * (Rabs (bv th) + (a + u32 * a + eta32)))).
      { replace (bv th1) with ((bv th1 - bv th) + bv th) by ring. eapply Rle_trans; [apply Rabs_triang|]. lra. }
      destruct (add_move th1 d S F2) as (P & P'); [lra|lra|exact Hd|]. split; [|exact P'].
      destruct P as [N|(F & P)]; [left; exact N|right]. split; [exact F|]. unfold moves.
      replace (B2R th2 - bv th) with ((B2R th2 - bv th1) + (bv th1 - bv th)) by ring. eapply Rle_trans; [apply Rabs_triang|].
      assert (u32 * (Rabs (bv th1) + S) <= u32 * (Rabs (bv th) + (a + u32 * a + eta32 + u32 * (Rabs (bv th) + (a + u32 * a + eta32))) + S)) by (apply Rmult_le_compat_l; lra).
      assert (u32 * (u32 * (u32 * a)) <= / 1000000 * (u32 * (u32 * a))) by (apply Rmult_le_compat_r; lra).
      assert (u32 * (u32 * eta32) <= / 1000000 * (u32 * eta32)) by (apply Rmult_le_compat_r; lra). change (Bplus mode_NE th1 d) with th2 in P. lra.
    - destruct (move_plain th v2 V Ft) as (P & P'); [lra|lra|exact W2|]. split; [exact P|]. intros H. apply P', W2', H. }
  destruct W3 as (W3 & W3'). split; [exact W3|]. intros H. split; auto.
Qed.
