(** AdaptRound.v -- the steps of Adagrad, RMSprop and Adam in binary32: lower bounds that survive overflow and NaN *)
From Flocq Require Import Core BinarySingleNaN.
From Coq Require Import ZArith Bool List Arith Reals Lia Lra.
From Verif Require Import Base BaseProofs Ops OpsB32 B32Facts MetricB32 SpecLibm SpecRound RoundProofs Exp256B32 InitProofs.
Import ListNotations.
Local Open Scope R_scope.
Local Notation NZ := b32_zero.
Local Notation INF := (B754_infinity false : b32).

Lemma around x y e : Rabs (x - y) <= e -> y - e <= x <= y + e.
Proof. intros H. unfold Rabs in H. destruct (Rcase_abs (x - y)); lra. Qed.

(** ** at least a, or infinite, or a NaN *)
Definition ge (y : b32) (a : R) : Prop := is_nan y = true \/ y = INF \/ (fin y = true /\ a <= bv y).

Lemma ge_weaken y a b : ge y a -> b <= a -> ge y b.
Proof. intros [H|[H|(H & K)]] L; [left; auto|right; left; auto|right; right]. split; auto. lra. Qed.
Lemma ge_self y : fin y = true -> ge y (bv y).
Proof. intros H. right; right. split; auto. lra. Qed.
Lemma ge_0 y : ge y 0 <-> Bltb y NZ = false.
Proof.
  split.
  - intros [H|[->|(F & H)]].
    + destruct y; try discriminate. reflexivity.
    + reflexivity.
    + rewrite ltb_R by (auto; reflexivity). apply Rlt_bool_false. exact H.
  - destruct y as [s|s| |s m e B]; intros H.
    + right; right. split; [reflexivity|]. cbn. lra.
    + destruct s; [discriminate|]. right; left; reflexivity.
    + left; reflexivity.
    + right; right. split; [reflexivity|]. rewrite ltb_R in H by reflexivity. change (bv NZ) with 0 in H.
      destruct (Rlt_bool_spec (bv (B754_finite s m e B : b32)) 0); [discriminate|]. exact H0.
Qed.
Lemma pos_sign (x : b32) : Bsign x = false -> 0 <= bv x.
Proof. destruct x as [s|s| |s m e He]; cbn; try lra. intros ->. apply F2R_ge_0. cbn. lia. Qed.
Lemma over_inf (z : b32) s : B2SF z = binary_overflow 24 128 mode_NE s -> z = B754_infinity s.
Proof. intros H. apply B2SF_inj. rewrite H. reflexivity. Qed.

Lemma rnd_mono a b : a <= b -> rnd a <= rnd b.
Proof. intros H. apply round_le; [apply fexp_correct; reflexivity|apply valid_rnd_round_mode|exact H]. Qed.
Lemma rnd_0 : rnd 0 = 0.
Proof. apply round_0. auto with typeclass_instances. Qed.
Lemma rnd_pos a : 0 <= a -> 0 <= rnd a.
Proof. intros H. rewrite <- rnd_0. apply rnd_mono. exact H. Qed.
Lemma rnd_rnd a : rnd (rnd a) = rnd a.
Proof. apply rnd_id. apply generic_format_round; [apply fexp_correct; reflexivity|apply valid_rnd_round_mode]. Qed.
Lemma rnd_low a : 0 <= a -> (1 - u32) * a - eta32 <= rnd a.
Proof. intros H. pose proof (rnd_err a) as E. rewrite (Rabs_pos_eq a H) in E. apply around in E. lra. Qed.
Lemma not_over x : Rlt_bool (Rabs (rnd x)) (bpow radix2 128) = false -> x <> 0.
Proof. intros H ->. rewrite rnd_0, Rabs_R0 in H. rewrite Rlt_bool_true in H; [discriminate|]. apply bpow_gt_0. Qed.

Lemma mul_cases (x y : b32) : fin x = true -> fin y = true -> 0 <= bv x * bv y ->
  Bmult mode_NE x y = INF \/ (fin (Bmult mode_NE x y) = true /\ bv (Bmult mode_NE x y) = rnd (bv x * bv y)).
Proof.
  intros Fx Fy H. pose proof (Bmult_correct 24 128 _ _ mode_NE x y) as C.
  change (round radix2 (SpecFloat.fexp 24 128) (round_mode mode_NE) (B2R x * B2R y)) with (rnd (bv x * bv y)) in C.
  destruct (Rlt_bool (Rabs (rnd (bv x * bv y))) (bpow radix2 128)) eqn:E.
  - right. destruct C as (C1 & C2 & _). rewrite C2, Fx, Fy. split; [reflexivity|exact C1].
  - left. apply over_inf in C. rewrite C. apply not_over in E. f_equal.
    destruct (Bsign x) eqn:Sx, (Bsign y) eqn:Sy; try reflexivity; exfalso.
    + pose proof (neg_sign _ Sx). pose proof (pos_sign _ Sy). nra.
    + pose proof (pos_sign _ Sx). pose proof (neg_sign _ Sy). nra.
Qed.
Lemma add_cases (x y : b32) : fin x = true -> fin y = true -> 0 <= bv x -> 0 <= bv y ->
  Bplus mode_NE x y = INF \/ (fin (Bplus mode_NE x y) = true /\ bv (Bplus mode_NE x y) = rnd (bv x + bv y)).
Proof.
  intros Fx Fy Hx Hy. pose proof (Bplus_correct 24 128 _ _ mode_NE x y Fx Fy) as C.
  change (round radix2 (SpecFloat.fexp 24 128) (round_mode mode_NE) (B2R x + B2R y)) with (rnd (bv x + bv y)) in C.
  destruct (Rlt_bool (Rabs (rnd (bv x + bv y))) (bpow radix2 128)) eqn:E.
  - right. destruct C as (C1 & C2 & _). split; [exact C2|exact C1].
  - left. destruct C as (C1 & C2). apply over_inf in C1. rewrite C1. apply not_over in E. f_equal.
    destruct (Bsign x) eqn:Sx; [|reflexivity]. symmetry in C2. pose proof (neg_sign _ Sx). pose proof (neg_sign _ C2). lra.
Qed.
Lemma div_cases (x y : b32) : fin x = true -> 0 <= bv x -> 0 < bv y ->
  Bdiv mode_NE x y = INF \/ (fin (Bdiv mode_NE x y) = true /\ bv (Bdiv mode_NE x y) = rnd (bv x / bv y)).
Proof.
  intros Fx Hx Hy. pose proof (Bdiv_correct 24 128 _ _ mode_NE x y ltac:(fold (bv y); lra)) as C.
  change (round radix2 (SpecFloat.fexp 24 128) (round_mode mode_NE) (B2R x / B2R y)) with (rnd (bv x / bv y)) in C.
  destruct (Rlt_bool (Rabs (rnd (bv x / bv y))) (bpow radix2 128)) eqn:E.
  - right. destruct C as (C1 & C2 & _). rewrite C2. split; [exact Fx|exact C1].
  - left. apply over_inf in C. rewrite C. apply not_over in E. f_equal.
    destruct (Bsign x) eqn:Sx, (Bsign y) eqn:Sy; try reflexivity; exfalso.
    + pose proof (neg_sign _ Sx). apply E. replace (bv x) with 0 by lra. unfold Rdiv. ring.
    + pose proof (neg_sign _ Sy). lra.
Qed.

Ltac nanl := left; reflexivity.
Ltac infl := right; left; reflexivity.

Lemma ge_add x y a b : 0 <= a -> 0 <= b -> ge x a -> ge y b -> ge (Bplus mode_NE x y) (rnd (a + b)).
Proof.
  intros Ha Hb [Nx|[->|(Fx & Hx)]] [Ny|[->|(Fy & Hy)]].
  - destruct x; try discriminate; nanl.
  - destruct x; try discriminate; nanl.
  - destruct x; try discriminate; nanl.
  - destruct y; try discriminate; nanl.
  - infl.
  - destruct y; try discriminate; infl.
  - destruct y; try discriminate; destruct x; try discriminate; nanl.
  - destruct x; try discriminate; infl.
  - destruct (add_cases x y Fx Fy) as [E|(E1 & E2)]; try lra; [right; left; exact E|].
    right; right. split; [exact E1|]. rewrite E2. apply rnd_mono. lra.
Qed.
Lemma ge_mul x y a b : 0 <= a -> 0 <= b -> ge x a -> ge y b -> ge (Bmult mode_NE x y) (rnd (a * b)).
Proof.
  intros Ha Hb [Nx|[->|(Fx & Hx)]] [Ny|[->|(Fy & Hy)]].
  - destruct x; try discriminate; nanl.
  - destruct x; try discriminate; nanl.
  - destruct x; try discriminate; nanl.
  - destruct y; try discriminate; nanl.
  - infl.
  - destruct y as [s|s| |s m e B]; try discriminate; [nanl|]. destruct s; [exfalso|infl].
    assert (bv (B754_finite true m e B : b32) < 0) by (apply F2R_lt_0; cbn; lia). lra.
  - destruct y; try discriminate; destruct x; try discriminate; nanl.
  - destruct x as [s|s| |s m e B]; try discriminate; [nanl|]. destruct s; [exfalso|infl].
    assert (bv (B754_finite true m e B : b32) < 0) by (apply F2R_lt_0; cbn; lia). lra.
  - assert (P : a * b <= bv x * bv y) by (apply Rmult_le_compat; assumption). assert (0 <= a * b) by (apply Rmult_le_pos; assumption).
    destruct (mul_cases x y Fx Fy) as [E|(E1 & E2)]; try lra; [right; left; exact E|].
    right; right. split; [exact E1|]. rewrite E2. apply rnd_mono. exact P.
Qed.
Lemma ge_sqr x : ge (Bmult mode_NE x x) (rnd (bv x * bv x)).
Proof.
  destruct (fin x) eqn:Fx.
  - destruct (mul_cases x x Fx Fx) as [E|(E1 & E2)]; [apply Rle_0_sqr|right; left; exact E|]. right; right. split; [exact E1|]. rewrite E2. lra.
  - destruct x as [s|s| |s m e B]; try discriminate; [destruct s; infl|nanl].
Qed.
(** the other way to multiply: (c x) x *)
Lemma ge_sqr2 c x : fin c = true -> 0 <= bv c -> bv c * Rabs (bv x) <= 2 ^ 127 -> ge (Bmult mode_NE (Bmult mode_NE c x) x) (rnd (rnd (bv c * Rabs (bv x)) * Rabs (bv x))).
Proof.
  intros Fc Hc HR. destruct (fin x) eqn:Fx.
  - assert (A : Rabs (bv c * bv x) = bv c * Rabs (bv x)) by (rewrite Rabs_mult, (Rabs_pos_eq (bv c) Hc); reflexivity).
    pose proof (Bmult_correct 24 128 _ _ mode_NE c x) as C. rewrite Rlt_bool_true in C by (apply rnd_range; fold (bv c) (bv x); rewrite A; lra).
    destruct C as (C1 & C2 & _). rewrite Fc, Fx in C2. set (z := Bmult mode_NE c x) in *.
    change (bv z = rnd (bv c * bv x)) in C1.
    assert (P : bv z * bv x = rnd (bv c * Rabs (bv x)) * Rabs (bv x)).
    { rewrite C1. unfold Rabs. destruct (Rcase_abs (bv x)) as [L|L]; [|reflexivity].
      replace (bv c * - bv x) with (- (bv c * bv x)) by ring.
      assert (RO : rnd (- (bv c * bv x)) = - rnd (bv c * bv x)) by apply round_NE_opp. rewrite RO. ring. }
    destruct (mul_cases z x C2 Fx) as [E|(E1 & E2)].
    + rewrite P. apply Rmult_le_pos; [|apply Rabs_pos]. apply rnd_pos. apply Rmult_le_pos; [exact Hc|apply Rabs_pos].
    + right; left; exact E.
    + right; right. split; [exact E1|]. rewrite E2, P. lra.
  - destruct x as [s|s| |s m e B]; try discriminate.
    + assert (N : bv (B754_infinity s : b32) = 0) by reflexivity.
      destruct c as [sc|sc| |sc mc ec Bc]; try discriminate; [nanl|].
      assert (sc = false). { destruct sc; [|reflexivity]. exfalso. assert (bv (B754_finite true mc ec Bc : b32) < 0) by (apply F2R_lt_0; cbn; lia). lra. }
      subst. destruct s; infl.
    + destruct c; try discriminate; nanl.
Qed.
Lemma sqrt_32 y : fin y = true -> 0 <= bv y -> fin (Bsqrt mode_NE y) = true /\ bv (Bsqrt mode_NE y) = rnd (sqrt (bv y)).
Proof.
  intros F H. pose proof (Bsqrt_correct 24 128 _ _ mode_NE y) as (S1 & S2 & _). split; [|exact S1].
  rewrite S2. destruct y as [s|s| |s m e B]; try reflexivity; try discriminate. destruct s; [|reflexivity]. exfalso.
  assert (bv (B754_finite true m e B : b32) < 0) by (apply F2R_lt_0; cbn; lia). lra.
Qed.
Lemma ge_sqrt y a : 0 <= a -> ge y a -> ge (Bsqrt mode_NE y) (rnd (sqrt a)).
Proof.
  intros Ha [N|[->|(F & H)]].
  - destruct y; try discriminate; nanl.
  - infl.
  - destruct (sqrt_32 y F ltac:(lra)) as (S1 & S2). right; right. split; [exact S1|]. rewrite S2. apply rnd_mono. apply sqrt_le_1_alt. exact H.
Qed.
Lemma ge_div y d a : fin d = true -> 0 < bv d -> 0 <= a -> ge y a -> ge (Bdiv mode_NE y d) (rnd (a / bv d)).
Proof.
  intros Fd Hd Ha [N|[->|(F & H)]].
  - destruct y; try discriminate; nanl.
  - destruct d as [s|s| |s m e B]; try discriminate; [cbn in Hd; lra|]. destruct s; [exfalso|infl].
    assert (bv (B754_finite true m e B : b32) < 0) by (apply F2R_lt_0; cbn; lia). lra.
  - destruct (div_cases y d F ltac:(lra) Hd) as [E|(E1 & E2)]; [right; left; exact E|].
    right; right. split; [exact E1|]. rewrite E2. apply rnd_mono. apply Rmult_le_compat_r; [left; apply Rinv_0_lt_compat; exact Hd|exact H].
Qed.

(** ** infinite and NaN operands *)
Lemma nonfin_add_r x y : fin y = false -> fin (Bplus mode_NE x y) = false.
Proof. destruct y as [s|s| |s m e B]; intros H; try discriminate; destruct x as [s'|s'| |s' m' e' B']; try reflexivity. destruct s, s'; reflexivity. Qed.
Lemma nonfin_mul_l x y : fin x = false -> fin (Bmult mode_NE x y) = false.
Proof. destruct x as [s|s| |s m e B]; intros H; try discriminate; destruct y as [s'|s'| |s' m' e' B']; reflexivity. Qed.
Lemma nonfin_mul_r x y : fin y = false -> fin (Bmult mode_NE x y) = false.
Proof. destruct y as [s|s| |s m e B]; intros H; try discriminate; destruct x as [s'|s'| |s' m' e' B']; reflexivity. Qed.
Lemma nan_or_inf y a : fin y = false -> ge y a -> is_nan y = true \/ y = INF.
Proof. intros F [H|[H|(H & _)]]; auto. congruence. Qed.

(** a sum or a product of numbers that are not negative is a NaN only for a NaN, or for 0 times infinity *)
Lemma add_not_nan x y : ge x 0 -> ge y 0 -> is_nan x = false -> is_nan y = false -> is_nan (Bplus mode_NE x y) = false.
Proof.
  intros [N|[->|(Fx & Hx)]] [N'|[->|(Fy & Hy)]] A B; try congruence; try reflexivity.
  - destruct y; try discriminate; reflexivity.
  - destruct x; try discriminate; reflexivity.
  - destruct (add_cases x y Fx Fy Hx Hy) as [->|(E & _)]; [reflexivity|]. destruct (Bplus mode_NE x y); try discriminate; reflexivity.
Qed.
Lemma mul_not_nan x y : fin x = true -> 0 < bv x -> ge y 0 -> is_nan y = false -> is_nan (Bmult mode_NE x y) = false.
Proof.
  intros Fx Hx [N|[->|(Fy & Hy)]] A; try congruence.
  - destruct x; try discriminate; try reflexivity. cbn in Hx. lra.
  - destruct (mul_cases x y Fx Fy) as [->|(E & _)]; [apply Rmult_le_pos; lra|reflexivity|]. destruct (Bmult mode_NE x y); try discriminate; reflexivity.
Qed.
Lemma sqr_not_nan x : fin x = true -> is_nan (Bmult mode_NE x x) = false.
Proof. intros F. destruct (mul_cases x x F F) as [->|(E & _)]; [apply Rle_0_sqr|reflexivity|]. destruct (Bmult mode_NE x x); try discriminate; reflexivity. Qed.

(** ** the update of Adagrad and RMSprop: x * (- lr / (eps + sqrt y)) *)
Notation eps7 := (b32_lit 1 10000000).
Notation eps8 := (b32_lit 1 100000000).
Lemma eps7_R : fin eps7 = true /\ bv eps7 = 14073749 / 140737488355328. Proof. lit32. Qed.
Lemma eps8_R : fin eps8 = true /\ bv eps8 = 11258999 / 1125899906842624. Proof. lit32. Qed.

Definition upd32 (lr x y : b32) : b32 := Bmult mode_NE x (Bdiv mode_NE (Bopp lr) (Bplus mode_NE eps7 (Bsqrt mode_NE y))).

Lemma div_by_inf (x : b32) : fin x = true -> exists s, Bdiv mode_NE x INF = B754_zero s.
Proof. destruct x as [s|s| |s m e B]; intros H; try discriminate; eexists; reflexivity. Qed.
Lemma mul_zero (x : b32) s : fin x = true -> exists s', Bmult mode_NE x (B754_zero s) = B754_zero s'.
Proof. destruct x as [s'|s'| |s' m e B]; intros H; try discriminate; eexists; reflexivity. Qed.
Lemma opp_R (x : b32) : fin (Bopp x) = fin x /\ bv (Bopp x) = - bv x.
Proof. split; [destruct x; reflexivity|apply B2R_Bopp]. Qed.

(** |x| <= C * (sqrt a + 2^-60) where a is a lower bound of y *)
Lemma upd_bound (lr x y : b32) a C : fin lr = true -> Rabs (bv lr) <= 2 ^ 90 -> 0 <= a -> ge y a ->
  (fin x = false -> fin y = false) -> 0 <= C <= 2 ^ 30 -> Rabs (bv x) <= C * (sqrt a + / 2 ^ 60) ->
  (is_nan (upd32 lr x y) = true /\ (is_nan y = true \/ fin x = false)) \/
  (fin (upd32 lr x y) = true /\ Rabs (bv (upd32 lr x y)) <= C * (Rabs (bv lr) * (1 + 5 * u32) + / 2 ^ 80) + eta32).
Proof.
  intros Fl Hl Ha Hy Hx (C0 & C1) HX. unfold upd32. destruct eps7_R as (F7 & E7). destruct (opp_R lr) as (FO & EO). rewrite Fl in FO.
  pose proof u32_pos as U0. pose proof u32_small as US. pose proof eta32_pos as T0. pose proof eta32_small as TS.
  assert (B0 : 0 <= C * (Rabs (bv lr) * (1 + 5 * u32) + / 2 ^ 80) + eta32).
  { pose proof (Rabs_pos (bv lr)). assert (0 <= Rabs (bv lr) * (1 + 5 * u32)) by (apply Rmult_le_pos; lra). assert (0 < / 2 ^ 80) by (apply Rinv_0_lt_compat, pow_lt; lra).
    assert (0 <= C * (Rabs (bv lr) * (1 + 5 * u32) + / 2 ^ 80)) by (apply Rmult_le_pos; lra). lra. }
  destruct Hy as [N|[->|(Fy & Hy)]].
  - left. split; [|left; exact N]. destruct y; try discriminate. cbn [Bsqrt]. rewrite (eq_refl : Bplus mode_NE eps7 B754_nan = B754_nan).
    destruct (Bopp lr); destruct x; reflexivity.
  - replace (Bplus mode_NE eps7 (Bsqrt mode_NE INF)) with INF by reflexivity.
    destruct (div_by_inf (Bopp lr) FO) as (s & ->). destruct (fin x) eqn:Fx.
    + destruct (mul_zero x s Fx) as (s' & ->). right. split; [reflexivity|]. change (bv (B754_zero s' : b32)) with 0. rewrite Rabs_R0. exact B0.
    + left. split; [|right; reflexivity]. destruct x; try discriminate; reflexivity.
  - destruct (fin x) eqn:Fx; [|rewrite Hx in Fy by reflexivity; discriminate]. right.
    destruct (sqrt_32 y Fy ltac:(lra)) as (FQ & EQ). set (Q := Bsqrt mode_NE y) in *.
    assert (YB : 0 <= sqrt (bv y) <= 2 ^ 64).
    { split; [apply sqrt_pos|]. apply Rsqr_incr_0; [|apply sqrt_pos|apply pow_le; lra]. unfold Rsqr. rewrite sqrt_def by lra. rewrite <- pow_add.
      pose proof (abs_B2R_lt_emax 24 128 y) as HM. rewrite <- (top128) in HM. fold (bv y) in HM. rewrite Rabs_pos_eq in HM by lra. change (64 + 64)%nat with 128%nat. lra. }
    pose proof (rnd_err (sqrt (bv y))) as SE. rewrite <- EQ, (Rabs_pos_eq (sqrt (bv y))) in SE by lra. apply around in SE.
    assert (sqrt a <= sqrt (bv y)) by (apply sqrt_le_1_alt; exact Hy).
    set (S := sqrt (bv y)) in *.
    assert (US' : 0 <= u32 * S <= / 1000000 * S) by (split; [apply Rmult_le_pos|apply Rmult_le_compat_r]; lra).
    assert (B1 : 2 ^ 64 = 18446744073709551616) by lra. 
    assert (BB : 1000 * 2 ^ 64 <= 2 ^ 127). { change 127%nat with (63 + 64)%nat. rewrite pow_add. apply Rmult_le_compat_r; lra. }
    destruct (add_R eps7 Q F7 FQ) as (Fd & Ed). { rewrite E7. apply Rabs_le. lra. }
    set (d := Bplus mode_NE eps7 Q) in *. rewrite E7 in Ed.
    set (e7 := 14073749 / 140737488355328) in *. assert (E7' : / 11000000 <= e7 <= / 9000000) by (unfold e7; lra).
    assert (QP : 0 <= bv Q) by (rewrite EQ; apply rnd_pos; lra). assert (DP : 0 <= e7 + bv Q) by lra. rewrite (Rabs_pos_eq (e7 + bv Q)) in Ed by exact DP. apply around in Ed.
    assert (I60 : 0 < / 2 ^ 60 <= / 1000000000000000) by (split; [apply Rinv_0_lt_compat, pow_lt; lra|apply Rinv_le; lra]).
    assert (uQ : 0 <= u32 * (e7 + bv Q) <= / 1000000 * (e7 + bv Q)) by (split; [apply Rmult_le_pos|apply Rmult_le_compat_r]; lra).
    assert (D1 : (1 - 2 * u32) * (S + / 2 ^ 60) <= bv d).
    { assert (u32 * bv Q <= u32 * (S + u32 * S + eta32)) by (apply Rmult_le_compat_l; lra).
      assert (u32 * e7 <= u32 * / 9000000) by (apply Rmult_le_compat_l; lra).
      assert (eta32 <= / 2 ^ 60) by (unfold eta32; apply Rinv_le; [apply pow_lt; lra|apply Rle_pow; [lra|lia]]).
      assert (EE : (1 - u32) * (e7 + ((1 - u32) * S - eta32)) <= bv d).
      { assert ((1 - u32) * (e7 + ((1 - u32) * S - eta32)) <= (1 - u32) * (e7 + bv Q)) by (apply Rmult_le_compat_l; lra). lra. }
      assert (0 <= u32 * (u32 * S)) by (apply Rmult_le_pos; lra).
      assert (0 <= u32 * / 2 ^ 60) by (apply Rmult_le_pos; lra). assert (0 <= u32 * eta32) by (apply Rmult_le_pos; lra). lra. }
    assert (D2 : / 12000000 <= bv d <= 2 ^ 65). { lra. }
    assert (HX2 : (1 - 2 * u32) * Rabs (bv x) <= C * bv d).
    { assert (Rabs (bv x) <= C * (S + / 2 ^ 60)). { eapply Rle_trans; [exact HX|]. apply Rmult_le_compat_l; lra. }
      apply Rle_trans with ((1 - 2 * u32) * (C * (S + / 2 ^ 60))); [apply Rmult_le_compat_l; lra|].
      replace ((1 - 2 * u32) * (C * (S + / 2 ^ 60))) with (C * ((1 - 2 * u32) * (S + / 2 ^ 60))) by ring. apply Rmult_le_compat_l; lra. }
    set (D := bv d) in *. set (r := Rabs (bv lr)) in *. assert (R0 : 0 <= r) by apply Rabs_pos.
    assert (ID : 0 < / D <= 12000000). { split; [apply Rinv_0_lt_compat; lra|]. rewrite <- (Rinv_inv 12000000). apply Rinv_le; lra. }
    assert (QD : Rabs (bv (Bopp lr) / D) = r * / D). { rewrite EO. unfold Rdiv. rewrite Rabs_mult, Rabs_Ropp, (Rabs_pos_eq (/ D)) by lra. reflexivity. }
    assert (RD : 0 <= r * / D <= 2 ^ 114).
    { split; [apply Rmult_le_pos; lra|]. apply Rle_trans with (2 ^ 90 * 2 ^ 24); [apply Rmult_le_compat; lra|]. rewrite <- pow_add. apply Rle_pow; [lra|lia]. }
    assert (B114 : 1000 * 2 ^ 114 <= 2 ^ 127). { change 127%nat with (13 + 114)%nat. rewrite pow_add. apply Rmult_le_compat_r; [apply pow_le; lra|lra]. }
    destruct (divide_R (Bopp lr) d FO) as (Fw & Ew); [fold D; lra|fold D; rewrite QD; lra|]. fold D in Ew. rewrite QD in Ew.
    set (w := Bdiv mode_NE (Bopp lr) d) in *.
    assert (WB : Rabs (bv w) <= (1 + u32) * (r * / D) + eta32).
    { replace (bv w) with ((bv w - bv (Bopp lr) / D) + bv (Bopp lr) / D) by ring. eapply Rle_trans; [apply Rabs_triang|]. rewrite QD. lra. }
    set (X := Rabs (bv x)) in *. assert (X0 : 0 <= X) by apply Rabs_pos.
    assert (XC : X <= (1 + 21 / 10 * u32) * (C * D)).
    { set (k := C * D) in *. assert (K0 : 0 <= k) by (apply Rmult_le_pos; lra).
      apply Rmult_le_reg_l with (1 - 2 * u32); [lra|]. eapply Rle_trans; [exact HX2|].
      replace ((1 - 2 * u32) * ((1 + 21 / 10 * u32) * k)) with (k + (1 / 10 - 42 / 10 * u32) * (u32 * k)) by field.
      assert (0 <= u32 * k) by (apply Rmult_le_pos; lra). assert (0 <= (1 / 10 - 42 / 10 * u32) * (u32 * k)) by (apply Rmult_le_pos; lra). lra. }
    assert (CD : C * D * eta32 <= C * / 2 ^ 85).
    { rewrite Rmult_assoc. apply Rmult_le_compat_l; [lra|]. apply Rle_trans with (2 ^ 65 * eta32); [apply Rmult_le_compat_r; lra|].
      unfold eta32. change 150%nat with (65 + 85)%nat. rewrite pow_add, Rinv_mult. rewrite <- Rmult_assoc, Rinv_r by (apply pow_nonzero; lra). lra. }
    assert (PB : Rabs (bv x * bv w) <= C * (r * (1 + 35 / 10 * u32)) + (1 + 21 / 10 * u32) * (C * / 2 ^ 85)).
    { rewrite Rabs_mult. fold X. apply Rle_trans with ((1 + 21 / 10 * u32) * (C * D) * ((1 + u32) * (r * / D) + eta32)).
      { apply Rmult_le_compat; auto using Rabs_pos. }
      replace ((1 + 21 / 10 * u32) * (C * D) * ((1 + u32) * (r * / D) + eta32)) with ((1 + 21 / 10 * u32) * (1 + u32) * (C * r) + (1 + 21 / 10 * u32) * (C * D * eta32)) by (field; lra).
      apply Rplus_le_compat; [|apply Rmult_le_compat_l; lra].
      replace (C * (r * (1 + 35 / 10 * u32))) with ((1 + 35 / 10 * u32) * (C * r)) by ring. apply Rmult_le_compat_r; [apply Rmult_le_pos; lra|].
      assert (u32 * u32 <= / 1000000 * u32) by (apply Rmult_le_compat_r; lra). lra. }
    set (k := C * r) in *. assert (K0 : 0 <= k) by (apply Rmult_le_pos; lra).
    assert (K1 : k <= 2 ^ 120). { unfold k. apply Rle_trans with (2 ^ 30 * 2 ^ 90); [apply Rmult_le_compat; lra|]. rewrite <- pow_add. apply Rle_pow; [lra|lia]. }
    assert (I85 : 0 < / 2 ^ 85 <= 1) by (split; [apply Rinv_0_lt_compat, pow_lt; lra|rewrite <- Rinv_1; apply Rinv_le; [lra|apply pow_R1_Rle; lra]]).
    assert (C85 : 0 <= C * / 2 ^ 85 <= C). { split; [apply Rmult_le_pos; lra|]. rewrite <- (Rmult_1_r C) at 2. apply Rmult_le_compat_l; lra. }
    assert (UK : 0 <= u32 * k <= / 1000000 * k) by (split; [apply Rmult_le_pos|apply Rmult_le_compat_r]; lra).
    assert (UC : 0 <= u32 * (C * / 2 ^ 85) <= / 1000000 * (C * / 2 ^ 85)) by (split; [apply Rmult_le_pos|apply Rmult_le_compat_r]; lra).
    replace (C * (r * (1 + 35 / 10 * u32))) with (k + 35 / 10 * (u32 * k)) in PB by (unfold k; ring).
    assert (B120 : 100 * 2 ^ 120 <= 2 ^ 127). { change 127%nat with (7 + 120)%nat. rewrite pow_add. apply Rmult_le_compat_r; [apply pow_le; lra|lra]. }
    assert (B30 : 2 ^ 30 <= 2 ^ 120) by (apply Rle_pow; [lra|lia]).
    destruct (mul_R x w Fx Fw) as (FX & EX). { lra. } split; [exact FX|].
    assert (EX2 : Rabs (bv (Bmult mode_NE x w)) <= (1 + u32) * Rabs (bv x * bv w) + eta32).
    { replace (bv (Bmult mode_NE x w)) with ((bv (Bmult mode_NE x w) - bv x * bv w) + bv x * bv w) by ring. eapply Rle_trans; [apply Rabs_triang|]. lra. }
    assert (U2 : u32 * Rabs (bv x * bv w) <= u32 * (k + 35 / 10 * (u32 * k) + (1 + 21 / 10 * u32) * (C * / 2 ^ 85))) by (apply Rmult_le_compat_l; lra).
    assert (U3 : u32 * (u32 * k) <= / 1000000 * (u32 * k)) by (apply Rmult_le_compat_r; lra).
    assert (U4 : u32 * (u32 * (C * / 2 ^ 85)) <= / 1000000 * (u32 * (C * / 2 ^ 85))) by (apply Rmult_le_compat_r; lra).
    assert (I80 : C * / 2 ^ 80 = 32 * (C * / 2 ^ 85)). { change 85%nat with (5 + 80)%nat. rewrite pow_add. field. }
    replace (C * (r * (1 + 5 * u32) + / 2 ^ 80)) with (k + 5 * (u32 * k) + C * / 2 ^ 80) by (unfold k; ring).
    lra.
Qed.

(** ** the share of the squared gradient *)
Lemma low_root k g a j : 0 < k <= 1 -> 0 <= a -> 0 <= j <= 100 -> (1 - j * u32) * (k * (g * g)) - 4 * eta32 <= a ->
  Rabs g <= (1 + j * u32) / sqrt k * (sqrt a + / 2 ^ 60).
Proof.
  intros Hk Ha Hj H. pose proof u32_pos as U0. pose proof u32_small as US.
  assert (K0 : 0 < sqrt k) by (apply sqrt_lt_R0; lra). pose proof (sqrt_pos a) as A0.
  assert (I0 : 0 < / 2 ^ 60) by (apply Rinv_0_lt_compat, pow_lt; lra). set (s := sqrt a) in *. set (i := / 2 ^ 60) in *.
  assert (J0 : 0 <= j * u32 <= / 1000). { split; [apply Rmult_le_pos; lra|]. apply Rle_trans with (100 * / 1000000); [apply Rmult_le_compat; lra|lra]. }
  set (x := j * u32) in *. assert (E4 : 4 * eta32 <= i * i).
  { unfold i, eta32. rewrite <- Rinv_mult, <- pow_add. change (60 + 60)%nat with 120%nat. change 150%nat with (30 + 120)%nat. rewrite pow_add, Rinv_mult, <- Rmult_assoc.
    rewrite <- (Rmult_1_l (/ 2 ^ 120)) at 2. apply Rmult_le_compat_r; [left; apply Rinv_0_lt_compat, pow_lt; lra|]. lra. }
  assert (SA : a = s * s) by (unfold s; rewrite sqrt_def by exact Ha; reflexivity).
  apply Rmult_le_reg_l with (sqrt k); [exact K0|]. replace (sqrt k * ((1 + x) / sqrt k * (s + i))) with ((1 + x) * (s + i)) by (field; lra).
  apply Rsqr_incr_0; [|apply Rmult_le_pos; [lra|apply Rabs_pos]|apply Rmult_le_pos; lra].
  unfold Rsqr. replace (sqrt k * Rabs g * (sqrt k * Rabs g)) with (sqrt k * sqrt k * (Rabs g * Rabs g)) by ring. rewrite sqrt_def by lra.
  replace (Rabs g * Rabs g) with (g * g) by (unfold Rabs; destruct (Rcase_abs g); ring).
  set (z := k * (g * g)) in *. assert (Z0 : 0 <= z) by (apply Rmult_le_pos; [lra|apply Rle_0_sqr]).
  assert (SI : (1 - x) * z <= (s + i) * (s + i)). { assert (0 <= s * i) by (apply Rmult_le_pos; lra). lra. }
  replace ((1 + x) * (s + i) * ((1 + x) * (s + i))) with ((1 + x) * (1 + x) * ((s + i) * (s + i))) by ring.
  apply Rle_trans with ((1 + x) * (1 + x) * ((1 - x) * z)); [|apply Rmult_le_compat_l; [apply Rmult_le_pos; lra|exact SI]].
  assert (1 <= (1 + x) * (1 + x) * (1 - x)). { assert (0 <= x * (1 - x - x * x)) by (apply Rmult_le_pos; [lra|]; assert (x * x <= / 1000 * x) by (apply Rmult_le_compat_r; lra); lra). lra. }
  rewrite <- Rmult_assoc. rewrite <- (Rmult_1_l z) at 1. apply Rmult_le_compat_r; lra.
Qed.

(** a float below 1 is at most 1 - 2^-24 *)
Lemma below_one (x : b32) : bv x < 1 -> bv x <= 1 - / 2 ^ 24.
Proof.
  intros H. assert (P : Valid_exp (SpecFloat.fexp 24 128)) by (apply fexp_correct; reflexivity).
  pose proof (pred_ge_gt radix2 (SpecFloat.fexp 24 128) (bv x) (bpow radix2 0) (bv_fmt' x)) as G. rewrite pred_bpow in G.
  change (SpecFloat.fexp 24 128 0) with (-24)%Z in G.
  assert (FB : generic_format radix2 (SpecFloat.fexp 24 128) (bpow radix2 0)) by (apply generic_format_bpow; vm_compute; discriminate).
  specialize (G FB H). change (bpow radix2 0) with 1 in G. replace (bpow radix2 (-24)) with (/ 2 ^ 24) in G by (cbn; lra). exact G.
Qed.
Lemma rho_R (rho : b32) : fin rho = true -> 0 <= bv rho < 1 ->
  let c := Bminus mode_NE (b32_ofZ 1) rho in
  fin c = true /\ Rabs (bv c - (1 - bv rho)) <= u32 * (1 - bv rho) /\ / 2 ^ 24 <= 1 - bv rho /\ 0 <= bv c.
Proof.
  intros F H c. pose proof (below_one rho (proj2 H)) as B. pose proof one_R as O.
  destruct (minus_R (b32_ofZ 1) rho one_fin F) as (F1 & E1). { fold (bv (b32_ofZ 1)) in O. rewrite O, Rabs_pos_eq by lra. pose proof big127. lra. }
  destruct (sub_err (b32_ofZ 1) rho one_fin F) as (F2 & E2). { fold (bv (b32_ofZ 1)) in O. rewrite O, Rabs_pos_eq by lra. pose proof big127. lra. }
  fold (bv (b32_ofZ 1)) in O. rewrite O in *. fold c in F1, E1, E2. rewrite (Rabs_pos_eq (1 - bv rho)) in E2 by lra.
  split; [exact F1|]. split; [exact E2|]. split; [lra|]. rewrite E1. apply rnd_pos. lra.
Qed.

(** ** the learning rate never grows *)
Lemma one32 : bv (b32_ofZ 1) = 1. Proof. exact one_R. Qed.
Lemma fmt_bv_abs (x : b32) : fmt (Rabs (bv x)). Proof. apply generic_format_abs, bv_fmt'. Qed.
Lemma shrink (lr W : b32) : fin lr = true -> fin W = true -> 0 <= bv W <= 1 ->
  fin (Bmult mode_NE lr W) = true /\ Rabs (bv (Bmult mode_NE lr W)) <= Rabs (bv lr).
Proof.
  intros Fl FW HW. pose proof (Rabs_pos (bv lr)) as P.
  assert (A : Rabs (bv lr * bv W) <= Rabs (bv lr)).
  { rewrite Rabs_mult, (Rabs_pos_eq (bv W)) by lra. rewrite <- (Rmult_1_r (Rabs (bv lr))) at 2. apply Rmult_le_compat_l; lra. }
  assert (RA : Rabs (rnd (bv lr * bv W)) <= Rabs (bv lr)).
  { apply abs_round_le_generic; [apply fexp_correct; reflexivity|apply valid_rnd_round_mode|apply fmt_bv_abs|exact A]. }
  pose proof (Bmult_correct 24 128 _ _ mode_NE lr W) as C.
  change (round radix2 (SpecFloat.fexp 24 128) (round_mode mode_NE) (B2R lr * B2R W)) with (rnd (bv lr * bv W)) in C.
  rewrite Rlt_bool_true in C. { destruct C as (C1 & C2 & _). rewrite C2, Fl, FW. split; [reflexivity|]. fold (bv (Bmult mode_NE lr W)) in C1. rewrite C1. exact RA. }
  eapply Rle_lt_trans; [exact RA|]. apply abs_B2R_lt_emax.
Qed.
Lemma inv_below_one (X : b32) : ge X 1 -> is_nan X = false ->
  let W := Bdiv mode_NE (b32_ofZ 1) X in fin W = true /\ 0 <= bv W <= 1.
Proof.
  intros [N|[->|(F & H)]] NN W; [congruence| |].
  - destruct (div_by_inf (b32_ofZ 1) one_fin) as (s & E). unfold W. rewrite E. split; [reflexivity|]. cbn. lra.
  - assert (Q : 0 <= 1 / bv X <= 1).
    { unfold Rdiv. rewrite Rmult_1_l. split; [left; apply Rinv_0_lt_compat; lra|]. rewrite <- Rinv_1. apply Rinv_le; lra. }
    destruct (div_cases (b32_ofZ 1) X one_fin) as [E|(E1 & E2)]; rewrite ?one32; try lra.
    + exfalso. pose proof (Bdiv_correct 24 128 _ _ mode_NE (b32_ofZ 1) X ltac:(fold (bv X); lra)) as C.
      rewrite Rlt_bool_true in C. { destruct C as (_ & C & _). rewrite E in C. rewrite one_fin in C. discriminate. }
      apply rnd_range. fold (bv (b32_ofZ 1)) (bv X). rewrite one32. pose proof big127. rewrite Rabs_pos_eq by lra. lra.
    + fold W in E1, E2. split; [exact E1|]. rewrite E2, one32. split; [apply rnd_pos; lra|].
      apply rnd_le; [|lra]. rewrite <- one32. apply bv_fmt'.
Qed.
