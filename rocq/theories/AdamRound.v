(** AdamRound.v -- one component of a step of Adam in binary32, for arbitrary gradients *)
From Flocq Require Import Core BinarySingleNaN.
From Coq Require Import ZArith Bool List Arith Reals Lia Lra.
From Verif Require Import Base BaseProofs Ops OpsB32 B32Facts MetricB32 SpecLibm SpecRound RoundProofs Exp256B32 InitProofs Optimizer SpecAdapt AdaptRound AdaptStep SpecAdamStep.
Import ListNotations.
Local Open Scope R_scope.
Local Notation NZ := b32_zero.
Local Notation INF := (B754_infinity false : b32).

Lemma u_sq : 0 <= u32 * u32 <= / 1000000 * u32.
Proof. pose proof u32_pos. pose proof u32_small. split; [apply Rmult_le_pos|apply Rmult_le_compat_r]; lra. Qed.
Lemma u_cube : 0 <= u32 * (u32 * u32) <= / 1000000 * (u32 * u32).
Proof. pose proof u32_pos. pose proof u32_small. pose proof u_sq. split; [apply Rmult_le_pos|apply Rmult_le_compat_r]; lra. Qed.

Lemma mul_up (x y : b32) : fin x = true -> fin y = true -> Rabs (bv x) * Rabs (bv y) <= 2 ^ 127 ->
  fin (Bmult mode_NE x y) = true /\ Rabs (bv (Bmult mode_NE x y)) <= (1 + u32) * (Rabs (bv x) * Rabs (bv y)) + eta32.
Proof.
  intros Fx Fy H. rewrite <- Rabs_mult in *. destruct (mul_R x y Fx Fy ltac:(lra)) as (F & E). split; [exact F|].
  replace (bv (Bmult mode_NE x y)) with ((bv (Bmult mode_NE x y) - bv x * bv y) + bv x * bv y) by ring. eapply Rle_trans; [apply Rabs_triang|]. lra.
Qed.
Lemma add_up (x y : b32) B : fin x = true -> fin y = true -> Rabs (bv x) + Rabs (bv y) <= B -> B <= 2 ^ 127 ->
  fin (Bplus mode_NE x y) = true /\ Rabs (bv (Bplus mode_NE x y)) <= (1 + u32) * B.
Proof.
  intros Fx Fy H HB. pose proof u32_pos. assert (A : Rabs (bv x + bv y) <= B) by (eapply Rle_trans; [apply Rabs_triang|exact H]).
  destruct (add_R x y Fx Fy ltac:(lra)) as (F & E). split; [exact F|].
  replace (bv (Bplus mode_NE x y)) with ((bv (Bplus mode_NE x y) - (bv x + bv y)) + (bv x + bv y)) by ring. eapply Rle_trans; [apply Rabs_triang|].
  assert (u32 * Rabs (bv x + bv y) <= u32 * B) by (apply Rmult_le_compat_l; lra). lra.
Qed.

(** ** the first moment *)
Notation mean1 beta m g := (Bplus mode_NE (Bmult mode_NE beta m) (Bmult mode_NE (Bminus mode_NE (b32_ofZ 1) beta) g)).
Lemma first_up (beta m g : b32) : fin beta = true -> 0 <= bv beta < 1 -> fin m = true -> Rabs (bv m) <= 2 ^ 80 -> fin g = true -> Rabs (bv g) <= 2 ^ 80 ->
  fin (mean1 beta m g) = true /\ Rabs (bv (mean1 beta m g)) <= (1 + 4 * u32) * (bv beta * Rabs (bv m) + (1 - bv beta) * Rabs (bv g)) + 4 * eta32.
Proof.
  intros Fb Hb Fm Hm Fg Hg. pose proof u32_pos as U0. pose proof u32_small as US. pose proof u_sq as U2. pose proof u_cube as U3. pose proof eta32_pos as T0. pose proof eta32_small as TS.
  destruct (rho_R beta Fb Hb) as (FK & EK & K1 & K2). set (K := Bminus mode_NE (b32_ofZ 1) beta) in *. apply around in EK.
  pose proof (Rabs_pos (bv m)) as M0. pose proof (Rabs_pos (bv g)) as G0.
  set (k := 1 - bv beta) in *. assert (Kk : 0 <= k <= 1) by (unfold k; lra).
  assert (uk : u32 * k <= u32 * 1) by (apply Rmult_le_compat_l; lra).
  assert (B80 : 2 ^ 80 * 8 <= 2 ^ 127) by lra. assert (B1 : 1 <= 2 ^ 80) by (apply pow_R1_Rle; lra).
  assert (PM : 0 <= bv beta * Rabs (bv m) <= 2 ^ 80).
  { split; [apply Rmult_le_pos; lra|]. apply Rle_trans with (1 * Rabs (bv m)); [apply Rmult_le_compat_r; lra|lra]. }
  assert (PG : 0 <= bv K * Rabs (bv g) <= 2 * 2 ^ 80).
  { split; [apply Rmult_le_pos; lra|]. apply Rmult_le_compat; lra. }
  destruct (mul_up beta m Fb Fm) as (F1 & E1). { rewrite (Rabs_pos_eq (bv beta)) by lra. lra. }
  destruct (mul_up K g FK Fg) as (F2 & E2). { rewrite (Rabs_pos_eq (bv K)) by lra. lra. }
  rewrite (Rabs_pos_eq (bv beta)) in E1 by lra. rewrite (Rabs_pos_eq (bv K)) in E2 by lra.
  assert (QG : bv K * Rabs (bv g) <= (1 + u32) * (k * Rabs (bv g))).
  { replace ((1 + u32) * (k * Rabs (bv g))) with ((1 + u32) * k * Rabs (bv g)) by ring. apply Rmult_le_compat_r; lra. }
  set (P := bv beta * Rabs (bv m)) in *. set (Q := k * Rabs (bv g)) in *. assert (Q0 : 0 <= Q) by (apply Rmult_le_pos; lra).
  assert (Q1 : (1 + u32) * (bv K * Rabs (bv g)) <= (1 + u32) * ((1 + u32) * Q)) by (apply Rmult_le_compat_l; lra).
  assert (uP : 0 <= u32 * P <= / 1000000 * P) by (split; [apply Rmult_le_pos|apply Rmult_le_compat_r]; lra).
  assert (uQ : 0 <= u32 * Q <= / 1000000 * Q) by (split; [apply Rmult_le_pos|apply Rmult_le_compat_r]; lra).
  assert (uuQ : 0 <= u32 * (u32 * Q) <= / 1000000 * (u32 * Q)) by (split; [apply Rmult_le_pos|apply Rmult_le_compat_r]; lra).
  assert (uuP : 0 <= u32 * (u32 * P) <= / 1000000 * (u32 * P)) by (split; [apply Rmult_le_pos|apply Rmult_le_compat_r]; lra).
  assert (uuuQ : u32 * (u32 * (u32 * Q)) <= / 1000000 * (u32 * (u32 * Q))) by (apply Rmult_le_compat_r; lra).
  assert (ue : u32 * eta32 <= / 1000000 * eta32) by (apply Rmult_le_compat_r; lra).
  assert (Qb : Q <= 2 ^ 80). { unfold Q. apply Rle_trans with (1 * Rabs (bv g)); [apply Rmult_le_compat_r; lra|lra]. }
  destruct (add_up _ _ ((1 + u32) * P + eta32 + ((1 + u32) * ((1 + u32) * Q) + eta32)) F1 F2) as (F3 & E3); [lra|lra|].
  split; [exact F3|]. eapply Rle_trans; [exact E3|]. lra.
Qed.

(** ** the second moment *)
Notation lane2 beta x y := (Bplus mode_NE (Bmult mode_NE x beta) (Bmult mode_NE (Bmult mode_NE y y) (Bminus mode_NE (b32_ofZ 1) beta))).
Notation tail2 beta x y := (Bplus mode_NE (Bmult mode_NE beta x) (Bmult mode_NE (Bmult mode_NE (Bminus mode_NE (b32_ofZ 1) beta) y) y)).

Lemma low_sum (beta v k K G a b : R) : 0 <= beta <= 1 -> 0 <= v -> 0 <= G -> 0 <= k -> (1 - u32) * k <= K ->
  (1 - u32) * (beta * v) - eta32 <= a -> 0 <= a -> (1 - 3 * u32) * (K * G) - 4 * eta32 <= b -> 0 <= b ->
  (1 - 5 * u32) * (beta * v + k * G) - 8 * eta32 <= rnd (a + b).
Proof.
  intros Hb Hv HG Hk HK Ha A0 Hbb B0. pose proof u32_pos as U0. pose proof u32_small as US. pose proof u_sq as U2. pose proof eta32_pos as T0.
  pose proof (rnd_low (a + b) ltac:(lra)) as L. set (P := beta * v) in *. assert (P0 : 0 <= P) by (apply Rmult_le_pos; lra).
  set (Q := k * G) in *. assert (Q0 : 0 <= Q) by (apply Rmult_le_pos; lra).
  assert (KG : (1 - u32) * Q <= K * G). { unfold Q. rewrite <- Rmult_assoc. apply Rmult_le_compat_r; lra. }
  assert (B1 : (1 - 3 * u32) * ((1 - u32) * Q) <= (1 - 3 * u32) * (K * G)) by (apply Rmult_le_compat_l; lra).
  assert (S : (1 - u32) * ((1 - u32) * P - eta32 + ((1 - 3 * u32) * ((1 - u32) * Q) - 4 * eta32)) <= (1 - u32) * (a + b)) by (apply Rmult_le_compat_l; lra).
  assert (uP : 0 <= u32 * P) by (apply Rmult_le_pos; lra). assert (uQ : 0 <= u32 * Q) by (apply Rmult_le_pos; lra).
  assert (uuP : 0 <= u32 * (u32 * P)) by (apply Rmult_le_pos; lra). assert (uuQ : 0 <= u32 * (u32 * Q) <= / 1000000 * (u32 * Q)) by (split; [apply Rmult_le_pos|apply Rmult_le_compat_r]; lra).
  assert (uuuQ : 0 <= u32 * (u32 * (u32 * Q)) <= / 1000000 * (u32 * (u32 * Q))) by (split; [apply Rmult_le_pos|apply Rmult_le_compat_r]; lra).
  assert (ue : 0 <= u32 * eta32) by (apply Rmult_le_pos; lra). lra.
Qed.

Lemma half_mul (beta g : b32) : fin beta = true -> / 2 <= bv beta < 1 -> bv (Bminus mode_NE (b32_ofZ 1) beta) * Rabs (bv g) <= 2 ^ 127.
Proof.
  intros Fb Hb. destruct (rho_R beta Fb ltac:(lra)) as (_ & _ & _ & K2). pose proof (Rabs_pos (bv g)).
  pose proof (abs_B2R_lt_emax 24 128 g) as HM. rewrite <- top128 in HM. fold (bv g) in HM.
  assert (KB2 : bv (Bminus mode_NE (b32_ofZ 1) beta) <= / 2).
  { destruct (minus_R (b32_ofZ 1) beta one_fin Fb) as (_ & E). { rewrite one32, Rabs_pos_eq by lra. pose proof big127. lra. }
    rewrite E, one32. apply rnd_le; [|lra]. replace (/ 2) with (bpow radix2 (-1)) by (cbn; lra). apply generic_format_bpow. vm_compute. discriminate. }
  apply Rle_trans with (/ 2 * 2 ^ 128); [apply Rmult_le_compat; lra|]. lra.
Qed.

Lemma second_low (beta v g : b32) (lane : bool) : fin beta = true -> / 2 <= bv beta < 1 -> fin v = true -> 0 <= bv v ->
  let y := if lane then lane2 beta v g else tail2 beta v g in
  exists a, ge y a /\ 0 <= a /\ (1 - 5 * u32) * (bv beta * bv v + (1 - bv beta) * (bv g * bv g)) - 8 * eta32 <= a.
Proof.
  intros Fb Hb Fv Hv y. pose proof u32_pos as U0. pose proof u32_small as US. pose proof eta32_pos as T0. pose proof eta32_small as TS.
  destruct (rho_R beta Fb ltac:(lra)) as (FK & EK & K1 & K2). set (K := Bminus mode_NE (b32_ofZ 1) beta) in *. apply around in EK.
  set (k := 1 - bv beta) in *. assert (I24 : 0 < / 2 ^ 24) by (apply Rinv_0_lt_compat, pow_lt; lra).
  assert (uk : 0 <= u32 * k <= / 1000000 * k) by (split; [apply Rmult_le_pos|apply Rmult_le_compat_r]; unfold k in *; lra).
  assert (KB : / 2 ^ 25 <= bv K <= / 2 + / 1000000). { unfold k in *. lra. }
  assert (G0 : 0 <= bv g * bv g) by apply Rle_0_sqr. pose proof (Rabs_pos (bv g)) as g0.
  assert (SQ : Rabs (bv g) * Rabs (bv g) = bv g * bv g) by (rewrite <- Rabs_mult; apply Rabs_pos_eq, G0).
  assert (BV : 0 <= bv beta * bv v) by (apply Rmult_le_pos; lra).
  pose proof (rnd_low (bv beta * bv v) BV) as LA. pose proof (rnd_pos _ BV) as A0.
  destruct lane.
  - pose proof (rnd_pos _ G0) as S0. pose proof (rnd_low _ G0) as S1. set (s := rnd (bv g * bv g)) in *.
    assert (KS : 0 <= s * bv K) by (apply Rmult_le_pos; lra).
    exists (rnd (rnd (bv v * bv beta) + rnd (s * bv K))).
    split. { apply ge_add; [apply rnd_pos, Rmult_le_pos; lra|apply rnd_pos; exact KS| |].
      - apply ge_mul; [lra|lra|apply ge_self; exact Fv|apply ge_self; exact Fb].
      - apply ge_mul; [exact S0|lra|apply ge_sqr|apply ge_self; exact FK]. }
    rewrite (Rmult_comm (bv v)).
    split. { apply rnd_pos. pose proof (rnd_pos _ KS). lra. }
    apply (low_sum (bv beta) (bv v) k (bv K) (bv g * bv g)); [lra|lra|exact G0|lra|lra|exact LA|exact A0| |apply rnd_pos; exact KS].
    pose proof (rnd_low _ KS) as L.
    assert (SK : ((1 - u32) * (bv g * bv g) - eta32) * bv K <= s * bv K) by (apply Rmult_le_compat_r; lra).
    assert (eK : eta32 * bv K <= eta32 * 1) by (apply Rmult_le_compat_l; lra).
    set (W := bv K * (bv g * bv g)) in *. assert (W0 : 0 <= W) by (apply Rmult_le_pos; lra).
    assert (L2 : (1 - u32) * ((1 - u32) * W - eta32) <= (1 - u32) * (s * bv K)). { apply Rmult_le_compat_l; [lra|]. unfold W. lra. }
    assert (0 <= u32 * W) by (apply Rmult_le_pos; lra). assert (0 <= u32 * (u32 * W)) by (apply Rmult_le_pos; lra). assert (0 <= u32 * eta32) by (apply Rmult_le_pos; lra). lra.
  - set (t := rnd (bv K * Rabs (bv g))).
    assert (KG : 0 <= bv K * Rabs (bv g)) by (apply Rmult_le_pos; lra). pose proof (rnd_pos _ KG) as t0. pose proof (rnd_low _ KG) as t1. fold t in t0, t1.
    assert (TG : 0 <= t * Rabs (bv g)) by (apply Rmult_le_pos; lra).
    exists (rnd (rnd (bv beta * bv v) + rnd (t * Rabs (bv g)))).
    split. { apply ge_add; [exact A0|apply rnd_pos; exact TG| |].
      - apply ge_mul; [lra|lra|apply ge_self; exact Fb|apply ge_self; exact Fv].
      - apply ge_sqr2; [exact FK|lra|apply half_mul; assumption]. }
    split. { apply rnd_pos. pose proof (rnd_pos _ TG). lra. }
    apply (low_sum (bv beta) (bv v) k (bv K) (bv g * bv g)); [lra|lra|exact G0|lra|lra|exact LA|exact A0| |apply rnd_pos; exact TG].
    pose proof (rnd_low _ TG) as L.
    assert (U : eta32 * Rabs (bv g) <= eta32 + / 1000 * (u32 * (bv K * (bv g * bv g)))).
    { assert (UP : 0 <= u32 * (bv K * (bv g * bv g))) by (apply Rmult_le_pos; [lra|apply Rmult_le_pos; lra]).
      destruct (Rle_or_lt (Rabs (bv g)) 1).
      - assert (eta32 * Rabs (bv g) <= eta32 * 1) by (apply Rmult_le_compat_l; lra). lra.
      - assert (G1 : Rabs (bv g) <= bv g * bv g). { rewrite <- SQ. rewrite <- (Rmult_1_l (Rabs (bv g))) at 1. apply Rmult_le_compat_r; lra. }
        assert (C : eta32 <= / 1000 * (u32 * / 2 ^ 25)) by (unfold eta32, u32; lra).
        assert (D : u32 * / 2 ^ 25 <= u32 * bv K) by (apply Rmult_le_compat_l; lra).
        assert (E : eta32 * Rabs (bv g) <= / 1000 * (u32 * bv K) * (bv g * bv g)) by (apply Rmult_le_compat; lra). lra. }
    set (W := bv K * (bv g * bv g)) in *. assert (W0 : 0 <= W) by (apply Rmult_le_pos; lra).
    assert (T2 : (1 - u32) * W - eta32 * Rabs (bv g) <= t * Rabs (bv g)).
    { assert (((1 - u32) * (bv K * Rabs (bv g)) - eta32) * Rabs (bv g) <= t * Rabs (bv g)) by (apply Rmult_le_compat_r; lra).
      unfold W. rewrite <- SQ. lra. }
    assert (L2 : (1 - u32) * ((1 - u32) * W - eta32 * Rabs (bv g)) <= (1 - u32) * (t * Rabs (bv g))) by (apply Rmult_le_compat_l; lra).
    assert (0 <= u32 * W) by (apply Rmult_le_pos; lra). assert (0 <= u32 * (u32 * W)) by (apply Rmult_le_pos; lra).
    assert (0 <= u32 * (eta32 * Rabs (bv g))) by (apply Rmult_le_pos; [lra|apply Rmult_le_pos; lra]). lra.
Qed.
(** an infinite or NaN operand is not forgotten *)
Lemma nonfin_add_l x y : fin x = false -> fin (Bplus mode_NE x y) = false.
Proof. destruct x as [s|s| |s m e B]; intros H; try discriminate; destruct y as [s'|s'| |s' m' e' B']; try reflexivity. destruct s, s'; reflexivity. Qed.
Lemma second_nonfin (beta v g : b32) (lane : bool) : fin v = false \/ fin g = false -> fin (if lane then lane2 beta v g else tail2 beta v g) = false.
Proof.
  intros [H|H]; destruct lane.
  - apply nonfin_add_l, nonfin_mul_l, H. - apply nonfin_add_l, nonfin_mul_r, H.
  - apply nonfin_add_r, nonfin_mul_l, nonfin_mul_l, H. - apply nonfin_add_r, nonfin_mul_r, H.
Qed.

(** ** the two moments stay in proportion *)
Lemma second_ge0 (beta v g : b32) (lane : bool) : fin beta = true -> / 2 <= bv beta < 1 -> ge v 0 -> ge (if lane then lane2 beta v g else tail2 beta v g) 0.
Proof.
  intros Fb Hb V. destruct (rho_R beta Fb ltac:(lra)) as (FK & _ & _ & K2).
  assert (Z : rnd (0 * 0) = 0) by (rewrite Rmult_0_l; apply rnd_0). assert (Z1 : rnd (0 + 0) = 0) by (rewrite Rplus_0_l; apply rnd_0).
  assert (GB : ge beta 0) by (apply ge_weaken with (bv beta); [apply ge_self; exact Fb|lra]).
  assert (GK : ge (Bminus mode_NE (b32_ofZ 1) beta) 0) by (eapply ge_weaken; [apply ge_self; exact FK|exact K2]).
  destruct lane; rewrite <- Z1; apply ge_add; try lra.
  - rewrite <- Z. apply ge_mul; try lra; assumption.
  - rewrite <- Z. apply ge_mul; try lra; [|assumption]. eapply ge_weaken; [apply ge_sqr|]. apply rnd_pos, Rle_0_sqr.
  - rewrite <- Z. apply ge_mul; try lra; assumption.
  - pose proof (Rabs_pos (bv g)) as g0. eapply ge_weaken; [apply ge_sqr2; [exact FK|exact K2|apply half_mul; assumption]|].
    apply rnd_pos, Rmult_le_pos; [apply rnd_pos, Rmult_le_pos|]; lra.
Qed.

Lemma cauchy (a b x y p q : R) : 0 < p -> 0 < q -> (a * x + b * y) ^ 2 <= (a ^ 2 / p + b ^ 2 / q) * (p * x ^ 2 + q * y ^ 2).
Proof.
  intros Hp Hq. assert (E : (a ^ 2 / p + b ^ 2 / q) * (p * x ^ 2 + q * y ^ 2) - (a * x + b * y) ^ 2 = (a * q * y - b * p * x) ^ 2 / (p * q)) by (field; lra).
  assert (0 <= (a * q * y - b * p * x) ^ 2 / (p * q)).
  { apply Rmult_le_pos; [apply pow2_ge_0|]. apply Rlt_le, Rinv_0_lt_compat, Rmult_lt_0_compat; assumption. } lra.
Qed.
Lemma sq_le (x y : R) : 0 <= y -> x ^ 2 <= y ^ 2 -> x <= y.
Proof. intros Hy H. destruct (Rle_or_lt x y) as [L|L]; [exact L|]. exfalso. assert (y * y < x * x) by (apply Rmult_le_0_lt_compat; lra). lra. Qed.

Lemma balance_real (b1 b2 A M v G m1 v1 : R) : 0 <= b1 <= 1 - / 2 ^ 7 -> 0 < b2 < 1 -> keeps_ratio b1 b2 A ->
  0 <= v -> 0 <= M <= A * sqrt v + / 2 ^ 58 -> 0 <= G -> 0 <= v1 ->
  m1 <= (1 + 4 * u32) * (b1 * M + (1 - b1) * G) + 4 * eta32 ->
  (1 - 5 * u32) * (b2 * v + (1 - b2) * (G * G)) - 8 * eta32 <= v1 -> m1 <= A * sqrt v1 + / 2 ^ 58.
Proof.
  intros H1 H2 (HA & HR) Hv HM HG Hv1 Hm Hw. pose proof u32_pos as U0. pose proof u32_small as US. pose proof u_sq as U2. pose proof u_cube as U3. pose proof eta32_pos as T0.
  set (x := sqrt v) in *. assert (x0 : 0 <= x) by apply sqrt_pos. assert (xx : x ^ 2 = v) by (rewrite <- Rsqr_pow2; apply Rsqr_sqrt; exact Hv).
  set (w := b2 * v + (1 - b2) * (G * G)) in *.
  assert (w0 : 0 <= w). { unfold w. assert (0 <= b2 * v) by (apply Rmult_le_pos; lra). assert (0 <= (1 - b2) * (G * G)) by (apply Rmult_le_pos; [lra|apply Rmult_le_pos; lra]). lra. }
  set (y := b1 * A * x + (1 - b1) * G).
  assert (y0 : 0 <= y). { unfold y. assert (0 <= b1 * A * x) by (apply Rmult_le_pos; [apply Rmult_le_pos|]; lra). assert (0 <= (1 - b1) * G) by (apply Rmult_le_pos; lra). lra. }
  set (C := b1 ^ 2 / b2 * A ^ 2 + (1 - b1) ^ 2 / (1 - b2)) in *.
  assert (CS : y ^ 2 <= C * w).
  { pose proof (cauchy (b1 * A) (1 - b1) x G b2 (1 - b2) ltac:(lra) ltac:(lra)) as Q. rewrite xx in Q.
    replace ((b1 * A) ^ 2 / b2) with (b1 ^ 2 / b2 * A ^ 2) in Q by (field; lra). replace (G ^ 2) with (G * G) in Q by ring. exact Q. }
  assert (S1 : (1 + 8 * u32) * y <= A * sqrt w).
  { apply sq_le; [apply Rmult_le_pos; [lra|apply sqrt_pos]|]. rewrite !Rpow_mult_distr. replace (sqrt w ^ 2) with w by (rewrite <- Rsqr_pow2; symmetry; apply Rsqr_sqrt; exact w0).
    apply Rle_trans with ((1 + 8 * u32) ^ 2 * (C * w)); [apply Rmult_le_compat_l; [apply pow2_ge_0|exact CS]|].
    rewrite <- Rmult_assoc. apply Rmult_le_compat_r; [exact w0|exact HR]. }
  set (z := sqrt v1) in *. assert (z0 : 0 <= z) by apply sqrt_pos. assert (zz : z * z = v1) by (apply sqrt_sqrt; exact Hv1).
  set (t := / 2 ^ 73). assert (t0 : 0 < t) by (apply Rinv_0_lt_compat, pow_lt; lra). assert (tt : 8 * eta32 <= t * t) by (unfold t, eta32; lra).
  assert (S2 : sqrt w <= (1 + 3 * u32) * (z + t)).
  { apply sq_le; [apply Rmult_le_pos; lra|]. replace (sqrt w ^ 2) with w by (rewrite <- Rsqr_pow2; symmetry; apply Rsqr_sqrt; exact w0).
    assert (zt : 0 <= z * t) by (apply Rmult_le_pos; lra). set (s := (z + t) * (z + t)). assert (Hs : v1 + 8 * eta32 <= s) by (unfold s; lra).
    assert (s0 : 0 <= s) by (apply Rmult_le_pos; lra).
    assert (W : (1 - 5 * u32) * w <= s) by lra. replace (((1 + 3 * u32) * (z + t)) ^ 2) with ((1 + 3 * u32) ^ 2 * s) by (unfold s; ring).
    assert (K : 1 <= (1 + 3 * u32) ^ 2 * (1 - 5 * u32)) by lra.
    apply Rle_trans with ((1 + 3 * u32) ^ 2 * (1 - 5 * u32) * w); [rewrite <- (Rmult_1_l w) at 1; apply Rmult_le_compat_r; [exact w0|exact K]|].
    rewrite Rmult_assoc. apply Rmult_le_compat_l; [apply pow2_ge_0|exact W]. }
  assert (S3 : (1 + 4 * u32) * y <= A * (z + t)).
  { apply Rmult_le_reg_l with (1 + 3 * u32); [lra|]. apply Rle_trans with ((1 + 8 * u32) * y).
    - rewrite <- Rmult_assoc. apply Rmult_le_compat_r; [exact y0|]. lra.
    - eapply Rle_trans; [exact S1|]. replace ((1 + 3 * u32) * (A * (z + t))) with (A * ((1 + 3 * u32) * (z + t))) by ring. apply Rmult_le_compat_l; [lra|exact S2]. }
  assert (S4 : b1 * M <= b1 * A * x + b1 * / 2 ^ 58). { replace (b1 * A * x + b1 * / 2 ^ 58) with (b1 * (A * x + / 2 ^ 58)) by ring. apply Rmult_le_compat_l; lra. }
  set (d := / 2 ^ 58) in *. assert (d0 : 0 < d) by (apply Rinv_0_lt_compat, pow_lt; lra).
  assert (S5 : b1 * d <= (1 - / 2 ^ 7) * d) by (apply Rmult_le_compat_r; lra).
  assert (S6 : (1 + 4 * u32) * (b1 * M + (1 - b1) * G) <= (1 + 4 * u32) * (y + (1 - / 2 ^ 7) * d)) by (apply Rmult_le_compat_l; [lra|unfold y; lra]).
  assert (S7 : A * t <= 64 * t) by (apply Rmult_le_compat_r; lra).
  assert (S8 : u32 * d <= / 1000000 * d) by (apply Rmult_le_compat_r; lra).
  assert (S9 : 64 * t + 4 * eta32 <= / 2 ^ 8 * d) by (unfold t, d, eta32; lra). lra.
Qed.

Lemma ge_fin y a : fin y = true -> ge y a -> a <= bv y.
Proof. intros F [N|[->|(_ & H)]]; [destruct y; discriminate|discriminate|exact H]. Qed.
Lemma below_top (y : b32) : bv y <= 2 ^ 128.
Proof. pose proof (abs_B2R_lt_emax 24 128 y) as H. rewrite <- top128 in H. fold (bv y) in H. pose proof (Rle_abs (bv y)). lra. Qed.
Lemma root_top (y : b32) : sqrt (bv y) <= 2 ^ 64.
Proof. replace (2 ^ 64) with (sqrt (2 ^ 128)); [apply sqrt_le_1_alt, below_top|]. replace (2 ^ 128) with (2 ^ 64 * 2 ^ 64) by ring. apply sqrt_square. apply pow_le. lra. Qed.

Lemma balanced_step (beta1 beta2 m v g : b32) A (lane : bool) : fin beta1 = true -> 0 <= bv beta1 <= 1 - / 2 ^ 7 -> fin beta2 = true -> / 2 <= bv beta2 < 1 ->
  keeps_ratio (bv beta1) (bv beta2) A -> balanced A m v -> balanced A (mean1 beta1 m g) (if lane then lane2 beta2 v g else tail2 beta2 v g).
Proof.
  intros F1 H1 F2 H2 HR BL. pose proof HR as (HA & _). set (y := if lane then lane2 beta2 v g else tail2 beta2 v g).
  assert (GV : ge v 0). { destruct BL as [N|[->|(F & P & _)]]; [left; exact N|right; left; reflexivity|right; right; split; [exact F|exact P]]. }
  pose proof (second_ge0 beta2 v g lane F2 H2 GV) as GY. fold y in GY. destruct (fin y) eqn:Fy.
  2:{ destruct (nan_or_inf y 0 Fy GY) as [N|N]; [left; exact N|right; left; exact N]. }
  right; right.
  assert (Fv : fin v = true). { destruct (fin v) eqn:E; [reflexivity|]. pose proof (second_nonfin beta2 v g lane (or_introl E)) as Q. fold y in Q. congruence. }
  assert (Fg : fin g = true). { destruct (fin g) eqn:E; [reflexivity|]. pose proof (second_nonfin beta2 v g lane (or_intror E)) as Q. fold y in Q. congruence. }
  destruct BL as [N|[->|(_ & Pv & Fm & Hm)]]; [destruct v; discriminate|discriminate|]. fold (bv v) in Pv, Hm. fold (bv m) in Hm.
  destruct (second_low beta2 v g lane F2 H2 Fv Pv) as (a & Ga & A0 & La). fold y in Ga. apply ge_fin in Ga; [|exact Fy].
  pose proof u32_pos as U0. pose proof u32_small as US. pose proof eta32_pos as T0. pose proof eta32_small as TS.
  pose proof (root_top v) as RV. pose proof (sqrt_pos (bv v)) as R0. pose proof (below_top y) as TY.
  destruct (rho_R beta2 F2 ltac:(lra)) as (_ & _ & K1 & _).
  assert (Bm : Rabs (bv m) <= 2 ^ 80). { assert (A * sqrt (bv v) <= 64 * 2 ^ 64) by (apply Rmult_le_compat; lra). lra. }
  assert (Bg : Rabs (bv g) <= 2 ^ 80).
  { apply sq_le; [apply pow_le; lra|]. replace (Rabs (bv g) ^ 2) with (bv g * bv g) by (rewrite pow2_abs; ring).
    assert (G0 : 0 <= bv g * bv g) by apply Rle_0_sqr. assert (0 <= bv beta2 * bv v) by (apply Rmult_le_pos; lra).
    assert (K2 : / 2 ^ 24 * (bv g * bv g) <= (1 - bv beta2) * (bv g * bv g)) by (apply Rmult_le_compat_r; lra).
    assert (K3 : / 2 * (bv beta2 * bv v + (1 - bv beta2) * (bv g * bv g)) <= (1 - 5 * u32) * (bv beta2 * bv v + (1 - bv beta2) * (bv g * bv g))) by (apply Rmult_le_compat_r; lra). lra. }
  destruct (first_up beta1 m g F1 ltac:(lra) Fm Bm Fg Bg) as (FM & EM).
  split; [exact Fy|]. split; [exact (Rle_trans _ _ _ A0 Ga)|]. split; [exact FM|].
  change (Rabs (bv (mean1 beta1 m g)) <= A * sqrt (bv y) + / 2 ^ 58).
  apply (balance_real (bv beta1) (bv beta2) A (Rabs (bv m)) (bv v) (Rabs (bv g))); try assumption; try lra; try apply Rabs_pos.
  - split; [apply Rabs_pos|exact Hm].
  - replace (Rabs (bv g) * Rabs (bv g)) with (bv g * bv g) by (rewrite <- Rabs_mult; symmetry; apply Rabs_pos_eq, Rle_0_sqr). lra.
Qed.

(** ** the update *)
Definition adam32 (b1 b2 lr x y : b32) : b32 :=
  Bdiv mode_NE (Bmult mode_NE (Bopp lr) (Bdiv mode_NE x (Bminus mode_NE (b32_ofZ 1) b1)))
    (Bplus mode_NE (Bsqrt mode_NE (Bdiv mode_NE y (Bminus mode_NE (b32_ofZ 1) b2))) eps8).

Lemma root_low (x p : R) : 0 <= x -> 0 <= p -> (1 - u32) * x - eta32 <= p -> (1 - u32) * sqrt x - / 2 ^ 75 <= sqrt p.
Proof.
  intros Hx Hp H. pose proof u32_pos as U0. pose proof u32_small as US. set (r := sqrt x). assert (r0 : 0 <= r) by apply sqrt_pos. assert (rr : r * r = x) by (apply sqrt_sqrt; exact Hx).
  set (t := / 2 ^ 75). assert (t0 : 0 < t) by (apply Rinv_0_lt_compat, pow_lt; lra). assert (tt : t * t = eta32) by (unfold t, eta32; rewrite <- Rinv_mult, <- pow_add; reflexivity).
  destruct (Rle_or_lt ((1 - u32) * r) t) as [L|L]; [pose proof (sqrt_pos p); lra|].
  apply sq_le; [apply sqrt_pos|]. replace (sqrt p ^ 2) with p by (rewrite <- Rsqr_pow2; symmetry; apply Rsqr_sqrt; exact Hp).
  assert (A : t * t <= t * ((1 - u32) * r)) by (apply Rmult_le_compat_l; lra).
  assert (B : (1 - u32) * ((1 - u32) * x) <= 1 * ((1 - u32) * x)). { apply Rmult_le_compat_r; [apply Rmult_le_pos; lra|lra]. }
  replace (((1 - u32) * r - t) ^ 2) with ((1 - u32) * ((1 - u32) * (r * r)) - 2 * (t * ((1 - u32) * r)) + t * t) by ring. rewrite rr. lra.
Qed.

Lemma div_up (x y : b32) D : fin x = true -> 0 < D <= bv y -> Rabs (bv x) / D <= 2 ^ 127 ->
  fin (Bdiv mode_NE x y) = true /\ Rabs (bv (Bdiv mode_NE x y)) <= (1 + u32) * (Rabs (bv x) / D) + eta32.
Proof.
  intros Fx HD H. pose proof u32_pos. assert (A : Rabs (bv x / bv y) <= Rabs (bv x) / D).
  { unfold Rdiv. rewrite Rabs_mult, (Rabs_pos_eq (/ bv y)) by (apply Rlt_le, Rinv_0_lt_compat; lra). apply Rmult_le_compat_l; [apply Rabs_pos|]. apply Rinv_le; lra. }
  destruct (divide_R x y Fx ltac:(lra) ltac:(lra)) as (F & E). split; [exact F|].
  replace (bv (Bdiv mode_NE x y)) with ((bv (Bdiv mode_NE x y) - bv x / bv y) + bv x / bv y) by ring. eapply Rle_trans; [apply Rabs_triang|].
  assert (u32 * Rabs (bv x / bv y) <= u32 * (Rabs (bv x) / D)) by (apply Rmult_le_compat_l; lra). lra.
Qed.

Section Update.
Variables (lr b1 b2 : b32) (A : R).
Hypotheses (Fl : fin lr = true) (Hl : Rabs (bv lr) <= 2 ^ 30) (F1 : fin b1 = true) (H1 : 0 <= bv b1 <= 1 - / 2 ^ 7)
  (F2 : fin b2 = true) (H2 : 0 <= bv b2 < 1) (HA : 0 <= A <= 64).
Let D1 := Bminus mode_NE (b32_ofZ 1) b1.
Let D2 := Bminus mode_NE (b32_ofZ 1) b2.
Let a0 := A * sqrt (1 - bv b2) / (1 - bv b1).

Lemma a0_range : 0 <= a0 <= 2 ^ 13.
Proof.
  unfold a0, Rdiv. assert (S : 0 <= sqrt (1 - bv b2) <= 1). { split; [apply sqrt_pos|]. apply Rle_trans with (sqrt 1); [apply sqrt_le_1_alt; lra|rewrite sqrt_1; lra]. }
  assert (I7 : 0 < / 2 ^ 7) by (apply Rinv_0_lt_compat, pow_lt; lra).
  assert (I : 0 < / (1 - bv b1) <= 2 ^ 7). { split; [apply Rinv_0_lt_compat; lra|]. rewrite <- (Rinv_inv (2 ^ 7)). apply Rinv_le; lra. }
  assert (P : 0 <= A * sqrt (1 - bv b2) <= 64 * 1) by (split; [apply Rmult_le_pos|apply Rmult_le_compat]; lra).
  split; [apply Rmult_le_pos; lra|]. replace (2 ^ 13) with (64 * 1 * 2 ^ 7) by ring. apply Rmult_le_compat; lra.
Qed.
Lemma cap_range : / 2 ^ 60 <= adam_cap (bv lr) A (bv b1) (bv b2) <= 2 ^ 50.
Proof.
  unfold adam_cap. fold a0. pose proof a0_range as R. pose proof u32_pos. pose proof u32_small. pose proof (Rabs_pos (bv lr)) as L0.
  assert (I20 : 0 < / 2 ^ 20 <= 1) by (split; [apply Rinv_0_lt_compat, pow_lt; lra|rewrite <- Rinv_1; apply Rinv_le; lra]).
  assert (I60 : 0 < / 2 ^ 60 <= 1) by (split; [apply Rinv_0_lt_compat, pow_lt; lra|rewrite <- Rinv_1; apply Rinv_le; lra]).
  assert (P : 0 <= a0 * (1 + 20 * u32) <= 2 ^ 13 * 2) by (split; [apply Rmult_le_pos|apply Rmult_le_compat]; lra).
  assert (Q : 0 <= Rabs (bv lr) * (a0 * (1 + 20 * u32) + / 2 ^ 20) <= 2 ^ 30 * (2 ^ 13 * 2 + 1)) by (split; [apply Rmult_le_pos|apply Rmult_le_compat]; lra).
  lra.
Qed.

Lemma divisors : fin D1 = true /\ fin D2 = true /\ / 2 ^ 8 <= bv D1 <= 2 /\ / 2 ^ 25 <= bv D2 <= 2 /\ A * sqrt (bv D2) / bv D1 <= (1 + 3 * u32) * a0.
Proof.
  pose proof u32_pos as U0. pose proof u32_small as US. pose proof u_sq as U2.
  assert (I7 : 0 < / 2 ^ 7) by (apply Rinv_0_lt_compat, pow_lt; lra). assert (I24 : 0 < / 2 ^ 24) by (apply Rinv_0_lt_compat, pow_lt; lra).
  destruct (rho_R b1 F1 ltac:(lra)) as (FD1 & E1 & _ & _). destruct (rho_R b2 F2 H2) as (FD2 & E2 & K2 & _). fold D1 in FD1, E1. fold D2 in FD2, E2. apply around in E1. apply around in E2.
  set (e1 := 1 - bv b1) in *. set (e2 := 1 - bv b2) in *.
  assert (R1 : / 2 ^ 7 <= e1 <= 1) by (unfold e1; lra). assert (R2 : / 2 ^ 24 <= e2 <= 1) by (unfold e2 in *; lra).
  assert (V1 : 0 <= u32 * e1 <= / 1000000 * e1) by (split; [apply Rmult_le_pos|apply Rmult_le_compat_r]; lra).
  assert (V2 : 0 <= u32 * e2 <= / 1000000 * e2) by (split; [apply Rmult_le_pos|apply Rmult_le_compat_r]; lra).
  split; [exact FD1|]. split; [exact FD2|]. split; [lra|]. split; [lra|].
  assert (S : sqrt (bv D2) <= (1 + u32) * sqrt e2).
  { apply sq_le; [apply Rmult_le_pos; [lra|apply sqrt_pos]|]. rewrite Rpow_mult_distr. rewrite <- !Rsqr_pow2, !Rsqr_sqrt by lra. rewrite Rsqr_pow2.
    assert (0 <= u32 * u32 * e2) by (apply Rmult_le_pos; lra). lra. }
  assert (I : / bv D1 <= / ((1 - u32) * e1)) by (apply Rinv_le; [apply Rmult_lt_0_compat|]; lra). rewrite Rinv_mult in I.
  unfold a0, Rdiv. pose proof (sqrt_pos e2) as S0. pose proof (sqrt_pos (bv D2)) as S1. fold e1 e2.
  assert (J : 0 < / e1) by (apply Rinv_0_lt_compat; lra). assert (J1 : 0 < / bv D1) by (apply Rinv_0_lt_compat; lra).
  assert (AS : 0 <= A * sqrt e2) by (apply Rmult_le_pos; lra).
  apply Rle_trans with (A * ((1 + u32) * sqrt e2) * (/ (1 - u32) * / e1)).
  - apply Rmult_le_compat; [apply Rmult_le_pos; lra|lra|apply Rmult_le_compat_l; lra|exact I].
  - replace (A * ((1 + u32) * sqrt e2) * (/ (1 - u32) * / e1)) with ((1 + u32) * / (1 - u32) * (A * sqrt e2 * / e1)) by ring.
    apply Rmult_le_compat_r; [apply Rmult_le_pos; lra|]. apply Rmult_le_reg_r with (1 - u32); [lra|]. rewrite Rmult_assoc, Rinv_l by lra. lra.
Qed.

(** with a finite second moment the step is a number *)
Lemma adam_upd_fin (x y : b32) : fin y = true -> 0 <= bv y -> fin x = true -> Rabs (bv x) <= A * sqrt (bv y) + / 2 ^ 58 ->
  fin (adam32 b1 b2 lr x y) = true /\ Rabs (bv (adam32 b1 b2 lr x y)) <= adam_cap (bv lr) A (bv b1) (bv b2).
Proof.
  intros Fy Hy Fx Hx. pose proof u32_pos as U0. pose proof u32_small as US. pose proof u_sq as U2. pose proof u_cube as U3. pose proof eta32_pos as T0. pose proof eta32_small as TS.
  destruct divisors as (FD1 & FD2 & R1 & R2 & RA). pose proof a0_range as RA0. pose proof cap_range as CR. pose proof (Rabs_pos (bv lr)) as L0. pose proof (Rabs_pos (bv x)) as X0.
  unfold adam32. fold D1 D2. set (l := Rabs (bv lr)) in *.
  assert (I8 : 0 < / 2 ^ 8) by (apply Rinv_0_lt_compat, pow_lt; lra). assert (I25 : 0 < / 2 ^ 25) by (apply Rinv_0_lt_compat, pow_lt; lra).
  pose proof (root_top y) as RY. pose proof (sqrt_pos (bv y)) as RY0.
  assert (J1 : 0 < / bv D1 <= 2 ^ 8). { split; [apply Rinv_0_lt_compat; lra|]. rewrite <- (Rinv_inv (2 ^ 8)). apply Rinv_le; lra. }
  (* the numerator *)
  assert (XB : Rabs (bv x) <= 2 ^ 71). { assert (A * sqrt (bv y) <= 64 * 2 ^ 64) by (apply Rmult_le_compat; lra). lra. }
  assert (XD : 0 <= Rabs (bv x) / bv D1 <= 2 ^ 71 * 2 ^ 8) by (unfold Rdiv; split; [apply Rmult_le_pos; lra|apply Rmult_le_compat; lra]).
  destruct (div_up x D1 (bv D1) Fx ltac:(lra) ltac:(lra)) as (FN1 & EN1). set (n1 := Bdiv mode_NE x D1) in *. pose proof (Rabs_pos (bv n1)) as N10.
  set (X := Rabs (bv x) / bv D1) in *.
  assert (uX : 0 <= u32 * X <= / 1000000 * X) by (split; [apply Rmult_le_pos|apply Rmult_le_compat_r]; lra).
  destruct (opp_R lr) as (FO & EO). rewrite Fl in FO. assert (AO : Rabs (bv (Bopp lr)) = l) by (rewrite EO, Rabs_Ropp; reflexivity).
  assert (LN : 0 <= l * Rabs (bv n1) <= 2 ^ 30 * (2 * 2 ^ 79)) by (split; [apply Rmult_le_pos|apply Rmult_le_compat]; lra).
  destruct (mul_up (Bopp lr) n1 FO FN1) as (FN2 & EN2). { rewrite AO. lra. } rewrite AO in EN2. set (n2 := Bmult mode_NE (Bopp lr) n1) in *.
  assert (N2 : Rabs (bv n2) <= l * ((1 + 3 * u32) * X + 2 * eta32) + eta32).
  { eapply Rle_trans; [exact EN2|]. apply Rplus_le_compat_r. replace ((1 + u32) * (l * Rabs (bv n1))) with (l * ((1 + u32) * Rabs (bv n1))) by ring. apply Rmult_le_compat_l; [lra|].
    apply Rle_trans with ((1 + u32) * ((1 + u32) * X + eta32)); [apply Rmult_le_compat_l; lra|].
    assert (u32 * (u32 * X) <= / 1000000 * (u32 * X)) by (apply Rmult_le_compat_r; lra). assert (u32 * eta32 <= / 1000000 * eta32) by (apply Rmult_le_compat_r; lra). lra. }
  (* the denominator *)
  destruct (div_cases y D2 Fy Hy ltac:(lra)) as [E|(FP & EP)].
  { rewrite E. change (Bplus mode_NE (Bsqrt mode_NE INF) eps8) with INF. destruct (div_by_inf n2 FN2) as (s & ->).
    split; [reflexivity|]. cbn. rewrite Rabs_R0. lra. }
  set (p := Bdiv mode_NE y D2) in *. set (v := bv y / bv D2) in *.
  assert (v0 : 0 <= v) by (apply Rmult_le_pos; [exact Hy|apply Rlt_le, Rinv_0_lt_compat; lra]).
  assert (p0 : 0 <= bv p) by (rewrite EP; apply rnd_pos; exact v0). pose proof (rnd_low v v0) as PL. rewrite <- EP in PL.
  pose proof (root_low v (bv p) v0 p0 PL) as RL. destruct (sqrt_32 p FP p0) as (FQ & EQ). set (q := Bsqrt mode_NE p) in *.
  pose proof (sqrt_pos (bv p)) as RP. pose proof (rnd_low _ RP) as QL. pose proof (rnd_pos _ RP) as Q0. rewrite <- EQ in QL, Q0.
  assert (QU : bv q <= 2 ^ 65).
  { pose proof (rnd_err (sqrt (bv p))) as ER. rewrite <- EQ in ER. rewrite (Rabs_pos_eq (sqrt (bv p)) RP) in ER. apply around in ER. pose proof (root_top p) as RT.
    assert (u32 * sqrt (bv p) <= / 2 * sqrt (bv p)) by (apply Rmult_le_compat_r; lra). lra. }
  destruct eps8_R as (F8 & E8). assert (B65 : 2 ^ 65 + 1 <= 2 ^ 127) by lra.
  destruct (add_R q eps8 FQ F8) as (FD & ED). { rewrite Rabs_pos_eq by (rewrite E8; lra). rewrite E8. lra. }
  set (den := Bplus mode_NE q eps8) in *. rewrite (Rabs_pos_eq (bv q + bv eps8)) in ED by (rewrite E8; lra). apply around in ED.
  set (s := sqrt v) in *. assert (s0 : 0 <= s) by apply sqrt_pos.
  set (w := (1 - 3 * u32) * s + / 2 ^ 27).
  assert (W : w <= bv den).
  { assert (A1 : (1 - u32) * ((1 - u32) * s - / 2 ^ 75) <= (1 - u32) * sqrt (bv p)) by (apply Rmult_le_compat_l; lra).
    assert (A2 : (1 - u32) * ((1 - u32) * ((1 - u32) * s - / 2 ^ 75) - eta32 + bv eps8) <= (1 - u32) * (bv q + bv eps8)) by (apply Rmult_le_compat_l; lra).
    assert (us : 0 <= u32 * s) by (apply Rmult_le_pos; lra). assert (uus : 0 <= u32 * (u32 * s)) by (apply Rmult_le_pos; lra).
    assert (uuus : u32 * (u32 * (u32 * s)) <= / 1000000 * (u32 * (u32 * s))) by (apply Rmult_le_compat_r; lra).
    unfold w. rewrite E8 in *. unfold eta32, u32 in *. lra. }
  assert (w0 : / 2 ^ 27 <= w). { assert (0 <= (1 - 3 * u32) * s) by (apply Rmult_le_pos; lra). unfold w. lra. }
  assert (I27 : 0 < / 2 ^ 27) by (apply Rinv_0_lt_compat, pow_lt; lra).
  (* the quotient *)
  set (a := A * sqrt (bv D2) / bv D1) in *.
  assert (a00 : 0 <= a) by (apply Rmult_le_pos; [apply Rmult_le_pos; [lra|apply sqrt_pos]|lra]).
  assert (YS : sqrt (bv y) = s * sqrt (bv D2)).
  { unfold s, v. rewrite <- sqrt_mult; [|exact v0|lra]. f_equal. unfold v. field. lra. }
  assert (XS : X <= a * s + / 2 ^ 50).
  { apply Rle_trans with ((A * sqrt (bv y) + / 2 ^ 58) * / bv D1); [apply Rmult_le_compat_r; lra|]. rewrite YS.
    assert (/ 2 ^ 58 * / bv D1 <= / 2 ^ 58 * 2 ^ 8) by (apply Rmult_le_compat_l; [apply Rlt_le, Rinv_0_lt_compat, pow_lt; lra|lra]).
    unfold a, Rdiv. assert (/ 2 ^ 58 * 2 ^ 8 = / 2 ^ 50) by lra. lra. }
  set (B := l * ((1 + 7 * u32) * a + / 2 ^ 22) + / 2 ^ 100).
  assert (NB : Rabs (bv n2) <= B * w).
  { eapply Rle_trans; [exact N2|]. unfold B. rewrite (Rmult_plus_distr_r (l * ((1 + 7 * u32) * a + / 2 ^ 22)) (/ 2 ^ 100) w). apply Rplus_le_compat.
    - rewrite Rmult_assoc. apply Rmult_le_compat_l; [lra|].
      assert (X1 : (1 + 3 * u32) * X <= (1 + 3 * u32) * (a * s + / 2 ^ 50)) by (apply Rmult_le_compat_l; lra).
      assert (as0 : 0 <= a * s) by (apply Rmult_le_pos; lra).
      assert (X2 : (1 + 3 * u32) * (a * s) <= (1 + 7 * u32) * (1 - 3 * u32) * (a * s)) by (apply Rmult_le_compat_r; lra).
      assert (X3 : 0 <= (1 + 7 * u32) * a * / 2 ^ 27) by (apply Rmult_le_pos; [apply Rmult_le_pos|]; lra).
      assert (X4 : / 2 ^ 22 * / 2 ^ 27 <= / 2 ^ 22 * w) by (apply Rmult_le_compat_l; [apply Rlt_le, Rinv_0_lt_compat, pow_lt; lra|lra]).
      replace (((1 + 7 * u32) * a + / 2 ^ 22) * w) with ((1 + 7 * u32) * (1 - 3 * u32) * (a * s) + (1 + 7 * u32) * a * / 2 ^ 27 + / 2 ^ 22 * w) by (unfold w; ring).
      unfold eta32 in *. lra.
    - apply Rle_trans with (/ 2 ^ 100 * / 2 ^ 27); [unfold eta32; lra|]. apply Rmult_le_compat_l; [apply Rlt_le, Rinv_0_lt_compat, pow_lt; lra|lra]. }
  assert (aB : a <= 2 ^ 14). { eapply Rle_trans; [exact RA|]. assert ((1 + 3 * u32) * a0 <= 2 * 2 ^ 13) by (apply Rmult_le_compat; lra). lra. }
  assert (C2 : l * ((1 + 7 * u32) * a + / 2 ^ 22) <= l * ((1 + 12 * u32) * a0 + / 2 ^ 22)).
  { apply Rmult_le_compat_l; [lra|]. apply Rplus_le_compat_r. apply Rle_trans with ((1 + 7 * u32) * ((1 + 3 * u32) * a0)); [apply Rmult_le_compat_l; lra|].
    rewrite <- Rmult_assoc. apply Rmult_le_compat_r; lra. }
  set (B' := l * ((1 + 12 * u32) * a0 + / 2 ^ 22) + / 2 ^ 100) in *.
  assert (BB : B <= B') by (unfold B, B'; lra).
  assert (NW : Rabs (bv n2) / w <= B'). { apply Rle_trans with B; [|exact BB]. unfold Rdiv. apply Rmult_le_reg_r with w; [lra|]. rewrite Rmult_assoc, Rinv_l by lra. lra. }
  assert (la : 0 <= l * a0) by (apply Rmult_le_pos; lra).
  assert (ula : 0 <= u32 * (l * a0) <= / 1000000 * (l * a0)) by (split; [apply Rmult_le_pos|apply Rmult_le_compat_r]; lra).
  assert (uula : 0 <= u32 * (u32 * (l * a0)) <= / 1000000 * (u32 * (l * a0))) by (split; [apply Rmult_le_pos|apply Rmult_le_compat_r]; lra).
  assert (ul : 0 <= u32 * l <= / 1000000 * l) by (split; [apply Rmult_le_pos|apply Rmult_le_compat_r]; lra).
  assert (CB : (1 + u32) * B' + eta32 <= adam_cap (bv lr) A (bv b1) (bv b2)). { unfold adam_cap. fold a0 l. unfold B'. unfold eta32 in *. lra. }
  assert (N0 : 0 <= Rabs (bv n2) / w) by (apply Rmult_le_pos; [apply Rabs_pos|apply Rlt_le, Rinv_0_lt_compat; lra]).
  assert (uB : (1 + u32) * (Rabs (bv n2) / w) <= (1 + u32) * B') by (apply Rmult_le_compat_l; lra).
  destruct (div_up n2 den w FN2) as (F & E); [lra| |split; [exact F|lra]].
  assert (0 <= u32 * B') by (apply Rmult_le_pos; lra). lra.
Qed.

(** with an overflowed second moment it is 0 or a NaN *)
Lemma adam_upd_over (x y : b32) : is_nan y = true \/ y = INF -> nan_or (adam32 b1 b2 lr x y) (fun z => z = 0).
Proof.
  destruct divisors as (FD1 & FD2 & R1 & R2 & _). intros [N| ->]; unfold adam32; fold D1 D2.
  - left. destruct y; try discriminate. change (Bplus mode_NE (Bsqrt mode_NE (Bdiv mode_NE B754_nan D2)) eps8) with (B754_nan : b32).
    destruct (Bmult mode_NE (Bopp lr) (Bdiv mode_NE x D1)); reflexivity.
  - assert (E : Bdiv mode_NE INF D2 = INF).
    { assert (0 < / 2 ^ 25) by (apply Rinv_0_lt_compat, pow_lt; lra). destruct D2 as [s|s| |s mm e B] eqn:ED; try discriminate; cbn in R2; try lra.
      destruct s; [|reflexivity]. exfalso. assert (B2R (B754_finite true mm e B : b32) < 0) by (apply F2R_lt_0; reflexivity). cbn in *. lra. }
    rewrite E. change (Bplus mode_NE (Bsqrt mode_NE INF) eps8) with INF.
    destruct (Bmult mode_NE (Bopp lr) (Bdiv mode_NE x D1)) as [s|s| |s mm e B]; [right|left|left|right]; try reflexivity; split; reflexivity.
Qed.
Lemma adam_upd (x y : b32) : balanced A x y ->
  nan_or (adam32 b1 b2 lr x y) (fun z => Rabs z <= adam_cap (bv lr) A (bv b1) (bv b2)) /\ (fin y = true -> fin (adam32 b1 b2 lr x y) = true).
Proof.
  intros BL. pose proof cap_range as CR. assert (0 < / 2 ^ 60) by (apply Rinv_0_lt_compat, pow_lt; lra).
  assert (OV : is_nan y = true \/ y = INF -> nan_or (adam32 b1 b2 lr x y) (fun z => Rabs z <= adam_cap (bv lr) A (bv b1) (bv b2))).
  { intros Q. destruct (adam_upd_over x y Q) as [N|(F & Z)]; [left; exact N|right]. split; [exact F|]. rewrite Z, Rabs_R0. lra. }
  destruct BL as [N|[N|(Fy & Hy & Fx & Hx)]].
  - split; [apply OV; left; exact N|]. intros Q. destruct y; discriminate.
  - split; [apply OV; right; exact N|]. intros Q. rewrite N in Q. discriminate.
  - destruct (adam_upd_fin x y Fy Hy Fx Hx) as (F & E). split; [right; split; [exact F|exact E]|intros _; exact F].
Qed.
End Update.

(** ** the power of beta *)
Lemma power_step (p beta : b32) : fin p = true -> 0 <= bv p <= 1 -> fin beta = true -> 0 <= bv beta <= 1 -> next_power p beta (Bmult mode_NE p beta).
Proof.
  intros Fp Hp Fb Hb. rewrite b32_mulC. destruct (shrink beta p Fb Fp Hp) as (F & E). rewrite (Rabs_pos_eq (bv beta)) in E by lra.
  assert (P : 0 <= bv beta * bv p <= 1). { split; [apply Rmult_le_pos; lra|]. rewrite <- (Rmult_1_l 1). apply Rmult_le_compat; lra. }
  destruct (mul_R beta p Fb Fp) as (_ & E2). { rewrite Rabs_pos_eq by lra. pose proof big127. lra. } rewrite (Rabs_pos_eq (bv beta * bv p)) in E2 by lra.
  split; [exact F|]. split.
  - change (0 <= bv (Bmult mode_NE beta p) <= bv beta). destruct (mul_cases beta p Fb Fp (proj1 P)) as [Q|(_ & Q)]; [rewrite Q in F; discriminate|].
    pose proof (rnd_pos _ (proj1 P)) as R. rewrite <- Q in R. pose proof (Rle_abs (bv (Bmult mode_NE beta p))). lra.
  - rewrite (Rmult_comm (B2R p)). exact E2.
Qed.

(** ** moving the parameter, with the weight decay *)
Lemma adam_move (th d wd : b32) S : fin th = true -> Rabs (bv th) <= 2 ^ 125 -> fin wd = true -> bv wd <= 1 -> / 2 ^ 60 <= S <= 2 ^ 50 ->
  nan_or d (fun z => Rabs z <= S) ->
  let d' := if Bltb b32_zero wd then Bplus mode_NE d (Bmult mode_NE (Bopp wd) th) else d in
  nan_or (Bplus mode_NE th d') (moves (bv th) (S + Rmax 0 (bv wd) * Rabs (bv th))) /\ (fin d = true -> fin (Bplus mode_NE th d') = true).
Proof.
  intros Ft Ht Fw Hw HS Hd d'. pose proof u32_pos as U0. pose proof u32_small as US. pose proof u_sq as U2. pose proof eta32_pos as T0. pose proof (Rabs_pos (bv th)) as H0.
  assert (I60 : 0 < / 2 ^ 60) by (apply Rinv_0_lt_compat, pow_lt; lra). assert (B50 : 2 ^ 50 * 8 <= 2 ^ 125) by lra. assert (B127 : 2 ^ 125 * 4 = 2 ^ 127) by lra.
  assert (NF : forall z : b32, is_nan z = true -> fin z = true -> False) by (intros z; destruct z; discriminate).
  unfold d'. clear d'. rewrite (ltb_R b32_zero wd eq_refl Fw). destruct (Rlt_bool_spec (bv b32_zero) (bv wd)) as [W|W]; cbn in W.
  2:{ rewrite Rmax_left by exact W. rewrite Rmult_0_l, Rplus_0_r. destruct (move_plain th d S Ft ltac:(lra) ltac:(lra) Hd) as (M & _). split; [exact M|].
      intros Fd. destruct M as [N|(F & _)]; [|exact F]. destruct Hd as [Q|(_ & Q)]; [destruct (NF d Q Fd)|]. fold (bv d) in Q.
      destruct (add_up th d (2 ^ 126) Ft Fd) as (F & _); [lra|lra|exact F]. }
  change (bv wd) with (B2R wd) in *. fold (bv wd) in *. rewrite Rmax_right by lra. set (k := bv wd * Rabs (bv th)).
  assert (K : 0 <= k <= 2 ^ 125). { unfold k. split; [apply Rmult_le_pos; lra|]. apply Rle_trans with (1 * Rabs (bv th)); [apply Rmult_le_compat_r; lra|lra]. }
  destruct (opp_R wd) as (FO & EO). rewrite Fw in FO. assert (AO : Rabs (bv (Bopp wd)) = bv wd) by (rewrite EO, Rabs_Ropp; apply Rabs_pos_eq; lra).
  destruct (mul_up (Bopp wd) th FO Ft) as (FM & EM). { rewrite AO. fold k. lra. } rewrite AO in EM. fold k in EM. set (t := Bmult mode_NE (Bopp wd) th) in *.
  assert (uk : 0 <= u32 * k <= / 1000000 * k) by (split; [apply Rmult_le_pos|apply Rmult_le_compat_r]; lra).
  assert (uS : 0 <= u32 * S <= / 1000000 * S) by (split; [apply Rmult_le_pos|apply Rmult_le_compat_r]; lra).
  assert (uuk : 0 <= u32 * (u32 * k) <= / 1000000 * (u32 * k)) by (split; [apply Rmult_le_pos|apply Rmult_le_compat_r]; lra).
  assert (uuS : 0 <= u32 * (u32 * S) <= / 1000000 * (u32 * S)) by (split; [apply Rmult_le_pos|apply Rmult_le_compat_r]; lra).
  assert (ut : 0 <= u32 * Rabs (bv th)) by (apply Rmult_le_pos; lra).
  assert (ue : u32 * eta32 <= / 1000000 * eta32) by (apply Rmult_le_compat_r; lra).
  assert (eS : eta32 <= / 1000 * (u32 * S)).
  { apply Rle_trans with (/ 1000 * (u32 * / 2 ^ 60)); [unfold eta32, u32; lra|]. apply Rmult_le_compat_l; [lra|]. apply Rmult_le_compat_l; lra. }
  assert (CASE : (is_nan d = true) \/ fin d = true /\ Rabs (bv d) <= S) by exact Hd.
  destruct CASE as [N|(Fd & HdS)].
  { split; [left|intros Q; destruct (NF d N Q)]. destruct d; try discriminate. destruct th; try discriminate; reflexivity. }
  set (T := (1 + u32) * (S + ((1 + u32) * k + eta32))).
  destruct (add_up d t (S + ((1 + u32) * k + eta32)) Fd FM) as (FA & EA); [lra|lra|]. fold T in EA. set (d2 := Bplus mode_NE d t) in *.
  assert (TB : T <= 2 ^ 125 + / 2 * 2 ^ 125). { unfold T. lra. }
  assert (SUM : Rabs (bv th + bv d2) <= Rabs (bv th) + T) by (eapply Rle_trans; [apply Rabs_triang|]; lra).
  destruct (add_R th d2 Ft FA) as (F & E). { lra. } split; [|intros _; exact F]. right. split; [exact F|]. unfold moves.
  change (B2R (Bplus mode_NE th d2)) with (bv (Bplus mode_NE th d2)).
  replace (bv (Bplus mode_NE th d2) - bv th) with ((bv (Bplus mode_NE th d2) - (bv th + bv d2)) + bv d2) by ring. eapply Rle_trans; [apply Rabs_triang|].
  assert (E2 : u32 * Rabs (bv th + bv d2) <= u32 * (Rabs (bv th) + T)) by (apply Rmult_le_compat_l; lra).
  assert (ET : u32 * T <= u32 * S + u32 * k + / 100 * (u32 * S + u32 * k)).
  { unfold T. assert (u32 * (u32 * (u32 * k)) <= / 1000000 * (u32 * (u32 * k))) by (apply Rmult_le_compat_r; lra).
    assert (u32 * (u32 * eta32) <= / 1000000 * (u32 * eta32)) by (apply Rmult_le_compat_r; [apply Rmult_le_pos; lra|lra]). lra. }
  assert (KT : u32 * k <= u32 * Rabs (bv th)).
  { apply Rmult_le_compat_l; [lra|]. unfold k. rewrite <- (Rmult_1_l (Rabs (bv th))) at 2. apply Rmult_le_compat_r; lra. }
  unfold T in EA. lra.
Qed.
