(** InitProofs.v -- proofs about the initialisation of the parameters. *)
From Coq Require Import ZArith Bool String Ascii List Arith Reals Lia Lra.
From Flocq Require Import Core BinarySingleNaN Relative.
From Verif Require Import Base BaseProofs Ops OpsB32 B32Facts Mem Loss MetricProofs MetricB32 Activation Logger NpyList Registry Create Prop_Registry CreateProofs SpecLog Init SpecInit.
Import ListNotations.
Local Open Scope R_scope.

#[local] Instance vexp32 : Valid_exp (SpecFloat.fexp 24 128) := fexp_correct 24 128 prec_gt_0_32.

(** ** numbers *)
Lemma ofZ_R z : (Z.abs z <= 2 ^ 31)%Z -> fin (b32_ofZ z) = true /\ bv (b32_ofZ z) = rnd (IZR z).
Proof.
  intros H. pose proof (binary_normalize_correct 24 128 prec_gt_0_32 prec_lt_emax_32 mode_NE z 0 false) as C. cbv zeta in C.
  assert (E : F2R (Float radix2 z 0) = IZR z) by (unfold F2R; simpl; lra). rewrite E in C.
  change (binary_normalize 24 128 prec_gt_0_32 prec_lt_emax_32 mode_NE z 0 false) with (b32_ofZ z) in C.
  rewrite Rlt_bool_true in C. { destruct C as (C1 & C2 & _). split; assumption. }
  apply Rle_lt_trans with (bpow radix2 31); [|apply bpow_lt; lia].
  apply rnd_le_abs; [apply fmt_bpow; lia|]. rewrite <- abs_IZR. change (bpow radix2 31) with (IZR (2 ^ 31)). apply IZR_le. exact H.
Qed.
Lemma ofZ_mono a b : (Z.abs a <= 2 ^ 31)%Z -> (Z.abs b <= 2 ^ 31)%Z -> (a <= b)%Z -> bv (b32_ofZ a) <= bv (b32_ofZ b).
Proof.
  intros Ha Hb H. rewrite (proj2 (ofZ_R a Ha)), (proj2 (ofZ_R b Hb)). apply round_le; auto with typeclass_instances. apply IZR_le. exact H.
Qed.
Ltac const32 := match goal with |- bv ?x = _ => let v := eval vm_compute in (B2SF x) in
  match v with SpecFloat.S754_finite ?s ?m ?e => let Q := fresh in destruct (sf_R x s m e) as [Q _]; [vm_compute; reflexivity|rewrite Q; unfold F2R; simpl; lra] end end.
Lemma randmax_R : bv (b32_ofZ rand_max) = 2147483648.
Proof. const32. Qed.
Lemma two_R : bv (b32_ofZ 2) = 2.
Proof. const32. Qed.
Lemma six_R : bv (b32_ofZ 6) = 6.
Proof. const32. Qed.
Lemma c_low : bv (b32_ofZ 1073741791) = 1073741760. Proof. const32. Qed.
Lemma c_high : bv (b32_ofZ 1073741889) = 1073741952. Proof. const32. Qed.
Lemma c_mid1 : bv (b32_ofZ 1073741792) = 1073741824. Proof. const32. Qed.
Lemma c_mid2 : bv (b32_ofZ 1073741888) = 1073741824. Proof. const32. Qed.

Lemma fmtF (m e : Z) x : (Z.abs m < 2 ^ 24)%Z -> (-149 <= e)%Z -> x = IZR m * bpow radix2 e -> fmt x.
Proof.
  intros Hm He ->. change (IZR m * bpow radix2 e) with (F2R (Float radix2 m e)). apply generic_format_F2R. intros Hz.
  unfold cexp, SpecFloat.fexp, SpecFloat.emin. rewrite mag_F2R by exact Hz.
  assert (mag radix2 (IZR m) <= 24)%Z. { apply mag_le_bpow; [apply IZR_neq; exact Hz|]. rewrite <- abs_IZR. change (bpow radix2 24) with (IZR (2 ^ 24)). apply IZR_lt. exact Hm. }
  lia.
Qed.
Lemma rnd_le x b : fmt b -> x <= b -> rnd x <= b.
Proof. intros Fb H. apply round_le_generic; auto with typeclass_instances. Qed.
Lemma rnd_ge x b : fmt b -> b <= x -> b <= rnd x.
Proof. intros Fb H. apply round_ge_generic; auto with typeclass_instances. Qed.

Lemma neg_sign (x : b32) : Bsign x = true -> bv x <= 0.
Proof.
  destruct x as [s|s| |s m e He]; cbn; try lra. intros ->. apply F2R_le_0. cbn. lia.
Qed.
Lemma big128 : 2 ^ 60 < bpow radix2 128.
Proof. change (2 ^ 60) with (2 ^ 60)%R. replace (2 ^ 60) with (bpow radix2 60). { apply bpow_lt. lia. } simpl. lra. Qed.

Lemma div_R (x y : b32) b : bv y <> 0 -> fin x = true -> Rabs (rnd (bv x / bv y)) <= b -> b <= 2 ^ 60 ->
  fin (Bdiv mode_NE x y) = true /\ bv (Bdiv mode_NE x y) = rnd (bv x / bv y).
Proof.
  intros Hy Fx H Hb. pose proof big128. pose proof (Bdiv_correct 24 128 _ _ mode_NE x y Hy) as C.
  rewrite Rlt_bool_true in C by lra. destruct C as (C1 & C2 & _). split; [rewrite C2; exact Fx|exact C1].
Qed.
Lemma mult_R (x y : b32) b : fin x = true -> fin y = true -> Rabs (rnd (bv x * bv y)) <= b -> b <= 2 ^ 60 ->
  fin (Bmult mode_NE x y) = true /\ bv (Bmult mode_NE x y) = rnd (bv x * bv y).
Proof.
  intros Fx Fy H Hb. pose proof big128. pose proof (Bmult_correct 24 128 _ _ mode_NE x y) as C.
  rewrite Rlt_bool_true in C by lra. destruct C as (C1 & C2 & C3). rewrite C1, C2, Fx, Fy. auto.
Qed.

(** ** uniform numbers *)
Lemma uniform_R (lm : libm) r : (0 <= r <= 2147483647)%Z -> let u := @uniform_of (opsB32 lm) r in
  fin u = true /\ Rabs (bv u) <= 1 /\ (centre r -> u = B754_zero false) /\ (~ centre r -> / 16777216 <= Rabs (bv u)).
Proof.
  intros Hr. cbv zeta. unfold uniform_of. cbn [fsub fmul fdiv fofZ f1 F opsB32].
  destruct (ofZ_R r ltac:(lia)) as (Fx & Ex). set (x := b32_ofZ r) in *.
  assert (X0 : 0 <= bv x). { rewrite Ex. apply rnd_ge; [apply generic_format_0|]. apply IZR_le. lia. }
  assert (X1 : bv x <= 2147483648). { rewrite <- randmax_R. apply ofZ_mono; unfold rand_max; lia. }
  assert (D0 : bv (b32_ofZ rand_max) <> 0) by (rewrite randmax_R; lra).
  assert (Q01 : 0 <= rnd (bv x / bv (b32_ofZ rand_max)) <= 1).
  { rewrite randmax_R. split; [apply rnd_ge; [apply generic_format_0|]|apply rnd_le; [apply (fmtF 1 0); simpl; lia || lra|]]; lra. }
  destruct (div_R x (b32_ofZ rand_max) 1 D0 Fx) as (Fq & Eq); [rewrite Rabs_pos_eq; lra|lra|].
  rewrite randmax_R in Eq, Q01. set (q := Bdiv mode_NE x (b32_ofZ rand_max)) in *. rewrite <- Eq in Q01.
  assert (F2 : fin (b32_ofZ 2) = true) by reflexivity.
  assert (T01 : 0 <= rnd (bv (b32_ofZ 2) * bv q) <= 2).
  { rewrite two_R. split; [apply rnd_ge; [apply generic_format_0|]|apply rnd_le; [apply (fmtF 1 1); simpl; lia || lra|]]; lra. }
  destruct (mult_R (b32_ofZ 2) q 2 F2 Fq) as (Ft & Et); [rewrite Rabs_pos_eq; lra|lra|].
  rewrite two_R in Et, T01. set (t := Bmult mode_NE (b32_ofZ 2) q) in *. rewrite <- Et in T01.
  assert (U1 : Rabs (rnd (bv t - bv (b32_ofZ 1))) <= 1).
  { rewrite one_R. apply rnd_le_abs; [apply (fmtF 1 0); simpl; lia || lra|]. apply Rabs_le. lra. }
  destruct (minus_bnd t (b32_ofZ 1) 1 Ft one_fin U1) as (Fu & Eu); [pose proof b128; lra|].
  split; [exact Fu|]. split; [rewrite Eu; exact U1|]. split.
  - intros C. unfold centre in C. assert (EX : x = b32_ofZ 1073741824).
    { apply B2R_Bsign_inj; [exact Fx|reflexivity| |].
      - assert (E2 : bv (b32_ofZ 1073741824) = 1073741824) by const32. rewrite E2.
        pose proof (ofZ_mono 1073741792 r ltac:(lia) ltac:(lia) ltac:(lia)) as M1. pose proof (ofZ_mono r 1073741888 ltac:(lia) ltac:(lia) ltac:(lia)) as M2.
        rewrite c_mid1 in M1. rewrite c_mid2 in M2. fold x in M1, M2. lra.
      - change (Bsign (b32_ofZ 1073741824)) with false.
        pose proof (ofZ_mono 1073741792 r ltac:(lia) ltac:(lia) ltac:(lia)) as M1. rewrite c_mid1 in M1. fold x in M1.
        destruct (Bsign x) eqn:ES; [|reflexivity]. exfalso. pose proof (neg_sign x ES). lra. }
    unfold t, q. rewrite EX. apply B2SF_inj. vm_compute. reflexivity.
  - intros C. rewrite Eu, one_R. unfold centre in C.
    destruct (Z.le_gt_cases 1073741792 r) as [L|L].
    + assert (L2 : (1073741889 <= r)%Z) by lia.
      pose proof (ofZ_mono 1073741889 r ltac:(lia) ltac:(lia) L2) as M. rewrite c_high in M. fold x in M.
      assert (Q1 : 8388609 / 16777216 <= bv q). { rewrite Eq. apply rnd_ge; [apply (fmtF 8388609 (-24)); simpl; lia || lra|]. lra. }
      assert (T1 : 8388609 / 8388608 <= bv t). { rewrite Et. apply rnd_ge; [apply (fmtF 8388609 (-23)); simpl; lia || lra|]. lra. }
      assert (U : / 8388608 <= rnd (bv t - 1)). { apply rnd_ge; [apply (fmtF 1 (-23)); simpl; lia || lra|]. lra. }
      rewrite Rabs_pos_eq; lra.
    + pose proof (ofZ_mono r 1073741791 ltac:(lia) ltac:(lia) ltac:(lia)) as M. rewrite c_low in M. fold x in M.
      assert (Q1 : bv q <= 16777215 / 33554432). { rewrite Eq. apply rnd_le; [apply (fmtF 16777215 (-25)); simpl; lia || lra|]. lra. }
      assert (T1 : bv t <= 16777215 / 16777216). { rewrite Et. apply rnd_le; [apply (fmtF 16777215 (-24)); simpl; lia || lra|]. lra. }
      assert (U : rnd (bv t - 1) <= - / 16777216). { apply rnd_le; [apply (fmtF (-1) (-24)); simpl; lia || lra|]. lra. }
      rewrite Rabs_left; lra.
Qed.

(** ** the scale of Xavier *)
Lemma rel x : / 1000000000000 <= Rabs x -> Rabs (rnd x - x) <= / 16777216 * Rabs x.
Proof.
  intros H. change (SpecFloat.fexp 24 128) with (FLT_exp (-149) 24). change (round_mode mode_NE) with ZnearestE.
  pose proof (relative_error_N_FLT radix2 (-149) 24 ltac:(lia) (fun z => negb (Z.even z)) x) as Q.
  replace (/ 16777216) with (/ 2 * bpow radix2 (-24 + 1)) by (simpl; lra). apply Q.
  apply Rle_trans with (/ 1000000000000); [|exact H]. replace (/ 1000000000000) with (/ IZR 1000000000000) by reflexivity.
  apply Rle_trans with (bpow radix2 (-40)); [apply bpow_le; lia|]. simpl. lra.
Qed.
Lemma xavier_scale n : (2 <= n < 2147483648)%Z -> let s := Bsqrt mode_NE (Bdiv mode_NE (b32_ofZ 6) (b32_ofZ n)) in
  fin s = true /\ 0 <= bv s <= sqrt (6 / IZR n) * (1 + / 4194304) /\ bv s <= 2.
Proof.
  intros Hn. cbv zeta. destruct (ofZ_R n ltac:(lia)) as (Fn & En). set (x := b32_ofZ n) in *.
  assert (N2 : 2 <= IZR n < 2147483648) by (split; [apply IZR_le|apply IZR_lt]; lia).
  pose proof (rel (IZR n) ltac:(rewrite Rabs_pos_eq by lra; lra)) as R1. rewrite <- En in R1. rewrite (Rabs_pos_eq (IZR n)) in R1 by lra.
  apply Rabs_le_inv in R1.
  assert (X2 : 2 <= bv x). { rewrite En. apply rnd_ge; [apply (fmtF 1 1); simpl; lia || lra|lra]. }
  assert (XB : bv x <= 2147483648) by lra || (rewrite En; apply rnd_le; [apply (fmtF 1 31); simpl; lia || lra|lra]).
  assert (IX : 0 < / bv x) by (apply Rinv_0_lt_compat; lra).
  assert (IX2 : / bv x <= / 2) by (apply Rinv_le; lra).
  assert (IX3 : / 2147483648 <= / bv x) by (apply Rinv_le; lra).
  assert (F6 : fin (b32_ofZ 6) = true) by reflexivity.
  destruct (div_R (b32_ofZ 6) x 3) as (Fd & Ed); [lra|exact F6| |lra|].
  { rewrite six_R. apply rnd_le_abs; [apply (fmtF 3 0); simpl; lia || lra|]. unfold Rdiv. rewrite Rabs_pos_eq; nra. }
  rewrite six_R in Ed. set (d := Bdiv mode_NE (b32_ofZ 6) x) in *.
  assert (D1 : / 1000000000000 <= 6 / bv x). { unfold Rdiv. nra. }
  pose proof (rel (6 / bv x) ltac:(rewrite Rabs_pos_eq by lra; lra)) as R2. rewrite <- Ed in R2. rewrite (Rabs_pos_eq (6 / bv x)) in R2 by lra.
  apply Rabs_le_inv in R2.
  assert (D3 : bv d <= 3). { rewrite Ed. apply rnd_le; [apply (fmtF 3 0); simpl; lia || lra|]. unfold Rdiv. nra. }
  assert (D0 : / 1000000000 <= bv d). { assert (/ 500000000 <= 6 / bv x) by (unfold Rdiv; nra). lra. }
  pose proof (Bsqrt_correct 24 128 _ _ mode_NE d) as (S1 & S2 & _). set (s := Bsqrt mode_NE d) in *.
  assert (FS : fin s = true). { rewrite S2. pose proof (neg_sign d) as NS. clearbody d. destruct d as [sg|sg| |sg m e He]; try discriminate; try reflexivity. destruct sg; [|reflexivity].
    exfalso. specialize (NS eq_refl). lra. }
  split; [exact FS|].
  assert (SD : 0 < sqrt (bv d)) by (apply sqrt_lt_R0; lra).
  assert (SDL : / 1000000000000 <= sqrt (bv d)).
  { replace (/ 1000000000000) with (sqrt (/ 1000000000000 * / 1000000000000)) by (apply sqrt_square; lra). apply sqrt_le_1_alt. nra. }
  pose proof (rel (sqrt (bv d)) ltac:(rewrite Rabs_pos_eq by lra; lra)) as R3. rewrite <- S1 in R3. rewrite (Rabs_pos_eq (sqrt (bv d))) in R3 by lra.
  apply Rabs_le_inv in R3.
  split; [split; [lra|]|].
  - (* sqrt (bv d) <= sqrt (6/n) * (1 + 3 eps) *)
    assert (DD : bv d <= 6 / IZR n * ((1 + / 16777216) / (1 - / 16777216))).
    { assert (I : / bv x <= / IZR n * / (1 - / 16777216)). { rewrite <- Rinv_mult. apply Rinv_le; lra. }
      assert (P : 0 < / IZR n) by (apply Rinv_0_lt_compat; lra).
      apply Rle_trans with (6 / bv x * (1 + / 16777216)); [lra|]. unfold Rdiv in *. apply Rle_trans with (6 * (/ IZR n * / (1 - / 16777216)) * (1 + / 16777216)); [nra|].
      right. field. lra. }
    assert (K : sqrt (bv d) <= sqrt (6 / IZR n) * (1 + / 10000000)).
    { rewrite <- (sqrt_square (1 + / 10000000)) by lra. rewrite <- sqrt_mult; [|unfold Rdiv; pose proof (Rinv_0_lt_compat (IZR n) ltac:(lra)); lra|lra].
      apply sqrt_le_1_alt. apply Rle_trans with (1 := DD). apply Rmult_le_compat_l; [unfold Rdiv; pose proof (Rinv_0_lt_compat (IZR n) ltac:(lra)); lra|]. lra. }
    pose proof (sqrt_pos (6 / IZR n)). apply Rle_trans with (sqrt (6 / IZR n) * (1 + / 10000000) * (1 + / 16777216)); [lra|]. nra.
  - assert (sqrt (bv d) <= 7 / 4). { replace (7/4) with (sqrt (7/4 * (7/4))) by (apply sqrt_square; lra). apply sqrt_le_1_alt. lra. } lra.
Qed.

Lemma xavier_weight (lm : libm) r n_in n_out : (0 <= r <= 2147483647)%Z -> (2 <= n_in + n_out < 2147483648)%Z ->
  in_xavier_range n_in n_out (Bmult mode_NE (@uniform_of (opsB32 lm) r) (Bsqrt mode_NE (Bdiv mode_NE (b32_ofZ 6) (b32_ofZ (n_in + n_out))))).
Proof.
  intros Hr Hn. destruct (uniform_R lm r Hr) as (Fu & Bu & _). destruct (xavier_scale _ Hn) as (Fs & (S0 & S1) & S2).
  set (u := @uniform_of (opsB32 lm) r) in *. set (s := Bsqrt mode_NE _) in *.
  assert (M : Rabs (rnd (bv u * bv s)) <= bv s).
  { apply rnd_le_abs; [apply generic_format_B2R|]. rewrite Rabs_mult, (Rabs_pos_eq (bv s)) by lra. nra. }
  destruct (mult_R u s (bv s) Fu Fs M) as (Fw & Ew); [lra|]. unfold in_xavier_range. fold s. rewrite Ew. split; [exact Fw|]. split; lra.
Qed.

(** ** normal numbers *)
Lemma leb_R (x y : b32) : fin x = true -> fin y = true -> Bleb x y = Rle_bool (bv x) (bv y).
Proof.
  intros Fx Fy. unfold Bleb, SpecFloat.SFleb. pose proof (Bcompare_correct 24 128 x y Fx Fy) as C. unfold Bcompare in C. rewrite C.
  unfold Rle_bool. destruct (Rcompare (bv x) (bv y)); reflexivity.
Qed.
Lemma square_R (u : b32) : fin u = true -> Rabs (bv u) <= 1 -> let q := Bmult mode_NE u u in
  fin q = true /\ 0 <= bv q <= 1 /\ (/ 16777216 <= Rabs (bv u) -> / 281474976710656 <= bv q).
Proof.
  intros Fu Bu. cbv zeta. assert (SQ : bv u * bv u = Rabs (bv u) * Rabs (bv u)). { rewrite <- Rabs_mult, Rabs_pos_eq; [reflexivity|nra]. }
  assert (P : 0 <= rnd (bv u * bv u) <= 1). { pose proof (Rabs_pos (bv u)). split; [apply rnd_ge; [apply generic_format_0|nra]|apply rnd_le; [apply (fmtF 1 0); simpl; lia || lra|nra]]. }
  destruct (mult_R u u 1 Fu Fu) as (F & E); [rewrite Rabs_pos_eq; lra|lra|]. split; [exact F|]. rewrite E. split; [exact P|].
  intros H. apply rnd_ge; [apply (fmtF 1 (-48)); simpl; lia || lra|]. rewrite SQ. nra.
Qed.
(** u*u + v*v *)
Lemma sumsq_R (u v : b32) : fin u = true -> fin v = true -> Rabs (bv u) <= 1 -> Rabs (bv v) <= 1 ->
  let s := Bplus mode_NE (Bmult mode_NE u u) (Bmult mode_NE v v) in
  fin s = true /\ 0 <= bv s <= 2 /\ (/ 16777216 <= Rabs (bv u) \/ / 16777216 <= Rabs (bv v) -> / 281474976710656 <= bv s).
Proof.
  intros Fu Fv Bu Bv. cbv zeta. destruct (square_R u Fu Bu) as (F1 & B1 & C1). destruct (square_R v Fv Bv) as (F2 & B2 & C2).
  set (a := Bmult mode_NE u u) in *. set (b := Bmult mode_NE v v) in *.
  assert (P : 0 <= rnd (bv a + bv b) <= 2). { split; [apply rnd_ge; [apply generic_format_0|lra]|apply rnd_le; [apply (fmtF 1 1); simpl; lia || lra|lra]]. }
  destruct (plus_bnd a b 2 F1 F2) as (F & E & _); [rewrite Rabs_pos_eq; lra|pose proof big128; lra|]. split; [exact F|]. rewrite E. split; [exact P|].
  intros H. apply rnd_ge; [apply (fmtF 1 (-48)); simpl; lia || lra|]. destruct H as [H|H]; [specialize (C1 H)|specialize (C2 H)]; lra.
Qed.

(** what is needed of logf: on [2^-48, 1) it is finite, not positive and not below -64 *)
Definition logf_neg (lm : libm) : Prop :=
  forall x : b32, fin x = true -> / 281474976710656 <= bv x < 1 -> fin (lm_log lm x) = true /\ -64 <= bv (lm_log lm x) <= 0.

Lemma factor_fin (lm : libm) (s : b32) : logf_neg lm -> fin s = true -> / 281474976710656 <= bv s < 1 ->
  fin (@polar_factor (opsB32 lm) s) = true /\ 0 <= bv (@polar_factor (opsB32 lm) s) <= 268435456.
Proof.
  intros LN Fs Bs. destruct (LN s Fs Bs) as (Fl & Bl). unfold polar_factor. cbn [fsqrt fdiv fmul fneg fofZ flog F opsB32].
  set (l := lm_log lm s) in *. assert (FN : fin (Bopp (b32_ofZ 2)) = true) by reflexivity.
  assert (EN : bv (Bopp (b32_ofZ 2)) = -2) by (rewrite B2R_Bopp, two_R; lra).
  assert (P : 0 <= rnd (bv (Bopp (b32_ofZ 2)) * bv l) <= 128). { rewrite EN. split; [apply rnd_ge; [apply generic_format_0|lra]|apply rnd_le; [apply (fmtF 1 7); simpl; lia || lra|lra]]. }
  destruct (mult_R _ l 128 FN Fl) as (F1 & E1); [rewrite Rabs_pos_eq; lra|lra|]. rewrite <- E1 in P. set (a := Bmult mode_NE _ l) in *.
  assert (IS : 0 < / bv s <= 281474976710656). { split; [apply Rinv_0_lt_compat; lra|]. rewrite <- (Rinv_inv 281474976710656). apply Rinv_le; lra. }
  assert (P2 : 0 <= rnd (bv a / bv s) <= 36028797018963968). { unfold Rdiv. split; [apply rnd_ge; [apply generic_format_0|nra]|apply rnd_le; [apply (fmtF 1 55); simpl; lia || lra|nra]]. }
  destruct (div_R a s 36028797018963968) as (F2 & E2); [lra|exact F1|rewrite Rabs_pos_eq; lra|lra|]. rewrite <- E2 in P2.
  (* the sign of the quotient: a zero with the sign of a has the root itself *)
  set (d := Bdiv mode_NE a s) in *. pose proof (Bsqrt_correct 24 128 _ _ mode_NE d) as (S1 & S2 & _). set (r := Bsqrt mode_NE d) in *.
  split.
  - rewrite S2. clearbody d. destruct d as [sg|sg| |sg m e He]; try discriminate; try reflexivity. destruct sg; [|reflexivity].
    exfalso. cbn in P2. pose proof (F2R_lt_0 radix2 (Float radix2 (Z.neg m) e) ltac:(cbn; lia)). cbn in *. lra.
  - rewrite S1. pose proof (sqrt_pos (bv d)). split; [apply rnd_ge; [apply generic_format_0|lra]|]. apply rnd_le; [apply (fmtF 1 28); simpl; lia || lra|].
    replace 268435456 with (sqrt (268435456 * 268435456)) by (apply sqrt_square; lra). apply sqrt_le_1_alt. lra.
Qed.

(** the pair of uniform numbers in the state *)
Definition pair_of (lm : libm) (u v : b32) (fac : b32) : Prop :=
  fin u = true /\ fin v = true /\ Rabs (bv u) <= 1 /\ Rabs (bv v) <= 1
  /\ let s := Bplus mode_NE (Bmult mode_NE u u) (Bmult mode_NE v v) in fin s = true /\ bv s < 1 /\ fac = @polar_factor (opsB32 lm) s.
Definition rng_ok (lm : libm) (s : @rng (opsB32 lm)) : Prop := r_prev s = true -> exists u, pair_of lm u (r_v s) (r_fac s).
Definition rng_fin (lm : libm) (s : @rng (opsB32 lm)) : Prop :=
  r_prev s = true -> fin (r_v s) = true /\ Rabs (bv (r_v s)) <= 1 /\ fin (r_fac s) = true /\ 0 <= bv (r_fac s) <= 268435456.

Section Stream.
  Variable lm : libm.
  Variable rand : nat -> Z.
  Hypothesis RR : forall k, (0 <= rand k <= 2147483647)%Z.
  Local Notation OP := (opsB32 lm).

  Lemma polar_loop_spec fuel : forall k, @polar_loop OP rand fuel k = Fault OutOfFuel
    \/ exists k' u v s, @polar_loop OP rand fuel k = Ok (k', u, v, s) /\ s = Bplus mode_NE (Bmult mode_NE u u) (Bmult mode_NE v v)
       /\ pair_of lm u v (@polar_factor OP s)
       /\ ((forall j, ~ (centre (rand j) /\ centre (rand (S j)))) -> / 281474976710656 <= bv s < 1).
  Proof.
    induction fuel as [|fuel IH]; intros k; [left; reflexivity|]. cbn [polar_loop].
    destruct (uniform_R lm (rand k) (RR k)) as (Fu & Bu & _ & Cu). destruct (uniform_R lm (rand (S k)) (RR (S k))) as (Fv & Bv & _ & Cv).
    set (u := @uniform_of OP (rand k)) in *. set (v := @uniform_of OP (rand (S k))) in *.
    destruct (sumsq_R u v Fu Fv Bu Bv) as (Fs & Bs & Cs).
    change (@fadd OP (@fmul OP u u) (@fmul OP v v)) with (Bplus mode_NE (Bmult mode_NE u u) (Bmult mode_NE v v)).
    set (s := Bplus mode_NE (Bmult mode_NE u u) (Bmult mode_NE v v)) in *.
    change (@fge OP s f1) with (Bleb (b32_ofZ 1) s). rewrite (leb_R _ _ one_fin Fs), one_R.
    destruct (Rle_bool_spec 1 (bv s)) as [L|L]; [apply IH|]. right. exists (S (S k)), u, v, s.
    split; [reflexivity|]. split; [reflexivity|]. split. { unfold pair_of. fold s. repeat split; auto. }
    intros NC. split; [|exact L]. apply Cs.
    destruct (Z.le_gt_cases 1073741792 (rand k)), (Z.le_gt_cases (rand k) 1073741888); try (left; apply Cu; unfold centre; lia).
    destruct (Z.le_gt_cases 1073741792 (rand (S k))), (Z.le_gt_cases (rand (S k)) 1073741888); try (right; apply Cv; unfold centre; lia).
    exfalso. apply (NC k). unfold centre. lia.
  Qed.

  Lemma random_normal_spec fuel s : rng_ok lm s -> @random_normal OP rand fuel s = Fault OutOfFuel
    \/ exists s' g, @random_normal OP rand fuel s = Ok (s', g) /\ rng_ok lm s' /\ polar_value lm g.
  Proof.
    intros RO. unfold random_normal. destruct (r_prev s) eqn:EP.
    - right. eexists _, _. split; [reflexivity|]. split; [intros E; cbn in E; discriminate|].
      destruct (RO EP) as (u & Fu & Fv & Bu & Bv & Q). cbv zeta in Q. destruct Q as (Fs & Ls & EF).
      exists u, (r_v s). refine (conj Fu (conj Fv (conj Bu (conj Bv (conj Fs (conj Ls (or_intror _))))))). rewrite EF. reflexivity.
    - destruct (polar_loop_spec fuel (r_pos s)) as [E|(k & u & v & sq & E & ES & PO & _)]; rewrite E; [left; reflexivity|].
      right. cbn [rbind]. eexists _, _. split; [reflexivity|]. split; [intros _; exists u; exact PO|].
      destruct PO as (Fu & Fv & Bu & Bv & Q). cbv zeta in Q. destruct Q as (Fs & Ls & EF).
      exists u, v. refine (conj Fu (conj Fv (conj Bu (conj Bv (conj Fs (conj Ls (or_introl _))))))). rewrite ES. reflexivity.
  Qed.

  Lemma random_normal_fin fuel s : logf_neg lm -> (forall j, ~ (centre (rand j) /\ centre (rand (S j)))) -> rng_fin lm s ->
    @random_normal OP rand fuel s = Fault OutOfFuel
    \/ exists s' g, @random_normal OP rand fuel s = Ok (s', g) /\ rng_fin lm s' /\ fin g = true /\ Rabs (bv g) <= 268435456.
  Proof.
    intros LN NC RF.
    assert (MU : forall u f : b32, fin u = true -> Rabs (bv u) <= 1 -> fin f = true -> 0 <= bv f <= 268435456 ->
              fin (Bmult mode_NE u f) = true /\ Rabs (bv (Bmult mode_NE u f)) <= 268435456).
    { intros u f Fu Bu Ff Bf. assert (M : Rabs (rnd (bv u * bv f)) <= 268435456).
      { apply rnd_le_abs; [apply (fmtF 1 28); simpl; lia || lra|]. rewrite Rabs_mult, (Rabs_pos_eq (bv f)) by lra. pose proof (Rabs_pos (bv u)). nra. }
      destruct (mult_R u f _ Fu Ff M) as (A & B); [lra|]. rewrite B. auto. }
    unfold random_normal. destruct (r_prev s) eqn:EP.
    - right. eexists _, _. split; [reflexivity|]. split; [intros E; cbn in E; discriminate|].
      destruct (RF EP) as (Fv & Bv & Ff & Bf). apply MU; assumption.
    - destruct (polar_loop_spec fuel (r_pos s)) as [E|(k & u & v & sq & E & ES & PO & LO)]; rewrite E; [left; reflexivity|].
      right. cbn [rbind]. eexists _, _. split; [reflexivity|]. destruct PO as (Fu & Fv & Bu & Bv & Q). cbv zeta in Q. rewrite <- ES in Q. destruct Q as (Fs & Ls & _).
      destruct (factor_fin lm sq LN Fs (LO NC)) as (Ff & Bf). split; [intros _; repeat split; cbn [r_v r_fac]; try assumption; apply Bf|]. apply MU; assumption.
  Qed.

  (** ** filling *)
  Lemma fill_spec (dist : @rng OP -> res (@rng OP * b32)) (Inv : @rng OP -> Prop) (P : b32 -> Prop) scale :
    (forall s, Inv s -> dist s = Fault OutOfFuel \/ exists s' g, dist s = Ok (s', g) /\ Inv s' /\ P g) ->
    forall n s (data : list (option b32)), Inv s -> length data = n ->
    @fill_data OP n dist scale s data = Fault OutOfFuel
    \/ exists s' gs, @fill_data OP n dist scale s data = Ok (s', map (fun g => Some (Bmult mode_NE g scale)) gs) /\ Inv s' /\ Forall P gs /\ length gs = n.
  Proof.
    intros D. induction n as [|n IH]; intros s data I L.
    - right. exists s, []. destruct data; [|discriminate]. cbn. auto.
    - cbn [fill_data]. destruct (D s I) as [E|(s1 & g & E & I1 & Pg)]; rewrite E; [left; reflexivity|]. cbn [rbind fst snd].
      destruct data as [|x data]; [discriminate|]. destruct (IH s1 data I1 ltac:(cbn in L; lia)) as [E2|(s2 & gs & E2 & I2 & Ps & Ls)]; rewrite E2; [left; reflexivity|].
      right. exists s2, (g :: gs). cbn [rbind fst snd map length]. refine (conj eq_refl (conj I2 (conj _ _))); [constructor; assumption|rewrite Ls; reflexivity].
  Qed.
  (** the uniform numbers do not touch the state of the normal ones *)
  Lemma fill_uniform (Inv : @rng OP -> Prop) scale (P : b32 -> Prop) :
    (forall s k, Inv s -> Inv (mk_rng k (r_v s) (r_fac s) (r_prev s))) ->
    (forall k, P (Bmult mode_NE (@uniform_of OP (rand k)) scale)) ->
    forall n s (data : list (option b32)), Inv s -> length data = n ->
    exists s' ws, @fill_data OP n (@random_uniform OP rand) scale s data = Ok (s', map Some ws) /\ Inv s' /\ Forall P ws /\ length ws = n.
  Proof.
    intros IK PK. induction n as [|n IH]; intros s data I L.
    - exists s, []. destruct data; [|discriminate]. cbn. auto.
    - cbn [fill_data random_uniform rbind fst snd]. destruct data as [|x data]; [discriminate|].
      destruct (IH (mk_rng (S (r_pos s)) (r_v s) (r_fac s) (r_prev s)) data (IK _ _ I) ltac:(cbn in L; lia)) as (s2 & ws & E2 & I2 & Ps & Ls).
      rewrite E2. eexists s2, (_ :: ws). cbn [rbind fst snd map length]. refine (conj eq_refl (conj I2 (conj _ _))); [constructor; [apply PK|assumption]|rewrite Ls; reflexivity].
  Qed.
End Stream.

(** ** layers *)
Definition guess (f : fn) : method :=
  match f with
  | Builtin Sigmoid | Builtin Tanh | Builtin Softmax | Builtin Hard_sigmoid | Builtin Softsign => Xavier
  | Builtin Relu | Builtin Softplus => Kaiming
  | _ => Normal
  end.
Definition method_of (i : bytes) (f : fn) : method :=
  if streq i "xavier" then Xavier else if streq i "kaiming" then Kaiming else guess f.
Lemma method_of_for i f : method_for i f (method_of i f).
Proof.
  unfold method_of, streq. destruct (bytes_eqb i (chars "xavier")) eqn:E1. { apply by_xavier. apply bytes_eqb_eq in E1. exact E1. }
  assert (N1 : i <> txt "xavier"). { intros ->. change (chars "xavier") with (txt "xavier") in E1. rewrite (proj2 (bytes_eqb_eq _ _) eq_refl) in E1. discriminate. }
  destruct (bytes_eqb i (chars "kaiming")) eqn:E2. { apply by_kaiming. apply bytes_eqb_eq in E2. exact E2. }
  assert (N2 : i <> txt "kaiming"). { intros ->. change (chars "kaiming") with (txt "kaiming") in E2. rewrite (proj2 (bytes_eqb_eq _ _) eq_refl) in E2. discriminate. }
  destruct f as [a|n]; [destruct a|]; cbn [guess];
    first [apply guess_xavier; [exact N1|exact N2|cbn; auto 8; fail]|apply guess_kaiming; [exact N1|exact N2|cbn; auto 8; fail]
          |apply guess_normal; [exact N1|exact N2|cbn; intros Q; repeat (destruct Q as [Q|Q]; [discriminate|]); destruct Q]].
Qed.
Lemma method_for_fun i f m m' : method_for i f m -> method_for i f m' -> m = m'.
Proof.
  assert (NE : txt "xavier" <> txt "kaiming") by (intros Q; discriminate).
  intros H H'. destruct H, H'; try reflexivity; try congruence; exfalso;
    repeat match goal with H : In _ _ |- _ => cbn in H | H : ~ In _ _ |- _ => cbn in H end; intuition congruence.
Qed.

(** the names of loaded functions have an @ *)
Definition at_names (st : records) : Prop := Forall (fun r => In "@"%char (rc_name r)) st.
Lemma name_guess st f : at_names st ->
  one_of ["sigmoid"; "tanh"; "softmax"; "hard_sigmoid"; "softsign"]%string (get_activation_name st f) = match guess f with Xavier => true | _ => false end
  /\ one_of ["relu"; "softplus"]%string (get_activation_name st f) = match guess f with Kaiming => true | _ => false end.
Proof.
  intros A. destruct f as [a|n]; [destruct a; split; reflexivity|]. cbn [guess].
  assert (G : forall name, In "@"%char name \/ name = unknown -> forall l, Forall (fun s => ~ In "@"%char (chars s) /\ chars s <> unknown) l -> one_of l name = false).
  { intros name N. induction l as [|s l IH]; intros FA; [reflexivity|]. unfold one_of. cbn [existsb]. fold (one_of l name). rewrite (IH (Forall_inv_tail FA)).
    apply Forall_inv in FA. cbv beta in FA. rewrite orb_false_r. unfold streq. destruct (bytes_eqb name (chars s)) eqn:E; [|reflexivity].
    apply bytes_eqb_eq in E. subst name. destruct N as [N|N]; tauto. }
  assert (NM : In "@"%char (get_activation_name st (Dyn n)) \/ get_activation_name st (Dyn n) = unknown).
  { unfold get_activation_name. destruct (find (is_func (Dyn n)) st) as [r|] eqn:E; [|right; reflexivity]. left.
    apply find_some in E. unfold at_names in A. rewrite Forall_forall in A. apply (A r). apply E. }
  split; apply (G _ NM); repeat constructor; try (intros Q; discriminate); cbn; intros Q; repeat (destruct Q as [Q|Q]; [discriminate|]); destruct Q.
Qed.

(** a layer: sizes that fit and blocks of those sizes *)
Definition layer_fits {FO : fops} (l : ilayer) : Prop :=
  (1 <= il_in l /\ 1 <= il_out l /\ il_in l * il_out l <= 2147483647 /\ il_in l + il_out l <= 2147483647)%Z
  /\ length (il_w l) = Z.to_nat (il_in l * il_out l) /\ length (il_b l) = Z.to_nat (il_out l).

Section Layers.
  Variable lm : libm.
  Variable rand : nat -> Z.
  Local Notation OP := (opsB32 lm).
  Variable Inv : @rng OP -> Prop.
  Variable P : b32 -> Prop.
  Variable W : method -> Z -> Z -> b32 -> Prop.
  Hypothesis HI : forall s k, Inv s -> Inv (mk_rng k (r_v s) (r_fac s) (r_prev s)).
  Hypothesis HX : forall n_in n_out k, (1 <= n_in /\ 1 <= n_out /\ n_in + n_out <= 2147483647)%Z ->
    W Xavier n_in n_out (Bmult mode_NE (@uniform_of OP (rand k)) (Bsqrt mode_NE (Bdiv mode_NE (b32_ofZ 6) (b32_ofZ (n_in + n_out))))).
  Hypothesis HD : forall fuel s, Inv s -> @random_normal OP rand fuel s = Fault OutOfFuel \/ exists s' g, @random_normal OP rand fuel s = Ok (s', g) /\ Inv s' /\ P g.
  Hypothesis HK : forall n_in n_out g, (1 <= n_in <= 2147483647)%Z -> P g -> W Kaiming n_in n_out (Bmult mode_NE g (Bsqrt mode_NE (Bdiv mode_NE (b32_ofZ 2) (b32_ofZ n_in)))).
  Hypothesis HN : forall n_in n_out g, P g -> W Normal n_in n_out (Bmult mode_NE g (b32_ofZ 1)).

  Definition layer_done (i : bytes) (l l' : @ilayer OP) : Prop :=
    exists ws : list b32, l' = @mk_ilayer OP (il_in l) (il_out l) (il_func l) (map Some ws) (repeat (Some b32_zero) (Z.to_nat (il_out l)))
      /\ length ws = Z.to_nat (il_in l * il_out l) /\ Forall (W (method_of i (il_func l)) (il_in l) (il_out l)) ws.

  Lemma to_int_ok z : (0 <= z <= 2147483647)%Z -> to_int z = Ok z.
  Proof. intros H. unfold to_int. destruct ((-2147483648 <=? z)%Z && (z <=? 2147483647)%Z) eqn:E; [reflexivity|]. lia. Qed.

  Lemma xavier_ok s (l : @ilayer OP) : Inv s -> layer_fits l -> exists s' ws, @fill_xavier OP rand s l = Ok (s', map Some ws) /\ Inv s'
    /\ Forall (W Xavier (il_in l) (il_out l)) ws /\ length ws = Z.to_nat (il_in l * il_out l).
  Proof.
    intros I (LF & LW & _). unfold fill_xavier, mul_int. rewrite to_int_ok by nia. cbn [rbind]. rewrite to_int_ok by lia. cbn [rbind].
    apply (fill_uniform lm rand Inv _ (W Xavier (il_in l) (il_out l)) HI); [intros k; apply HX; lia|exact I|exact LW].
  Qed.
  Lemma normal_fill_ok fuel s n scale (data : list (option b32)) m n_in n_out : Inv s -> length data = n -> (forall g, P g -> W m n_in n_out (Bmult mode_NE g scale)) ->
    @fill_data OP n (@random_normal OP rand fuel) scale s data = Fault OutOfFuel
    \/ exists s' ws, @fill_data OP n (@random_normal OP rand fuel) scale s data = Ok (s', map Some ws) /\ Inv s'
    /\ Forall (W m n_in n_out) ws /\ length ws = n.
  Proof.
    intros I L H. destruct (fill_spec lm (@random_normal OP rand fuel) Inv P scale (HD fuel) n s data I L) as [E|(s' & gs & E & I' & FP & LG)]; [left; exact E|].
    right. exists s', (map (fun g => Bmult mode_NE g scale) gs). rewrite E, map_map, map_length. refine (conj eq_refl (conj I' (conj _ LG))).
    apply Forall_map. revert FP. apply Forall_impl. exact H.
  Qed.

  Lemma init_layer_ok fuel st i s (l : @ilayer OP) : at_names st -> Inv s -> layer_fits l ->
    @init_layer OP rand fuel st i s l = Fault OutOfFuel
    \/ exists s' l', @init_layer OP rand fuel st i s l = Ok (s', l') /\ Inv s' /\ layer_done i l l'.
  Proof.
    intros A I LF. pose proof LF as (LB & LW & LBB).
    destruct (name_guess st (il_func l) A) as (G1 & G2).
    assert (MI : mul_int (il_in l) (il_out l) = Ok (il_in l * il_out l)%Z) by (unfold mul_int; apply to_int_ok; nia).
    assert (Z : @zero_data OP (Z.to_nat (il_out l)) (il_b l) = Ok (repeat (Some b32_zero) (Z.to_nat (il_out l)))).
    { unfold zero_data. rewrite LBB, Nat.ltb_irrefl. rewrite <- LBB, skipn_all, app_nil_r. reflexivity. }
    assert (KA : @fill_kaiming OP rand fuel s l = Fault OutOfFuel \/ exists s' ws, @fill_kaiming OP rand fuel s l = Ok (s', map Some ws) /\ Inv s'
      /\ Forall (W Kaiming (il_in l) (il_out l)) ws /\ length ws = Z.to_nat (il_in l * il_out l)).
    { unfold fill_kaiming. rewrite MI. cbn [rbind]. apply normal_fill_ok; [exact I|exact LW|]. intros g Pg. apply HK; [nia|exact Pg]. }
    assert (NO : @fill_normal OP rand fuel s l = Fault OutOfFuel \/ exists s' ws, @fill_normal OP rand fuel s l = Ok (s', map Some ws) /\ Inv s'
      /\ Forall (W Normal (il_in l) (il_out l)) ws /\ length ws = Z.to_nat (il_in l * il_out l)).
    { unfold fill_normal. rewrite MI. cbn [rbind]. apply normal_fill_ok; [exact I|exact LW|]. intros g Pg. apply HN. exact Pg. }
    destruct (xavier_ok s l I LF) as (sx & wx & EX & IX & FX & LX).
    assert (LE : mk_ilayer (il_in l) (il_out l) (il_func l) (il_w l) (il_b l) = l) by (destruct l; reflexivity).
    unfold init_layer, layer_done, method_of. rewrite Z, G1, G2.
    destruct (streq i "xavier").
    { right. rewrite EX. cbn [rbind fst snd]. eexists _, _. split; [reflexivity|]. split; [exact IX|]. exists wx. auto. }
    destruct (streq i "kaiming").
    { destruct KA as [E|(s' & ws & E & I' & FW & L')]; rewrite E; [left; reflexivity|]. right. cbn [rbind fst snd]. eexists _, _. split; [reflexivity|]. split; [exact I'|]. exists ws. auto. }
    destruct (guess (il_func l)) eqn:EG; cbn [rbind fst snd orb].
    - right. rewrite EX. cbn [rbind fst snd orb il_w]. eexists _, _. split; [reflexivity|]. split; [exact IX|]. exists wx. auto.
    - rewrite LE. destruct KA as [E|(s' & ws & E & I' & FW & L')]; rewrite E; [left; reflexivity|]. right. cbn [rbind fst snd orb]. eexists _, _. split; [reflexivity|]. split; [exact I'|]. exists ws. auto.
    - cbn [il_in il_out il_func il_w il_b]. rewrite LE. destruct NO as [E|(s' & ws & E & I' & FW & L')]; rewrite E; [left; reflexivity|]. right. cbn [rbind fst snd orb]. eexists _, _. split; [reflexivity|]. split; [exact I'|]. exists ws. auto.
  Qed.

  Lemma init_layers_ok fuel st : at_names st -> forall (ls : list (@ilayer OP)) strs (inits : option (list (option bytes))) s, initializer_strings inits strs -> length strs = length ls ->
    Inv s -> Forall layer_fits ls ->
    @init_layers OP rand fuel st inits s ls = Fault OutOfFuel
    \/ exists s' ls', @init_layers OP rand fuel st inits s ls = Ok (s', ls') /\ Inv s' /\ Forall2 (fun il l' => layer_done (fst il) (snd il) l') (combine strs ls) ls'.
  Proof.
    intros A. induction ls as [|l ls IH]; intros strs inits s HS L I FL.
    - right. exists s, []. destruct strs; [|discriminate]. cbn. auto.
    - destruct strs as [|i strs]; [discriminate|]. cbn [init_layers].
      match goal with |- rbind ?m _ = _ \/ _ => assert (E : m = Ok i /\ initializer_strings (option_map (fun l : list (option bytes) => tl l) inits) strs) end.
      { destruct inits as [il|]; cbn in HS |- *.
        - destruct HS as (rest & ->). cbn. split; [reflexivity|]. exists rest. reflexivity.
        - split; [rewrite (Forall_inv HS); reflexivity|exact (Forall_inv_tail HS)]. }
      destruct E as (E & HS'). rewrite E. cbn [rbind].
      destruct (init_layer_ok fuel st i s l A I (Forall_inv FL)) as [E1|(s1 & l1 & E1 & I1 & D1)]; rewrite E1; [left; reflexivity|]. cbn [rbind fst snd].
      destruct (IH strs (option_map (fun l : list (option bytes) => tl l) inits) s1 HS' ltac:(cbn in L; lia) I1 (Forall_inv_tail FL)) as [E2|(s2 & ls2 & E2 & I2 & D2)]; rewrite E2; [left; reflexivity|].
      right. cbn [rbind fst snd combine]. eexists _, _. split; [reflexivity|]. split; [exact I2|]. constructor; assumption.
  Qed.
End Layers.

Lemma kaiming_scale n : (1 <= n <= 2147483647)%Z -> let s := Bsqrt mode_NE (Bdiv mode_NE (b32_ofZ 2) (b32_ofZ n)) in
  fin s = true /\ 0 <= bv s <= 2.
Proof.
  intros Hn. cbv zeta. destruct (ofZ_R n ltac:(lia)) as (Fn & En). set (x := b32_ofZ n) in *.
  assert (N2 : 1 <= IZR n) by (apply IZR_le; lia).
  assert (X2 : 1 <= bv x). { rewrite En. apply rnd_ge; [apply (fmtF 1 0); simpl; lia || lra|lra]. }
  assert (IX : 0 < / bv x <= 1). { split; [apply Rinv_0_lt_compat; lra|]. rewrite <- Rinv_1. apply Rinv_le; lra. }
  assert (P : 0 <= rnd (bv (b32_ofZ 2) / bv x) <= 2). { rewrite two_R. unfold Rdiv. split; [apply rnd_ge; [apply generic_format_0|lra]|apply rnd_le; [apply (fmtF 1 1); simpl; lia || lra|lra]]. }
  destruct (div_R (b32_ofZ 2) x 2) as (Fd & Ed); [lra|reflexivity|rewrite Rabs_pos_eq; lra|lra|]. rewrite <- Ed in P.
  set (d := Bdiv mode_NE (b32_ofZ 2) x) in *. pose proof (Bsqrt_correct 24 128 _ _ mode_NE d) as (S1 & S2 & _). set (s := Bsqrt mode_NE d) in *.
  split.
  - rewrite S2. clearbody d. destruct d as [sg|sg| |sg m e He]; try discriminate; try reflexivity. destruct sg; [|reflexivity].
    exfalso. cbn in P. pose proof (F2R_lt_0 radix2 (Float radix2 (Z.neg m) e) ltac:(cbn; lia)). cbn in *. lra.
  - rewrite S1. pose proof (sqrt_pos (bv d)). split; [apply rnd_ge; [apply generic_format_0|lra]|]. apply rnd_le; [apply (fmtF 1 1); simpl; lia || lra|].
    replace 2 with (sqrt (2 * 2)) by (apply sqrt_square; lra). apply sqrt_le_1_alt. lra.
Qed.
Lemma scaled_fin (g s : b32) : fin g = true -> Rabs (bv g) <= 268435456 -> fin s = true -> 0 <= bv s <= 2 -> fin (Bmult mode_NE g s) = true.
Proof.
  intros Fg Bg Fs Bs. apply (mult_R g s 536870912 Fg Fs); [|lra]. apply rnd_le_abs; [apply (fmtF 1 29); simpl; lia || lra|].
  rewrite Rabs_mult, (Rabs_pos_eq (bv s)) by lra. pose proof (Rabs_pos (bv g)). nra.
Qed.
