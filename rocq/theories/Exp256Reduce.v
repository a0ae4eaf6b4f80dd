(** Exp256Reduce.v -- exp256_ps in binary32: the reduction of the argument, and the result *)
From Coquelicot Require Import Coquelicot.
From Flocq Require Import Core BinarySingleNaN Relative.
From Coq Require Import ZArith Bool List Arith Reals Lia Lra.
From Verif Require Import Base Ops OpsB32 B32Facts MetricB32 InitProofs Activation SpecRound RoundProofs Exp256 Exp256B32.
Local Open Scope R_scope.

#[local] Instance vexp32'' : Valid_exp (SpecFloat.fexp 24 128) := fexp_correct 24 128 prec_gt_0_32.

Definition H32 : R := 11583653 / 131072.
Lemma big_ok x : Rabs x <= 1000 -> Rabs x <= 2 ^ 127 + 1.
Proof. pose proof big127. lra. Qed.

Lemma fmt_dyadic (m : Z) (k : nat) x : (Z.abs m < 2 ^ 24)%Z -> (k <= 149)%nat -> x = IZR m / 2 ^ k -> fmt x.
Proof.
  intros Hm Hk ->. apply (fmtF m (- Z.of_nat k)); [exact Hm|lia|]. unfold Rdiv. f_equal.
  rewrite bpow_opp, bpow_powerRZ. cbn [radix_val radix2]. rewrite <- pow_powerRZ. reflexivity.
Qed.

(** fx0 = x * LOG2EF + 0.5 *)
Lemma red_fx0 (x : b32) : fin x = true -> Rabs (bv x) <= H32 ->
  let fx0 := Bplus mode_NE (Bmult mode_NE x k_L) k_half in
  fin fx0 = true /\ -127 <= bv fx0 < 128 /\ Rabs (bv fx0 - (bv x * (144269504088896341 / 100000000000000000) + 1/2)) <= 18/10^6.
Proof.
  intros Fx BX. unfold H32 in BX. destruct k_L_R as (FL & EL). destruct k_half_R as (Fh & Eh).
  pose proof u32_val as U. pose proof eta32_tiny as T. pose proof eta32_pos as T0.
  assert (AL : Rabs (bv k_L) <= 1443/1000) by (rewrite EL; apply Rabs_le; lra).
  apply Rabs_le_between in BX.
  assert (AP : Rabs (bv x * bv k_L) <= 255/2) by (rewrite EL; apply Rabs_le; lra).
  destruct (mul_R x k_L Fx FL) as (FM & EM). { apply big_ok. lra. }
  assert (BM : - (16711679 / 131072) <= bv (Bmult mode_NE x k_L) <= 16711679 / 131072).
  { pose proof (Bmult_correct 24 128 _ _ mode_NE x k_L) as C. rewrite Rlt_bool_true in C by (apply rnd_range; apply big_ok; lra).
    destruct C as (C1 & _). rewrite C1, EL.
    assert (FB : fmt (16711679 / 131072)) by (apply (fmt_dyadic 16711679 17); [reflexivity|lia|lra]).
    split; [apply rnd_ge|apply rnd_le]; auto; try lra. apply generic_format_opp. exact FB. }
  set (m := Bmult mode_NE x k_L) in *. clearbody m.
  destruct (add_R m k_half FM Fh) as (FA & EA). { apply big_ok. rewrite Eh. apply Rabs_le; lra. }
  cbv zeta. split; [exact FA|]. split.
  - pose proof (Bplus_correct 24 128 _ _ mode_NE m k_half FM Fh) as C. rewrite Rlt_bool_true in C by (apply rnd_range; apply big_ok; rewrite Eh; apply Rabs_le; lra).
    destruct C as (C1 & _). rewrite C1, Eh. split.
    + apply rnd_ge; [|lra]. apply (fmt_dyadic (-127) 0); [reflexivity|lia|lra].
    + apply Rle_lt_trans with (16777215 / 131072); [|lra]. apply rnd_le; [|lra]. apply (fmt_dyadic 16777215 17); [reflexivity|lia|lra].
  - set (a := bv (Bplus mode_NE m k_half)) in *. rewrite Eh in EA.
    assert (A1 : Rabs (bv m + 1/2) <= 129) by (apply Rabs_le; lra).
    assert (E1 : Rabs (a - (bv m + 1/2)) <= 129 * u32). { eapply Rle_trans; [exact EA|]. rewrite Rmult_comm. apply Rmult_le_compat_r; lra. }
    assert (E2 : Rabs (bv m - bv x * bv k_L) <= 255/2 * u32 + eta32).
    { eapply Rle_trans; [exact EM|]. apply Rplus_le_compat_r. rewrite Rmult_comm. apply Rmult_le_compat_r; lra. }
    rewrite EL in E2. apply Rabs_le_between in E1. apply Rabs_le_between in E2. apply Rabs_le. lra.
Qed.

Lemma floor_R (x : b32) : fin x = true -> -127 <= bv x < 128 -> exists n : Z, (-127 <= n <= 127)%Z /\ IZR n <= bv x < IZR n + 1 /\
  fin (Bnearbyint mode_DN x) = true /\ bv (Bnearbyint mode_DN x) = IZR n.
Proof.
  intros Fx H. exists (Zfloor (bv x)). destruct (Bnearbyint_correct 24 128 prec_lt_emax_32 mode_DN x) as (E & F & _).
  pose proof (Zfloor_lb (bv x)). pose proof (Zfloor_ub (bv x)).
  assert (L1 : IZR (Zfloor (bv x)) < IZR 128) by lra. assert (L2 : IZR (-128) < IZR (Zfloor (bv x))) by lra. apply lt_IZR in L1, L2.
  split; [lia|]. split; [lra|]. rewrite F, E, round_FIX_IZR. split; [exact Fx|reflexivity].
Qed.

(** x - fx * C1 is exact *)
Lemma red_exact (x : b32) n : (-127 <= n <= 127)%Z -> Rabs (bv x) <= H32 -> Rabs (bv x - IZR n * (355/512)) < 2/5 ->
  fmt (bv x - IZR n * (355/512)).
Proof.
  intros Hn BX HD. unfold H32 in BX. destruct (Z.eq_dec n 0) as [->|N0].
  { replace (bv x - IZR 0 * (355/512)) with (bv x) by lra. apply bv_fmt'. }
  assert (LX : bpow radix2 (-2) <= Rabs (bv x)).
  { change (bpow radix2 (-2)) with (/ IZR 4).
    assert (A : 1 <= Rabs (IZR n)). { rewrite <- abs_IZR. apply IZR_le. lia. }
    pose proof (Rabs_triang (- (bv x - IZR n * (355/512))) (bv x)) as T. rewrite Rabs_Ropp in T.
    replace (- (bv x - IZR n * (355/512)) + bv x) with (IZR n * (355/512)) in T by ring. rewrite Rabs_mult, (Rabs_pos_eq (355/512)) in T by lra. lra. }
  assert (UX : Rabs (bv x) < bpow radix2 7) by (change (bpow radix2 7) with 128; lra).
  pose proof (bv_fmt' x) as G. set (e := cexp radix2 (SpecFloat.fexp 24 128) (bv x)).
  assert (He : (-25 <= e <= -17)%Z).
  { assert (bv x <> 0). { intros Q. rewrite Q, Rabs_R0 in LX. pose proof (bpow_gt_0 radix2 (-2)). lra. }
    pose proof (mag_gt_bpow radix2 (bv x) (-2) LX) as M1. pose proof (mag_le_bpow radix2 (bv x) 7 H UX) as M2.
    unfold e, cexp, SpecFloat.fexp, SpecFloat.emin. lia. }
  unfold generic_format in G. set (m := Ztrunc (scaled_mantissa radix2 (SpecFloat.fexp 24 128) (bv x))) in G. fold e in G.
  unfold F2R in G; cbn [Fnum Fexp] in G.
  (* both are multiples of 2^e *)
  set (d := (m - n * 355 * 2 ^ (-9 - e))%Z).
  assert (B9 : IZR (2 ^ (-9 - e)) * bpow radix2 e = / 512).
  { change 2%Z with (radix_val radix2). rewrite IZR_Zpower by lia. rewrite <- bpow_plus. replace (-9 - e + e)%Z with (-9)%Z by lia. reflexivity. }
  assert (ED : bv x - IZR n * (355/512) = IZR d * bpow radix2 e).
  { unfold d. rewrite minus_IZR, !mult_IZR. rewrite G at 1. replace (355/512) with (355 * / 512) by lra. rewrite <- B9. ring. }
  rewrite ED. apply (fmtF d e); [|lia|reflexivity].
  apply lt_IZR. rewrite abs_IZR. rewrite ED, Rabs_mult in HD. pose proof (bpow_gt_0 radix2 e) as Pe. rewrite (Rabs_pos_eq (bpow radix2 e)) in HD by lra.
  apply Rmult_lt_reg_r with (bpow radix2 e); [exact Pe|]. eapply Rlt_le_trans; [exact HD|].
  change (2 ^ 24)%Z with (Zpower radix2 24). rewrite IZR_Zpower by lia. rewrite <- bpow_plus. 
  apply Rle_trans with (bpow radix2 (-1)); [change (bpow radix2 (-1)) with (/ IZR 2); lra|apply bpow_le; lia].
Qed.

(** the reduced argument *)
Definition red32 (x : b32) : b32 :=
  let fx0 := Bplus mode_NE (Bmult mode_NE x k_L) k_half in
  let tmp := Bnearbyint mode_DN fx0 in
  Bminus mode_NE tmp (if Bltb fx0 tmp then b32_ofZ 1 else b32_zero).
Definition arg32 (x fx : b32) : b32 :=
  Bminus mode_NE (Bminus mode_NE x (Bmult mode_NE fx k_C1)) (Bmult mode_NE fx k_C2).

Lemma red32_R (x : b32) : fin x = true -> Rabs (bv x) <= H32 -> exists n : Z,
  (-127 <= n <= 127)%Z /\ fin (red32 x) = true /\ bv (red32 x) = IZR n /\
  Rabs (bv x * (144269504088896341 / 100000000000000000) - IZR n) <= 1/2 + 18/10^6.
Proof.
  intros Fx BX. destruct (red_fx0 x Fx BX) as (F0 & B0 & E0). set (fx0 := Bplus mode_NE (Bmult mode_NE x k_L) k_half) in *.
  destruct (floor_R fx0 F0 B0) as (n & Hn & Bn & Ff & Ef). exists n. split; [exact Hn|].
  unfold red32. fold fx0. cbv zeta. set (tmp := Bnearbyint mode_DN fx0) in *.
  assert (EB : Bltb fx0 tmp = false).
  { rewrite Bltb_correct by assumption. apply Rlt_bool_false. lra. }
  rewrite EB. destruct (minus_R tmp b32_zero Ff eq_refl) as (F & E).
  { change (bv b32_zero) with 0. rewrite Rminus_0_r. apply big_ok. rewrite Ef. apply Rabs_le. assert (IZR (-1000) <= IZR n <= IZR 1000) by (split; apply IZR_le; lia). lra. }
  split; [exact F|]. split; [rewrite E; change (bv b32_zero) with 0; rewrite Rminus_0_r, rnd_id; [exact Ef|apply bv_fmt']|].
  apply Rabs_le_between in E0. apply Rabs_le. lra.
Qed.
Lemma arg32_R (x fx : b32) n : fin x = true -> Rabs (bv x) <= H32 -> (-127 <= n <= 127)%Z -> fin fx = true -> bv fx = IZR n ->
  Rabs (bv x * (144269504088896341 / 100000000000000000) - IZR n) <= 1/2 + 18/10^6 ->
  fin (arg32 x fx) = true /\ Rabs (bv (arg32 x fx) - (bv x - IZR n * Cs)) <= 24/10^9 /\ Rabs (bv (arg32 x fx)) <= 347/1000 /\ Rabs (bv x - IZR n * Cs) <= 347/1000.
Proof.
  intros Fx BX Hn Ff Ef HN. pose proof u32_val as U. pose proof eta32_tiny as T. pose proof eta32_pos as T0.
  assert (Bn : -127 <= IZR n <= 127) by (split; apply IZR_le; lia).
  apply Rabs_le_between in HN.
  destruct k_C1_R as (F1 & E1).
  assert (G1 : fmt (IZR n * (355/512))). { apply (fmt_dyadic (n * 355) 9); [lia|lia|]. rewrite mult_IZR. lra. }
  assert (P1 : fin (Bmult mode_NE fx k_C1) = true /\ bv (Bmult mode_NE fx k_C1) = IZR n * (355/512)).
  { pose proof (Bmult_correct 24 128 _ _ mode_NE fx k_C1) as C. rewrite Rlt_bool_true in C.
    - destruct C as (C1 & C2 & _). rewrite C1, C2, Ff, F1, Ef, E1. split; [reflexivity|]. apply rnd_id. exact G1.
    - apply rnd_range. apply big_ok. rewrite Ef, E1. apply Rabs_le; lra. }
  destruct P1 as (F1' & E1'). unfold arg32. set (t := Bmult mode_NE fx k_C1) in *. clearbody t.
  assert (N2 : near (Bmult mode_NE fx k_C2) (IZR n * (-212194440 / 1000000000000)) (19/10^10)).
  { eapply (near_mul _ _ _ _ 0 _ 127 (213/10^6)); [rewrite <- Ef; apply near_exact; exact Ff|apply k_C2_N|apply Rabs_le; lra|apply Rabs_le; lra|lra|lra|]. rewrite U. lra. }
  destruct N2 as (F2 & E2). set (z := Bmult mode_NE fx k_C2) in *. clearbody z. apply Rabs_le_between in E2.
  assert (D1 : Rabs (bv x - IZR n * (355/512)) < 2/5) by (apply Rabs_lt; lra).
  destruct (minus_R x t Fx F1') as (F3 & E3). { rewrite E1'. apply big_ok. lra. }
  rewrite E1', rnd_id in E3 by (apply red_exact; assumption). set (w := Bminus mode_NE x t) in *. clearbody w.
  assert (D2 : Rabs (bv w - bv z) <= 347/1000) by (rewrite E3; apply Rabs_le; lra).
  destruct (sub_err w z F3 F2) as (F4 & E4). { apply big_ok. lra. }
  set (v := Bminus mode_NE w z) in *. clearbody v. rewrite E3 in E4.
  assert (E5 : Rabs (bv v - (bv x - IZR n * (355/512) - bv z)) <= u32 * (347/1000)).
  { eapply Rle_trans; [exact E4|]. apply Rmult_le_compat_l; [pose proof u32_pos; lra|]. rewrite <- E3. exact D2. }
  apply Rabs_le_between in E5. rewrite U in E5. unfold Cs.
  split; [exact F4|]. repeat split; apply Rabs_le; lra.
Qed.

(** 2^n *)
Lemma cvttps_R (x : b32) n : fin x = true -> bv x = IZR n -> (-1000 <= n <= 1000)%Z -> cvttps x = n.
Proof.
  intros Fx E Hn. assert (H : Btrunc x = n).
  { apply eq_IZR. rewrite Btrunc_correct by exact prec_lt_emax_32. rewrite round_FIX_IZR, E, Ztrunc_IZR. reflexivity. }
  destruct x as [s|s| |s m e He]; try discriminate Fx.
  - cbn in E. apply eq_IZR. rewrite <- E. reflexivity.
  - unfold cvttps. rewrite H. rewrite (proj2 (Z.leb_le _ _)) by lia. rewrite (proj2 (Z.ltb_lt _ _)) by lia. reflexivity.
Qed.
Lemma pow2i_R (x : b32) n : fin x = true -> bv x = IZR n -> (-127 <= n <= 127)%Z ->
  (n = -127 /\ b32_pow2i x = b32_zero)%Z \/ (-126 <= n /\ fin (b32_pow2i x) = true /\ bv (b32_pow2i x) = powerRZ 2 n)%Z.
Proof.
  intros Fx E Hn. unfold b32_pow2i. rewrite (cvttps_R x n Fx E) by lia. cbv zeta.
  rewrite (Z.mod_small (n + 127) 512) by lia. rewrite (proj2 (Z.leb_gt 256 (n + 127))) by lia. rewrite (Z.mod_small (n + 127) 256) by lia.
  destruct (Z.eqb_spec (n + 127) 0) as [Q|Q]; [left; split; [lia|reflexivity]|]. right. split; [lia|].
  rewrite (proj2 (Z.eqb_neq (n + 127) 255)) by lia. replace (n + 127 - 127)%Z with n by lia.
  pose proof (binary_normalize_correct 24 128 prec_gt_0_32 prec_lt_emax_32 mode_NE 1 n false) as C. cbv zeta in C.
  assert (EF : F2R (Float radix2 1 n) = bpow radix2 n) by (unfold F2R; cbn [Fnum Fexp]; ring).
  rewrite EF, rnd_id in C by (apply fmt_bpow; lia). rewrite Rlt_bool_true in C.
  - destruct C as (C1 & C2 & _). split; [exact C2|]. etransitivity; [exact C1|]. apply bpow_powerRZ.
  - rewrite Rabs_pos_eq by apply bpow_ge_0. apply bpow_lt. lia.
Qed.

(** ** the result *)
Definition res32 (x : b32) : b32 :=
  Bmult mode_NE (Bplus mode_NE (poly32 (arg32 x (red32 x))) (b32_ofZ 1)) (b32_pow2i (red32 x)).

Lemma exp_near1 d : Rabs d <= 1/1000 -> Rabs (exp d - 1) <= 2 * Rabs d.
Proof.
  intros H. pose proof (exp_ineq1_le d) as L. pose proof (exp_ineq1_le (- d)) as M. rewrite exp_Ropp in M.
  pose proof (exp_pos d) as P. assert (U : exp d * (1 - d) <= 1).
  { apply Rmult_le_reg_r with (/ exp d); [apply Rinv_0_lt_compat; exact P|]. replace (exp d * (1 - d) * / exp d) with (1 - d) by (field; lra). lra. }
  pose proof (Rabs_pos d). apply Rabs_le_between in H. destruct (Rle_dec 0 d) as [D|D].
  - rewrite (Rabs_pos_eq d) by exact D. apply Rabs_le. nra.
  - rewrite (Rabs_left1 d) by lra. apply Rabs_le. nra.
Qed.
Lemma ratio3 p a b ep ea eb : Rabs (p - 1) <= ep -> Rabs (a - 1) <= ea -> Rabs (b - 1) <= eb -> ep <= 1/1000 -> ea <= 1/1000 -> eb <= 1/1000 ->
  Rabs (p * a * b - 1) <= ep + ea + eb + (ep * ea + ep * eb + ea * eb + ep * ea * eb).
Proof.
  intros Hp Ha Hb Bp Ba Bb.
  replace (p * a * b - 1) with ((p - 1) + (a - 1) + (b - 1) + ((p - 1) * (a - 1) + (p - 1) * (b - 1) + (a - 1) * (b - 1) + (p - 1) * (a - 1) * (b - 1))) by ring.
  pose proof (abs_mul_le _ _ _ _ Hp Ha) as H1. pose proof (abs_mul_le _ _ _ _ Hp Hb) as H2. pose proof (abs_mul_le _ _ _ _ Ha Hb) as H3.
  pose proof (abs_mul_le _ _ _ _ H1 Hb) as H4.
  apply Rabs_le_between in Hp, Ha, Hb, H1, H2, H3, H4. apply Rabs_le. lra.
Qed.

Lemma rnd_err2 x : Rabs (rnd x - x) <= u32 * Rabs x \/ Rabs (rnd x - x) <= eta32.
Proof.
  rewrite rnd_FLT. destruct (error_N_FLT radix2 (-149) 24 eq_refl (fun z => negb (Z.even z)) x) as (e & t & He & Ht & Het & E).
  change (Znearest (fun z => negb (Z.even z))) with ZnearestE in E. rewrite E.
  assert (U : / 2 * bpow radix2 (-24 + 1) = u32). { unfold u32. change (-24 + 1)%Z with (Z.opp (Z.of_nat 23)). rewrite bpow_opp, bpow_powerRZ. cbn [radix_val radix2]. rewrite <- pow_powerRZ. change 24%nat with (S 23). cbn [pow]. field; apply pow_nonzero; lra. }
  assert (T : / 2 * bpow radix2 (-149) = eta32). { unfold eta32. change (-149)%Z with (Z.opp (Z.of_nat 149)). rewrite bpow_opp, bpow_powerRZ. cbn [radix_val radix2]. rewrite <- pow_powerRZ. change 150%nat with (S 149). cbn [pow]. field; apply pow_nonzero; lra. }
  assert (He' : Rabs e <= u32) by (rewrite <- U; exact He). assert (Ht' : Rabs t <= eta32) by (rewrite <- T; exact Ht). apply Rmult_integral in Het. destruct Het as [-> | ->].
  - right. replace (x * (1 + 0) + t - x) with t by ring. exact Ht'.
  - left. replace (x * (1 + e) + 0 - x) with (e * x) by ring. rewrite Rabs_mult. apply Rmult_le_compat_r; [apply Rabs_pos|exact He'].
Qed.

Lemma mant_R (X w : b32) : Rabs (bv X) <= 347/1000 -> fin w = true -> Rabs (bv w - (poly (bv X) - 1)) <= 5/10^8 ->
  let y := Bplus mode_NE w (b32_ofZ 1) in
  fin y = true /\ 55/100 <= bv y <= 16/10 /\ Rabs (bv y * exp (- bv X) - 1) <= 2075/10^10.
Proof.
  intros AX FP EP. cbv zeta.
  pose proof u32_val as U. pose proof eta32_tiny as T. pose proof eta32_pos as T0. pose proof u32_pos as U0.
  assert (A35 : Rabs (bv X) <= 35/100) by lra.
  pose proof (poly_exp (bv X) A35) as PE. pose proof (exp_35 (bv X) A35) as XE. pose proof (exp_pos (- bv X)) as XP.
  assert (BP : 57/100 <= poly (bv X) <= 15/10).
  { pose proof (poly_T8 (bv X) A35) as PT. apply Rabs_le_between in PT.
    assert (QT : Rabs (T8 (bv X) - 1) <= 42/100).
    { pose proof (abs_pow_le (bv X) 2 _ AX) as P2. pose proof (abs_pow_le (bv X) 3 _ AX) as P3.
      pose proof (abs_pow_le (bv X) 4 _ AX) as P4. pose proof (abs_pow_le (bv X) 5 _ AX) as P5.
      pose proof (abs_pow_le (bv X) 6 _ AX) as P6. pose proof (abs_pow_le (bv X) 7 _ AX) as P7.
      pose proof (abs_pow_le (bv X) 8 _ AX) as P8. apply Rabs_le_between in P2, P3, P4, P5, P6, P7, P8. apply Rabs_le_between in AX.
      unfold T8. apply Rabs_le.
      set (a2 := (bv X)^2) in *; set (a3 := (bv X)^3) in *; set (a4 := (bv X)^4) in *; set (a5 := (bv X)^5) in *; set (a6 := (bv X)^6) in *;
      set (a7 := (bv X)^7) in *; set (a8 := (bv X)^8) in *. clearbody a2 a3 a4 a5 a6 a7 a8. lra. }
    apply Rabs_le_between in QT. lra. }
  set (P := poly (bv X)) in *. clearbody P.
  assert (Fone : fin (b32_ofZ 1) = true) by apply one_fin.
  assert (Eone : bv (b32_ofZ 1) = 1) by apply one_R.
  assert (S1 : Rabs (bv w + 1 - P) <= 5/10^8). { replace (bv w + 1 - P) with (bv w - (P - 1)) by ring. exact EP. }
  destruct (add_R w (b32_ofZ 1) FP Fone) as (F6 & E6). { apply big_ok. rewrite Eone. apply Rabs_le_between in S1. apply Rabs_le. lra. }
  rewrite Eone in E6. set (y := Bplus mode_NE w (b32_ofZ 1)) in *. clearbody y.
  assert (E6' : Rabs (bv y - P) <= 5/10^8 + u32 * (P + 5/10^8)).
  { replace (bv y - P) with ((bv y - (bv w + 1)) + (bv w + 1 - P)) by ring. eapply Rle_trans; [apply Rabs_triang|].
    assert (Rabs (bv w + 1) <= P + 5/10^8) by (apply Rabs_le_between in S1; apply Rabs_le; lra).
    assert (u32 * Rabs (bv w + 1) <= u32 * (P + 5/10^8)) by (apply Rmult_le_compat_l; lra). lra. }
  assert (R6 : Rabs (bv y * exp (- bv X) - 1) <= 2075/10^10).
  { replace (bv y * exp (- bv X) - 1) with ((bv y - P) * exp (- bv X) + (P * exp (- bv X) - 1)) by ring.
    eapply Rle_trans; [apply Rabs_triang|]. rewrite Rabs_mult, (Rabs_pos_eq (exp _)) by lra.
    assert (Q : Rabs (bv y - P) * exp (- bv X) <= (5/10^8 + u32 * (P + 5/10^8)) * exp (- bv X)) by (apply Rmult_le_compat_r; lra).
    apply Rabs_le_between in PE. rewrite U in *. set (e := exp (- bv X)) in *. clearbody e.
    assert (PE' : P * e <= 1 + 70 / 10 ^ 9) by lra.
    replace ((5 / 10 ^ 8 + 1 / 16777216 * (P + 5 / 10 ^ 8)) * e) with ((5/10^8 + 1/16777216 * (5/10^8)) * e + 1/16777216 * (P * e)) in Q by ring.
    assert (Rabs (P * e - 1) <= 70/10^9) by (apply Rabs_le; lra). lra. }
  assert (BY : 55/100 <= bv y <= 16/10). { apply Rabs_le_between in E6'. rewrite U in E6'. lra. }
  split; [exact F6|]. split; [exact BY|exact R6].
Qed.
Lemma scale_R (x X y q : b32) n : (-126 <= n <= 127)%Z -> fin y = true -> 55/100 <= bv y <= 16/10 -> Rabs (bv y * exp (- bv X) - 1) <= 2075/10^10 ->
  fin q = true -> bv q = powerRZ 2 n -> Rabs (bv X - (bv x - IZR n * Cs)) <= 24/10^9 -> Rabs (bv x - IZR n * Cs) <= 347/1000 ->
  fin (Bmult mode_NE y q) = true /\ Rabs (bv (Bmult mode_NE y q) * exp (- bv x) - 1) <= 4/10^7.
Proof.
  intros Hn F6 BY R6 F2 E2 DX AR. pose proof u32_val as U. pose proof eta32_tiny as T. pose proof eta32_pos as T0. pose proof u32_pos as U0.
    assert (PB : 0 < bv q <= 2 ^ 127).
    { rewrite E2. split; [apply powerRZ_lt; lra|]. change 127%nat with (Z.to_nat 127). rewrite pow_powerRZ. rewrite Z2Nat.id by lia.
      change 2 with (IZR (radix_val radix2)). rewrite <- !bpow_powerRZ. apply bpow_le. lia. }
    assert (MB : Rabs (rnd (bv y * bv q)) < bpow radix2 128).
    { rewrite <- top128. pose proof (rnd_err (bv y * bv q)) as R1. pose proof big127.
      assert (0 < bv y * bv q) by (apply Rmult_lt_0_compat; lra). rewrite (Rabs_pos_eq (bv y * bv q)) in R1 by lra.
      assert (bv y * bv q <= 16/10 * 2 ^ 127) by (apply Rmult_le_compat; lra).
      apply Rabs_le_between in R1. rewrite U in R1. apply Rabs_lt. lra. }
    pose proof (Bmult_correct 24 128 _ _ mode_NE y q) as C. rewrite Rlt_bool_true in C by exact MB.
    destruct C as (C1 & C2 & _). rewrite C1, C2, F6, F2. split; [reflexivity|].
    pose proof (rnd_err (bv y * bv q)) as R1. set (v := rnd (bv y * bv q)) in *.
    set (r := bv x - IZR n * Cs) in *.
    assert (EX : bv q * exp (- bv x) = exp (- r) * powerRZ (exp (- Cs) * 2) n).
    { rewrite E2, powerRZ_mult, exp_powerRZ. replace (- bv x) with (- r + IZR n * - Cs) by (unfold r; ring). rewrite exp_plus. ring. }
    assert (Hv : Rabs (powerRZ (exp (- Cs) * 2) n - 1) <= 11 / 10^9) by (apply powerRZ_near1; [apply exp_Cs|lia]).
    set (V := powerRZ (exp (- Cs) * 2) n) in *.
    assert (HD : Rabs (exp (bv X - r) - 1) <= 48/10^9).
    { eapply Rle_trans; [apply exp_near1; lra|]. lra. }
    assert (EA : bv y * bv q * exp (- bv x) = (bv y * exp (- bv X)) * exp (bv X - r) * V).
    { rewrite Rmult_assoc, EX. replace (- r) with (- bv X + (bv X - r)) by ring. rewrite exp_plus. ring. }
    assert (RA : Rabs (bv y * bv q * exp (- bv x) - 1) <= 2670/10^10).
    { rewrite EA. eapply Rle_trans; [apply (ratio3 _ _ _ _ _ _ R6 HD Hv); lra|]. lra. }
    assert (HE : eta32 * exp (- bv x) <= 93/10^9).
    { assert (QB : / 2 ^ 126 <= bv q).
      { rewrite E2. change 126%nat with (Z.to_nat 126). rewrite pow_powerRZ, Z2Nat.id by lia. change 2 with (IZR (radix_val radix2)).
        rewrite <- !bpow_powerRZ, <- bpow_opp. apply bpow_le. lia. }
      assert (XR : exp (- r) <= 20/13) by (apply exp_35; lra). pose proof (exp_pos (- r)) as XR0.
      assert (EV : bv q * exp (- bv x) <= 20/13 * (1 + 11/10^9)).
      { rewrite EX. apply Rabs_le_between in Hv. apply Rmult_le_compat; lra. }
      assert (E150 : eta32 = u32 * / 2 ^ 126). { unfold eta32, u32. rewrite <- Rinv_mult. f_equal. rewrite <- pow_add. reflexivity. }
      pose proof (exp_pos (- bv x)). rewrite E150, Rmult_assoc.
      assert (/ 2 ^ 126 * exp (- bv x) <= bv q * exp (- bv x)) by (apply Rmult_le_compat_r; lra). rewrite U. lra. }
    pose proof (exp_pos (- bv x)) as PX.
    replace (v * exp (- bv x) - 1) with ((v - bv y * bv q) * exp (- bv x) + (bv y * bv q * exp (- bv x) - 1)) by ring.
    eapply Rle_trans; [apply Rabs_triang|]. rewrite Rabs_mult, (Rabs_pos_eq (exp _)) by lra.
    assert (RB : Rabs (bv y * bv q) * exp (- bv x) <= 1 + 2670/10^10).
    { rewrite <- (Rabs_pos_eq (exp (- bv x))) by lra. rewrite <- Rabs_mult. apply Rabs_le_between in RA. apply Rabs_le. lra. }
    destruct (rnd_err2 (bv y * bv q)) as [R2|R2]; fold v in R2.
    + assert (Rabs (v - bv y * bv q) * exp (- bv x) <= u32 * Rabs (bv y * bv q) * exp (- bv x)) by (apply Rmult_le_compat_r; lra).
      rewrite Rmult_assoc in H. rewrite U in *. lra.
    + assert (Rabs (v - bv y * bv q) * exp (- bv x) <= eta32 * exp (- bv x)) by (apply Rmult_le_compat_r; lra). lra.
Qed.

Lemma zero_R (y : b32) : fin y = true -> 55/100 <= bv y -> Bmult mode_NE y b32_zero = b32_zero.
Proof.
  intros F6 BY. destruct y as [s|s| |s m e He]; try discriminate F6.
  - exfalso. cbn in BY. lra.
  - destruct s; [|reflexivity]. exfalso. cbn in BY. assert (F2R (Float radix2 (Z.neg m) e) <= 0) by (apply F2R_le_0; cbn; lia). cbn in H. lra.
Qed.

Lemma res32_R (x : b32) : fin x = true -> Rabs (bv x) <= H32 -> exists n : Z, (-127 <= n <= 127)%Z /\
  Rabs (bv x * (144269504088896341 / 100000000000000000) - IZR n) <= 1/2 + 18/10^6 /\ fin (res32 x) = true /\
  (n = (-127)%Z -> res32 x = b32_zero) /\
  ((-126 <= n)%Z -> Rabs (bv (res32 x) * exp (- bv x) - 1) <= 4/10^7).
Proof.
  intros Fx BX. destruct (red32_R x Fx BX) as (n & Hn & Ff & Ef & HN). exists n. split; [exact Hn|]. split; [exact HN|].
  destruct (arg32_R x (red32 x) n Fx BX Hn Ff Ef HN) as (FX & DX & AX & AR).
  destruct (poly32_near (arg32 x (red32 x)) FX AX) as (FP & EP).
  destruct (mant_R _ _ AX FP EP) as (F6 & BY & R6). unfold res32.
  destruct (pow2i_R (red32 x) n Ff Ef Hn) as [(N & Z)|(N & F2 & E2)].
  - rewrite Z, zero_R by (exact F6 || apply BY). split; [reflexivity|]. split; [auto|]. intros; lia.
  - destruct (scale_R x _ _ _ n (conj N (proj2 Hn)) F6 BY R6 F2 E2 DX AR) as (F & E). split; [exact F|]. split; [intros; lia|]. intros _. exact E.
Qed.
