(** ExpB32Proofs.v -- exp256_ps, sigmoid and tanh in binary32 *)
From Coquelicot Require Import Coquelicot.
From Flocq Require Import Core BinarySingleNaN Relative.
From Coq Require Import ZArith Bool List Arith Reals Lia Lra.
From Verif Require Import Base Ops OpsB32 B32Facts MetricB32 InitProofs Activation SpecRound RoundProofs Exp256 Exp256B32 Exp256Reduce.
Local Open Scope R_scope.

(** ** exp256_ps *)
Definition clamp32 (x : b32) : b32 :=
  let x1 := if Bltb x k_hi then x else k_hi in if Bltb k_lo x1 then x1 else k_lo.
Lemma lane32 (lm : libm) x : @exp256_lane (opsB32 lm) x = res32 (clamp32 x).
Proof.
  unfold exp256_lane, vmin, vmax, fgt, c_exp_hi, c_exp_lo, c_LOG2EF, c_half, c_C1, c_C2, c_p0, c_p1, c_p2, c_p3, c_p4, c_p5.
  cbn [flit flt fadd fsub fmul ffloor fpow2i f0 f1 opsB32]. 
  unfold res32, poly32, arg32, red32, clamp32. cbv zeta.
  change (@F (opsB32 lm)) with b32. unfold b32.
  reflexivity.
Qed.
Lemma clamp32_R x : fin (clamp32 x) = true /\ Rabs (bv (clamp32 x)) <= H32 /\
  (fin x = true -> bv (clamp32 x) = Rmax (- H32) (Rmin H32 (bv x))).
Proof.
  destruct k_hi_R as (FH & EH). destruct k_lo_R as (FL & EL). unfold clamp32. cbv zeta.
  destruct (Bltb x k_hi) eqn:B1.
  - destruct (Bltb k_lo x) eqn:B2.
    + assert (Fx : fin x = true). { destruct x as [s|[|]| |s m e He]; try reflexivity; vm_compute in B1, B2; discriminate. }
      rewrite Bltb_correct in B1, B2 by assumption. 
      destruct (Rlt_bool_spec (bv x) (bv k_hi)) as [L1|]; [|discriminate B1]. destruct (Rlt_bool_spec (bv k_lo) (bv x)) as [L2|]; [|discriminate B2].
      rewrite EH in L1. rewrite EL in L2. unfold H32. split; [exact Fx|]. split; [apply Rabs_le; lra|]. intros _. rewrite Rmin_right, Rmax_right by lra. reflexivity.
    + split; [exact FL|]. rewrite EL. unfold H32. split; [apply Rabs_le; lra|]. intros Fx. rewrite Bltb_correct in B2 by assumption.
      destruct (Rlt_bool_spec (bv k_lo) (bv x)) as [|L]; [discriminate B2|]. rewrite EL in L. rewrite Rmin_right, Rmax_left by lra. reflexivity.
  - assert (B2 : Bltb k_lo k_hi = true) by (vm_compute; reflexivity). rewrite B2. split; [exact FH|]. rewrite EH. unfold H32. split; [apply Rabs_le; lra|].
    intros Fx. rewrite Bltb_correct in B1 by assumption. destruct (Rlt_bool_spec (bv x) (bv k_hi)) as [|L]; [discriminate B1|]. rewrite EH in L.
    rewrite Rmin_left, Rmax_right by lra. reflexivity.
Qed.

Lemma exp_mono a b : a <= b -> exp a <= exp b.
Proof. intros [H|H]; [left; apply exp_increasing; exact H|rewrite H; lra]. Qed.
Lemma exp_1_low : 27/10 <= exp 1.
Proof.
  replace 1 with (INR 128 * (1/128)) by (rewrite INR_IZR_INZ; simpl; field). rewrite <- exp_pow.
  apply Rle_trans with ((1 + 1/128)^128); [lra|]. apply pow_incr. pose proof (exp_ineq1_le (1/128)). lra.
Qed.
Lemma exp_88 : 9 * 10 ^ 37 <= exp 88.
Proof.
  replace 88 with (INR 88 * 1) by (rewrite INR_IZR_INZ; simpl; ring). rewrite <- exp_pow.
  apply Rle_trans with ((27/10) ^ 88); [lra|]. apply pow_incr. pose proof exp_1_low. lra.
Qed.
Lemma exp_m87 : exp (-87) <= 1 / 10 ^ 37.
Proof.
  replace (-87) with (- (87)) by ring. rewrite exp_Ropp. replace (1 / 10 ^ 37) with (/ 10 ^ 37) by (unfold Rdiv; ring). apply Rinv_le_contravar; [lra|].
  replace 87 with (INR 87 * 1) by (rewrite INR_IZR_INZ; simpl; ring). rewrite <- exp_pow.
  apply Rle_trans with ((27/10) ^ 87); [lra|]. apply pow_incr. pose proof exp_1_low. lra.
Qed.

(** inside the range *)
Lemma res32_low x : fin x = true -> Rabs (bv x) <= H32 -> fin (res32 x) = true /\
  (- (8768/100) <= bv x -> Rabs (bv (res32 x) - exp (bv x)) <= 4/10^7 * exp (bv x)) /\
  (bv x < - (8769/100) -> res32 x = b32_zero) /\ 0 <= bv (res32 x) /\ (bv x <= -87 -> bv (res32 x) <= 2 / 10 ^ 37).
Proof.
  intros Fx BX. destruct (res32_R x Fx BX) as (n & Hn & HN & F & Z & A). split; [exact F|]. apply Rabs_le_between in HN.
  assert (A' : (-126 <= n)%Z -> Rabs (bv (res32 x) - exp (bv x)) <= 4/10^7 * exp (bv x)) by (intros Q; apply rel_of_ratio, A, Q).
  assert (C : (n = -127 \/ -126 <= n)%Z) by lia. pose proof (exp_pos (bv x)) as PX.
  split; [|split; [|split]].
  - intros L. apply A'. destruct C as [->|C]; [exfalso; lra|exact C].
  - intros L. apply Z. destruct C as [->|C]; [reflexivity|exfalso]. apply IZR_le in C. lra.
  - destruct C as [C|C]; [rewrite (Z C); cbn; lra|]. specialize (A' C). apply Rabs_le_between in A'. lra.
  - intros L. destruct C as [C|C]; [rewrite (Z C); cbn; lra|]. specialize (A' C). apply Rabs_le_between in A'. pose proof (exp_mono _ _ L). pose proof exp_m87. lra.
Qed.

Lemma clamp_hi x : Bltb x k_hi = false -> clamp32 x = k_hi.
Proof. intros H. unfold clamp32. cbv zeta. rewrite H. assert (B2 : Bltb k_lo k_hi = true) by (vm_compute; reflexivity). rewrite B2. reflexivity. Qed.
Lemma clamp_ninf : clamp32 (B754_infinity true) = k_lo.
Proof.
  unfold clamp32. cbv zeta. assert (B1 : Bltb (B754_infinity true) k_hi = true) by (vm_compute; reflexivity). rewrite B1.
  assert (B2 : Bltb k_lo (B754_infinity true) = false) by (vm_compute; reflexivity). rewrite B2. reflexivity.
Qed.
Lemma exp256_b32 (lm : libm) (x : b32) : let v := @exp256_lane (opsB32 lm) x in
  fin v = true /\ 0 <= bv v /\
  (fin x = true -> - (8768/100) <= bv x <= 11583653/131072 -> Rabs (bv v - exp (bv x)) <= 4/10^7 * exp (bv x)) /\
  (fin x = true -> bv x < - (8769/100) -> v = b32_zero) /\
  (fin x = true -> bv x <= -87 -> bv v <= 2/10^37) /\
  (fin x = true -> 11583653/131072 <= bv x -> v = res32 k_hi) /\
  (fin x = false -> v = res32 k_hi \/ v = b32_zero /\ x = B754_infinity true).
Proof.
  cbv zeta. rewrite lane32. destruct (clamp32_R x) as (FC & BC & EC). destruct (res32_low _ FC BC) as (F & A & Z & P & S).
  split; [exact F|]. split; [exact P|]. unfold H32 in *. split; [|split; [|split; [|split]]].
  - intros Fx Hx. assert (E : bv (clamp32 x) = bv x) by (rewrite (EC Fx), Rmin_right, Rmax_right by lra; reflexivity). rewrite E in A. apply A. lra.
  - intros Fx Hx. destruct (Rle_dec (- (11583653/131072)) (bv x)) as [L|L].
    + apply Z. rewrite (EC Fx), Rmin_right, Rmax_right by lra. exact Hx.
    + apply Z. rewrite (EC Fx), Rmin_right, Rmax_left by lra. lra.
  - intros Fx Hx. apply S. rewrite (EC Fx). rewrite Rmin_right by lra. apply Rmax_lub; lra.
  - intros Fx Hx. rewrite clamp_hi; [reflexivity|]. destruct k_hi_R as (FH & EH). rewrite (Bltb_correct 24 128 x k_hi) by assumption. apply Rlt_bool_false. rewrite EH. exact Hx.
  - intros Fx. destruct x as [s|[|]| |s m e He]; try discriminate Fx.
    + right. split; [|reflexivity]. apply Z. rewrite clamp_ninf. destruct k_lo_R as (_ & EL). rewrite EL. lra.
    + left. rewrite clamp_hi by (vm_compute; reflexivity). reflexivity.
    + left. rewrite clamp_hi by (vm_compute; reflexivity). reflexivity.
Qed.
Lemma top_val : fin (res32 k_hi) = true /\ 23 * 10^37 <= bv (res32 k_hi) <= 25 * 10^37.
Proof.
  let v := eval vm_compute in (B2SF (res32 k_hi)) in
  match v with SpecFloat.S754_finite ?s ?m ?e => destruct (sf_R (res32 k_hi) s m e) as [Q F]; [vm_compute; reflexivity|] end.
  split; [exact F|]. rewrite Q. unfold F2R. simpl. lra.
Qed.
