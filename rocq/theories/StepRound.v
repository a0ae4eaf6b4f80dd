(** StepRound.v -- rounding errors of a step of gradient descent in binary32 *)
From Coquelicot Require Import Coquelicot.
From Flocq Require Import Core BinarySingleNaN.
From Coq Require Import ZArith Bool List Arith Reals Lia Lra Permutation.
From Verif Require Import Base BaseProofs Ops OpsR Mem MemProofs Kernels KernelProofs Activation ActivationProofs Loss Neuralnet
  ForwardProofs BackpropProofs OpsB32 B32Facts MetricB32 SpecReal RealForward RealGrad LossGrad GradProofs SpecBits BitsProofs SpecMem PredictProofs GradPropProofs
  ParamProofs Batch BatchProofs BlasProofs Optimizer OptKernels OptProofs OptEpochs SpecOpt OptReal OptTrain SpecDescent DescentProofs
  Exp256B32 SpecLibm SpecRound RoundProofs RoundNet SpecGradRound SlopeRound LossRound GradRound GradSample SpecStepRound SumRound BatchRound InitProofs.
Import ListNotations.
Local Open Scope R_scope.
Local Notation NZ := b32_zero.

(** ** sums and opposite *)
Lemma near_exact (x : b32) : is_near (exact (bv x)) (bv x) (bv x).
Proof. split; cbn [exact mag err]; [lra|]. unfold Rminus. rewrite Rplus_opp_r, Rabs_R0. lra. Qed.
Lemma near_plus b c v s w t : is_near b v s -> is_near c w t -> is_near (plus b c) (v + w) (s + t).
Proof.
  intros (A & B) (C & D). split; cbn [plus mag err].
  - eapply Rle_trans; [apply Rabs_triang|]. lra.
  - replace (v + w - (s + t)) with ((v - s) + (w - t)) by ring. eapply Rle_trans; [apply Rabs_triang|]. lra.
Qed.
Lemma near_opp b v s : is_near b v s -> is_near b (- v) (- s).
Proof. intros (A & B). split; [rewrite Rabs_Ropp; exact A|]. replace (- v - - s) with (- (v - s)) by ring. rewrite Rabs_Ropp. exact B. Qed.
Lemma near_fadd b c (x y : b32) s t : fin x = true -> fin y = true -> is_near b (bv x) s -> is_near c (bv y) t ->
  cap (rounded 1 (plus b c)) <= 2 ^ 127 ->
  fin (Bplus mode_NE x y) = true /\ is_near (rounded 1 (plus b c)) (bv (Bplus mode_NE x y)) (s + t).
Proof.
  intros Fx Fy Hx Hy HC. pose proof (near_plus _ _ _ _ _ _ Hx Hy) as HM. pose proof (near_abs _ _ _ HM) as HA.
  pose proof (cap_rounded_ge 1 (plus b c)) as HG. pose proof (Rabs_pos (bv x + bv y)).
  destruct (add_R x y Fx Fy ltac:(lra)) as (FM & EM). split; [exact FM|].
  apply near_rnd with (v := bv x + bv y); [exact HM|]. rewrite pow_1. cbn [INR]. pose proof eta32_pos. lra.
Qed.
Lemma cap_plus b c : cap (plus b c) = cap b + cap c.
Proof. unfold cap, plus. cbn [mag err]. ring. Qed.
Lemma cap_pos b v s : is_near b v s -> 0 <= cap b.
Proof. intros H. pose proof (near_pos _ _ _ H). unfold cap. lra. Qed.

(** ** the learning rate *)
Lemma ofZ_round z : (0 <= z < 4294967296)%Z -> fin (b32_ofZ z) = true /\ Rabs (bv (b32_ofZ z) - IZR z) <= u32 * IZR z + eta32.
Proof.
  intros Hz. pose proof (binary_normalize_correct 24 128 prec_gt_0_32 prec_lt_emax_32 mode_NE z 0 false) as C. cbv zeta in C.
  change (binary_normalize 24 128 prec_gt_0_32 prec_lt_emax_32 mode_NE z 0 false) with (b32_ofZ z) in C.
  assert (E : F2R (Float radix2 z 0) = IZR z) by (unfold F2R; cbn [Fnum Fexp bpow]; apply Rmult_1_r).
  assert (P : 0 <= IZR z) by (apply IZR_le; lia).
  rewrite E in C. change (round radix2 (SpecFloat.fexp 24 128) (round_mode mode_NE) (IZR z)) with (rnd (IZR z)) in C.
  rewrite Rlt_bool_true in C.
  - destruct C as (C1 & C2 & _). split; [exact C2|]. fold (bv (b32_ofZ z)) in C1. rewrite C1. pose proof (rnd_err (IZR z)) as H. rewrite (Rabs_pos_eq (IZR z)) in H by exact P. exact H.
  - apply rnd_range. rewrite Rabs_pos_eq by exact P. assert (IZR z <= 4294967296) by (apply IZR_le; lia).
    assert (2 ^ 33 <= 2 ^ 127) by (apply Rle_pow; [lra|lia]). lra.
Qed.
Lemma one_b32 : fin (b32_ofZ 1) = true /\ bv (b32_ofZ 1) = 1.
Proof. split; [reflexivity|]. apply (ofZ_small 1). cbn. lra. Qed.
Lemma count32_range t : 0 <= count32 t <= 4294967295.
Proof.
  unfold count32. pose proof (Z.mod_pos_bound (Z.of_nat t) (2 ^ 32) eq_refl) as H. change (2 ^ 32)%Z with 4294967296%Z in *.
  split; [apply (IZR_le 0); lia|]. apply (IZR_le _ 4294967295). lia.
Qed.

(** x >= 1 exactly; the quotient lr / x with every operation rounded *)
Lemma rate_core lr x P X W L : 1 <= x ->
  Rabs (1 + P - x) <= 21 / 10 * u32 * x -> Rabs (X - (1 + P)) <= u32 * Rabs (1 + P) ->
  0 < X /\ Rabs (1 / X) <= 2 /\
  (Rabs (W - 1 / X) <= u32 * Rabs (1 / X) + eta32 -> Rabs (lr * W) <= 2 * Rabs lr /\
  (Rabs (L - lr * W) <= u32 * Rabs (lr * W) + eta32 -> Rabs (L - lr / x) <= 10 * u32 * Rabs (lr / x) + (2 * Rabs lr + 1) * eta32)).
Proof.
  intros Hx HP HX. pose proof u32_pos as U0. pose proof u32_small as US. pose proof eta32_pos as H0. pose proof eta32_small as HS.
  set (a := u32 * x). assert (A0 : 0 < a) by (apply Rmult_lt_0_compat; lra). assert (A1 : a <= x / 1000000) by (unfold a, Rdiv; rewrite Rmult_comm; apply Rmult_le_compat_l; lra).
  replace (21 / 10 * u32 * x) with (21 / 10 * a) in HP by (unfold a; ring).
  assert (HP' : Rabs (1 + P) <= 11 / 10 * x). { replace (1 + P) with ((1 + P - x) + x) by ring. eapply Rle_trans; [apply Rabs_triang|]. rewrite (Rabs_pos_eq x) by lra. lra. }
  assert (HXx : Rabs (X - x) <= 32 / 10 * a).
  { replace (X - x) with ((X - (1 + P)) + (1 + P - x)) by ring. eapply Rle_trans; [apply Rabs_triang|].
    assert (u32 * Rabs (1 + P) <= u32 * (11 / 10 * x)) by (apply Rmult_le_compat_l; lra). replace (u32 * (11 / 10 * x)) with (11 / 10 * a) in H by (unfold a; ring). lra. }
  pose proof (Rabs_le_between' X x (32 / 10 * a)) as (HB & _). specialize (HB HXx).
  assert (XP : 99 / 100 * x <= X) by lra. split; [lra|].
  set (y := / x). assert (Y0 : 0 < y) by (apply Rinv_0_lt_compat; lra). assert (Y1 : y <= 1) by (unfold y; rewrite <- Rinv_1; apply Rinv_le; lra).
  assert (IX : / X <= 101 / 99 * y). { apply Rle_trans with (/ (99 / 100 * x)); [apply Rinv_le; lra|]. rewrite Rinv_mult. fold y. lra. }
  assert (IX0 : 0 < / X) by (apply Rinv_0_lt_compat; lra).
  assert (EX : Rabs (1 / X) = / X) by (rewrite Rabs_pos_eq; unfold Rdiv; lra). rewrite EX. split; [lra|]. intros HW.
  assert (DX : Rabs (/ X - y) <= 33 / 10 * u32 * y).
  { replace (/ X - y) with (- (X - x) * (/ X * y)) by (unfold y; field; lra). rewrite Rabs_mult, Rabs_Ropp.
    rewrite (Rabs_pos_eq (/ X * y)) by (apply Rmult_le_pos; lra).
    apply Rle_trans with (32 / 10 * a * (101 / 99 * y * y)).
    - apply Rmult_le_compat; [apply Rabs_pos|apply Rmult_le_pos; lra|exact HXx|apply Rmult_le_compat_r; lra].
    - replace (32 / 10 * a * (101 / 99 * y * y)) with (32 / 10 * (101 / 99) * u32 * y) by (unfold a, y; field; lra).
      apply Rmult_le_compat_r; [lra|]. lra. }
  assert (UY : 0 <= u32 * y <= / 1000000 * y). { split; [apply Rmult_le_pos; lra|apply Rmult_le_compat_r; lra]. }
  assert (HWy : Rabs (W - y) <= 44 / 10 * u32 * y + eta32).
  { replace (W - y) with ((W - 1 / X) + (/ X - y)) by (unfold Rdiv; ring). eapply Rle_trans; [apply Rabs_triang|].
    assert (u32 * / X <= u32 * (101 / 99 * y)) by (apply Rmult_le_compat_l; lra). lra. }
  set (q := Rabs lr * y). assert (Q0 : 0 <= q) by (apply Rmult_le_pos; [apply Rabs_pos|lra]). pose proof (Rabs_pos lr) as L0.
  assert (Q1 : q <= Rabs lr). { unfold q. rewrite <- (Rmult_1_r (Rabs lr)) at 2. apply Rmult_le_compat_l; lra. }
  assert (HQ : Rabs (lr / x) = q) by (unfold Rdiv; rewrite Rabs_mult, (Rabs_pos_eq (/ x)) by (fold y; lra); reflexivity). rewrite HQ.
  assert (HD : Rabs (lr * W - lr / x) <= 44 / 10 * (u32 * q) + Rabs lr * eta32).
  { replace (lr * W - lr / x) with (lr * (W - y)) by (unfold y; field; lra). rewrite Rabs_mult.
    replace (44 / 10 * (u32 * q) + Rabs lr * eta32) with (Rabs lr * (44 / 10 * u32 * y + eta32)) by (unfold q; ring). apply Rmult_le_compat_l; lra. }
  assert (UQ : 0 <= u32 * q <= / 1000000 * q). { split; [apply Rmult_le_pos; lra|apply Rmult_le_compat_r; lra]. }
  assert (LE : 0 <= Rabs lr * eta32 <= Rabs lr * / 1000000). { split; [apply Rmult_le_pos; lra|apply Rmult_le_compat_l; lra]. }
  assert (HA : Rabs (lr * W) <= q + 44 / 10 * (u32 * q) + Rabs lr * eta32).
  { replace (lr * W) with ((lr * W - lr / x) + lr / x) by ring. eapply Rle_trans; [apply Rabs_triang|]. rewrite HQ. lra. }
  split; [lra|]. intros HL.
  replace (L - lr / x) with ((L - lr * W) + (lr * W - lr / x)) by ring. eapply Rle_trans; [apply Rabs_triang|].
  assert (u32 * Rabs (lr * W) <= u32 * (11 / 10 * q + Rabs lr * eta32)) by (apply Rmult_le_compat_l; lra).
  assert (u32 * (Rabs lr * eta32) <= / 1000000 * (Rabs lr * eta32)) by (apply Rmult_le_compat_r; lra).
  lra.
Qed.

Lemma eta90 : 2 ^ 90 * eta32 <= u32.
Proof.
  assert (E1 : 2 ^ 90 * eta32 = / 2 ^ 60).
  { unfold eta32. replace 150%nat with (90 + 60)%nat by reflexivity. rewrite pow_add. field. }
  rewrite E1. unfold u32. apply Rinv_le; [apply pow_lt; lra|]. apply Rle_pow; [lra|lia].
Qed.

Lemma rate_is_near (lm : libm) (lr d : b32) t : fin lr = true -> fin d = true -> rate_fits (bv lr) (bv d) ->
  fin (@decayed (opsB32 lm) lr d t) = true /\ is_near (rate_near (bv lr) (bv d) t) (bv (@decayed (opsB32 lm) lr d t)) (rate (bv lr) (bv d) t).
Proof.
  intros Fl Fd (RL & RD). unfold decayed, fgt, rate_near, rate.
  change (@flt (opsB32 lm) (@f0 (opsB32 lm)) d) with (Bltb NZ d). rewrite ltb_R by (auto; reflexivity). change (bv NZ) with 0.
  destruct (Rlt_dec 0 (bv d)) as [Hd|Hd].
  2:{ rewrite Rlt_bool_false by lra. split; [exact Fl|]. split; cbn [mag err]; [lra|]. unfold Rminus. rewrite Rplus_opp_r, Rabs_R0. lra. }
  rewrite Rlt_bool_true by exact Hd. cbn [fmul fdiv fadd fofZ f1 opsB32].
  pose proof u32_pos as U0. pose proof u32_small as US. pose proof eta32_pos as H0. pose proof eta90 as H90.
  pose proof (count32_range t) as CR. destruct (ofZ_round (Z.of_nat t mod 4294967296)) as (FZ & EZ). { pose proof (Z.mod_pos_bound (Z.of_nat t) 4294967296 eq_refl). lia. }
  change (IZR (Z.of_nat t mod 4294967296)) with (count32 t) in EZ. set (z := count32 t) in *. set (Z := b32_ofZ (Z.of_nat t mod 4294967296)) in *.
  destruct one_b32 as (F1 & E1). set (D := bv d) in *. set (x := 1 + D * z).
  assert (E90 : eta32 <= / 100 * u32).
  { unfold eta32, u32. change 150%nat with (126 + 24)%nat. rewrite pow_add, Rinv_mult. apply Rmult_le_compat_r; [left; apply Rinv_0_lt_compat, pow_lt; lra|].
    apply Rinv_le; [lra|]. apply Rle_trans with (2 ^ 7); [lra|apply Rle_pow; [lra|lia]]. }
  assert (De : D * eta32 <= 2 ^ 90 * eta32) by (apply Rmult_le_compat_r; lra).
  assert (De0 : 0 < D * eta32) by (apply Rmult_lt_0_compat; lra).
  assert (Dz0 : 0 <= D * z) by (apply Rmult_le_pos; lra). assert (x1 : 1 <= x) by (unfold x; lra).
  assert (Dz1 : D * z <= 2 ^ 90 * 2 ^ 32) by (apply Rmult_le_compat; lra).
  rewrite <- pow_add in Dz1. change (90 + 32)%nat with 122%nat in Dz1.
  assert (B126 : 2 ^ 127 = 32 * 2 ^ 122) by (change 127%nat with (5 + 122)%nat; rewrite pow_add; lra). assert (B1 : 1000 <= 2 ^ 122) by (apply Rle_trans with (2 ^ 10); [lra|apply Rle_pow; [lra|lia]]).
  assert (ux : u32 <= u32 * x). { rewrite <- (Rmult_1_r u32) at 1. apply Rmult_le_compat_l; lra. }
  assert (ux2 : u32 * x <= / 1000000 * x) by (apply Rmult_le_compat_r; lra).
  assert (uxx : u32 * (u32 * x) <= / 1000000 * (u32 * x)) by (apply Rmult_le_compat_r; lra).
  assert (xb : x <= 1 + 2 ^ 122) by (unfold x; lra).
  assert (DZ : Rabs (D * bv Z - D * z) <= u32 * x).
  { rewrite <- Rmult_minus_distr_l, Rabs_mult, (Rabs_pos_eq D) by lra. apply Rle_trans with (D * (u32 * z + eta32)); [apply Rmult_le_compat_l; lra|]. unfold x. lra. }
  assert (AZ : Rabs (D * bv Z) <= x + u32 * x - 1). { replace (D * bv Z) with ((D * bv Z - D * z) + D * z) by ring. eapply Rle_trans; [apply Rabs_triang|]. rewrite (Rabs_pos_eq (D * z)) by lra. unfold x in *. lra. }
  destruct (mul_R d Z Fd FZ) as (FP & EP). { fold D. lra. } fold D in EP. set (P := Bmult mode_NE d Z) in *.
  assert (uA : u32 * Rabs (D * bv Z) <= u32 * (x + u32 * x - 1)) by (apply Rmult_le_compat_l; lra).
  assert (HP : Rabs (1 + bv P - x) <= 21 / 10 * u32 * x).
  { replace (1 + bv P - x) with ((bv P - D * bv Z) + (D * bv Z - D * z)) by (unfold x; ring). eapply Rle_trans; [apply Rabs_triang|]. lra. }
  assert (PA : Rabs (1 + bv P) <= 11 / 10 * x). { replace (1 + bv P) with ((1 + bv P - x) + x) by ring. eapply Rle_trans; [apply Rabs_triang|]. rewrite (Rabs_pos_eq x) by lra. lra. }
  destruct (add_R (b32_ofZ 1) P F1 FP) as (FX & EX). { rewrite E1. lra. } rewrite E1 in EX.
  set (X := Bplus mode_NE (b32_ofZ 1) P) in *.
  pose proof (fun W L => rate_core (bv lr) x (bv P) (bv X) W L x1 HP EX) as HC.
  destruct (HC 0 0) as (X0 & X2 & _). 
  destruct (divide_R (b32_ofZ 1) X F1) as (FW & EW); [lra|rewrite E1; lra|]. rewrite E1 in EW. set (W := Bdiv mode_NE (b32_ofZ 1) X) in *.
  destruct (HC (bv W) 0) as (_ & _ & HW). destruct HW as (HW & _). { exact EW. }
  assert (B3 : 2 ^ 127 = 2 * 2 ^ 126) by (change 127%nat with (S 126); cbn [pow]; ring).
  destruct (mul_R lr W Fl FW) as (FL & EL). { lra. }
  split; [exact FL|]. destruct (HC (bv W) (bv (Bmult mode_NE lr W))) as (_ & _ & HW'). destruct HW' as (_ & HL). { exact EW. }
  specialize (HL EL). split; cbn [mag err].
  - unfold x. lra.
  - exact HL.
Qed.

(** ** one component of a step of gradient descent *)
Lemma cap_le_l b c K : 0 <= cap b -> 0 <= cap c -> cap (rounded 1 (plus b c)) <= K -> cap b <= K.
Proof. intros HB HC H. assert (HG : cap (plus b c) <= cap (rounded 1 (plus b c))) by (apply cap_rounded_ge; rewrite cap_plus; lra). rewrite cap_plus in HG. lra. Qed.
Lemma cap_le_r b c K : 0 <= cap b -> 0 <= cap c -> cap (rounded 1 (plus b c)) <= K -> cap c <= K.
Proof. intros HB HC H. assert (HG : cap (plus b c) <= cap (rounded 1 (plus b c))) by (apply cap_rounded_ge; rewrite cap_plus; lra). rewrite cap_plus in HG. lra. Qed.
Lemma exact_cap x : 0 <= cap (exact x).
Proof. unfold cap. cbn [exact mag err]. pose proof (Rabs_pos x). lra. Qed.
Lemma near_prod (x y : b32) : fin x = true -> fin y = true -> cap (rounded 1 (exact (bv y * bv x))) <= 2 ^ 127 ->
  fin (Bmult mode_NE x y) = true /\ is_near (rounded 1 (exact (bv y * bv x))) (bv (Bmult mode_NE x y)) (bv y * bv x).
Proof.
  intros Fx Fy HC. pose proof (cap_rounded_ge 1 _ (exact_cap (bv y * bv x))) as HG. unfold cap at 1 in HG. cbn [exact mag err] in HG.
  destruct (mul_R x y Fx Fy) as (FM & EM). { rewrite Rmult_comm. pose proof (Rabs_pos (bv y * bv x)). lra. }
  split; [exact FM|]. apply near_rnd with (v := bv y * bv x).
  - split; cbn [exact mag err]; [lra|]. unfold Rminus. rewrite Rplus_opp_r, Rabs_R0. lra.
  - rewrite (Rmult_comm (bv y)), pow_1. cbn [INR]. lra.
Qed.
Lemma rounded_cap_pos b : 0 <= cap b -> 0 <= cap (rounded 1 b).
Proof. intros H. pose proof (cap_rounded_ge 1 b H). lra. Qed.

Lemma sgd_push (g l : b32) gn rn D r : fin g = true -> fin l = true -> is_near gn (bv g) D -> is_near rn (bv l) r ->
  cap (rounded 1 (times gn rn)) <= 2 ^ 127 ->
  fin (Bmult mode_NE g (Bopp l)) = true /\ is_near (rounded 1 (times gn rn)) (bv (Bmult mode_NE g (Bopp l))) (- (r * D)).
Proof.
  intros Fg Fl Hg Hl HC. pose proof (near_opp _ _ _ Hl) as HO.
  assert (FO : fin (Bopp l) = true) by (destruct l; try discriminate; reflexivity).
  assert (EO : bv (Bopp l) = - bv l) by apply B2R_Bopp. rewrite <- EO in HO.
  destruct (near_fmul _ _ _ _ _ _ Fg FO Hg HO HC) as (A & B). split; [exact A|]. replace (- (r * D)) with (D * - r) by ring. exact B.
Qed.
Lemma times_cap b c v s w t : is_near b v s -> is_near c w t -> 0 <= cap (times b c).
Proof. intros A B. apply cap_pos with (v := v * w) (s := s * t). apply near_mul; assumption. Qed.

Lemma sgd_comp (th v g l mu : b32) nest gn rn D r :
  fin th = true -> fin v = true -> fin g = true -> fin l = true -> fin mu = true ->
  is_near gn (bv g) D -> is_near rn (bv l) r ->
  (0 < bv mu -> cap (sgd_velocity (bv mu) (bv v) gn rn) <= 2 ^ 127) -> cap (sgd_param (bv mu) nest (bv th) (bv v) gn rn) <= 2 ^ 127 ->
  let d := Bmult mode_NE g (Bopp l) in
  let v1 := Bmult mode_NE v mu in
  if Rlt_dec 0 (bv mu) then
    let v2 := Bplus mode_NE v1 d in
    let th2 := Bplus mode_NE (if nest then Bplus mode_NE th v1 else th) (if nest then d else v2) in
    fin v2 = true /\ is_near (sgd_velocity (bv mu) (bv v) gn rn) (bv v2) (bv mu * bv v - r * D) /\
    fin th2 = true /\ is_near (sgd_param (bv mu) nest (bv th) (bv v) gn rn) (bv th2) (bv th + (bv mu * bv v - r * D))
  else
    let th2 := Bplus mode_NE th d in
    fin th2 = true /\ is_near (sgd_param (bv mu) nest (bv th) (bv v) gn rn) (bv th2) (bv th - r * D).
Proof.
  intros Ft Fv Fg Fl Fm Hg Hl CV CP d v1. unfold sgd_param in *. unfold sgd_velocity in *.
  pose proof (times_cap _ _ _ _ _ _ Hg Hl) as TC. pose proof (rounded_cap_pos _ TC) as TR.
  pose proof (exact_cap (bv th)) as XT. pose proof (rounded_cap_pos _ (exact_cap (bv mu * bv v))) as XV.
  assert (XTV : 0 <= cap (rounded 1 (plus (exact (bv th)) (rounded 1 (exact (bv mu * bv v)))))) by (apply rounded_cap_pos; rewrite cap_plus; lra).
  destruct (Rlt_dec 0 (bv mu)) as [Hm|Hm]; cbv zeta.
  - specialize (CV Hm). pose proof (cap_le_l _ _ _ XV TR CV) as C1. pose proof (cap_le_r _ _ _ XV TR CV) as C2.
    destruct (near_prod v mu Fv Fm C1) as (F1 & N1). destruct (sgd_push g l gn rn D r Fg Fl Hg Hl C2) as (Fd & Nd). fold v1 in F1, N1. fold d in Fd, Nd.
    destruct (near_fadd _ _ _ _ _ _ F1 Fd N1 Nd CV) as (F2 & N2).
    split; [exact F2|]. split; [exact N2|]. destruct nest.
    + assert (C3 := cap_le_l _ _ _ XTV TR CP). destruct (near_fadd _ _ _ _ _ _ Ft F1 (near_exact th) N1 C3) as (F3 & N3).
      destruct (near_fadd _ _ _ _ _ _ F3 Fd N3 Nd CP) as (F4 & N4). split; [exact F4|].
      replace (bv th + (bv mu * bv v - r * D)) with (bv th + bv mu * bv v + - (r * D)) by ring. exact N4.
    + destruct (near_fadd _ _ _ _ _ _ Ft F2 (near_exact th) N2 CP) as (F4 & N4). split; [exact F4|exact N4].
  - pose proof (cap_le_r _ _ _ XT TR CP) as C2. destruct (sgd_push g l gn rn D r Fg Fl Hg Hl C2) as (Fd & Nd). fold d in Fd, Nd.
    destruct (near_fadd _ _ _ _ _ _ Ft Fd (near_exact th) Nd CP) as (F4 & N4). split; [exact F4|exact N4].
Qed.

(** the components of the parameters and of the velocity after a step *)
Lemma nth_map_b (f : b32 -> b32) (l : list b32) q : (q < length l)%nat -> nth q (map f l) NZ = f (nth q l NZ).
Proof. intros H. rewrite (nth_indep _ NZ (f NZ)) by (rewrite map_length; exact H). apply map_nth. Qed.
Lemma interim_length mu nest (th v : list b32) : length th = length v -> length (interim mu nest th v) = length th.
Proof. intros L. unfold interim. destruct (Rlt_dec 0 (B2R mu)); [|reflexivity]. destruct nest; [|reflexivity]. apply (len_map2_b (Bplus mode_NE)); [reflexivity|]. rewrite map_length. symmetry. exact L. Qed.
Lemma sgd_step_nth (lm : libm) (decay mu : b32) nest (G : list b32 -> list b32) (th v : list b32) (lr : b32) t (th' v' : list b32) (lr' : b32) t' :
  fin mu = true -> length th = length v ->
  @sgd_step_f (opsB32 lm) decay mu nest G (th, v, lr, t) = (th', v', lr', t') ->
  let gl := G (interim mu nest th v) in
  lr' = @decayed (opsB32 lm) lr decay t /\ t' = (t + 1)%nat /\
  forall q, (q < length th)%nat -> length gl = length th ->
    let d := Bmult mode_NE (nth q gl NZ) (Bopp lr') in
    let v1 := Bmult mode_NE (nth q v NZ) mu in
    let x := nth q th NZ in
    if Rlt_dec 0 (bv mu) then
      nth q v' NZ = Bplus mode_NE v1 d /\
      nth q th' NZ = Bplus mode_NE (if nest then Bplus mode_NE x v1 else x) (if nest then d else Bplus mode_NE v1 d)
    else nth q v' NZ = nth q v NZ /\ nth q th' NZ = Bplus mode_NE x d.
Proof.
  intros Fm LV ES gl. unfold sgd_step_f, fgt in ES. change (@flt (opsB32 lm) (@f0 (opsB32 lm)) mu) with (Bltb NZ mu) in ES.
  rewrite ltb_R in ES by (auto; reflexivity). change (bv NZ) with 0 in ES.
  assert (EI : gl = G (interim mu nest th v)) by reflexivity. clearbody gl. unfold interim in EI.
  change (@F (opsB32 lm)) with b32 in *.
  destruct (Rlt_dec 0 (B2R mu)) as [Hm|Hm].
  - rewrite Rlt_bool_true in ES by exact Hm.
    assert (ES2 : let v1 := map (fun y : b32 => Bmult mode_NE y mu) v in let d := map (fun y : b32 => Bmult mode_NE y (Bopp (@decayed (opsB32 lm) lr decay t))) gl in
      (map2 (Bplus mode_NE) (if nest then map2 (Bplus mode_NE) th v1 else th) (if nest then d else map2 (Bplus mode_NE) v1 d), map2 (Bplus mode_NE) v1 d,
       @decayed (opsB32 lm) lr decay t, (t + 1)%nat) = (th', v', lr', t')) by (cbv zeta; rewrite EI; exact ES).
    cbv zeta in ES2. clear ES. injection ES2 as <- <- <- <-. split; [reflexivity|]. split; [reflexivity|].
    intros q Hq Lg. cbv zeta.
    assert (L1 : length (map (fun y => Bmult mode_NE y mu) v) = length th) by (rewrite map_length; auto).
    assert (L2 : forall f : b32 -> b32, length (map f gl) = length th) by (intros f; rewrite map_length; exact Lg).
    assert (L3 : forall f : b32 -> b32, length (map2 (Bplus mode_NE) (map (fun y => Bmult mode_NE y mu) v) (map f gl)) = length th) by (intros f; apply len_map2_b; auto).
    assert (L4 : length (map2 (Bplus mode_NE) th (map (fun y => Bmult mode_NE y mu) v)) = length th) by (apply len_map2_b; auto).
    assert (Qv : (q < length v)%nat) by (rewrite <- LV; exact Hq). assert (Qg : (q < length gl)%nat) by (rewrite Lg; exact Hq).
    split.
    + rewrite nth_map2, !nth_map_b; try assumption; first [reflexivity|exact (eq_trans L1 (eq_sym (L2 _)))|exact (eq_ind_r (fun k => (q < k)%nat) Hq L1)].
    + destruct nest.
      * rewrite nth_map2; [rewrite nth_map2; [rewrite !nth_map_b by assumption; reflexivity|exact (eq_sym L1)|exact Hq]|exact (eq_trans L4 (eq_sym (L2 _)))|exact (eq_ind_r (fun k => (q < k)%nat) Hq L4)].
      * rewrite nth_map2; [rewrite nth_map2; [rewrite !nth_map_b by assumption; reflexivity|exact (eq_trans L1 (eq_sym (L2 _)))|exact (eq_ind_r (fun k => (q < k)%nat) Hq L1)]|exact (eq_sym (L3 _))|exact Hq].
  - rewrite Rlt_bool_false in ES by (apply Rnot_lt_le; exact Hm).
    assert (ES2 : (map2 (Bplus mode_NE) th (map (fun y : b32 => Bmult mode_NE y (Bopp (@decayed (opsB32 lm) lr decay t))) gl), v, @decayed (opsB32 lm) lr decay t, (t + 1)%nat)
      = (th', v', lr', t')) by (rewrite EI; exact ES).
    clear ES. injection ES2 as <- <- <- <-. split; [reflexivity|]. split; [reflexivity|].
    intros q Hq Lg. cbv zeta. split; [reflexivity|]. rewrite nth_map2, nth_map_b; try assumption; [reflexivity|rewrite Lg; exact Hq|rewrite map_length; symmetry; exact Lg].
Qed.
