(** SoftmaxB32.v -- softmax in binary32 *)
From Coquelicot Require Import Coquelicot.
From Flocq Require Import Core BinarySingleNaN Relative.
From Coq Require Import ZArith Bool List Arith Reals Lia Lra Permutation.
From Verif Require Import Base Ops OpsB32 B32Facts MetricB32 InitProofs Activation SpecReal RealForward SpecBits SpecRound SpecLibm RoundProofs Exp256 Exp256B32 Exp256Reduce ExpB32Proofs ActB32.
Import ListNotations.
Local Open Scope R_scope.

#[local] Instance vexp32s : Valid_exp (SpecFloat.fexp 24 128) := fexp_correct 24 128 prec_gt_0_32.

(** ** a sum of nonnegative numbers, in any order *)
Definition bsum (l : list b32) : R := lsum (map (@B2R 24 128) l).
Definition nonneg (x : b32) : Prop := fin x = true /\ 0 <= bv x.
Lemma bsum_app a b : bsum (a ++ b) = bsum a + bsum b.
Proof. unfold bsum. rewrite map_app. apply lsum_app. Qed.
Lemma bsum_perm a b : Permutation a b -> bsum a = bsum b.
Proof. unfold bsum. induction 1; cbn [map lsum]; lra. Qed.
Lemma bsum_pos l : Forall nonneg l -> 0 <= bsum l.
Proof. unfold bsum. induction 1 as [|x l H F IH]; cbn [map lsum]; [lra|]. destruct H. lra. Qed.

Lemma is_sum_err (lm : libm) l s : @is_sum (opsB32 lm) l s -> Forall nonneg l -> (1 + u32) ^ length l * bsum l <= 2 ^ 127 ->
  fin s = true /\ Rabs (bv s - bsum l) <= ((1 + u32) ^ Nat.pred (length l) - 1) * bsum l.
Proof.
  pose proof u32_pos as U. pose proof u32_small as US.
  induction 1 as [|x|l1 l2 l a b H1 IH1 H2 IH2 P]; intros F B.
  - split; [reflexivity|]. change (bv (@f0 (opsB32 lm))) with 0. unfold bsum. cbn. rewrite Rminus_0_r, Rabs_R0. lra.
  - inversion F as [|? ? F1 _]; subst. split; [apply F1|]. unfold bsum. cbn [map lsum length Nat.pred pow]. change (@B2R 24 128 x) with (bv x).
    replace (bv x - (bv x + 0)) with 0 by ring. rewrite Rabs_R0. lra.
  - assert (F12 : Forall nonneg (l1 ++ l2)) by (eapply Permutation_Forall; [apply Permutation_sym; exact P|exact F]).
    rewrite <- (bsum_perm _ _ P) in *. rewrite <- (Permutation_length P) in *. rewrite app_length in *. rewrite bsum_app in *.
    apply Forall_app in F12. destruct F12 as (F1 & F2). pose proof (bsum_pos _ F1) as P1. pose proof (bsum_pos _ F2) as P2.
    set (A := bsum l1) in *. set (C := bsum l2) in *. pose proof (up1 (length l1 + length l2)) as Uk.
    assert (B1 : (1 + u32) ^ length l1 * A <= 2 ^ 127).
    { eapply Rle_trans; [|exact B]. pose proof (up_le (length l1) (length l1 + length l2) ltac:(lia)). pose proof (up1 (length l1)). apply Rmult_le_compat; lra. }
    assert (B2 : (1 + u32) ^ length l2 * C <= 2 ^ 127).
    { eapply Rle_trans; [|exact B]. pose proof (up_le (length l2) (length l1 + length l2) ltac:(lia)). pose proof (up1 (length l2)). apply Rmult_le_compat; lra. }
    destruct (IH1 F1 B1) as (Fa & Ea). destruct (IH2 F2 B2) as (Fb & Eb). change (@fadd (opsB32 lm) a b) with (Bplus mode_NE a b).
    set (k1 := length l1) in *. set (k2 := length l2) in *.
    assert (Q : forall k, k = k1 \/ k = k2 -> (1 + u32) ^ Nat.pred k <= (1 + u32) ^ (k1 + k2)).
    { intros k [-> | ->]; apply up_le; lia. }
    assert (AB : Rabs (bv a + bv b) <= (1 + u32) ^ (k1 + k2) * (A + C)).
    { pose proof (Q k1 (or_introl eq_refl)) as Q1. pose proof (Q k2 (or_intror eq_refl)) as Q2. apply Rabs_le_between in Ea, Eb.
      pose proof (up1 (Nat.pred k1)). pose proof (up1 (Nat.pred k2)).
      assert ((1 + u32) ^ Nat.pred k1 * A <= (1 + u32) ^ (k1 + k2) * A) by (apply Rmult_le_compat_r; lra).
      assert ((1 + u32) ^ Nat.pred k2 * C <= (1 + u32) ^ (k1 + k2) * C) by (apply Rmult_le_compat_r; lra).
      assert (0 <= ((1 + u32) ^ Nat.pred k1 - 1) * A) by (apply Rmult_le_pos; lra). assert (0 <= ((1 + u32) ^ Nat.pred k2 - 1) * C) by (apply Rmult_le_pos; lra).
      assert (0 <= ((1 + u32) ^ (k1 + k2) - 1) * A) by (apply Rmult_le_pos; lra). assert (0 <= ((1 + u32) ^ (k1 + k2) - 1) * C) by (apply Rmult_le_pos; lra).
      apply Rabs_le. lra. }
    destruct (add_R a b Fa Fb) as (Fs & Es); [lra|]. split; [exact Fs|].
    assert (Z : forall x y : b32, fin x = true -> fin y = true -> bv x = 0 -> bv (Bplus mode_NE x y) = bv y).
    { intros x y Fx Fy Ex. pose proof (Bplus_correct 24 128 _ _ mode_NE x y Fx Fy) as CC. rewrite Ex, Rplus_0_l, rnd_id in CC by apply bv_fmt'.
      rewrite Rlt_bool_true in CC by apply (abs_B2R_lt_emax 24 128). apply CC. }
    assert (Z' : forall x y : b32, fin x = true -> fin y = true -> bv y = 0 -> bv (Bplus mode_NE x y) = bv x).
    { intros x y Fx Fy Ex. pose proof (Bplus_correct 24 128 _ _ mode_NE x y Fx Fy) as CC. rewrite Ex, Rplus_0_r, rnd_id in CC by apply bv_fmt'.
      rewrite Rlt_bool_true in CC by apply (abs_B2R_lt_emax 24 128). apply CC. }
    assert (N0 : forall (ll : list b32) v, length ll = 0%nat -> Rabs (bv v - bsum ll) <= ((1 + u32) ^ Nat.pred (length ll) - 1) * bsum ll -> bv v = 0 /\ bsum ll = 0).
    { intros [|? ll] v L0 E0; [|discriminate L0]. unfold bsum in *. cbn in E0 |- *. apply Rabs_le_between in E0. split; [lra|reflexivity]. }
    destruct k1 as [|k1'] eqn:K1.
    + destruct (N0 l1 a K1) as (Va & A0); [change (length l1) with k1; rewrite K1; exact Ea|]. rewrite (Z a b Fa Fb Va). fold A in A0. rewrite A0, !Rplus_0_l. exact Eb.
    + destruct k2 as [|k2'] eqn:K2.
      * destruct (N0 l2 b K2) as (Vb & C0); [change (length l2) with k2; rewrite K2; exact Eb|]. rewrite (Z' a b Fa Fb Vb). fold C in C0. rewrite C0, !Rplus_0_r, Nat.add_0_r. exact Ea.
      * cbn [Nat.pred] in *. replace (Nat.pred (S k1' + S k2'))%nat with (S (k1' + k2'))%nat by lia. rewrite up_S.
        pose proof (up_le k1' (k1' + k2') ltac:(lia)) as L1. pose proof (up_le k2' (k1' + k2') ltac:(lia)) as L2. set (W := (1 + u32) ^ (k1' + k2')) in *.
        assert (EA : Rabs (bv a - A) <= (W - 1) * A) by (eapply Rle_trans; [exact Ea|]; apply Rmult_le_compat_r; lra).
        assert (EB : Rabs (bv b - C) <= (W - 1) * C) by (eapply Rle_trans; [exact Eb|]; apply Rmult_le_compat_r; lra).
        clearbody A C W. clear - U Es EA EB P1 P2. set (s := bv (Bplus mode_NE a b)) in *. clearbody s. set (x := bv a) in *. set (y := bv b) in *. clearbody x y.
        apply Rabs_le_between in EA, EB.
        assert (XY : Rabs (x + y) <= W * (A + C)) by (apply Rabs_le; lra).
        assert (u32 * Rabs (x + y) <= u32 * (W * (A + C))) by (apply Rmult_le_compat_l; lra).
        assert (Es' : Rabs (s - (x + y)) <= u32 * (W * (A + C))) by lra. apply Rabs_le_between in Es'. apply Rabs_le. lra.
Qed.

(** ** the exponentials *)
Lemma exp_lip a b : Rabs (exp a - exp b) <= Rabs (a - b) * exp (Rmax a b).
Proof.
  assert (G : forall p q, p <= q -> Rabs (exp p - exp q) <= Rabs (p - q) * exp q).
  { intros p q H. pose proof (exp_mono p q H). rewrite !Rabs_left1 by lra. pose proof (exp_ineq1_le (p - q)) as E.
    pose proof (exp_pos q). assert (EQ : exp p = exp (p - q) * exp q) by (rewrite <- exp_plus; f_equal; ring). rewrite EQ. nra. }
  destruct (Rle_dec a b) as [H|H].
  - rewrite Rmax_right by lra. apply G. lra.
  - rewrite Rmax_left by lra. rewrite Rabs_minus_sym, (Rabs_minus_sym a b). apply G. lra.
Qed.
Lemma x_exp x : 0 <= x -> x * exp (- x) <= 38/100 * (999/1000).
Proof.
  intros H. pose proof (exp_ineq1_le (x - 1)) as E. replace (exp (- x)) with (exp (- (x - 1)) * exp (- (1))) by (rewrite <- exp_plus; f_equal; ring).
  rewrite !exp_Ropp. pose proof (exp_pos (x - 1)) as P. pose proof exp_1_low as E1.
  apply Rle_trans with (/ exp 1).
  - rewrite <- Rmult_assoc. rewrite <- (Rmult_1_l (/ exp 1)) at 2. apply Rmult_le_compat_r; [left; apply Rinv_0_lt_compat, exp_pos|].
    apply (Rmult_le_reg_r (exp (x - 1))); [exact P|]. rewrite Rmult_assoc, Rinv_l by lra. lra.
  - apply Rle_trans with (/ (27/10)); [apply Rinv_le; lra|lra].
Qed.
Lemma exp_shift d r : d <= 0 -> Rabs (r - d) <= u32 * Rabs d -> Rabs (exp r - exp d) <= 38/100 * u32 /\ r <= 0.
Proof.
  pose proof u32_val as U. intros D E. rewrite (Rabs_left1 d) in E by exact D. pose proof E as E'. apply Rabs_le_between in E'.
  split; [|nra]. eapply Rle_trans; [apply exp_lip|].
  assert (M : Rmax r d <= - ((1 - u32) * - d)) by (apply Rmax_lub; nra).
  apply exp_mono in M. pose proof (exp_pos (Rmax r d)). pose proof (exp_pos (- ((1 - u32) * - d))). set (t := (1 - u32) * - d) in *.
  assert (T : 0 <= t) by (unfold t; apply Rmult_le_pos; lra). pose proof (x_exp t T) as X.
  assert (DT : - d = t / (1 - u32)) by (unfold t; field; lra).
  assert (IU : / (1 - u32) <= 1001/1000) by (apply Rle_trans with (/ (1000/1001)); [apply Rinv_le|]; lra).
  assert (IP : 0 < / (1 - u32)) by (apply Rinv_0_lt_compat; lra).
  apply Rle_trans with (u32 * - d * exp (- t)); [apply Rmult_le_compat; try apply Rabs_pos; lra|].
  rewrite DT. replace (u32 * (t / (1 - u32)) * exp (- t)) with (u32 * (/ (1 - u32) * (t * exp (- t)))) by (unfold Rdiv; ring).
  assert (TE : 0 <= t * exp (- t)) by (apply Rmult_le_pos; lra).
  assert (/ (1 - u32) * (t * exp (- t)) <= 1001/1000 * (38/100 * (999/1000))) by (apply Rmult_le_compat; lra). nra.
Qed.
(** one element: the argument is rounded, then the exponential taken *)
Lemma exp_elem f (z mx : b32) : accurate_exp f -> fin z = true -> fin mx = true -> Rabs (bv z) <= 2 ^ 126 -> Rabs (bv mx) <= 2 ^ 126 -> bv z <= bv mx ->
  let e := f (Bminus mode_NE z mx) in
  nonneg e /\ Rabs (bv e - exp (bv z - bv mx)) <= 4 / 10 ^ 7 * exp (bv z - bv mx) + 39/100 * u32.
Proof.
  intros A Fz Fm Bz Bm L e. pose proof u32_val as U. assert (P : 2 ^ 126 + 2 ^ 126 = 2 ^ 127) by (rewrite <- (Nat.add_1_l 126), pow_add; lra).
  destruct (sub_err z mx Fz Fm) as (Fd & Ed).
  { unfold Rminus. eapply Rle_trans; [apply Rabs_triang|]. rewrite Rabs_Ropp. lra. }
  destruct (exp_shift (bv z - bv mx) (bv (Bminus mode_NE z mx)) ltac:(lra) Ed) as (X & R0).
  destruct (A _ Fd) as (A1 & _). destruct (A1 ltac:(lra)) as (Fe & Pe & Ee). fold e in Fe, Pe, Ee. split; [split; assumption|].
  clearbody e. set (r := B2R (Bminus mode_NE z mx)) in *. clearbody r. set (v := bv e) in *. clearbody v.
  set (D := exp (bv z - bv mx)) in *. clearbody D. set (Q := exp r) in *. clearbody Q. apply Rabs_le_between in X, Ee. apply Rabs_le. rewrite U in *. lra.
Qed.

(** ** the division *)
Lemma softmax_div (n e E s S0 : R) : 1 <= n -> n * u32 <= 1/16 -> 0 <= e -> 0 <= E <= 1 -> 1 <= S0 <= n ->
  Rabs (e - E) <= 4 / 10 ^ 7 * E + 39/100 * u32 -> Rabs (s - S0) <= (4 / 10 ^ 7 + 245/100 * (n * u32)) * S0 ->
  Rabs (e / s - E / S0) <= (29/10 * n + 17) * u32 /\ 0 <= e / s <= 13/10 /\ 0 < s.
Proof.
  intros Hn HN He HE HS Ee Es. pose proof u32_val as U. pose proof u32_pos as UP. set (N := n * u32) in *.
  assert (NP : 0 <= N) by (unfold N; apply Rmult_le_pos; lra).
  apply Rabs_le_between in Es. apply Rabs_le_between in Ee.
  assert (SL : 846/1000 * S0 <= s) by nra. assert (SP : 0 < s) by lra. assert (S846 : 846/1000 <= s) by lra.
  assert (IS : 0 < / s <= / (846/1000)) by (split; [apply Rinv_0_lt_compat; exact SP|apply Rinv_le; lra]).
  split; [|split; [|exact SP]].
  - assert (EQ : e / s - E / S0 = ((e - E) + E * ((S0 - s) / S0)) * / s) by (field; lra).
    rewrite EQ, Rabs_mult, (Rabs_pos_eq (/ s)) by lra.
    assert (RS : Rabs ((S0 - s) / S0) <= 4 / 10 ^ 7 + 245/100 * N).
    { unfold Rdiv. rewrite Rabs_mult. rewrite (Rabs_pos_eq (/ S0)) by (left; apply Rinv_0_lt_compat; lra).
      apply (Rmult_le_reg_r S0); [lra|]. rewrite Rmult_assoc, Rinv_l by lra. rewrite Rmult_1_r. apply Rabs_le. lra. }
    assert (B : Rabs (e - E + E * ((S0 - s) / S0)) <= 8 / 10 ^ 7 + 39/100 * u32 + 245/100 * N).
    { eapply Rle_trans; [apply Rabs_triang|]. rewrite Rabs_mult, (Rabs_pos_eq E) by lra.
      assert (E * Rabs ((S0 - s) / S0) <= 1 * (4 / 10 ^ 7 + 245/100 * N)) by (apply Rmult_le_compat; try apply Rabs_pos; lra).
      assert (Rabs (e - E) <= 4 / 10 ^ 7 + 39/100 * u32) by (apply Rabs_le; lra). lra. }
    eapply Rle_trans; [apply Rmult_le_compat; [apply Rabs_pos|lra|exact B|apply IS]|].
    replace ((29/10 * n + 17) * u32) with (29/10 * N + 17 * u32) by (unfold N; ring). rewrite U in *. lra.
  - split; [apply Rmult_le_pos; lra|]. unfold Rdiv. apply Rle_trans with ((1 + 1/1000) * / (846/1000)); [|lra].
    apply Rmult_le_compat; try lra.
Qed.

Lemma pow_small k : INR k * u32 <= 1/16 -> (1 + u32) ^ k - 1 <= 2 * (INR k * u32).
Proof.
  pose proof u32_pos as U. induction k as [|k IH]; intros H; [cbn; lra|]. rewrite up_S. rewrite S_INR in H |- *.
  specialize (IH ltac:(lra)). pose proof (pos_INR k). assert (0 <= INR k * u32) by (apply Rmult_le_pos; lra).
  assert ((1 + u32) ^ k * (1 + u32) <= (1 + 2 * (INR k * u32)) * (1 + u32)) by (apply Rmult_le_compat_r; lra). nra.
Qed.

Lemma strict_b32 (lm : libm) : @strict_order (opsB32 lm).
Proof.
  assert (K : forall a b : b32, fin a = true -> fin b = true -> Bltb a b = Rlt_bool (bv a) (bv b)) by (intros; apply Bltb_correct; assumption).
  split.
  - intros a. change (Bltb (a : b32) a = false). destruct a as [s|[]| |s m e H]; try reflexivity. rewrite K by reflexivity. apply Rlt_bool_false. lra.
  - intros a b c. change (Bltb (a : b32) b = true -> Bltb (b : b32) c = true -> Bltb (a : b32) c = true).
    assert (G : fin a = true -> fin b = true -> fin c = true -> Bltb (a : b32) b = true -> Bltb (b : b32) c = true -> Bltb (a : b32) c = true).
    { intros Fa Fb Fc. rewrite !K by assumption. intros H1 H2.
      destruct (Rlt_bool_spec (bv a) (bv b)); [|discriminate H1]. destruct (Rlt_bool_spec (bv b) (bv c)); [|discriminate H2].
      apply Rlt_bool_true. lra. }
    intros H1 H2.
    destruct a as [sa|[]| |sa ma ea Ha]; destruct b as [sb|[]| |sb mb eb Hb]; destruct c as [sc|[]| |sc mc ec Hc];
      first [apply G; (reflexivity || assumption) | reflexivity | discriminate H1 | discriminate H2].
Qed.

(** ** softmax *)
Lemma lsum_err {A} (f g : A -> R) (r d : R) l : (forall x, In x l -> Rabs (f x - g x) <= r * g x + d) ->
  Rabs (lsum (map f l) - lsum (map g l)) <= r * lsum (map g l) + INR (length l) * d.
Proof.
  induction l as [|x l IH]; intros H; [cbn; rewrite Rminus_0_r, Rabs_R0; lra|]. cbn [map lsum length]. rewrite S_INR.
  pose proof (H x (or_introl eq_refl)) as H1. specialize (IH (fun y Hy => H y (or_intror Hy))). apply Rabs_le_between in H1, IH. apply Rabs_le. lra.
Qed.
Lemma lsum_le {A} (f g : A -> R) l : (forall x, In x l -> f x <= g x) -> lsum (map f l) <= lsum (map g l).
Proof. induction l as [|x l IH]; intros H; cbn [map lsum]; [lra|]. pose proof (H x (or_introl eq_refl)). specialize (IH (fun y Hy => H y (or_intror Hy))). lra. Qed.
Lemma lsum_one {A} (f : A -> R) l x : In x l -> (forall y, In y l -> 0 <= f y) -> f x <= lsum (map f l).
Proof.
  induction l as [|y l IH]; [intros []|]. intros [->|Hx] H; cbn [map lsum].
  - assert (0 <= lsum (map f l)). { clear IH. assert (H' : forall y, In y l -> 0 <= f y) by (intros; apply H; right; assumption). clear H.
      induction l as [|z l IH]; cbn [map lsum]; [lra|]. pose proof (H' z (or_introl eq_refl)). specialize (IH (fun y Hy => H' y (or_intror Hy))). lra. }
    lra.
  - pose proof (H y (or_introl eq_refl)). specialize (IH Hx (fun y Hy => H y (or_intror Hy))). lra.
Qed.

Lemma softmax_R (lm : libm) (zs ys : list b32) : accurate_exp (lm_exp lm) ->
  Forall (fun z => fin z = true /\ Rabs (bv z) <= 2 ^ 126) zs -> INR (length zs) <= 2 ^ 20 ->
  @act_rel (opsB32 lm) (@exp256_lane (opsB32 lm)) Softmax zs ys ->
  length ys = length zs /\ forall j, (j < length zs)%nat ->
    fin (nth j ys b32_zero) = true /\
    Rabs (bv (nth j ys b32_zero) - act_math Softmax (length zs) (vec (map (@B2R 24 128) zs)) j) <= (3 * INR (length zs) + 20) * u32.
Proof.
  intros AE FZ LN (mx & es & s & IM & MX & EL & SU & ->). pose proof u32_val as U.
  assert (FM : fin mx = true /\ Rabs (bv mx) <= 2 ^ 126) by (rewrite Forall_forall in FZ; apply FZ; exact IM). destruct FM as (FM & BM).
  specialize (MX (strict_b32 lm)).
  assert (LE : forall z, In z zs -> bv z <= bv mx).
  { intros z Hz. specialize (MX z Hz). rewrite Forall_forall in FZ. destruct (FZ z Hz) as (Fz & _).
    change (Bltb mx z = false) in MX. rewrite (Bltb_correct 24 128 mx z FM Fz) in MX. destruct (Rlt_bool_spec (bv mx) (bv z)); [discriminate MX|lra]. }
  assert (EE : Forall2 (fun z e => nonneg e /\ Rabs (bv e - exp (bv z - bv mx)) <= 4 / 10 ^ 7 * exp (bv z - bv mx) + 39/100 * u32) zs es).
  { clear SU MX IM. unfold elem in EL. change (@F (opsB32 lm)) with b32 in *. revert FZ LE. induction EL as [|z e zs es H EL IH]; intros FZ LE; constructor.
    - inversion FZ as [|? ? (Fz & Bz) FZ']; subst. pose proof (LE z (or_introl eq_refl)) as Lz. destruct H as [->| ->].
      + exact (exp_elem (lm_exp lm) z mx AE Fz FM Bz BM Lz).
      + exact (exp_elem (@exp256_lane (opsB32 lm)) z mx (exp256_accurate_exp lm) Fz FM Bz BM Lz).
    - inversion FZ; subst. apply IH; auto.
      + cbn [length] in LN. rewrite S_INR in LN. lra.
      + intros y Hy. apply LE. right. exact Hy. }
  clear EL MX. change (@F (opsB32 lm)) with b32 in *.
  assert (PS : exists ps : list (b32 * b32), zs = map fst ps /\ es = map snd ps /\
     forall p, In p ps -> nonneg (snd p) /\ Rabs (bv (snd p) - exp (bv (fst p) - bv mx)) <= 4 / 10 ^ 7 * exp (bv (fst p) - bv mx) + 39/100 * u32).
  { clear - EE. induction EE as [|z e zs es H EE IH]; [exists []; split; [reflexivity|]; split; [reflexivity|]; intros ? []|].
    destruct IH as (ps & -> & -> & K). exists ((z, e) :: ps). split; [reflexivity|]. split; [reflexivity|]. intros p [<-|Hp]; [exact H|apply K; exact Hp]. }
  destruct PS as (ps & -> & -> & K). rewrite !map_length in *. clear EE.
  set (g := fun p : b32 * b32 => exp (bv (fst p) - bv mx)). set (f := fun p : b32 * b32 => bv (snd p)).
  assert (PF : bsum (map snd ps) = lsum (map f ps)) by (unfold bsum; rewrite map_map; reflexivity).
  pose proof (lsum_err f g (4 / 10 ^ 7) (39/100 * u32) ps (fun p Hp => proj2 (K p Hp))) as SE.
  set (S0 := lsum (map g ps)) in *. set (n := INR (length ps)) in *.
  assert (G1 : forall p, In p ps -> 0 <= g p <= 1).
  { intros p Hp. unfold g. split; [left; apply exp_pos|]. rewrite <- exp_0. apply exp_mono. pose proof (LE (fst p) (in_map fst ps p Hp)). lra. }
  assert (S0L : 1 <= S0).
  { apply in_map_iff in IM. destruct IM as (p & Ep & Hp). apply Rle_trans with (g p).
    - unfold g. rewrite Ep. replace (bv mx - bv mx) with 0 by ring. rewrite exp_0. lra.
    - apply lsum_one; [exact Hp|]. intros y Hy. apply G1. exact Hy. }
  assert (S0U : S0 <= n).
  { unfold S0, n. clear - G1. induction ps as [|p ps IH]; [cbn; lra|]. cbn [map lsum length]. rewrite S_INR.
    pose proof (G1 p (or_introl eq_refl)). specialize (IH (fun q Hq => G1 q (or_intror Hq))). lra. }
  assert (HN : n * u32 <= 1/16) by (rewrite U; lra). assert (n1 : 1 <= n) by lra.
  assert (NN : Forall nonneg (map snd ps)) by (apply Forall_forall; intros e He; apply in_map_iff in He; destruct He as (p & <- & Hp); apply K; exact Hp).
  set (S1 := lsum (map f ps)) in *.
  assert (S1P : 0 <= S1) by (rewrite <- PF; apply bsum_pos; exact NN).
  assert (S1B : Rabs (S1 - S0) <= (4 / 10 ^ 7 + 39/100 * (n * u32)) * S0).
  { eapply Rle_trans; [exact SE|]. assert (0 <= n * u32) by (rewrite U; lra). nra. }
  pose proof (pow_small (length ps) HN) as PW. pose proof (up_le (Nat.pred (length ps)) (length ps) ltac:(lia)) as PW2. pose proof (up1 (Nat.pred (length ps))) as PW3.
  destruct (is_sum_err lm _ _ SU NN) as (Fs & Es).
  { rewrite map_length, PF. pose proof S1B as B. apply Rabs_le_between in B. fold n in PW. pose proof big127.
    assert (BB : 1000 * 2 ^ 20 <= 2 ^ 127). { replace 127%nat with (10 + (20 + 97))%nat by lia. rewrite !pow_add. assert (1 <= 2 ^ 97) by (apply pow_R1_Rle; lra). assert (0 < 2 ^ 20) by (apply pow_lt; lra). nra. }
    set (W := (1 + u32) ^ length ps) in *. clearbody W. assert (W <= 2) by lra. assert (S1 <= 2 * 2 ^ 20) by nra. assert (0 <= W) by lra. nra. }
  rewrite map_length, PF in Es. fold n in PW.
  assert (SB : Rabs (bv s - S0) <= (4 / 10 ^ 7 + 245/100 * (n * u32)) * S0).
  { set (W := (1 + u32) ^ Nat.pred (length ps)) in *. assert (W - 1 <= 2 * (n * u32)) by lra. clearbody W. set (N := n * u32) in *. assert (0 <= N) by (unfold N; rewrite U; lra). clearbody N.
    assert (X : S1 <= (1 + 4 / 10 ^ 7 + 39/100 * N) * S0) by (apply Rabs_le_between in S1B; lra).
    assert (Y : (W - 1) * S1 <= 2 * N * ((1 + 4 / 10 ^ 7 + 39/100 * N) * S0)) by (apply Rmult_le_compat; lra).
    assert (Z : 2 * N * ((1 + 4 / 10 ^ 7 + 39/100 * N) * S0) <= 2 * N * (103/100 * S0)).
    { apply Rmult_le_compat_l; [lra|]. apply Rmult_le_compat_r; lra. }
    clear - S1B Es Y Z S0L. set (v := bv s) in *. clearbody v S1 S0. apply Rabs_le_between in S1B. apply Rabs_le_between in Es. apply Rabs_le. lra. }
  split; [reflexivity|]. intros j Hj.
  assert (Q : exists p, In p ps /\ nth j (map (fun e => Bdiv mode_NE e s) (map snd ps)) b32_zero = Bdiv mode_NE (snd p) s /\ vec (map (@B2R 24 128) (map fst ps)) j = bv (fst p)).
  { exists (nth j ps (b32_zero, b32_zero)). split; [apply nth_In; exact Hj|]. split.
    - rewrite map_map. rewrite (nth_indep _ b32_zero (Bdiv mode_NE (snd (b32_zero, b32_zero)) s)) by (rewrite map_length; exact Hj).
      rewrite (map_nth (fun p => Bdiv mode_NE (snd p) s)). reflexivity.
    - unfold vec. rewrite map_map. rewrite (nth_indep _ 0 (bv (fst (b32_zero, b32_zero)))) by (rewrite map_length; exact Hj).
      rewrite (map_nth (fun p : b32 * b32 => bv (fst p))). reflexivity. }
  destruct Q as (p & Hp & EY & EZ). 
  match goal with |- fin ?y = true /\ _ => replace y with (Bdiv mode_NE (snd p) s) by (symmetry; exact EY) end.
  destruct (K p Hp) as ((Fe & Pe) & Ee).
  destruct (softmax_div n (bv (snd p)) (g p) (bv s) S0 n1 HN Pe (G1 p Hp) (conj S0L S0U) Ee SB) as (D1 & D2 & D3).
  destruct (divide_R (snd p) s Fe) as (Fq & Eq); [lra| |].
  { rewrite Rabs_pos_eq by lra. pose proof big127. lra. }
  split; [exact Fq|].
  assert (EM : act_math Softmax (length ps) (vec (map (@B2R 24 128) (map fst ps))) j = g p / S0).
  { unfold act_math. rewrite EZ. assert (ES : sumf (length ps) (fun k => exp (vec (map (@B2R 24 128) (map fst ps)) k)) = exp (bv mx) * S0).
    - unfold S0. rewrite map_map. clear. induction ps as [|p ps IH] using rev_ind; [cbn; lra|].
      rewrite app_length. cbn [length]. rewrite Nat.add_1_r. cbn [sumf]. rewrite !map_app, lsum_app. cbn [map lsum].
      rewrite Rmult_plus_distr_l, <- IH. f_equal.
      + apply sumf_ext. intros i Hi. unfold vec. rewrite app_nth1 by (rewrite map_length; exact Hi). reflexivity.
      + unfold vec. rewrite app_nth2 by (rewrite map_length; lia). rewrite map_length, Nat.sub_diag. cbn [nth]. unfold g. rewrite Rplus_0_r, <- exp_plus. f_equal. ring.
    - rewrite ES. unfold g. unfold Rminus. rewrite exp_plus, exp_Ropp. pose proof (exp_pos (bv mx)). field. lra. }
  rewrite EM. pose proof eta32_tiny as T. pose proof eta32_pos as T0. rewrite (Rabs_pos_eq (bv (snd p) / bv s)) in Eq by lra.
  set (q := bv (Bdiv mode_NE (snd p) s)) in *. set (r := bv (snd p) / bv s) in *. set (t := g p / S0) in *. clearbody q r t.
  apply Rabs_le_between in D1. apply Rabs_le_between in Eq. apply Rabs_le. rewrite U in *. lra.
Qed.
