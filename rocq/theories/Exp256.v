(** Exp256.v -- accuracy of exp256_ps (src/activation.c:358-412) in exact arithmetic *)
From Coq Require Import Reals ZArith Lra Lia Bool List.
From Coquelicot Require Import Coquelicot.
From Verif Require Import Ops Activation OpsR.
Local Open Scope R_scope.

(** ** the exponential function near 0 *)
Definition T8 (r : R) : R :=
  1 + r + r^2/2 + r^3/6 + r^4/24 + r^5/120 + r^6/720 + r^7/5040 + r^8/40320.

Lemma exp_35 r : Rabs r <= 35/100 -> exp (- r) <= 20/13.
Proof.
  intros H. assert (E : exp (- r) <= exp (35/100)).
  { destruct (Rle_lt_or_eq_dec (- r) (35/100)) as [L|L].
    - apply Rabs_le_between in H. lra.
    - left. apply exp_increasing; auto.
    - rewrite L. lra. }
  assert (H2 : 65/100 <= exp (- (35/100))).
  { pose proof (exp_ineq1_le (- (35/100))). lra. }
  rewrite exp_Ropp in H2. pose proof (exp_pos (35/100)) as P.
  assert (exp (35/100) <= / (65/100)).
  { rewrite <- (Rinv_inv (exp (35/100))). apply Rinv_le_contravar; lra. }
  lra.
Qed.

Lemma T8_deriv x : is_derive (fun r => exp (- r) * T8 r) x (- exp (- x) * (x^8 / 40320)).
Proof.
  unfold T8. auto_derive; auto. ring_simplify. field.
Qed.

Lemma abs_pow_le r k b : Rabs r <= b -> Rabs (r ^ k) <= b ^ k.
Proof. intros H. rewrite <- RPow_abs. apply pow_incr. split; auto. apply Rabs_pos. Qed.

Lemma exp_T8 r : Rabs r <= 35/100 -> Rabs (exp (- r) * T8 r - 1) <= 4 / 10^9.
Proof.
  intros H. set (f := fun r => exp (- r) * T8 r).
  assert (F0 : f 0 = 1). { unfold f, T8. rewrite Ropp_0, exp_0. field. }
  destruct (MVT_gen f 0 r (fun x => - exp (- x) * (x^8 / 40320))) as (x & Hx & E).
  - intros x _. apply T8_deriv.
  - intros x _. apply continuity_pt_filterlim. apply (ex_derive_continuous f). eexists. apply T8_deriv.
  - assert (Ax : Rabs x <= 35/100).
    { apply Rabs_le_between in H. apply Rabs_le_between.
      destruct Hx as [H1 H2]. unfold Rmin, Rmax in *. destruct (Rle_dec 0 r); lra. }
    fold (f r). rewrite <- F0. rewrite E, Rminus_0_r; unfold Rdiv; rewrite !Rabs_mult.
    rewrite Rabs_Ropp, (Rabs_pos_eq (exp (- x))) by (left; apply exp_pos).
    pose proof (exp_35 x Ax) as P1. pose proof (exp_pos (- x)) as P0.
    pose proof (abs_pow_le x 8 (35/100) Ax) as P2. pose proof (Rabs_pos (x ^ 8)) as P3.
    rewrite (Rabs_pos_eq (/ 40320)) by lra.
    apply Rle_trans with (20/13 * ((35/100)^8 * / 40320) * (35/100)); [|lra].
    apply Rmult_le_compat; auto using Rabs_pos.
    + apply Rmult_le_pos; [lra|]. apply Rmult_le_pos; lra.
    + apply Rmult_le_compat; try lra; apply Rmult_le_pos; lra.
Qed.

(** ** ln 2 *)
Definition Cs : R := 69314718056 / 10^11.
Lemma exp_Cs : Rabs (exp (- Cs) * 2 - 1) <= 4 / 10^11.
Proof.
  assert (Hr : Rabs (Cs / 4) <= 35/100) by (unfold Cs; rewrite Rabs_pos_eq; lra).
  (* one more halving step gives the precision: exp (-Cs/8) *)
  assert (H : Rabs (exp (- (Cs / 8)) * T8 (Cs / 8) - 1) <= 1 / 10^12).
  { set (r := Cs / 8). set (f := fun r => exp (- r) * T8 r).
    assert (F0 : f 0 = 1). { unfold f, T8. rewrite Ropp_0, exp_0. field. }
    destruct (MVT_gen f 0 r (fun x => - exp (- x) * (x^8 / 40320))) as (x & Hx & E).
    - intros x _. apply T8_deriv.
    - intros x _. apply continuity_pt_filterlim. apply (ex_derive_continuous f). eexists. apply T8_deriv.
    - assert (Bx : 0 <= x <= 9/100).
      { unfold r, Cs in Hx. unfold Rmin, Rmax in Hx. destruct (Rle_dec 0 _); lra. }
      assert (Ax : Rabs x <= 9/100) by (rewrite Rabs_pos_eq; lra).
      fold (f r). rewrite <- F0, E, Rminus_0_r; unfold Rdiv; rewrite !Rabs_mult.
      rewrite Rabs_Ropp, (Rabs_pos_eq (exp (- x))) by (left; apply exp_pos).
      pose proof (exp_35 x ltac:(lra)) as P1. pose proof (exp_pos (- x)) as P0.
      pose proof (abs_pow_le x 8 (9/100) Ax) as P2. pose proof (Rabs_pos (x ^ 8)) as P3.
      rewrite (Rabs_pos_eq (/ 40320)) by lra. rewrite (Rabs_pos_eq r) by (unfold r, Cs; lra).
      apply Rle_trans with (20/13 * ((9/100)^8 * / 40320) * (9/100)); [|lra].
      apply Rmult_le_compat; unfold r, Cs; try lra.
      + apply Rmult_le_pos; [lra|]. apply Rmult_le_pos; lra.
      + apply Rmult_le_compat; try lra; apply Rmult_le_pos; lra. }
  set (u := exp (- (Cs / 8))) in *.
  assert (Eu : exp (- Cs) = u ^ 8).
  { unfold u. simpl. rewrite Rmult_1_r, <- !exp_plus. f_equal. lra. }
  set (t := T8 (Cs / 8)) in *.
  assert (Ht : 109050773266526 / 10^14 <= t <= 109050773266527 / 10^14).
  { unfold t, T8, Cs. lra. }
  apply Rabs_le_between in H.
  assert (U1 : u <= (1 + 1/10^12) * 10^14 / 109050773266526).
  { apply Rmult_le_reg_r with (109050773266526 / 10^14); [lra|]. apply Rle_trans with (u * t).
    - apply Rmult_le_compat_l; [left; apply exp_pos|lra]. 
    - lra. }
  assert (U0 : (1 - 1/10^12) * 10^14 / 109050773266527 <= u).
  { apply Rmult_le_reg_r with (109050773266527 / 10^14); [lra|]. apply Rle_trans with (u * t).
    - lra.
    - apply Rmult_le_compat_l; [left; apply exp_pos|lra]. }
  rewrite Eu. apply Rabs_le_between.
  pose proof (pow_incr _ _ 8 (conj (Rle_trans 0 ((1 - 1/10^12) * 10^14 / 109050773266527) _ ltac:(lra) (Rle_refl _)) U0)) as Q0.
  pose proof (pow_incr u _ 8 (conj (Rlt_le _ _ (exp_pos _)) U1)) as Q1.
  split; [eapply Rle_trans; [|apply Rplus_le_compat_r; apply Rmult_le_compat_r; [lra|exact Q0]]; lra|].
  eapply Rle_trans; [apply Rplus_le_compat_r; apply Rmult_le_compat_r; [lra|exact Q1]|]; lra.
Qed.

Lemma pow_near1 a e k : 0 <= e -> Rabs (a - 1) <= e -> 2 * INR k * e <= 1 -> Rabs (a ^ k - 1) <= 2 * INR k * e.
Proof.
  intros He Ha. induction k as [|k IH]; intros Hk.
  - simpl. replace (1 - 1) with 0 by ring. rewrite Rabs_R0. lra.
  - rewrite S_INR in *. pose proof (pos_INR k) as Pk. assert (Hk' : 2 * INR k * e <= 1) by nra. specialize (IH Hk').
    replace (a ^ S k - 1) with (a * (a ^ k - 1) + (a - 1)) by (simpl; ring).
    eapply Rle_trans; [apply Rabs_triang|]. rewrite Rabs_mult.
    assert (A : Rabs a <= 1 + e). { apply Rabs_le_between in Ha. apply Rabs_le_between. lra. }
    assert (Rabs a * Rabs (a ^ k - 1) <= (1 + e) * (2 * INR k * e)).
    { apply Rmult_le_compat; auto using Rabs_pos. }
    nra.
Qed.

Lemma powerRZ_near1 a n : Rabs (a - 1) <= 4 / 10^11 -> (-128 <= n <= 128)%Z -> Rabs (powerRZ a n - 1) <= 11 / 10^9.
Proof.
  intros Ha Hn.
  assert (G : forall k : nat, (k <= 128)%nat -> Rabs (a ^ k - 1) <= 1024 / 10^11).
  { intros k Hk. apply le_INR in Hk. replace (INR 128) with 128 in Hk by (rewrite INR_IZR_INZ; reflexivity).
    pose proof (pos_INR k). eapply Rle_trans; [apply (pow_near1 a (4/10^11) k); auto; nra|]. nra. }
  destruct n as [|p|p]; simpl.
  - replace (1 - 1) with 0 by ring. rewrite Rabs_R0. lra.
  - eapply Rle_trans; [apply G; lia|lra].
  - specialize (G (Pos.to_nat p) ltac:(lia)). set (v := a ^ Pos.to_nat p) in *.
    apply Rabs_le_between in G. assert (0 < v) by lra.
    replace (/ v - 1) with ((1 - v) * / v) by (field; lra).
    rewrite Rabs_mult, (Rabs_pos_eq (/ v)) by (left; apply Rinv_0_lt_compat; auto).
    assert (/ v <= / (99/100)) by (apply Rinv_le_contravar; lra).
    assert (0 < / v) by (apply Rinv_0_lt_compat; auto).
    assert (Rabs (1 - v) <= 1024/10^11) by (apply Rabs_le_between; lra).
    apply Rle_trans with (1024/10^11 * / (99/100)); [|lra]. apply Rmult_le_compat; auto using Rabs_pos; lra.
Qed.

(** the polynomial of the code *)
Definition poly (x : R) : R :=
  ((((((19875691500 / 100000000000000) * x + 13981999507 / 10000000000000) * x + 83334519073 / 10000000000000) * x
     + 41665795894 / 1000000000000) * x + 16666665459 / 100000000000) * x + 50000001201 / 100000000000) * (x * x) + x + 1.

Lemma poly_T8 r : Rabs r <= 35/100 -> Rabs (poly r - T8 r) <= 39 / 10^9.
Proof.
  intros H.
  pose proof (abs_pow_le r 2 _ H) as P2. pose proof (abs_pow_le r 3 _ H) as P3.
  pose proof (abs_pow_le r 4 _ H) as P4. pose proof (abs_pow_le r 5 _ H) as P5.
  pose proof (abs_pow_le r 6 _ H) as P6. pose proof (abs_pow_le r 7 _ H) as P7.
  pose proof (abs_pow_le r 8 _ H) as P8.
  apply Rabs_le_between in P2, P3, P4, P5, P6, P7, P8.
  replace (poly r - T8 r) with
    ((50000001201/100000000000 - 1/2) * r^2 + (16666665459/100000000000 - 1/6) * r^3 +
     (41665795894/1000000000000 - 1/24) * r^4 + (83334519073/10000000000000 - 1/120) * r^5 +
     (13981999507/10000000000000 - 1/720) * r^6 + (19875691500/100000000000000 - 1/5040) * r^7 - r^8/40320)
    by (unfold poly, T8; field).
  set (a2 := r^2) in *; set (a3 := r^3) in *; set (a4 := r^4) in *; set (a5 := r^5) in *; set (a6 := r^6) in *;
  set (a7 := r^7) in *; set (a8 := r^8) in *. clearbody a2 a3 a4 a5 a6 a7 a8. clear H r.
  apply Rabs_le_between. lra.
Qed.

Lemma poly_exp r : Rabs r <= 35/100 -> Rabs (poly r * exp (- r) - 1) <= 70 / 10^9.
Proof.
  intros H. replace (poly r * exp (- r) - 1) with ((exp (- r) * T8 r - 1) + (poly r - T8 r) * exp (- r)) by ring.
  eapply Rle_trans; [apply Rabs_triang|]. rewrite Rabs_mult.
  rewrite (Rabs_pos_eq (exp (- r))) by (left; apply exp_pos).
  pose proof (exp_T8 r H). pose proof (poly_T8 r H). pose proof (exp_35 r H). pose proof (exp_pos (- r)).
  assert (Rabs (poly r - T8 r) * exp (- r) <= 39/10^9 * (20/13)) by (apply Rmult_le_compat; auto using Rabs_pos; lra).
  lra.
Qed.

Lemma Int_part_IZR z : Int_part (IZR z) = z.
Proof.
  destruct (base_Int_part (IZR z)) as [H1 H2]. rewrite <- minus_IZR in H2. apply le_IZR in H1.
  apply lt_IZR in H2 || (apply Rgt_lt in H2; apply lt_IZR in H2). lia.
Qed.

Definition e_hi : R := 883762626647949 / 10000000000000.

(** the lane on the range *)
Lemma exp256_in x : - e_hi <= x <= e_hi ->
  exists n : Z, let r := x - IZR n * Cs in
    (-128 <= n <= 128)%Z /\ Rabs r <= 35/100 /\ @exp256_lane opsR x = poly r * powerRZ 2 n.
Proof.
  intros [H1 H2]. unfold e_hi in *.
  set (L := 144269504088896341 / 100000000000000000).
  set (n := Int_part (x * L + 1 / 2)).
  exists n. cbv zeta.
  assert (Hn : IZR n <= x * L + 1/2 < IZR n + 1).
  { unfold n. pose proof (base_Int_part (x * L + 1 / 2)). lra. }
  assert (Hz : (-128 <= n <= 128)%Z).
  { assert (A : - 129 < IZR n) by (unfold L in *; lra). assert (B : IZR n < 129) by (unfold L in *; lra).
    apply lt_IZR in A. apply lt_IZR in B. lia. }
  split; [exact Hz|].
  assert (HZ1 : -128 <= IZR n <= 128) by (split; apply IZR_le; lia).
  split. { unfold L, Cs in *. apply Rabs_le_between. lra. }
  unfold exp256_lane.
  assert (E1 : vmin x c_exp_hi = x).
  { unfold vmin. simpl. destruct (Rltb_spec x (883762626647949 / 10000000000000)) as [l|l]; auto. lra. }
  assert (E2 : vmax x c_exp_lo = x).
  { unfold vmax, fgt. simpl. destruct (Rltb_spec (-883762626647949 / 10000000000000) x) as [l|l]; auto. lra. }
  rewrite E1, E2. cbv zeta. unfold c_LOG2EF, c_half, c_C1, c_C2, c_p0, c_p1, c_p2, c_p3, c_p4, c_p5, fgt.
  simpl. fold L. fold n.
  assert (EB : Rltb (x * L + 1 / 2) (IZR n) = false).
  { clearbody n. destruct (Rltb_spec (x * L + 1 / 2) (IZR n)) as [l|l]; [exfalso; lra|reflexivity]. }
  rewrite EB. rewrite Rminus_0_r, Int_part_IZR. f_equal.
  replace (x - IZR n * (693359375 / 1000000000) - IZR n * (-212194440 / 1000000000000)) with (x - IZR n * Cs)
    by (unfold Cs; field).
  unfold poly. ring.
Qed.

Lemma exp_pow a k : exp a ^ k = exp (INR k * a).
Proof.
  induction k; [simpl; rewrite Rmult_0_l, exp_0; auto|]. rewrite S_INR. simpl. rewrite IHk, <- exp_plus. f_equal. ring.
Qed.
Lemma exp_powerRZ a n : powerRZ (exp a) n = exp (IZR n * a).
Proof.
  destruct n as [|p|p].
  - simpl. rewrite Rmult_0_l, exp_0. reflexivity.
  - simpl. rewrite exp_pow, INR_IZR_INZ, positive_nat_Z. reflexivity.
  - simpl. rewrite exp_pow, INR_IZR_INZ, positive_nat_Z, <- exp_Ropp. f_equal.
    rewrite <- Pos2Z.opp_pos, opp_IZR. ring.
Qed.
Lemma exp256_ratio x : - e_hi <= x <= e_hi -> Rabs (@exp256_lane opsR x * exp (- x) - 1) <= 1 / 10^7.
Proof.
  intros H. destruct (exp256_in x H) as (n & Hn & Hr & ->). set (r := x - IZR n * Cs) in *.
  assert (E : poly r * powerRZ 2 n * exp (- x) = (poly r * exp (- r)) * powerRZ (exp (- Cs) * 2) n).
  { rewrite powerRZ_mult. rewrite exp_powerRZ.
    replace (- x) with (- r + IZR n * - Cs) by (unfold r; ring). rewrite exp_plus. ring. }
  rewrite E. set (p := poly r * exp (- r)). set (v := powerRZ (exp (- Cs) * 2) n).
  assert (Hp : Rabs (p - 1) <= 70 / 10^9) by (apply poly_exp; auto).
  assert (Hv : Rabs (v - 1) <= 11 / 10^9) by (apply powerRZ_near1; auto; apply exp_Cs).
  replace (p * v - 1) with ((p - 1) * (v - 1) + (p - 1) + (v - 1)) by ring.
  eapply Rle_trans; [apply Rabs_triang|]. eapply Rle_trans; [apply Rplus_le_compat_r, Rabs_triang|].
  rewrite Rabs_mult. assert (Rabs (p - 1) * Rabs (v - 1) <= 70/10^9 * (11/10^9)).
  { apply Rmult_le_compat; auto using Rabs_pos. }
  lra.
Qed.

Lemma rel_of_ratio y x e : Rabs (y * exp (- x) - 1) <= e -> Rabs (y - exp x) <= e * exp x.
Proof.
  intros H. assert (P : exp (- x) * exp x = 1) by (rewrite <- exp_plus, Rplus_opp_l, exp_0; auto).
  replace (y - exp x) with ((y * exp (- x) - 1) * exp x).
  - rewrite Rabs_mult, (Rabs_pos_eq (exp x)) by (left; apply exp_pos). apply Rmult_le_compat_r; auto. left; apply exp_pos.
  - rewrite Rmult_minus_distr_r, Rmult_assoc, P. ring.
Qed.

(** clamping *)
Definition clamp (x : R) : R := Rmax (- e_hi) (Rmin e_hi x).
Lemma exp256_clamp x : @exp256_lane opsR x = @exp256_lane opsR (clamp x).
Proof.
  assert (E : forall y, vmax (vmin y c_exp_hi) c_exp_lo = clamp y).
  { intros y. unfold vmax, vmin, fgt, clamp, e_hi. simpl.
    replace (- (883762626647949 / 10000000000000)) with (-883762626647949 / 10000000000000) by field.
    destruct (Rltb_spec y (883762626647949 / 10000000000000)) as [l|l];
    [rewrite Rmin_right by lra|rewrite Rmin_left by lra];
    match goal with |- context [Rltb ?a ?b] => destruct (Rltb_spec a b) end;
    first [rewrite Rmax_right by lra; lra|rewrite Rmax_left by lra; lra]. }
  unfold exp256_lane. rewrite (E x), (E (clamp x)).
  assert (C : clamp (clamp x) = clamp x).
  { unfold clamp, e_hi, Rmax, Rmin. repeat destruct (Rle_dec _ _); lra. }
  rewrite C. reflexivity.
Qed.
Lemma clamp_in x : - e_hi <= clamp x <= e_hi.
Proof. unfold clamp, e_hi, Rmax, Rmin. repeat destruct (Rle_dec _ _); lra. Qed.
Lemma clamp_id x : - e_hi <= x <= e_hi -> clamp x = x.
Proof. unfold clamp, e_hi, Rmax, Rmin. intros. repeat destruct (Rle_dec _ _); lra. Qed.

Theorem exp256_rel x : Rabs (@exp256_lane opsR x - exp (clamp x)) <= 1 / 10^7 * exp (clamp x).
Proof. rewrite exp256_clamp. apply rel_of_ratio, exp256_ratio, clamp_in. Qed.

(** exp outside of the range is negligible *)
Lemma exp_lo_small : exp (- e_hi) <= 1 / 10^30.
Proof.
  assert (H : exp (- e_hi) <= exp (- (1)) ^ 88).
  { rewrite exp_pow. replace (INR 88) with 88 by (rewrite INR_IZR_INZ; reflexivity).
    left. apply exp_increasing. unfold e_hi. lra. }
  eapply Rle_trans; [exact H|].
  assert (E1 : exp (- (1)) <= 4/10).
  { rewrite exp_Ropp. replace (4/10) with (/ (5/2)) by field. apply Rinv_le_contravar; [lra|].
    (* e >= (1 + 1/4)^4 ... use exp (1/8)^8 *)
    replace 1 with (INR 8 * (1/8)) by (rewrite INR_IZR_INZ; simpl; field). rewrite <- exp_pow.
    apply Rle_trans with ((1 + 1/8)^8); [lra|]. apply pow_incr. pose proof (exp_ineq1_le (1/8)). lra. }
  apply Rle_trans with ((4/10)^88); [|lra]. apply pow_incr. split; [left; apply exp_pos|auto].
Qed.
