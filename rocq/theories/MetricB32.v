(** MetricB32.v -- the crossentropies are finite in binary32 *)
From Coq Require Import ZArith Bool List Arith Reals Lia Lra.
From Flocq Require Import Core BinarySingleNaN.
From Verif Require Import Base Ops OpsB32 B32Facts Mem Loss MetricProofs.
Import ListNotations.
Local Open Scope R_scope.

Notation rnd := (round radix2 (SpecFloat.fexp 24 128) (round_mode mode_NE)).
Notation fmt := (generic_format radix2 (SpecFloat.fexp 24 128)).
Notation fin := (@is_finite 24 128).
Notation bv := (@B2R 24 128).

#[local] Instance vexp : Valid_exp (SpecFloat.fexp 24 128) := fexp_correct 24 128 prec_gt_0_32.

Lemma rnd_le_abs x b : fmt b -> Rabs x <= b -> Rabs (rnd x) <= b.
Proof.
  intros Fb H. apply abs_round_le_generic; auto with typeclass_instances. 
Qed.
Lemma fmt_bpow e : (-149 <= e)%Z -> fmt (bpow radix2 e).
Proof. intros H. apply generic_format_bpow. unfold SpecFloat.fexp, SpecFloat.emin. lia. Qed.

Lemma plus_bnd (x y : b32) b : fin x = true -> fin y = true -> Rabs (rnd (bv x + bv y)) <= b -> b < bpow radix2 128 ->
  fin (Bplus mode_NE x y) = true /\ bv (Bplus mode_NE x y) = rnd (bv x + bv y) /\ Rabs (bv (Bplus mode_NE x y)) <= b.
Proof.
  intros Fx Fy H Hb. pose proof (Bplus_correct 24 128 _ _ mode_NE x y Fx Fy) as C.
  rewrite Rlt_bool_true in C by lra. destruct C as (C1 & C2 & C3). rewrite C1. auto.
Qed.
Lemma minus_bnd (x y : b32) b : fin x = true -> fin y = true -> Rabs (rnd (bv x - bv y)) <= b -> b < bpow radix2 128 ->
  fin (Bminus mode_NE x y) = true /\ bv (Bminus mode_NE x y) = rnd (bv x - bv y).
Proof.
  intros Fx Fy H Hb. pose proof (Bminus_correct 24 128 _ _ mode_NE x y Fx Fy) as C.
  rewrite Rlt_bool_true in C by lra. destruct C as (C1 & C2 & C3). auto.
Qed.
Lemma mult_bnd (x y : b32) b : fin x = true -> fin y = true -> Rabs (rnd (bv x * bv y)) <= b -> b < bpow radix2 128 ->
  fin (Bmult mode_NE x y) = true /\ Rabs (bv (Bmult mode_NE x y)) <= b.
Proof.
  intros Fx Fy H Hb. pose proof (Bmult_correct 24 128 _ _ mode_NE x y) as C.
  rewrite Rlt_bool_true in C by lra. destruct C as (C1 & C2 & C3). rewrite C1, C2, Fx, Fy. auto.
Qed.

(** ** the clipped prediction *)
Definition eps32 : b32 := b32_lit 1 10000000.
Lemma sf_R (x : b32) s m e : B2SF x = SpecFloat.S754_finite s m e -> bv x = F2R (Float radix2 (cond_Zopp s (Zpos m)) e) /\ fin x = true.
Proof. destruct x; simpl; intros H; inversion H; subst; auto. Qed.
Lemma eps32_R : bv eps32 = IZR 14073749 / IZR (2 ^ 47) /\ fin eps32 = true.
Proof.
  destruct (sf_R eps32 false 14073749 (-47)) as [E1 E2]. { vm_compute. reflexivity. }
  split; [rewrite E1; unfold F2R; simpl; lra|exact E2].
Qed.
Definition top32 : b32 := Bminus mode_NE (b32_ofZ 1) eps32.
Lemma top32_R : bv top32 = 1 - / IZR (2 ^ 23) /\ fin top32 = true.
Proof.
  destruct (sf_R top32 false 16777214 (-24)) as [E1 E2]. { vm_compute. reflexivity. }
  split; [rewrite E1; unfold F2R; simpl; lra|exact E2].
Qed.

Lemma ltb_R (x y : b32) : fin x = true -> fin y = true -> Bltb x y = Rlt_bool (bv x) (bv y).
Proof.
  intros Fx Fy. unfold Bltb, SpecFloat.SFltb. pose proof (Bcompare_correct 24 128 x y Fx Fy) as C. unfold Bcompare in C. rewrite C.
  unfold Rlt_bool. destruct (Rcompare (bv x) (bv y)); reflexivity.
Qed.

Lemma clip_fin (lm : libm) (p : b32) : let q := @clip (opsB32 lm) p in fin q = true /\ bv eps32 <= bv q <= bv top32.
Proof.
  cbv zeta. change (@clip (opsB32 lm) p) with (b32_min (b32_max p eps32) top32).
  destruct eps32_R as [Ee Fe], top32_R as [Et Ft].
  assert (ET : bv eps32 <= bv top32) by (rewrite Ee, Et; lra).
  assert (N : is_nan eps32 = false) by (vm_compute; reflexivity).
  assert (Nt : is_nan top32 = false) by (vm_compute; reflexivity).
  assert (L : Bltb top32 eps32 = false) by (rewrite ltb_R by auto; apply Rlt_bool_false; auto).
  assert (Q1 : b32_min eps32 top32 = eps32) by (unfold b32_min; rewrite N, Nt, L; reflexivity).
  unfold b32_max. rewrite N. destruct (is_nan p) eqn:Np. { rewrite Q1. split; [auto|lra]. }
  destruct (Bltb p eps32) eqn:Lp. { rewrite Q1. split; [auto|lra]. }
  unfold b32_min. rewrite Np, Nt. destruct (Bltb top32 p) eqn:Lt. { split; [auto|lra]. }
  assert (Fp : fin p = true).
  { destruct p as [s|s| |s mm e B]; auto; try discriminate. destruct s; [vm_compute in Lp|vm_compute in Lt]; discriminate. }
  rewrite ltb_R in Lp, Lt by auto. split; auto.
  destruct (Rlt_bool_spec (bv p) (bv eps32)), (Rlt_bool_spec (bv top32) (bv p)); try discriminate. lra.
Qed.

Lemma one_minus_clip (lm : libm) (p : b32) : let q := Bminus mode_NE (b32_ofZ 1) (@clip (opsB32 lm) p) in
  fin q = true /\ bv eps32 <= bv q <= 1.
Proof.
  cbv zeta. destruct (clip_fin lm p) as [Fq Bq]. set (q := @clip (opsB32 lm) p) in *.
  destruct eps32_R as [Ee Fe], top32_R as [Et Ft]. rewrite Ee, Et in Bq.
  assert (K : / IZR (2 ^ 23) <= rnd (bv (b32_ofZ 1) - bv q) <= 1).
  { rewrite one_R. split.
    - apply round_ge_generic; auto with typeclass_instances.
      + replace (/ IZR (2 ^ 23)) with (bpow radix2 (-23)) by (simpl; lra). apply fmt_bpow. lia.
      + lra.
    - apply round_le_generic; auto with typeclass_instances.
      + replace 1 with (bpow radix2 0) by reflexivity. apply fmt_bpow. lia.
      + simpl Z.pow in *. lra. }
  destruct (minus_bnd (b32_ofZ 1) q 1 one_fin Fq) as [F1 F2].
  - simpl Z.pow in *. apply Rabs_le. lra.
  - replace 1 with (bpow radix2 0) by reflexivity. apply bpow_lt. lia.
  - split; auto. change (@Bminus 24 128 _ _ mode_NE (b32_ofZ 1) q) with (Bminus mode_NE (b32_ofZ 1) q) in *. rewrite F2, Ee. simpl Z.pow in *. lra.
Qed.

(** ** accumulation saturates *)
Lemma saturate v : Rabs v <= bpow radix2 33 + 64 -> Rabs (rnd v) <= bpow radix2 33.
Proof.
  assert (G : forall v, 0 <= v <= bpow radix2 33 + 64 -> Rabs (rnd v) <= bpow radix2 33).
  { clear v. intros v [H0 H]. assert (F33 : fmt (bpow radix2 33)) by (apply fmt_bpow; lia).
    destruct (Rle_or_lt v (bpow radix2 33)). { apply rnd_le_abs; auto. rewrite Rabs_pos_eq; auto. }
    assert (P : 0 <= rnd v). { apply round_ge_generic; auto with typeclass_instances. apply generic_format_0. }
    rewrite Rabs_pos_eq by auto. apply Rnot_lt_le. intros C.
    assert (S : succ radix2 (SpecFloat.fexp 24 128) (bpow radix2 33) <= rnd v).
    { apply succ_le_lt; auto with typeclass_instances. apply generic_format_round; auto with typeclass_instances. }
    rewrite succ_eq_pos in S by apply bpow_ge_0. rewrite ulp_bpow in S.
    change (SpecFloat.fexp 24 128 (33 + 1)) with 10%Z in S.
    assert (N : Rabs (rnd v - v) <= Rabs (bpow radix2 33 - v)).
    { apply (round_N_pt radix2 (SpecFloat.fexp 24 128) (fun x => negb (Z.even x)) v). auto. }
    rewrite (Rabs_left (bpow radix2 33 - v)) in N by lra. apply Rabs_le_inv in N.
    change (bpow radix2 10) with 1024 in S. lra. }
  intros H. destruct (Rle_or_lt 0 v).
  - apply G. rewrite Rabs_pos_eq in H by auto. auto.
  - rewrite <- (Ropp_involutive v), round_NE_opp, Rabs_Ropp. apply G. rewrite Rabs_left in H by auto. lra.
Qed.

(** what is assumed about logf: finite and below 32 in absolute value between 1e-7f and 1 *)
Definition logf_ok (lm : libm) : Prop :=
  forall x : b32, fin x = true -> bv eps32 <= bv x <= 1 -> fin (lm_log lm x) = true /\ Rabs (bv (lm_log lm x)) <= 32.
(** targets are probabilities *)
Definition prob32 (r : b32) : Prop := fin r = true /\ 0 <= bv r <= 1.

Lemma b128 : 64 < bpow radix2 128 /\ 32 < bpow radix2 128 /\ 1 < bpow radix2 128.
Proof.
  assert (bpow radix2 7 < bpow radix2 128) by (apply bpow_lt; lia). change (bpow radix2 7) with 128 in H. lra.
Qed.

Lemma term_bnd (r l : b32) : prob32 r -> fin l = true -> Rabs (bv l) <= 32 ->
  fin (Bmult mode_NE r l) = true /\ Rabs (bv (Bmult mode_NE r l)) <= 32.
Proof.
  intros [Fr Br] Fl Bl. apply mult_bnd; auto; [|apply b128]. apply rnd_le_abs.
  - change 32 with (bpow radix2 5). apply fmt_bpow. lia.
  - rewrite Rabs_mult. rewrite (Rabs_pos_eq (bv r)) by lra.
    apply Rle_trans with (1 * 32); [|lra]. apply Rmult_le_compat; try lra. apply Rabs_pos.
Qed.
Lemma one_minus_prob (r : b32) : prob32 r -> prob32 (Bminus mode_NE (b32_ofZ 1) r).
Proof.
  intros [Fr Br].
  assert (K : 0 <= rnd (bv (b32_ofZ 1) - bv r) <= 1).
  { rewrite one_R. split.
    - apply round_ge_generic; auto with typeclass_instances. apply generic_format_0. lra.
    - apply round_le_generic; auto with typeclass_instances; [|lra]. replace 1 with (bpow radix2 0) by reflexivity. apply fmt_bpow. lia. }
  destruct (minus_bnd (b32_ofZ 1) r 1 one_fin Fr) as [F1 F2]; [apply Rabs_le; lra|apply b128|].
  split; auto. rewrite F2. auto.
Qed.

Lemma acc_bnd (e t : b32) : fin e = true -> Rabs (bv e) <= bpow radix2 33 -> fin t = true -> Rabs (bv t) <= 64 ->
  fin (Bplus mode_NE e t) = true /\ Rabs (bv (Bplus mode_NE e t)) <= bpow radix2 33.
Proof.
  intros Fe Be Ft Bt. destruct (plus_bnd e t (bpow radix2 33)) as (A & B & C); auto.
  - apply saturate. apply Rabs_le. apply Rabs_le_inv in Be. apply Rabs_le_inv in Bt. lra.
  - apply bpow_lt. lia.
Qed.

Section Fold.
Variable lm : libm.
Hypothesis LG : logf_ok lm.
Notation OP := (opsB32 lm).

Lemma step_bnd t (e p r : b32) : (t = M_BCE \/ t = M_CCE) -> prob32 r -> fin e = true -> Rabs (bv e) <= bpow radix2 33 ->
  fin (@step OP t e p r) = true /\ Rabs (bv (@step OP t e p r)) <= bpow radix2 33.
Proof.
  intros Ht Pr Fe Be. destruct (clip_fin lm p) as [Fc Bc]. destruct (one_minus_clip lm p) as [Fd Bd].
  assert (Bc' : bv (@clip OP p) <= 1). { destruct top32_R as [E _]. rewrite E in Bc. simpl Z.pow in Bc. lra. }
  destruct (LG _ Fc ltac:(lra)) as [Fl Bl]. destruct (LG _ Fd ltac:(lra)) as [Fl2 Bl2].
  destruct (term_bnd r _ Pr Fl Bl) as [T1 T2].
  destruct Ht as [-> | ->].
  - change (@step OP M_BCE e p r) with (Bplus mode_NE e (Bplus mode_NE (Bmult mode_NE r (lm_log lm (@clip OP p)))
      (Bmult mode_NE (Bminus mode_NE (b32_ofZ 1) r) (lm_log lm (Bminus mode_NE (b32_ofZ 1) (@clip OP p)))))).
    destruct (term_bnd _ _ (one_minus_prob r Pr) Fl2 Bl2) as [U1 U2].
    destruct (plus_bnd _ _ 64 T1 U1) as (V1 & V2 & V3); [|apply b128|apply acc_bnd; auto].
    apply rnd_le_abs. { change 64 with (bpow radix2 6). apply fmt_bpow. lia. }
    apply Rabs_le. apply Rabs_le_inv in T2. apply Rabs_le_inv in U2. lra.
  - change (@step OP M_CCE e p r) with (Bplus mode_NE e (Bmult mode_NE r (lm_log lm (@clip OP p)))).
    apply acc_bnd; auto. lra.
Qed.

Lemma fold_bnd t : (t = M_BCE \/ t = M_CCE) -> forall (ps rs : list b32) (e : b32), Forall prob32 rs -> fin e = true -> Rabs (bv e) <= bpow radix2 33 ->
  fin (@fold2 OP (@step OP t) e ps rs) = true /\ Rabs (bv (@fold2 OP (@step OP t) e ps rs)) <= bpow radix2 33.
Proof.
  intros Ht. induction ps as [|p ps IH]; intros rs e Hr Fe Be; [auto|]. destruct rs as [|r rs]; [auto|].
  inversion Hr; subst. unfold fold2. cbn [combine fold_left fst snd].
  destruct (step_bnd t e p r Ht H1 Fe Be) as [A B]. apply (IH rs (@step OP t e p r)); auto.
Qed.

Lemma ofZ_ge1 n : (1 <= n)%nat -> b32_ofZ (Z.of_nat n) = B754_infinity false \/ (fin (b32_ofZ (Z.of_nat n)) = true /\ 1 <= bv (b32_ofZ (Z.of_nat n))).
Proof.
  intros Hn. pose proof (binary_normalize_correct 24 128 _ _ mode_NE (Z.of_nat n) 0 false) as C. cbv zeta in C.
  assert (E : F2R (Float radix2 (Z.of_nat n) 0) = IZR (Z.of_nat n)) by (unfold F2R; simpl; lra).
  rewrite E in C. assert (P : 1 <= IZR (Z.of_nat n)) by (apply IZR_le; lia).
  change (binary_normalize 24 128 prec_gt_0_32 prec_lt_emax_32 mode_NE (Z.of_nat n) 0 false) with (b32_ofZ (Z.of_nat n)) in C.
  destruct (Rlt_bool_spec (Rabs (rnd (IZR (Z.of_nat n)))) (bpow radix2 128)).
  - right. destruct C as (C1 & C2 & C3). split; auto. rewrite C1. apply round_ge_generic; auto with typeclass_instances.
    replace 1 with (bpow radix2 0) by reflexivity. apply fmt_bpow. lia.
  - left. rewrite Rlt_bool_false in C by lra. apply B2SF_inj. rewrite C. reflexivity.
Qed.

Lemma div_fin (x y : b32) : fin x = true -> Rabs (bv x) <= bpow radix2 33 -> (y = B754_infinity false \/ (fin y = true /\ 1 <= bv y)) ->
  fin (Bdiv mode_NE x y) = true.
Proof.
  intros Fx Bx [->|[Fy By]].
  - destruct x; try discriminate; reflexivity.
  - pose proof (Bdiv_correct 24 128 _ _ mode_NE x y ltac:(lra)) as C.
    rewrite Rlt_bool_true in C. { destruct C as (C1 & C2 & C3). rewrite C2. auto. }
    apply Rle_lt_trans with (bpow radix2 33); [|apply bpow_lt; lia].
    apply rnd_le_abs; [apply fmt_bpow; lia|]. unfold Rdiv. rewrite Rabs_mult.
    apply Rle_trans with (bpow radix2 33 * 1); [|lra]. apply Rmult_le_compat; auto using Rabs_pos.
    rewrite Rabs_pos_eq. { rewrite <- Rinv_1. apply Rinv_le; lra. } left. apply Rinv_0_lt_compat. lra.
Qed.

Lemma crossentropy_fin t (ps rs : list b32) : (t = M_BCE \/ t = M_CCE) -> (1 <= length ps)%nat -> Forall prob32 rs ->
  fin (@metric_f OP t ps rs) = true.
Proof.
  intros Ht Hn Hr.
  destruct (fold_bnd t Ht ps rs b32_zero Hr eq_refl) as [A B]. { change (bv b32_zero) with 0. rewrite Rabs_R0. apply bpow_ge_0. }
  assert (G : fin (Bdiv mode_NE (Bopp (@fold2 OP (@step OP t) b32_zero ps rs)) (b32_ofZ (Z.of_nat (length ps)))) = true).
  { apply div_fin; [rewrite is_finite_Bopp; auto|rewrite B2R_Bopp, Rabs_Ropp; auto|apply ofZ_ge1; auto]. }
  destruct Ht as [-> | ->]; exact G.
Qed.
End Fold.
