(** Prop_ExpB32.v -- C67, C68, C69: exp256_ps and the activation functions in binary32 *)
From Coquelicot Require Import Coquelicot.
From Flocq Require Import Core BinarySingleNaN.
From Coq Require Import ZArith Bool List Arith Reals Lia Lra.
From Verif Require Import Base BaseProofs Ops Mem MemProofs Kernels KernelProofs Activation ActivationProofs
  OpsB32 B32Facts MetricB32 InitProofs SpecReal RealForward SpecBits BitsProofs SpecMem ActPropProofs SpecRound SpecLibm SpecActFloat RoundProofs
  Exp256 Exp256B32 Exp256Reduce ExpB32Proofs ActB32 SoftmaxB32 ActReal RoundNet LibmCase.
Import ListNotations.
Local Open Scope R_scope.

(** C67: one lane of exp256_ps, all operations rounded: relative error at most 4e-7 (6.8 units of 2^-24) *)
Theorem exp256_float_accurate (lm : libm) (x : b32) : is_finite x = true -> - (8768 / 100) <= B2R x <= 88376 / 1000 ->
  let v := @exp256_lane (opsB32 lm) x in
  is_finite v = true /\ Rabs (B2R v - exp (B2R x)) <= 4 / 10 ^ 7 * exp (B2R x).
Proof.
  intros Fx Hx. destruct (exp256_b32 lm x) as (F & _ & A & _). split; [exact F|]. apply A; [exact Fx|lra].
Qed.
Print Assumptions exp256_float_accurate.

(** C67: for every other input the result is still a number: not NaN, not infinite, not negative; 0 far below, one
    constant far above *)
Theorem exp256_float_total (lm : libm) (x : b32) : let v := @exp256_lane (opsB32 lm) x in
  is_finite v = true /\ 0 <= B2R v /\
  (is_finite x = true -> B2R x < - (8769 / 100) -> v = b32_zero) /\ (x = B754_infinity true -> v = b32_zero) /\
  (is_finite x = true -> 88377 / 1000 <= B2R x -> v = @exp256_lane (opsB32 lm) (B754_infinity false)) /\
  23 * 10 ^ 37 <= B2R (@exp256_lane (opsB32 lm) (B754_infinity false)) <= 25 * 10 ^ 37.
Proof.
  destruct (exp256_b32 lm x) as (F & P & _ & Z & _ & T & N). cbv zeta. destruct top_val as (FT & BT).
  destruct (exp256_b32 lm (B754_infinity false)) as (_ & _ & _ & _ & _ & _ & NI).
  assert (EI : @exp256_lane (opsB32 lm) (B754_infinity false) = res32 k_hi) by (destruct (NI eq_refl) as [E|(_ & E)]; [exact E|discriminate E]).
  rewrite EI. split; [exact F|]. split; [exact P|]. split; [exact Z|]. split; [|split; [|exact BT]].
  - intros ->. destruct (N eq_refl) as [E|(E & _)]; [|exact E]. exfalso.
    assert (L : @exp256_lane (opsB32 lm) (B754_infinity true) = b32_zero) by (rewrite lane32, clamp_ninf; vm_compute; reflexivity).
    rewrite L in E. rewrite <- E in BT. change (bv b32_zero) with 0 in BT. lra.
  - intros Fx Hx. apply T; [exact Fx|lra].
Qed.
Print Assumptions exp256_float_total.

(** C67 is false on the rest of the range of expf: exp(88.6875) is a float, the result is off by a quarter of it;
    exp(-88) is positive, the result is 0 *)
Lemma e_big : 327 * 10 ^ 36 <= exp (88 + 11/16) <= 331 * 10 ^ 36.
Proof.
  set (x := b32_lit 707 8). assert (X : fin x = true /\ bv x = 707/8).
  { unfold x. let v := eval vm_compute in (B2SF (b32_lit 707 8)) in match v with SpecFloat.S754_finite ?s ?m ?e => destruct (sf_R (b32_lit 707 8) s m e) as [Q F]; [vm_compute; reflexivity|] end.
    split; [exact F|]. rewrite Q. unfold F2R. simpl. lra. }
  destruct X as (Fx & Bx). destruct (exp256_b32 lm_rounded x) as (_ & _ & A & _). cbv zeta in A. specialize (A Fx). rewrite Bx in A. specialize (A ltac:(lra)).
  rewrite lane32 in A. assert (V : 2403 * 10 ^ 35 <= bv (res32 (clamp32 x)) <= 2404 * 10 ^ 35).
  { unfold x. let v := eval vm_compute in (B2SF (res32 (clamp32 (b32_lit 707 8)))) in match v with SpecFloat.S754_finite ?s ?m ?e => destruct (sf_R (res32 (clamp32 (b32_lit 707 8))) s m e) as [Q F]; [vm_compute; reflexivity|] end.
    rewrite Q. unfold F2R. simpl. lra. }
  set (v := bv (res32 (clamp32 x))) in *. clearbody v. clear Bx Fx x. replace (88 + 11/16) with (707/8 + 5/16) by lra. rewrite exp_plus.
  pose proof (exp_pos (707/8)) as PE. set (e := exp (707/8)) in *. clearbody e. apply Rabs_le_between in A.
  assert (L : 1362/1000 <= exp (5/16)).
  { replace (5/16) with (INR 16 * (5/256)) by (rewrite INR_IZR_INZ; simpl; lra). rewrite <- exp_pow.
    apply Rle_trans with ((1 + 5/256) ^ 16); [lra|]. apply pow_incr. pose proof (exp_ineq1_le (5/256)). lra. }
  assert (U : exp (5/16) <= 1372/1000).
  { assert (H : 1000/1372 <= exp (- (5/16))).
    { replace (- (5/16)) with (INR 16 * - (5/256)) by (rewrite INR_IZR_INZ; simpl; lra). rewrite <- exp_pow.
      apply Rle_trans with ((1 - 5/256) ^ 16); [lra|]. apply pow_incr. pose proof (exp_ineq1_le (- (5/256))). lra. }
    rewrite exp_Ropp in H. pose proof (exp_pos (5/16)) as P. set (t := exp (5/16)) in *. clearbody t.
    assert (t * / t = 1) by (apply Rinv_r; lra). assert (t * (1000/1372) <= 1) by nra. lra. }
  set (t := exp (5/16)) in *. clearbody t.
  assert (E1 : 24029 * 10 ^ 34 <= e <= 24041 * 10 ^ 34) by lra. clear A V.
  assert (24029 * 10 ^ 34 * (1362/1000) <= e * t) by (apply Rmult_le_compat; lra).
  assert (e * t <= 24041 * 10 ^ 34 * (1372/1000)) by (apply Rmult_le_compat; lra). lra.
Qed.
Theorem exp256_whole_range_refuted (lm : libm) : exists x y : b32,
  is_finite x = true /\ 10 ^ 38 <= exp (B2R x) <= 34 * 10 ^ 37 /\ 1 / 4 * exp (B2R x) <= Rabs (B2R (@exp256_lane (opsB32 lm) x) - exp (B2R x)) /\
  is_finite y = true /\ - 88 <= B2R y /\ @exp256_lane (opsB32 lm) y = b32_zero.
Proof.
  exists (b32_lit 1419 16), (b32_lit (-88) 1).
  assert (X : fin (b32_lit 1419 16) = true /\ bv (b32_lit 1419 16) = 88 + 11/16).
  { let v := eval vm_compute in (B2SF (b32_lit 1419 16)) in match v with SpecFloat.S754_finite ?s ?m ?e => destruct (sf_R (b32_lit 1419 16) s m e) as [Q F]; [vm_compute; reflexivity|] end.
    split; [exact F|]. rewrite Q. unfold F2R. simpl. lra. }
  assert (Y : fin (b32_lit (-88) 1) = true /\ bv (b32_lit (-88) 1) = - 88).
  { let v := eval vm_compute in (B2SF (b32_lit (-88) 1)) in match v with SpecFloat.S754_finite ?s ?m ?e => destruct (sf_R (b32_lit (-88) 1) s m e) as [Q F]; [vm_compute; reflexivity|] end.
    split; [exact F|]. rewrite Q. unfold F2R. simpl. lra. }
  destruct X as (Fx & Bx). destruct Y as (Fy & By). rewrite !Bx, !By. pose proof e_big as E.
  destruct (exp256_b32 lm (b32_lit 1419 16)) as (_ & _ & _ & _ & _ & T & _). destruct (exp256_b32 lm (b32_lit (-88) 1)) as (_ & _ & _ & Z & _). cbv zeta in *.
  split; [exact Fx|]. split; [lra|]. split; [|split; [exact Fy|split; [lra|apply Z; [exact Fy|rewrite By; lra]]]].
  rewrite T by (try exact Fx; rewrite Bx; lra).
  assert (V : bv (res32 k_hi) <= 2407 * 10 ^ 35).
  { let v := eval vm_compute in (B2SF (res32 k_hi)) in match v with SpecFloat.S754_finite ?s ?m ?e => destruct (sf_R (res32 k_hi) s m e) as [Q F]; [vm_compute; reflexivity|] end.
    rewrite Q. unfold F2R. simpl. lra. }
  set (w := bv (res32 k_hi)) in *. clearbody w. rewrite Rabs_left1 by lra. lra.
Qed.
Print Assumptions exp256_whole_range_refuted.

(** C68: every activation function, in every build, in binary32: the error is at most [float_err] *)
Lemma hs_R2 (x : b32) : fin x = true ->
  let y := if Bltb x (b32_lit (-5) 2) then b32_zero else if Bltb (b32_lit 5 2) x then b32_ofZ 1
           else Bplus mode_NE (Bmult mode_NE (b32_lit 1 5) x) (b32_lit 1 2) in
  fin y = true /\ Rabs (bv y - hs (bv x)) <= 4 / 2 ^ 24.
Proof.
  intros Fx y. destruct (hs_R x Fx) as (F & E). fold y in F, E. split; [exact F|]. pose proof u32_val as U. pose proof eta32_tiny as T.
  assert (C : bv y = hs (bv x) \/ Rabs (bv x) <= 5/2).
  { unfold y. rewrite !ltb_R by (exact Fx || reflexivity). rewrite lit_lo, lit_hi.
    destruct (Rlt_bool_spec (bv x) (- 5 / 2)) as [L|L].
    - left. change (bv b32_zero) with 0. unfold hs. rewrite Rmin_right, Rmax_left by lra. reflexivity.
    - destruct (Rlt_bool_spec (5 / 2) (bv x)) as [H|H].
      + left. rewrite one_R. unfold hs. rewrite Rmin_left, Rmax_right by lra. reflexivity.
      + right. apply Rabs_le. lra. }
  destruct C as [->|C]; [replace (hs (bv x) - hs (bv x)) with 0 by ring; rewrite Rabs_R0; lra|].
  eapply Rle_trans; [exact E|]. rewrite U.
  assert (((1 + 1 / 16777216) ^ 3 - 1) * (Rabs (bv x) / 5 + 1 / 2) <= ((1 + 1 / 16777216) ^ 3 - 1) * 1) by (apply Rmult_le_compat_l; lra). lra.
Qed.
Theorem activation_float_accurate (lm : libm) (c : cfg) (g : act) (m : @mem (opsB32 lm)) (p : ptr) (xs : list b32) :
  @holds (opsB32 lm) m p xs -> (1 <= length xs)%nat -> act_pre c g m p (length xs) ->
  needs lm g -> float_width g (length xs) -> Forall (fun x => is_finite x = true /\ float_dom g (B2R x)) xs ->
  let n := length xs in
  let y := act_math g n (vec (map (@B2R 24 128) xs)) in
  exists ys : list b32,
    writes_only (@activation_func (opsB32 lm) c (@exp256_lane (opsB32 lm)) g n p) m p ys /\ length ys = n /\
    forall j, (j < n)%nat -> is_finite (nth j ys b32_zero) = true /\ Rabs (B2R (nth j ys b32_zero) - y j) <= float_err g n (y j).
Proof.
  intros H L A NE WD FX n y. exists (@act_f (opsB32 lm) c (@exp256_lane (opsB32 lm)) g (addr m p) xs).
  split; [apply (activation_writes (opsB32 lm)); auto|]. split; [apply (length_act_f (FO := opsB32 lm))|]. intros j Hj.
  pose proof (act_f_rel (FO := opsB32 lm) c (@exp256_lane (opsB32 lm)) g (addr m p) xs (not_nil _ _ L)) as R.
  set (ys := @act_f (opsB32 lm) c (@exp256_lane (opsB32 lm)) g (addr m p) xs) in *. change (@F (opsB32 lm)) with b32 in *. clearbody ys.
  assert (FJ : fin (nth j xs b32_zero) = true /\ float_dom g (bv (nth j xs b32_zero))) by (rewrite Forall_forall in FX; apply FX, nth_In; exact Hj).
  destruct FJ as (Fj & Dj). pose proof u32_val as U. pose proof eta32_tiny as T.
  assert (VJ : vec (map (@B2R 24 128) xs) j = bv (nth j xs b32_zero)) by (unfold vec; rewrite <- (map_nth (@B2R 24 128)); reflexivity).
  unfold y. destruct g; cbn [act_rel] in R; cbn [act_math act_math1 float_err needs float_dom float_width] in *; rewrite ?VJ.
  - set (f := fun x : b32 => lm_log lm (Bplus mode_NE (lm_exp lm x) (b32_ofZ 1))). change (ys = map f xs) in R. subst ys.
    rewrite (nth_map32 f) by exact Hj. destruct NE as (AE & AL). destruct (softplus_R lm _ AE AL Fj Dj) as (F & E). split; [exact F|].
    fold (softplus (bv (nth j xs b32_zero))). assert (SP : 0 <= softplus (bv (nth j xs b32_zero))).
    { unfold softplus. rewrite <- ln_1. apply ln_mono; [lra|]. pose proof (exp_pos (bv (nth j xs b32_zero))). lra. }
    rewrite (Rabs_pos_eq (softplus _)) in E by exact SP. eapply Rle_trans; [exact E|]. rewrite U. set (q := softplus _) in *. clearbody q.
    assert (((1 + 1 / 16777216) ^ 7 - 1) * q <= 5 / 10 ^ 7 * q) by (apply Rmult_le_compat_r; lra). lra.
  - set (f := fun x : b32 => Bdiv mode_NE x (Bplus mode_NE (Babs x) (b32_ofZ 1))). change (ys = map f xs) in R. subst ys.
    rewrite (nth_map32 f) by exact Hj. destruct (softsign_R (nth j xs b32_zero) Fj Dj) as (F & E). split; [exact F|].
    eapply Rle_trans; [exact E|]. rewrite U. assert (B : Rabs (bv (nth j xs b32_zero) / (1 + Rabs (bv (nth j xs b32_zero)))) <= 1).
    { set (q := bv (nth j xs b32_zero)). pose proof (Rabs_pos q). unfold Rdiv. rewrite Rabs_mult, Rabs_inv, (Rabs_pos_eq (1 + Rabs q)) by lra.
      apply (Rmult_le_reg_r (1 + Rabs q)); [lra|]. rewrite Rmult_assoc, Rinv_l by lra. lra. }
    assert (((1 + 1 / 16777216) ^ 3 - 1) * Rabs (bv (nth j xs b32_zero) / (1 + Rabs (bv (nth j xs b32_zero)))) <= ((1 + 1 / 16777216) ^ 3 - 1) * 1) by (apply Rmult_le_compat_l; lra). lra.
  - set (f := fun x : b32 => if Bltb x (b32_lit (-5) 2) then b32_zero else if Bltb (b32_lit 5 2) x then b32_ofZ 1
             else Bplus mode_NE (Bmult mode_NE (b32_lit 1 5) x) (b32_lit 1 2)). change (ys = map f xs) in R. subst ys.
    rewrite (nth_map32 f) by exact Hj. exact (hs_R2 _ Fj).
  - change (ys = map (lm_exp lm) xs) in R. subst ys. rewrite (nth_map32 (lm_exp lm)) by exact Hj. destruct (NE _ Fj) as (E & _). destruct (E Dj) as (F & _ & B). split; assumption.
  - subst ys. split; [exact Fj|]. replace (B2R _ - _) with 0 by ring. rewrite Rabs_R0. lra.
  - destruct (elem_nth _ _ _ _ R) as (_ & NJ). specialize (NJ j Hj). destruct (relu_R (nth j xs b32_zero) Fj) as (F1 & E1 & F2 & E2).
    assert (FE : fin (nth j ys b32_zero) = true /\ bv (nth j ys b32_zero) = Rmax 0 (bv (nth j xs b32_zero))) by (destruct NJ as [-> | ->]; split; assumption).
    destruct FE as (FE & EE). split; [exact FE|]. rewrite EE. replace (_ - _) with 0 by ring. rewrite Rabs_R0. lra.
  - destruct (softmax_R lm xs ys NE FX WD R) as (_ & S). destruct (S j Hj) as (F & E). split; [exact F|].
    replace ((3 * INR n + 20) / 2 ^ 24) with ((3 * INR n + 20) * u32) by (unfold u32; reflexivity). rewrite <- VJ. exact E.
  - destruct (elem_nth _ _ _ _ R) as (_ & NJ). specialize (NJ j Hj). destruct NJ as [-> | ->]; [exact (sigmoid_s_R lm _ NE Fj)|exact (sigmoid_v_R lm _ Fj)].
  - destruct (elem_nth _ _ _ _ R) as (_ & NJ). specialize (NJ j Hj). destruct NJ as [-> | ->]; [exact (NE _ Fj)|exact (tanh_v_R lm _ Fj)].
Qed.
Print Assumptions activation_float_accurate.

(** C69 is false in AVX2 and AVX-512 builds: 17 NaN elements; the sigmoid of the first is a number *)
Theorem nan_propagates_refuted (lm : libm) :
  exists (c : cfg) (m : @mem (opsB32 lm)) (p : ptr) (ys : list b32),
    @holds (opsB32 lm) m p (repeat b32_nan 17) /\
    writes_only (@activation_func (opsB32 lm) c (@exp256_lane (opsB32 lm)) Sigmoid 17 p) m p ys /\
    is_finite (nth 0 ys b32_nan) = true.
Proof.
  set (O := opsB32 lm). set (m := [@mkblock O 640 (repeat (Some b32_nan) 17)]).
  set (c := {| cfg_isa := AVX2; cfg_fma := false |}). set (p := mkptr 0 0).
  assert (H : @holds O m p (repeat b32_nan 17)) by (exists (@mkblock O 640 (repeat (Some b32_nan) 17)); split; [reflexivity|split; [simpl; lia|reflexivity]]).
  exists c, m, p, (@act_f O c (@exp256_lane O) Sigmoid (addr m p) (repeat b32_nan 17)). split; [exact H|].
  split. { apply (activation_writes O c (@exp256_lane O) Sigmoid m p (repeat b32_nan 17)); simpl; auto. lia. }
  assert (E : nth 0 (@act_f O c (@exp256_lane O) Sigmoid (addr m p) (repeat b32_nan 17)) b32_nan
    = Bdiv mode_NE (b32_ofZ 1) (Bplus mode_NE (b32_ofZ 1) (@exp256_lane O (Bminus mode_NE b32_zero b32_nan)))) by reflexivity.
  etransitivity; [exact (f_equal (@is_finite 24 128) E)|]. unfold O. rewrite lane32. vm_compute. reflexivity.
Qed.
Print Assumptions nan_propagates_refuted.

(** C69 holds in the other builds for every activation but relu, if libm passes NaN on *)
Definition nan_libm (lm : libm) : Prop := lm_exp lm b32_nan = b32_nan /\ lm_log lm b32_nan = b32_nan /\ lm_tanh lm b32_nan = b32_nan.
Lemma nan_plus_r x : Bplus mode_NE x b32_nan = b32_nan. Proof. destruct x as [|[]| |[]]; reflexivity. Qed.
Lemma nan_plus_l x : Bplus mode_NE b32_nan x = b32_nan. Proof. destruct x as [|[]| |[]]; reflexivity. Qed.
Lemma nan_minus_l x : Bminus mode_NE b32_nan x = b32_nan. Proof. destruct x as [|[]| |[]]; reflexivity. Qed.
Lemma nan_div_l x : Bdiv mode_NE b32_nan x = b32_nan. Proof. destruct x as [|[]| |[]]; reflexivity. Qed.
Lemma nan_div_r x : Bdiv mode_NE x b32_nan = b32_nan. Proof. destruct x as [|[]| |[]]; reflexivity. Qed.
Lemma nan_mult_r x : Bmult mode_NE x b32_nan = b32_nan. Proof. destruct x as [|[]| |[]]; reflexivity. Qed.
Lemma is_sum_nan (lm : libm) l s : @is_sum (opsB32 lm) l s -> In b32_nan l -> s = b32_nan.
Proof.
  induction 1 as [|x|l1 l2 l a b H1 IH1 H2 IH2 P]; intros HI.
  - destruct HI.
  - destruct HI as [E|[]]. exact E.
  - apply (Permutation.Permutation_in _ (Permutation.Permutation_sym P)) in HI. apply in_app_or in HI. change (@fadd (opsB32 lm) a b) with (Bplus mode_NE a b).
    destruct HI as [HI|HI]; [rewrite (IH1 HI); apply nan_plus_l|rewrite (IH2 HI); apply nan_plus_r].
Qed.
Lemma nth_mapi (f : nat -> b32 -> b32) (xs : list b32) j : (j < length xs)%nat -> nth j (mapi f xs) b32_nan = f j (nth j xs b32_nan).
Proof.
  intros H. assert (E : nth_error (mapi f xs) j = Some (f j (nth j xs b32_nan))).
  { rewrite nth_error_mapi, (nth_error_nth' xs b32_nan H). reflexivity. }
  apply nth_error_nth. exact E.
Qed.
Theorem nan_propagates_partial (lm : libm) (c : cfg) (g : act) (m : @mem (opsB32 lm)) (p : ptr) (xs : list b32) (j : nat) :
  @holds (opsB32 lm) m p xs -> has_avx2 c = false -> g <> Relu -> nan_libm lm ->
  (j < length xs)%nat -> nth j xs b32_nan = b32_nan ->
  exists ys : list b32,
    writes_only (@activation_func (opsB32 lm) c (@exp256_lane (opsB32 lm)) g (length xs) p) m p ys /\
    nth j ys b32_nan = b32_nan /\ (g = Softmax -> forall i, (i < length xs)%nat -> nth i ys b32_nan = b32_nan).
Proof.
  intros H NA NR (N1 & N2 & N3) Hj EJ. exists (@act_f (opsB32 lm) c (@exp256_lane (opsB32 lm)) g (addr m p) xs).
  split; [apply (activation_writes (opsB32 lm)); [exact H|exact (Nat.le_trans _ _ _ (le_n_S _ _ (Nat.le_0_l j)) Hj)|destruct g; try exact I; intros HA; rewrite NA in HA; discriminate HA]|].
  assert (MP : forall (f : b32 -> b32), f b32_nan = b32_nan -> nth j (map f xs) b32_nan = b32_nan).
  { intros f E. rewrite <- E at 1. rewrite map_nth, EJ. exact E. }
  destruct g; cbn [act_f]; try (split; [|discriminate]); try congruence.
  - apply MP. change (lm_log lm (Bplus mode_NE (lm_exp lm b32_nan) (b32_ofZ 1)) = b32_nan). rewrite N1, nan_plus_l. exact N2.
  - apply MP. change (Bdiv mode_NE b32_nan (Bplus mode_NE (Babs b32_nan) (b32_ofZ 1)) = b32_nan). apply nan_div_l.
  - apply MP. change (Bplus mode_NE (Bmult mode_NE (b32_lit 1 5) b32_nan) (b32_lit 1 2) = b32_nan). rewrite nan_mult_r. apply nan_plus_l.
  - apply MP. exact N1.
  - unfold softmax_f. set (es := @exps_f (opsB32 lm) c (@exp256_lane (opsB32 lm)) (addr m p) xs). change (@F (opsB32 lm)) with b32 in *.
    assert (LE : length es = length xs) by apply length_mapi.
    assert (ES : nth j es b32_nan = b32_nan).
    { unfold es, exps_f. rewrite nth_mapi by exact Hj. rewrite NA, EJ. change (lm_exp lm (Bminus mode_NE b32_nan (@max_f (opsB32 lm) xs)) = b32_nan). rewrite nan_minus_l. exact N1. }
    assert (SN : @sum_f (opsB32 lm) c (addr m p) es = b32_nan).
    { apply (is_sum_nan lm es); [apply (sum_f_is_sum (FO := opsB32 lm))|]. rewrite <- ES. apply nth_In. rewrite LE. exact Hj. }
    assert (AL : forall i, (i < length xs)%nat -> nth i (map (fun e : b32 => @fdiv (opsB32 lm) e (@sum_f (opsB32 lm) c (addr m p) es)) es) b32_nan = b32_nan).
    { intros i Hi. rewrite SN. set (f := fun e : b32 => Bdiv mode_NE e b32_nan). change (nth i (map f es) b32_nan = b32_nan).
      rewrite (nth_indep _ b32_nan (f b32_nan)) by (rewrite map_length, LE; exact Hi). rewrite map_nth. apply nan_div_r. }
    split; [apply AL; exact Hj|intros _; exact AL].
  - unfold sigmoid_f, reg_map. change (@F (opsB32 lm)) with b32 in *. rewrite nth_mapi by exact Hj. rewrite NA, EJ.
    change (Bdiv mode_NE (b32_ofZ 1) (Bplus mode_NE (b32_ofZ 1) (lm_exp lm b32_nan)) = b32_nan). rewrite N1, nan_plus_r. apply nan_div_r.
  - unfold tanh_f, reg_map. change (@F (opsB32 lm)) with b32 in *. rewrite nth_mapi by exact Hj. rewrite NA, EJ. exact N3.
Qed.
Print Assumptions nan_propagates_partial.

(** ** cases: 19 elements in an AVX-512 build, at an unaligned address for softmax; the correctly rounding libm *)
Definition exb_c : cfg := {| cfg_isa := AVX512; cfg_fma := true |}.
Definition exb_m (lm : libm) : @mem (opsB32 lm) := [@mkblock (opsB32 lm) 640 (repeat (Some (b32_lit 3 2)) 19); @mkblock (opsB32 lm) 1284 (repeat (Some (b32_lit 3 2)) 19)].
Example activation_float_case :
  @holds (opsB32 lm_rounded) (exb_m lm_rounded) (mkptr 0 0) (repeat (b32_lit 3 2) 19) /\ @holds (opsB32 lm_rounded) (exb_m lm_rounded) (mkptr 1 0) (repeat (b32_lit 3 2) 19) /\
  act_pre exb_c Tanh (exb_m lm_rounded) (mkptr 0 0) 19 /\ act_pre exb_c Softmax (exb_m lm_rounded) (mkptr 1 0) 19 /\
  needs lm_rounded Tanh /\ needs lm_rounded Softmax /\ needs lm_rounded Softplus /\ needs lm_rounded Exponential /\ float_width Softmax 19 /\
  Forall (fun x => is_finite x = true /\ float_dom Softmax (B2R x)) (repeat (b32_lit 3 2) 19).
Proof.
  split; [eexists; split; [reflexivity|split; [simpl; lia|reflexivity]]|].
  split; [eexists; split; [reflexivity|split; [simpl; lia|reflexivity]]|].
  split; [intros _ _; reflexivity|]. split; [exact I|]. split; [exact rounded_tanh|]. split; [exact rounded_exp|].
  split; [split; [exact rounded_exp|exact rounded_log]|]. split; [exact rounded_exp|]. split; [cbn; lra|].
  assert (X : fin (b32_lit 3 2) = true /\ bv (b32_lit 3 2) = 3/2).
  { let v := eval vm_compute in (B2SF (b32_lit 3 2)) in match v with SpecFloat.S754_finite ?s ?m ?e => destruct (sf_R (b32_lit 3 2) s m e) as [Q F]; [vm_compute; reflexivity|] end.
    split; [exact F|]. rewrite Q. unfold F2R. simpl. lra. }
  apply Forall_forall. intros x Hx. apply repeat_spec in Hx. subst x. destruct X as (F & E). split; [exact F|]. cbn [float_dom]. rewrite E.
  rewrite Rabs_pos_eq by lra. assert (4 <= 2 ^ 126) by (replace 126%nat with (2 + 124)%nat by lia; rewrite pow_add; assert (1 <= 2 ^ 124) by (apply pow_R1_Rle; lra); nra). lra.
Qed.
Example nan_case : exists lm : libm, nan_libm lm /\
  @holds (opsB32 lm) [@mkblock (opsB32 lm) 640 [Some b32_zero; Some b32_nan]] (mkptr 0 0) [b32_zero; b32_nan].
Proof.
  exists {| lm_exp := fun x => x; lm_log := fun x => x; lm_tanh := fun x => x |}. split; [repeat split|].
  eexists; split; [reflexivity|split; [simpl; lia|reflexivity]].
Qed.
Example exp256_case : is_finite (b32_lit (-7) 2) = true /\ - (8768 / 100) <= B2R (b32_lit (-7) 2) <= 88376 / 1000.
Proof.
  let v := eval vm_compute in (B2SF (b32_lit (-7) 2)) in match v with SpecFloat.S754_finite ?s ?m ?e => destruct (sf_R (b32_lit (-7) 2) s m e) as [Q F]; [vm_compute; reflexivity|] end.
  split; [exact F|]. rewrite Q. unfold F2R. simpl. lra.
Qed.
