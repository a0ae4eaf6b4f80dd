(** SlopeRound.v -- rounding errors of the derivatives of the activation functions and of the losses in binary32 *)
From Flocq Require Import Core BinarySingleNaN.
From Coq Require Import ZArith Bool List Arith Reals Lia Lra.
From Verif Require Import Base BaseProofs Ops OpsR Mem Kernels KernelProofs KernelProofs2 OpsB32 B32Facts MetricB32 Activation ActivationProofs Loss SpecReal RealForward
  SpecBits SpecLibm SpecRound RoundProofs ActB32 DotTree SpecGradRound.
Import ListNotations.
Local Open Scope R_scope.

(** v is a float near the exact number s *)
Definition is_near (b : near) (v s : R) : Prop := Rabs s <= mag b /\ Rabs (v - s) <= err b.
Lemma near_abs b v s : is_near b v s -> Rabs v <= cap b.
Proof. intros (A & B). unfold cap. replace v with ((v - s) + s) by ring. eapply Rle_trans; [apply Rabs_triang|]. lra. Qed.
Lemma near_pos b v s : is_near b v s -> 0 <= mag b /\ 0 <= err b.
Proof. intros (A & B). pose proof (Rabs_pos s). pose proof (Rabs_pos (v - s)). lra. Qed.
Lemma near_value k a d v s : approx k a d v s <-> is_near (value k a d) v s.
Proof. reflexivity. Qed.
Lemma cap_rounded k b : cap (rounded k b) = (1 + u32) ^ k * cap b + INR k * eta32.
Proof. unfold cap, rounded. cbn [mag err]. unfold cap. ring. Qed.
Lemma cap_rounded_ge k b : 0 <= cap b -> cap b <= cap (rounded k b).
Proof. intros H. rewrite cap_rounded. pose proof (up1 k). pose proof (pos_INR k). pose proof eta32_pos. assert (0 <= INR k * eta32) by (apply Rmult_le_pos; lra). nra. Qed.
Lemma near_rnd k b v s r : is_near b v s -> Rabs (r - v) <= ((1 + u32) ^ k - 1) * Rabs v + INR k * eta32 -> is_near (rounded k b) r s.
Proof.
  intros H R. pose proof (near_abs _ _ _ H) as C. destruct H as (A & B). split; [exact A|]. cbn [rounded err].
  replace (r - s) with ((r - v) + (v - s)) by ring. eapply Rle_trans; [apply Rabs_triang|].
  pose proof (up1 k). assert (((1 + u32) ^ k - 1) * Rabs v <= ((1 + u32) ^ k - 1) * cap b) by (apply Rmult_le_compat_l; lra). lra.
Qed.
Lemma near_mul b c v s w t : is_near b v s -> is_near c w t -> is_near (times b c) (v * w) (s * t).
Proof.
  intros (A & B) (C & D). split; cbn [times mag err].
  - rewrite Rabs_mult. apply Rmult_le_compat; auto using Rabs_pos.
  - replace (v * w - s * t) with ((v - s) * (w - t) + (v - s) * t + s * (w - t)) by ring.
    eapply Rle_trans; [apply Rabs_triang|]. eapply Rle_trans; [apply Rplus_le_compat_r, Rabs_triang|]. rewrite !Rabs_mult.
    assert (Rabs (v - s) * Rabs (w - t) <= err b * err c) by (apply Rmult_le_compat; auto using Rabs_pos).
    assert (Rabs (v - s) * Rabs t <= err b * mag c) by (apply Rmult_le_compat; auto using Rabs_pos).
    assert (Rabs s * Rabs (w - t) <= mag b * err c) by (apply Rmult_le_compat; auto using Rabs_pos). lra.
Qed.
Lemma near_weak b b' v s : is_near b v s -> mag b <= mag b' -> err b <= err b' -> is_near b' v s.
Proof. intros (A & B) C D. split; lra. Qed.

(** ** one multiplication *)
Lemma near_fmul b c (x y : b32) s t : fin x = true -> fin y = true -> is_near b (bv x) s -> is_near c (bv y) t ->
  cap (rounded 1 (times b c)) <= 2 ^ 127 ->
  fin (Bmult mode_NE x y) = true /\ is_near (rounded 1 (times b c)) (bv (Bmult mode_NE x y)) (s * t).
Proof.
  intros Fx Fy Hx Hy HC. pose proof (near_mul _ _ _ _ _ _ Hx Hy) as HM. pose proof (near_abs _ _ _ HM) as HA.
  pose proof (cap_rounded_ge 1 (times b c)) as HG. pose proof (Rabs_pos (bv x * bv y)).
  destruct (mul_R x y Fx Fy ltac:(lra)) as (FM & EM). split; [exact FM|].
  apply near_rnd with (v := bv x * bv y); [exact HM|]. rewrite pow_1. cbn [INR]. lra.
Qed.

(** ** a sum of products *)
Lemma sumf_le n (f g : nat -> R) : (forall i, (i < n)%nat -> f i <= g i) -> sumf n f <= sumf n g.
Proof. induction n as [|n IH]; intros H; cbn [sumf]; [lra|]. pose proof (H n ltac:(lia)). specialize (IH (fun i Hi => H i ltac:(lia))). lra. Qed.
Lemma Rabs_sumf n (f : nat -> R) : Rabs (sumf n f) <= sumf n (fun i => Rabs (f i)).
Proof. induction n as [|n IH]; cbn [sumf]; [rewrite Rabs_R0; lra|]. eapply Rle_trans; [apply Rabs_triang|]. lra. Qed.
Lemma near_dot (lm : libm) (c : cfg) (vs ms : list b32) (b : nat -> near) (s : nat -> R) :
  length ms = length vs -> Forall (fun x => fin x = true) vs -> Forall (fun x => fin x = true) ms ->
  (forall i, (i < length vs)%nat -> is_near (b i) (bv (nth i vs b32_zero)) (s i)) ->
  let w := fun i => bv (nth i ms b32_zero) in
  cap (dot (length vs) w b) <= 2 ^ 127 ->
  fin (@dot_f (opsB32 lm) c vs ms b32_zero) = true /\
  is_near (dot (length vs) w b) (bv (@dot_f (opsB32 lm) c vs ms b32_zero)) (sumf (length vs) (fun i => w i * s i)).
Proof.
  intros L Fv Fm HB w HC. pose proof (dot_tree lm c vs ms (eq_sym L) Fv Fm) as T. rewrite pdot_sumf in T by (symmetry; exact L).
  set (n := length vs) in *. pose proof (up1 (n + 8)) as UP. pose proof eta32_pos as ET.
  set (A := sumf n (fun i => Rabs (w i) * mag (b i))). set (E := sumf n (fun i => Rabs (w i) * err (b i))).
  assert (SA : sumf n (fun i => Rabs (bv (nth i vs b32_zero) * bv (nth i ms b32_zero))) <= A + E).
  { unfold A, E. rewrite <- sumf_plus. apply sumf_le. intros i Hi. rewrite Rabs_mult. fold (w i). pose proof (near_abs _ _ _ (HB i Hi)) as NA. unfold cap in NA.
    rewrite <- Rmult_plus_distr_l, Rmult_comm. apply Rmult_le_compat_l; [apply Rabs_pos|exact NA]. }
  assert (AP : 0 <= sumf n (fun i => Rabs (bv (nth i vs b32_zero) * bv (nth i ms b32_zero)))).
  { eapply Rle_trans; [apply Rabs_pos|apply Rabs_sumf]. }
  apply tree_err in T.
  - cbn [pt_s pt_a pt_n] in T. destruct T as (FV & (_ & EV)). split; [exact FV|]. split; cbn [dot mag err]; fold A E.
    + eapply Rle_trans; [apply Rabs_sumf|]. apply sumf_le. intros i Hi. rewrite Rabs_mult. apply Rmult_le_compat_l; [apply Rabs_pos|]. apply (HB i Hi).
    + set (S := sumf n (fun i => bv (nth i vs b32_zero) * bv (nth i ms b32_zero))) in *.
      match goal with |- Rabs (?v - ?t) <= _ => replace (v - t) with ((v - S) + (S - t)) by ring end.
      assert (SE : Rabs (S - sumf n (fun i => w i * s i)) <= E).
      { unfold S, E. replace (sumf n (fun i => bv (nth i vs b32_zero) * bv (nth i ms b32_zero)) - sumf n (fun i => w i * s i)) with
          (sumf n (fun i => w i * (bv (nth i vs b32_zero) - s i))).
        - eapply Rle_trans; [apply Rabs_sumf|]. apply sumf_le. intros i Hi. rewrite Rabs_mult. apply Rmult_le_compat_l; [apply Rabs_pos|]. apply (HB i Hi).
        - 
          assert (G : forall f g h : nat -> R, (forall i, f i = g i - h i) -> sumf n f = sumf n g - sumf n h).
          { intros f g h H. clear - H. induction n as [|k IH]; cbn [sumf]; [lra|]. rewrite H, IH. lra. }
          apply G. intros i. unfold w. ring. }
      eapply Rle_trans; [apply Rabs_triang|]. assert (((1 + u32) ^ (n + 8) - 1) * sumf n (fun i => Rabs (bv (nth i vs b32_zero) * bv (nth i ms b32_zero))) <= ((1 + u32) ^ (n + 8) - 1) * (A + E)) by (apply Rmult_le_compat_l; lra).
      lra.
  - cbn [pt_a pt_n]. eapply Rle_trans; [|exact HC]. unfold cap, dot. cbn [mag err]. fold A E.
    assert ((1 + u32) ^ (n + 8) * sumf n (fun i => Rabs (bv (nth i vs b32_zero) * bv (nth i ms b32_zero))) <= (1 + u32) ^ (n + 8) * (A + E)) by (apply Rmult_le_compat_l; lra).
    lra.
Qed.

(** ** slopes of the activation functions *)
Lemma minus_R (x y : b32) : fin x = true -> fin y = true -> Rabs (bv x - bv y) <= 2 ^ 127 + 1 ->
  fin (Bminus mode_NE x y) = true /\ Rabs (bv (Bminus mode_NE x y) - (bv x - bv y)) <= u32 * Rabs (bv x - bv y).
Proof.
  intros Fx Fy H. pose proof (Bminus_correct 24 128 _ _ mode_NE x y Fx Fy) as C.
  rewrite Rlt_bool_true in C by (apply rnd_range; exact H). destruct C as (C1 & C2 & _). rewrite C1. split; [exact C2|].
  pose proof (rnd_plus_err x (Bopp y)) as E. rewrite B2R_Bopp in E. exact E.
Qed.
Lemma up3_ge : 2 * u32 + u32 * u32 <= (1 + u32) ^ 3 - 1.
Proof. pose proof u32_pos. cbn [pow]. nra. Qed.
Lemma inr3 : INR 3 = 3. Proof. cbn. lra. Qed.

Section Slopes.
  Variable lm : libm.
  Notation OP := (opsB32 lm).

  Lemma sigmoid_slope (o : b32) s es : fin o = true -> Rabs (bv o - s) <= es -> es <= 1 -> 0 <= s <= 1 ->
    fin (@sigmoid_d OP o) = true /\ is_near (slope Sigmoid (mk_near 0 es)) (bv (@sigmoid_d OP o)) (s * (1 - s)).
  Proof.
    intros Fo Eo E1 S. pose proof u32_pos as U. pose proof u32_small as US. pose proof eta32_pos as ET. pose proof big127 as BG.
    pose proof (Rabs_pos (bv o - s)) as P0. change (@sigmoid_d OP o) with (Bmult mode_NE o (Bminus mode_NE (b32_ofZ 1) o)).
    assert (VB : -1 <= bv o <= 2) by (apply Rabs_le_inv in Eo; lra).
    destruct (minus_R (b32_ofZ 1) o one_fin Fo) as (FM & EM). { rewrite one_R. apply Rabs_le. lra. }
    rewrite one_R in EM. set (q := Bminus mode_NE (b32_ofZ 1) o) in *. clearbody q.
    assert (QB : Rabs (bv q) <= 3). { apply Rabs_le_inv in EM. assert (Rabs (1 - bv o) <= 2) by (apply Rabs_le; lra). pose proof (Rabs_pos (1 - bv o)). apply Rabs_le. assert (u32 * Rabs (1 - bv o) <= 1) by nra. lra. }
    assert (OB : Rabs (bv o) <= 2) by (apply Rabs_le; lra).
    destruct (mul_R o q Fo FM) as (FP & EP). { rewrite Rabs_mult. pose proof (Rabs_pos (bv o)). pose proof (Rabs_pos (bv q)). nra. }
    split; [exact FP|]. unfold slope. cbn [err]. apply near_rnd with (v := bv o * (1 - bv o)).
    - split; cbn [mag err].
      + assert (0 <= s * (1 - s)) by (apply Rmult_le_pos; lra). assert (0 <= (s - 1 / 2) * (s - 1 / 2)) by exact (Rle_0_sqr (s - 1 / 2)). apply Rabs_le. split; lra.
      + replace (bv o * (1 - bv o) - s * (1 - s)) with ((bv o - s) * ((1 - 2 * s) - (bv o - s))) by ring. rewrite Rabs_mult.
        apply Rmult_le_compat; try apply Rabs_pos; [exact Eo|]. unfold Rminus at 1. eapply Rle_trans; [apply Rabs_triang|]. rewrite Rabs_Ropp.
        assert (Rabs (1 - 2 * s) <= 1) by (apply Rabs_le; lra). lra.
    - rewrite inr3. set (p := bv o * (1 - bv o)) in *. set (r := bv o * bv q) in *.
      assert (RP : Rabs (r - p) <= u32 * Rabs p).
      { unfold r, p. replace (bv o * bv q - bv o * (1 - bv o)) with (bv o * (bv q - (1 - bv o))) by ring. rewrite !Rabs_mult.
        replace (u32 * (Rabs (bv o) * Rabs (1 - bv o))) with (Rabs (bv o) * (u32 * Rabs (1 - bv o))) by ring. apply Rmult_le_compat_l; [apply Rabs_pos|exact EM]. }
      assert (RA : Rabs r <= (1 + u32) * Rabs p). { replace r with ((r - p) + p) by ring. eapply Rle_trans; [apply Rabs_triang|]. lra. }
      replace (bv (Bmult mode_NE o q) - p) with ((bv (Bmult mode_NE o q) - r) + (r - p)) by ring. eapply Rle_trans; [apply Rabs_triang|].
      pose proof up3_ge as U3. pose proof (Rabs_pos p) as PP. assert ((2 * u32 + u32 * u32) * Rabs p <= ((1 + u32) ^ 3 - 1) * Rabs p) by (apply Rmult_le_compat_r; lra).
      assert (u32 * Rabs r <= u32 * ((1 + u32) * Rabs p)) by (apply Rmult_le_compat_l; lra). lra.
  Qed.

  Lemma tanh_slope (o : b32) s es : fin o = true -> Rabs (bv o - s) <= es -> es <= 1 -> -1 <= s <= 1 ->
    fin (@tanh_d OP o) = true /\ is_near (slope Tanh (mk_near 0 es)) (bv (@tanh_d OP o)) (1 - s * s).
  Proof.
    intros Fo Eo E1 S. pose proof u32_pos as U. pose proof u32_small as US. pose proof eta32_pos as ET. pose proof eta32_small as ES. pose proof big127 as BG.
    pose proof (Rabs_pos (bv o - s)) as P0. change (@tanh_d OP o) with (Bminus mode_NE (b32_ofZ 1) (Bmult mode_NE o o)).
    assert (SB : Rabs s <= 1) by (apply Rabs_le; lra).
    assert (VA : Rabs (bv o) <= 1 + es). { replace (bv o) with ((bv o - s) + s) by ring. eapply Rle_trans; [apply Rabs_triang|]. lra. }
    pose proof (Rabs_pos (bv o)) as VP.
    assert (VV : bv o * bv o = Rabs (bv o) * Rabs (bv o)) by (rewrite <- Rabs_mult; symmetry; apply Rabs_pos_eq; nra).
    assert (V2 : 0 <= bv o * bv o <= (1 + es) * (1 + es)) by (rewrite VV; split; nra).
    assert (V4 : bv o * bv o <= 4) by nra.
    destruct (mul_R o o Fo Fo) as (FM & EM). { rewrite Rabs_pos_eq by lra. lra. }
    rewrite (Rabs_pos_eq (bv o * bv o)) in EM by lra. set (q := Bmult mode_NE o o) in *. clearbody q.
    assert (QB : Rabs (1 - bv q) <= 10). { apply Rabs_le_inv in EM. apply Rabs_le. nra. }
    destruct (minus_R (b32_ofZ 1) q one_fin FM) as (FP & EP). { rewrite one_R. lra. } rewrite one_R in EP.
    split; [exact FP|]. unfold slope. cbn [err].
    set (v2 := bv o * bv o) in *. split.
    - cbn [rounded mag]. apply Rabs_le. nra.
    - cbn [rounded mag err]. unfold cap. cbn [mag err]. rewrite inr3.
      assert (D1 : Rabs (v2 - s * s) <= es * (2 + es)).
      { unfold v2. replace (bv o * bv o - s * s) with ((bv o - s) * ((bv o - s) + 2 * s)) by ring. rewrite Rabs_mult. apply Rmult_le_compat; try apply Rabs_pos; [exact Eo|].
        eapply Rle_trans; [apply Rabs_triang|]. rewrite Rabs_mult, (Rabs_pos_eq 2) by lra. lra. }
      assert (D2 : Rabs (1 - bv q) <= (1 + es) * (1 + es) + (u32 * v2 + eta32)).
      { replace (1 - bv q) with ((1 - v2) + (v2 - bv q)) by ring. eapply Rle_trans; [apply Rabs_triang|]. rewrite (Rabs_minus_sym v2).
        assert (Rabs (1 - v2) <= (1 + es) * (1 + es)) by (apply Rabs_le; nra). lra. }
      match goal with |- Rabs (?w - _) <= _ => replace (w - (1 - s * s)) with ((w - (1 - bv q)) + ((v2 - bv q) + (s * s - v2))) by ring end.
      eapply Rle_trans; [apply Rabs_triang|]. eapply Rle_trans; [apply Rplus_le_compat_l, Rabs_triang|]. rewrite (Rabs_minus_sym v2), (Rabs_minus_sym (s * s)).
      set (c1 := (1 + es) * (1 + es)) in *. replace (1 + es * (2 + es)) with c1 by (unfold c1; ring).
      assert (C1 : 1 <= c1) by (unfold c1; nra).
      assert (H1 : u32 * Rabs (1 - bv q) <= u32 * (c1 + (u32 * v2 + eta32))) by (apply Rmult_le_compat_l; lra).
      assert (H2 : u32 * v2 <= u32 * c1) by (apply Rmult_le_compat_l; lra).
      assert (H3 : u32 * (u32 * v2) <= u32 * (u32 * c1)) by (apply Rmult_le_compat_l; lra).
      assert (H4 : (2 * u32 + u32 * u32) * c1 <= ((1 + u32) ^ 3 - 1) * c1) by (apply Rmult_le_compat_r; [lra|apply up3_ge]).
      assert (H5 : u32 * eta32 <= 1 * eta32) by (apply Rmult_le_compat_r; lra). lra.
  Qed.
  (** *** relu: the product with 0 or 1 is exact *)
  Lemma leb_fin (x y : b32) : fin x = true -> fin y = true -> Bleb x y = Rle_bool (bv x) (bv y).
  Proof.
    intros Fx Fy. unfold Bleb, SpecFloat.SFleb. pose proof (Bcompare_correct 24 128 x y Fx Fy) as C. unfold Bcompare in C. rewrite C.
    unfold Rle_bool. destruct (Rcompare (bv x) (bv y)); reflexivity.
  Qed.
  Lemma mul_exact_1 (x : b32) : fin x = true -> fin (Bmult mode_NE x (b32_ofZ 1)) = true /\ bv (Bmult mode_NE x (b32_ofZ 1)) = bv x.
  Proof. intros Fx. rewrite b32_mulC, mul_one. split; [exact Fx|reflexivity]. Qed.
  Lemma mul_exact_0 (x : b32) : fin x = true -> fin (Bmult mode_NE x b32_zero) = true /\ bv (Bmult mode_NE x b32_zero) = 0.
  Proof. intros Fx. destruct x; try discriminate Fx; split; reflexivity. Qed.
  Lemma relu_step (e : near) (x o z : b32) s z' ez : fin x = true -> is_near e (bv x) s -> fin z = true -> fin o = true ->
    bv o = Rmax 0 (bv z) -> Rabs (bv z - z') <= ez -> ez < Rabs z' ->
    fin (Bmult mode_NE x (@relu_d OP o)) = true /\ is_near e (bv (Bmult mode_NE x (@relu_d OP o))) (s * @relu_d opsR (Rmax 0 z')).
  Proof.
    intros Fx Hx Fz Fo EO EZ CZ. unfold relu_d. change (@fle OP o f0) with (Bleb o b32_zero). rewrite (leb_fin o b32_zero Fo eq_refl).
    change (bv b32_zero) with 0. rewrite EO. change (@fle opsR) with Rleb. change (@f0 opsR) with 0. change (@f1 opsR) with 1. change (@f0 OP) with b32_zero. change (@f1 OP) with (b32_ofZ 1).
    destruct (Rle_dec z' 0) as [N|N].
    - rewrite (Rabs_left1 z') in CZ by lra. apply Rabs_le_inv in EZ. rewrite (Rmax_left 0 (bv z)) by lra. rewrite (Rmax_left 0 z') by lra.
      rewrite Rle_bool_true by lra. destruct (Rleb_spec 0 0) as [_|X]; [|lra]. destruct (mul_exact_0 x Fx) as (A & B). split; [exact A|]. rewrite B, Rmult_0_r.
      pose proof (near_pos _ _ _ Hx). split; rewrite ?Rminus_0_r, Rabs_R0; lra.
    - rewrite (Rabs_pos_eq z') in CZ by lra. apply Rabs_le_inv in EZ. rewrite (Rmax_right 0 (bv z)) by lra. rewrite (Rmax_right 0 z') by lra.
      rewrite Rle_bool_false by lra. destruct (Rleb_spec z' 0) as [X|_]; [lra|]. destruct (mul_exact_1 x Fx) as (A & B). split; [exact A|]. rewrite B, Rmult_1_r. exact Hx.
  Qed.

  (** *** hard sigmoid *)
  Lemma hard_slope (z o : b32) z' s ez es : fin z = true -> fin o = true ->
    o = (if Bltb z (b32_lit (-5) 2) then b32_zero else if Bltb (b32_lit 5 2) z then b32_ofZ 1
         else Bplus mode_NE (Bmult mode_NE (b32_lit 1 5) z) (b32_lit 1 2)) ->
    Rabs (bv z - z') <= ez -> Rabs (bv o - s) <= es -> s = act_math1 Hard_sigmoid z' -> clear Hard_sigmoid z' ez s es ->
    fin (@hard_sigmoid_d OP o) = true /\ is_near (slope Hard_sigmoid (mk_near 0 es)) (bv (@hard_sigmoid_d OP o)) (@hard_sigmoid_d opsR s).
  Proof.
    intros Fz Fo EO EZ ES HS CL. pose proof u32_pos as U.
    assert (ZN : is_near (mk_near (1 / 5) u32) 0 0) by (split; cbn [mag err]; rewrite ?Rminus_0_r, Rabs_R0; lra).
    unfold hard_sigmoid_d. change (@fle OP o f0) with (Bleb o b32_zero). change (@fge OP o f1) with (Bleb (b32_ofZ 1) o).
    change (@fle opsR) with Rleb. change (@fge opsR s f1) with (Rleb 1 s). change (@f0 opsR) with 0.
    rewrite (leb_fin o b32_zero Fo eq_refl), (leb_fin (b32_ofZ 1) o one_fin Fo), one_R. change (bv b32_zero) with 0. cbn [slope].
    destruct CL as [CL|CL].
    - assert (FL : fin (b32_lit (-5) 2) = true) by reflexivity. assert (FH : fin (b32_lit 5 2) = true) by reflexivity.
      apply Rabs_le_inv in EZ. cbn [act_math1] in HS. destruct (Rle_dec 0 z') as [P|P].
      + rewrite (Rabs_pos_eq z') in CL by lra. rewrite (ltb_R z _ Fz FL), lit_lo, (ltb_R _ z FH Fz), lit_hi in EO.
        rewrite Rlt_bool_false in EO by lra. rewrite Rlt_bool_true in EO by lra. subst o. rewrite one_R.
        rewrite Rmin_left in HS by lra. rewrite Rmax_right in HS by lra. subst s. rewrite Rle_bool_false by lra. rewrite Rle_bool_true by lra.
        destruct (Rleb_spec 1 0); [lra|]. destruct (Rleb_spec 1 1); [|lra]. split; [reflexivity|exact ZN].
      + rewrite (Rabs_left1 z') in CL by lra. rewrite (ltb_R z _ Fz FL), lit_lo in EO. rewrite Rlt_bool_true in EO by lra. subst o.
        rewrite Rmin_right in HS by lra. rewrite Rmax_left in HS by lra. subst s. change (bv b32_zero) with 0. rewrite Rle_bool_true by lra.
        destruct (Rleb_spec 0 0); [|lra]. split; [reflexivity|exact ZN].
    - apply Rabs_le_inv in ES. rewrite !Rle_bool_false by lra. destruct (Rleb_spec s 0); [lra|]. destruct (Rleb_spec 1 s); [lra|].
      change (@flit OP 1%Z 5%Z) with (b32_lit 1 5). change (@flit opsR 1%Z 5%Z) with (1 / 5). split; [reflexivity|].
      rewrite lit_fifth. split; cbn [mag err]; [rewrite Rabs_pos_eq; lra|]. unfold u32. apply Rabs_le. lra.
  Qed.

  (** *** softplus *)
  Lemma exp_up t : 0 <= t <= 1 / 2 -> exp t <= 1 + 2 * t.
  Proof.
    intros H. pose proof (exp_ineq1_le (- t)) as E. pose proof (exp_pos t) as P. assert (I : exp t * exp (- t) = 1) by (rewrite <- exp_plus, Rplus_opp_r; apply exp_0).
    assert (L : exp t * (1 - t) <= 1) by (rewrite <- I; apply Rmult_le_compat_l; lra).
    assert (exp t <= 2) by nra. nra.
  Qed.
  Lemma softplus_slope (o : b32) s es : accurate_exp (lm_exp lm) -> fin o = true -> Rabs (bv o - s) <= es -> es <= 1 / 2 -> 0 <= s <= 82 ->
    fin (@softplus_d OP o) = true /\ is_near (slope Softplus (mk_near 0 es)) (bv (@softplus_d OP o)) (@softplus_d opsR s).
  Proof.
    intros AE Fo Eo E1 S. pose proof u32_pos as U. assert (US : u32 <= 6 / 10 ^ 8) by (unfold u32; lra). pose proof eta32_pos as ET. assert (ETS : eta32 <= 1 / 10 ^ 8) by (unfold eta32; lra).
    pose proof (Rabs_pos (bv o - s)) as P0. apply Rabs_le_inv in Eo.
    set (X := lm_exp lm o). change (@softplus_d OP o) with (Bdiv mode_NE (Bminus mode_NE X (b32_ofZ 1)) X).
    change (@softplus_d opsR s) with ((exp s - 1) / exp s). set (v := bv o) in *.
    destruct (AE o Fo) as (A & _). change (B2R o) with v in A. destruct (A ltac:(lra)) as (FX & PX & EX). clear A. fold X in FX, PX, EX. change (B2R X) with (bv X) in *.
    assert (L1 : 1 / 2 <= exp v) by (pose proof (exp_ineq1_le v); lra).
    assert (L2 : exp v <= 4 * 10 ^ 37).
    { assert (E5 : 6 <= exp 5) by (pose proof (exp_ineq1_le 5); lra). pose proof exp_88_up as E88. replace 88 with (83 + 5) in E88 by lra. rewrite exp_plus in E88.
      pose proof (exp_pos 83). assert (exp v <= exp 83) by (destruct (Req_dec v 83) as [->|]; [lra|left; apply exp_increasing; lra]). nra. }
    assert (D1 : Rabs (bv X - exp v) <= 5 / 10 ^ 7 * exp v) by lra. clear EX. apply Rabs_le_inv in D1.
    assert (X1 : 49 / 100 <= bv X) by lra. assert (X2 : bv X <= 5 * 10 ^ 37) by lra.
    assert (TOP : 10 ^ 38 <= 2 ^ 127) by lra.
    destruct (minus_R X (b32_ofZ 1) FX one_fin) as (FQ & EQ). { rewrite one_R. apply Rabs_le. lra. }
    rewrite one_R in EQ. set (q := Bminus mode_NE X (b32_ofZ 1)) in *. clearbody q.
    set (x := bv X) in *. set (I := / x). assert (I1 : 0 < I) by (apply Rinv_0_lt_compat; lra).
    assert (XI : x * I = 1) by (apply Rinv_r; lra). assert (I2 : I <= 205 / 100) by nra.
    set (m := (x - 1) * I). assert (EM : m = 1 - I) by (unfold m; rewrite Rmult_minus_distr_r, XI; lra).
    assert (DQ : Rabs (bv q * I - m) <= u32 * 2).
    { unfold m. rewrite <- Rmult_minus_distr_r, Rabs_mult, (Rabs_pos_eq I) by lra. eapply Rle_trans; [apply Rmult_le_compat_r; [lra|exact EQ]|].
      rewrite Rmult_assoc, <- (Rabs_pos_eq I), <- Rabs_mult by lra. apply Rmult_le_compat_l; [lra|]. fold m. rewrite EM. apply Rabs_le. lra. }
    apply Rabs_le_inv in DQ. assert (QB : Rabs (bv q / x) <= 2). { unfold Rdiv. fold I. apply Rabs_le. lra. }
    destruct (divide_R q X FQ) as (FY & EY). { change (bv X) with x. lra. } { change (bv X) with x. pose proof big127. lra. }
    change (bv X) with x in EY. set (y := Bdiv mode_NE q X) in *. clearbody y. split; [exact FY|]. unfold Rdiv in QB, EY. fold I in QB, EY.
    assert (DY : Rabs (bv y - (1 - I)) <= 3 / 10 ^ 7).
    { rewrite <- EM. apply Rabs_le_inv in EY. apply Rabs_le. assert (u32 * Rabs (bv q * I) <= u32 * 2) by (apply Rmult_le_compat_l; lra). lra. }
    (* 1/X against exp (-v) *)
    assert (IE : exp v * exp (- v) = 1) by (rewrite <- exp_plus, Rplus_opp_r; apply exp_0).
    pose proof (exp_pos (- v)) as PE.
    assert (DI : Rabs (I - exp (- v)) <= 11 / 10 ^ 7).
    { replace (I - exp (- v)) with ((exp v - x) * exp (- v) * I).
      2: { replace ((exp v - x) * exp (- v) * I) with (exp v * exp (- v) * I - x * I * exp (- v)) by ring. rewrite IE, XI. ring. }
      rewrite !Rabs_mult, (Rabs_pos_eq I), (Rabs_pos_eq (exp (- v))) by lra.
      assert (T : Rabs (exp v - x) * exp (- v) <= 5 / 10 ^ 7).
      { replace (5 / 10 ^ 7) with (5 / 10 ^ 7 * exp v * exp (- v)) by (rewrite Rmult_assoc, IE; ring). apply Rmult_le_compat_r; [lra|]. apply Rabs_le. lra. }
      assert (0 <= Rabs (exp v - x) * exp (- v)) by (apply Rmult_le_pos; [apply Rabs_pos|lra]). nra. }
    (* exp (-v) against exp (-s) *)
    assert (ES1 : exp (- s) <= 1). { rewrite <- exp_0. destruct (Req_dec s 0) as [->|]; [rewrite Ropp_0; lra|]. left. apply exp_increasing. lra. }
    pose proof (exp_pos (- s)) as PS.
    assert (DV : Rabs (exp (- v) - exp (- s)) <= 2 * es).
    { replace (exp (- v)) with (exp (- s) * exp (s - v)) by (rewrite <- exp_plus; f_equal; ring).
      replace (exp (- s) * exp (s - v) - exp (- s)) with (exp (- s) * (exp (s - v) - 1)) by ring. rewrite Rabs_mult, (Rabs_pos_eq (exp (- s))) by lra.
      assert (T : Rabs (exp (s - v) - 1) <= 2 * es).
      { pose proof (exp_ineq1_le (s - v)) as L. apply Rabs_le. split; [lra|].
        assert (exp (s - v) <= exp es) by (destruct (Req_dec (s - v) es) as [->|]; [lra|left; apply exp_increasing; lra]). pose proof (exp_up es ltac:(lra)). lra. }
      pose proof (Rabs_pos (exp (s - v) - 1)). nra. }
    assert (ER : (exp s - 1) / exp s = 1 - exp (- s)). { rewrite exp_Ropp. field. pose proof (exp_pos s). lra. }
    rewrite ER. unfold slope. cbn [err]. split; cbn [mag err].
    - apply Rabs_le. lra.
    - apply Rabs_le_inv in DY, DI, DV. apply Rabs_le. lra.
  Qed.

  (** *** softsign *)
  Lemma below_one (o : b32) : fin o = true -> Rabs (bv o) < 1 -> Rabs (bv o) <= 1 - u32.
  Proof.
    intros Fo H. assert (G1 : generic_format radix2 (SpecFloat.fexp 24 128) (Rabs (bv o))) by (apply generic_format_abs, (generic_format_B2R 24 128)).
    assert (G2 : generic_format radix2 (SpecFloat.fexp 24 128) (bpow radix2 0)) by (change (bpow radix2 0) with 1; rewrite <- one_R; apply (generic_format_B2R 24 128)).
    pose proof (@pred_ge_gt radix2 (SpecFloat.fexp 24 128) (fexp_correct 24 128 prec_gt_0_32) _ _ G1 G2) as P.
    specialize (P H). rewrite pred_bpow in P. change (bpow radix2 (SpecFloat.fexp 24 128 0)) with (/ IZR (Zpower_pos 2 24)) in P.
    change (bpow radix2 0) with 1 in P. unfold u32. replace (/ 2 ^ 24) with (/ IZR (Zpower_pos 2 24)); [exact P|]. f_equal. change (Zpower_pos 2 24) with 16777216%Z. lra.
  Qed.
  Lemma one_mul a b al be : Rabs (a - 1) <= al -> Rabs (b - 1) <= be -> Rabs (a * b - 1) <= al + be + al * be.
  Proof.
    intros A B. replace (a * b - 1) with ((a - 1) + ((b - 1) + (a - 1) * (b - 1))) by ring. eapply Rle_trans; [apply Rabs_triang|]. eapply Rle_trans; [apply Rplus_le_compat_l, Rabs_triang|].
    rewrite Rabs_mult. assert (Rabs (a - 1) * Rabs (b - 1) <= al * be) by (apply Rmult_le_compat; auto using Rabs_pos). lra.
  Qed.
  Lemma softsign_slope (o : b32) s es : fin o = true -> Rabs (bv o - s) <= es -> Rabs s + es < 1 ->
    fin (@softsign_d OP o) = true /\ is_near (slope Softsign (mk_near 0 es)) (bv (@softsign_d OP o)) (@softsign_d opsR s).
  Proof.
    intros Fo Eo CL. pose proof u32_pos as U. pose proof u32_small as US. pose proof eta32_pos as ET. assert (ETU : eta32 <= u32 * u32) by (unfold eta32, u32; lra).
    assert (UU : u32 * u32 <= u32 * / 1000000) by (apply Rmult_le_compat_l; lra).
    pose proof (Rabs_pos s) as PS. pose proof (Rabs_pos (bv o)) as PV.
    assert (VA : Rabs (bv o) <= Rabs s + es). { replace (bv o) with ((bv o - s) + s) by ring. eapply Rle_trans; [apply Rabs_triang|]. lra. }
    pose proof (below_one o Fo ltac:(lra)) as VB. set (v := Rabs (bv o)) in *. set (d := 1 - v).
    assert (D1 : u32 <= d <= 1) by (unfold d; lra).
    set (w := Bminus mode_NE (b32_ofZ 1) (Babs o)). set (x := Bdiv mode_NE o w). set (y := Bplus mode_NE (b32_ofZ 1) (Babs x)).
    change (@softsign_d OP o) with (Bdiv mode_NE (b32_ofZ 1) (Bmult mode_NE y y)).
    assert (FA : fin (Babs o) = true) by (rewrite is_finite_Babs; exact Fo). assert (VAB : bv (Babs o) = v) by (apply B2R_Babs).
    destruct (minus_R (b32_ofZ 1) (Babs o) one_fin FA) as (FW & EW). { rewrite one_R, VAB. fold d. pose proof big127. apply Rabs_le. lra. }
    fold w in FW, EW. rewrite one_R, VAB in EW. fold d in EW. rewrite (Rabs_pos_eq d) in EW by lra. clearbody w. apply Rabs_le_inv in EW.
    assert (UD : 0 <= u32 * d <= u32) by (split; [apply Rmult_le_pos; lra|]; assert (u32 * d <= u32 * 1) by (apply Rmult_le_compat_l; lra); lra).
    assert (W1 : u32 / 2 <= bv w <= 1 + u32) by nra.
    set (I := / bv w). assert (IP : 0 < I) by (apply Rinv_0_lt_compat; lra). assert (WI : bv w * I = 1) by (apply Rinv_r; lra).
    assert (BIG : 2 / u32 <= 2 ^ 30) by (unfold u32; lra).
    assert (IB : I <= 2 / u32). { unfold I. replace (2 / u32) with (/ (u32 / 2)) by (field; lra). apply Rinv_le; lra. }
    assert (EVI : Rabs (bv o / bv w) = v * I) by (unfold Rdiv; rewrite Rabs_mult; fold I; rewrite (Rabs_pos_eq I) by lra; reflexivity).
    assert (VI : 0 <= v * I <= 2 ^ 30). { split; [apply Rmult_le_pos; lra|]. assert (v * I <= 1 * I) by (apply Rmult_le_compat_r; lra). lra. }
    assert (B30 : 2 ^ 30 * 2 ^ 30 * 100 <= 2 ^ 127) by lra. assert (B30' : 1 <= 2 ^ 30) by (apply pow_R1_Rle; lra).
    destruct (divide_R o w Fo) as (FX & EX). { lra. } { rewrite EVI. nra. }
    fold x in FX, EX. rewrite EVI in EX. clearbody x.
    assert (EX2 : Rabs (Rabs (bv x) - v * I) <= u32 * (v * I) + eta32).
    { rewrite <- EVI. eapply Rle_trans; [apply Rabs_triang_inv2|]. rewrite EVI. exact EX. }
    set (a := Rabs (bv x)) in *. assert (AP : 0 <= a) by apply Rabs_pos. clear EX. apply Rabs_le_inv in EX2.
    (* (1 + a) w is 1 up to 3 u *)
    assert (H1 : Rabs ((1 + a) * bv w - 1) <= 3 * u32).
    { assert (EQ : (1 + a) * bv w - 1 = (bv w - d) + (a - v * I) * bv w).
      { replace ((a - v * I) * bv w) with (a * bv w - v * (bv w * I)) by ring. rewrite WI. unfold d. ring. }
      rewrite EQ. eapply Rle_trans; [apply Rabs_triang|]. rewrite Rabs_mult, (Rabs_pos_eq (bv w)) by lra.
      assert (Rabs (bv w - d) <= u32) by (apply Rabs_le; lra).
      assert (T : Rabs (a - v * I) * bv w <= (u32 * (v * I) + eta32) * bv w) by (apply Rmult_le_compat_r; [lra|apply Rabs_le; lra]).
      replace ((u32 * (v * I) + eta32) * bv w) with (u32 * v * (bv w * I) + eta32 * bv w) in T by ring. rewrite WI in T.
      assert (u32 * v <= u32 * 1) by (apply Rmult_le_compat_l; lra). assert (eta32 * bv w <= eta32 * 2) by (apply Rmult_le_compat_l; lra). lra. }
    assert (A30 : a <= 2 * 2 ^ 30). { assert (u32 * (v * I) <= 1 / 2 * (v * I)) by (apply Rmult_le_compat_r; lra). lra. }
    destruct (add_R (b32_ofZ 1) (Babs x) one_fin) as (FY & EY). { rewrite is_finite_Babs. exact FX. } { rewrite one_R, B2R_Babs. fold a. rewrite Rabs_pos_eq by lra. nra. }
    fold y in FY, EY. rewrite one_R, B2R_Babs in EY. fold a in EY. rewrite (Rabs_pos_eq (1 + a)) in EY by lra. clearbody y. clear EX2 VI EVI FA VAB.
    (* y w *)
    assert (H2 : Rabs (bv y * bv w - 1) <= 5 * u32).
    { replace (bv y * bv w - 1) with ((bv y - (1 + a)) * bv w + ((1 + a) * bv w - 1)) by ring. eapply Rle_trans; [apply Rabs_triang|]. rewrite Rabs_mult, (Rabs_pos_eq (bv w)) by lra.
      assert (T : Rabs (bv y - (1 + a)) * bv w <= u32 * (1 + a) * bv w) by (apply Rmult_le_compat_r; lra). pose proof H1 as H1'. apply Rabs_le_inv in H1'.
      assert (u32 * ((1 + a) * bv w) <= u32 * (1 + 3 * u32)) by (apply Rmult_le_compat_l; lra). lra. }
    (* y d *)
    assert (YP : 1 / 2 <= bv y). { apply Rabs_le_inv in EY. assert (u32 * (1 + a) <= 1 / 2 * (1 + a)) by (apply Rmult_le_compat_r; lra). lra. }
    assert (H3 : Rabs (bv y * d - 1) <= 7 * u32).
    { replace (bv y * d - 1) with ((bv y * bv w - 1) - bv y * (bv w - d)) by ring. unfold Rminus at 1. eapply Rle_trans; [apply Rabs_triang|]. rewrite Rabs_Ropp, Rabs_mult, (Rabs_pos_eq (bv y)) by lra.
      assert (T1 : Rabs (bv w - d) <= 2 * u32 * bv w). { apply Rabs_le. split; nra. }
      assert (T2 : Rabs (bv w - d) <= u32 * (bv w * (1 + 2 * u32))). { apply Rabs_le. split; nra. }
      assert (T : bv y * Rabs (bv w - d) <= bv y * (u32 * (bv w * (1 + 2 * u32)))) by (apply Rmult_le_compat_l; lra).
      replace (bv y * (u32 * (bv w * (1 + 2 * u32)))) with (u32 * (1 + 2 * u32) * (bv y * bv w)) in T by ring. apply Rabs_le_inv in H2.
      assert (u32 * (1 + 2 * u32) * (bv y * bv w) <= u32 * (1 + 2 * u32) * (1 + 5 * u32)) by (apply Rmult_le_compat_l; [nra|lra]).
      assert (u32 * (1 + 2 * u32) * (1 + 5 * u32) <= u32 * (2)) by (rewrite Rmult_assoc; apply Rmult_le_compat_l; nra).
      apply Rabs_le in H2. lra. }
    pose proof (one_mul _ _ _ _ H3 H3) as H4.
    assert (Y30 : bv y <= 4 * 2 ^ 30). { apply Rabs_le_inv in EY. assert (u32 * (1 + a) <= 1 / 3 * (1 + a)) by (apply Rmult_le_compat_r; lra). lra. }
    assert (YY : 0 <= bv y * bv y <= 16 * (2 ^ 30 * 2 ^ 30)) by nra.
    destruct (mul_R y y FY FY) as (FP & EP). { rewrite Rabs_pos_eq by lra. lra. } rewrite (Rabs_pos_eq (bv y * bv y)) in EP by lra.
    set (p := Bmult mode_NE y y) in *. clearbody p. set (dd := d * d) in *. assert (DD : 0 <= dd <= 1) by (unfold dd; nra).
    assert (H5 : Rabs (bv p * dd - 1) <= 17 * u32).
    { replace (bv p * dd - 1) with ((bv p - bv y * bv y) * dd + (bv y * d * (bv y * d) - 1)) by (unfold dd; ring). eapply Rle_trans; [apply Rabs_triang|]. rewrite Rabs_mult, (Rabs_pos_eq dd) by lra.
      assert (T : Rabs (bv p - bv y * bv y) * dd <= (u32 * (bv y * bv y) + eta32) * dd) by (apply Rmult_le_compat_r; lra).
      replace ((u32 * (bv y * bv y) + eta32) * dd) with (u32 * (bv y * d * (bv y * d)) + eta32 * dd) in T by (unfold dd; ring).
      assert (eta32 * dd <= eta32 * 1) by (apply Rmult_le_compat_l; lra). pose proof H4 as H4'. apply Rabs_le_inv in H4'.
      assert (u32 * (bv y * d * (bv y * d)) <= u32 * (1 + 15 * u32)) by (apply Rmult_le_compat_l; nra). nra. }
    assert (PP : 1 / 8 <= bv p). { apply Rabs_le_inv in EP. assert (1 / 4 <= bv y * bv y) by nra. assert (u32 * (bv y * bv y) <= 1 / 10 * (bv y * bv y)) by (apply Rmult_le_compat_r; lra). lra. }
    set (J := / bv p). assert (JP : 0 < J) by (apply Rinv_0_lt_compat; lra). assert (PJ : bv p * J = 1) by (apply Rinv_r; lra). assert (J8 : J <= 8) by nra.
    assert (H6 : Rabs (J - dd) <= 18 * u32 * dd).
    { replace (J - dd) with ((1 - bv p * dd) * J + dd * (bv p * J) - dd) by (rewrite Rmult_minus_distr_r; replace (bv p * dd * J) with (dd * (bv p * J)) by ring; ring). rewrite PJ.
      replace ((1 - bv p * dd) * J + dd * 1 - dd) with ((1 - bv p * dd) * J) by ring. rewrite Rabs_mult, (Rabs_pos_eq J), Rabs_minus_sym by lra.
      assert (T : Rabs (bv p * dd - 1) * J <= 17 * u32 * J) by (apply Rmult_le_compat_r; lra).
      apply Rabs_le_inv in H5. assert (J * (1 - 17 * u32) <= J * (bv p * dd)) by (apply Rmult_le_compat_l; lra). replace (J * (bv p * dd)) with (dd * (bv p * J)) in H by ring. rewrite PJ in H.
      assert (J * (17 / 18) <= J * (1 - 17 * u32)) by (apply Rmult_le_compat_l; lra).
      assert (17 * u32 * J <= 17 * u32 * (18 / 17 * dd)) by (apply Rmult_le_compat_l; lra). lra. }
    assert (E1P : 1 / bv p = J) by (unfold Rdiv; apply Rmult_1_l).
    destruct (divide_R (b32_ofZ 1) p one_fin) as (FR & ER). { lra. } { rewrite one_R, E1P, Rabs_pos_eq by lra. pose proof big127. lra. }
    rewrite one_R, E1P, (Rabs_pos_eq J) in ER by lra. split; [exact FR|]. set (r := Bdiv mode_NE (b32_ofZ 1) p) in *. clearbody r.
    assert (H7 : Rabs (bv r - dd) <= 20 * u32).
    { replace (bv r - dd) with ((bv r - J) + (J - dd)) by ring. eapply Rle_trans; [apply Rabs_triang|]. assert (18 * u32 * dd <= 18 * u32 * 1) by (apply Rmult_le_compat_l; lra).
      apply Rabs_le_inv in H6. assert (J <= 1 + 18 * u32) by lra. assert (u32 * J <= u32 * (1 + 18 * u32)) by (apply Rmult_le_compat_l; lra). apply Rabs_le in H6. nra. }
    assert (ES : @eq R (@softsign_d opsR s) ((1 - Rabs s) * (1 - Rabs s))).
    { change (@softsign_d opsR s) with (1 / ((1 + Rabs (s / (1 - Rabs s))) * (1 + Rabs (s / (1 - Rabs s))))).
      pose proof (Rabs_pos (bv o - s)) as PE. assert (E : Rabs (s / (1 - Rabs s)) = Rabs s / (1 - Rabs s)).
      { unfold Rdiv. rewrite Rabs_mult, Rabs_inv, (Rabs_pos_eq (1 - Rabs s)) by lra. reflexivity. }
      rewrite E. field. repeat split; lra. }
    rewrite ES. pose proof (Rabs_pos (bv o - s)) as PE. unfold slope. cbn [err]. split; cbn [mag err].
    - rewrite Rabs_pos_eq; nra.
    - replace (bv r - (1 - Rabs s) * (1 - Rabs s)) with ((bv r - dd) + (dd - (1 - Rabs s) * (1 - Rabs s))) by ring. eapply Rle_trans; [apply Rabs_triang|].
      assert (T : Rabs (dd - (1 - Rabs s) * (1 - Rabs s)) <= es * (2 + es)).
      { unfold dd, d. replace ((1 - v) * (1 - v) - (1 - Rabs s) * (1 - Rabs s)) with ((Rabs s - v) * ((1 - v) + (1 - Rabs s))) by ring. rewrite Rabs_mult.
        apply Rmult_le_compat; try apply Rabs_pos; [|apply Rabs_le; lra]. rewrite Rabs_minus_sym. unfold v. eapply Rle_trans; [apply Rabs_triang_inv2|exact Eo]. }
      lra.
  Qed.
End Slopes.
