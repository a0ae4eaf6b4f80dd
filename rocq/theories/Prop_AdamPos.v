(** Prop_AdamPos.v -- C82: Adam treats a component the same wherever it lies in the vector *)
From Flocq Require Import Core BinarySingleNaN.
From Coq Require Import ZArith Bool List Arith Reals Lia Lra.
From Verif Require Import Base BaseProofs Ops Mem MemProofs Kernels KernelProofs OpsB32 B32Facts MetricB32 SpecMem Optimizer OptKernels
  SpecLibm SpecRound RoundProofs Exp256B32 InitProofs AdaptRound SpecAdamPos.
Import ListNotations.
Local Open Scope R_scope.
Local Open Scope mem_scope.

(** ** the two ways to add a square *)
Notation lane2 beta x y := (Bplus mode_NE (Bmult mode_NE x beta) (Bmult mode_NE (Bmult mode_NE y y) (Bminus mode_NE (b32_ofZ 1) beta))).
Notation tail2 beta x y := (Bplus mode_NE (Bmult mode_NE beta x) (Bmult mode_NE (Bmult mode_NE (Bminus mode_NE (b32_ofZ 1) beta) y) y)).

Lemma err_bounds x y e : Rabs (x - y) <= e -> y - e <= x <= y + e.
Proof. apply around. Qed.

(** the error of the square in the lanes and in the tail, over the real numbers; k is 1 - beta, K its float *)
Lemma lanes_real K S t1 a : 0 <= K <= 2 -> 0 <= S -> Rabs (t1 - S) <= u32 * S + eta32 -> Rabs (a - t1 * K) <= u32 * Rabs (t1 * K) + eta32 ->
  Rabs (a - K * S) <= 3 * u32 * (K * S) + 4 * eta32.
Proof.
  intros HK HS H1 H2. pose proof u32_pos. pose proof u32_small. pose proof eta32_pos.
  assert (A : Rabs (t1 * K - K * S) <= u32 * (K * S) + 2 * eta32).
  { replace (t1 * K - K * S) with ((t1 - S) * K) by ring. rewrite Rabs_mult, (Rabs_pos_eq K) by lra.
    apply Rle_trans with ((u32 * S + eta32) * K); [apply Rmult_le_compat_r; lra|].
    assert (eta32 * K <= eta32 * 2) by (apply Rmult_le_compat_l; lra). lra. }
  assert (P : 0 <= K * S) by (apply Rmult_le_pos; lra).
  assert (B : Rabs (t1 * K) <= (1 + u32) * (K * S) + 2 * eta32).
  { replace (t1 * K) with ((t1 * K - K * S) + K * S) by ring. eapply Rle_trans; [apply Rabs_triang|]. rewrite (Rabs_pos_eq (K * S)) by lra. lra. }
  replace (a - K * S) with ((a - t1 * K) + (t1 * K - K * S)) by ring. eapply Rle_trans; [apply Rabs_triang|].
  assert (C : u32 * Rabs (t1 * K) <= u32 * ((1 + u32) * (K * S) + 2 * eta32)) by (apply Rmult_le_compat_l; lra).
  assert (D : u32 * (u32 * (K * S)) <= / 1000000 * (u32 * (K * S))).
  { apply Rmult_le_compat_r; [apply Rmult_le_pos; lra|lra]. }
  assert (E : u32 * eta32 <= / 1000000 * eta32) by (apply Rmult_le_compat_r; lra).
  assert (0 <= u32 * (K * S)) by (apply Rmult_le_pos; lra). lra.
Qed.

Lemma tail_real K g t2 b : / 2 ^ 25 <= K <= 2 -> Rabs (t2 - K * g) <= u32 * Rabs (K * g) + eta32 -> Rabs (b - t2 * g) <= u32 * Rabs (t2 * g) + eta32 ->
  Rabs (b - K * (g * g)) <= 4 * u32 * (K * (g * g)) + 4 * eta32.
Proof.
  intros HK H1 H2. pose proof u32_pos. pose proof u32_small. pose proof eta32_pos. pose proof (Rabs_pos g) as GP.
  assert (K0 : 0 < / 2 ^ 25) by (apply Rinv_0_lt_compat, pow_lt; lra).
  assert (SQ : Rabs g * Rabs g = g * g) by (rewrite <- Rabs_mult; apply Rabs_pos_eq, Rle_0_sqr).
  assert (P : 0 <= K * (g * g)) by (apply Rmult_le_pos; [lra|apply Rle_0_sqr]).
  rewrite Rabs_mult, (Rabs_pos_eq K) in H1 by lra.
  (* what underflow adds *)
  assert (U : eta32 * Rabs g <= eta32 + / 1000 * (u32 * (K * (g * g)))).
  { assert (UP : 0 <= u32 * (K * (g * g))) by (apply Rmult_le_pos; lra).
    destruct (Rle_or_lt (Rabs g) 1).
    - assert (eta32 * Rabs g <= eta32 * 1) by (apply Rmult_le_compat_l; lra). lra.
    - assert (G1 : Rabs g <= g * g). { rewrite <- SQ. rewrite <- (Rmult_1_l (Rabs g)) at 1. apply Rmult_le_compat_r; lra. }
      assert (C : eta32 <= / 1000 * (u32 * / 2 ^ 25)) by (unfold eta32, u32; lra).
      assert (D : u32 * / 2 ^ 25 <= u32 * K) by (apply Rmult_le_compat_l; lra).
      assert (E : eta32 * Rabs g <= / 1000 * (u32 * K) * (g * g)).
      { apply Rmult_le_compat; lra. }
      lra. }
  assert (A : Rabs (t2 * g - K * (g * g)) <= (1 + / 1000) * (u32 * (K * (g * g))) + eta32).
  { replace (t2 * g - K * (g * g)) with ((t2 - K * g) * g) by ring. rewrite Rabs_mult.
    apply Rle_trans with ((u32 * (K * Rabs g) + eta32) * Rabs g); [apply Rmult_le_compat_r; lra|].
    replace ((u32 * (K * Rabs g) + eta32) * Rabs g) with (u32 * (K * (Rabs g * Rabs g)) + eta32 * Rabs g) by ring. rewrite SQ. lra. }
  assert (UP : 0 <= u32 * (K * (g * g))) by (apply Rmult_le_pos; lra).
  assert (US : u32 * (u32 * (K * (g * g))) <= / 1000000 * (u32 * (K * (g * g)))) by (apply Rmult_le_compat_r; lra).
  assert (B : Rabs (t2 * g) <= K * (g * g) + (1 + / 1000) * (u32 * (K * (g * g))) + eta32).
  { replace (t2 * g) with ((t2 * g - K * (g * g)) + K * (g * g)) by ring. eapply Rle_trans; [apply Rabs_triang|]. rewrite (Rabs_pos_eq (K * (g * g))) by lra. lra. }
  replace (b - K * (g * g)) with ((b - t2 * g) + (t2 * g - K * (g * g))) by ring. eapply Rle_trans; [apply Rabs_triang|].
  assert (C : u32 * Rabs (t2 * g) <= u32 * (K * (g * g) + (1 + / 1000) * (u32 * (K * (g * g))) + eta32)) by (apply Rmult_le_compat_l; lra).
  assert (E : u32 * eta32 <= / 1000000 * eta32) by (apply Rmult_le_compat_r; lra). lra.
Qed.

(** both are close to the exact mean *)
Lemma square_close (K y : b32) : fin K = true -> / 2 ^ 25 <= bv K <= 2 -> fin y = true -> Rabs (bv y) <= 2 ^ 62 ->
  let S := bv K * (bv y * bv y) in
  let a := Bmult mode_NE (Bmult mode_NE y y) K in let b := Bmult mode_NE (Bmult mode_NE K y) y in
  S <= 2 ^ 125 /\ fin a = true /\ fin b = true /\
  Rabs (bv a - S) <= 3 * u32 * S + 4 * eta32 /\ Rabs (bv b - S) <= 4 * u32 * S + 4 * eta32.
Proof.
  intros FK HK Fy Hy S a b. pose proof u32_pos. pose proof u32_small. pose proof eta32_pos. pose proof eta32_small. pose proof (Rabs_pos (bv y)) as YP.
  assert (K0 : 0 < / 2 ^ 25) by (apply Rinv_0_lt_compat, pow_lt; lra).
  assert (SQ : Rabs (bv y) * Rabs (bv y) = bv y * bv y) by (rewrite <- Rabs_mult; apply Rabs_pos_eq, Rle_0_sqr).
  assert (Q0 : 0 <= bv y * bv y) by apply Rle_0_sqr.
  assert (Q1 : bv y * bv y <= 2 ^ 124). { rewrite <- SQ. replace (2 ^ 124) with (2 ^ 62 * 2 ^ 62) by lra. apply Rmult_le_compat; lra. }
  assert (S1 : S <= 2 * 2 ^ 124) by (unfold S; apply Rmult_le_compat; lra).
  assert (KY : Rabs (bv K * bv y) <= 2 * 2 ^ 62) by (rewrite Rabs_mult, (Rabs_pos_eq (bv K)) by lra; apply Rmult_le_compat; lra).
  destruct (mul_R y y Fy Fy) as (F1 & E1). { rewrite Rabs_pos_eq by lra. lra. }
  rewrite (Rabs_pos_eq (bv y * bv y)) in E1 by lra. set (t1 := Bmult mode_NE y y) in *.
  destruct (err_bounds _ _ _ E1) as (L1 & U1).
  assert (T1 : Rabs (bv t1) <= 2 * 2 ^ 124).
  { assert (u32 * (bv y * bv y) <= / 1000000 * (bv y * bv y)) by (apply Rmult_le_compat_r; lra). apply Rabs_le. lra. }
  destruct (mul_R t1 K F1 FK) as (F2 & E2).
  { rewrite Rabs_mult, (Rabs_pos_eq (bv K)) by lra. apply Rle_trans with (2 * 2 ^ 124 * 2); [apply Rmult_le_compat; try lra; apply Rabs_pos|lra]. }
  destruct (mul_R K y FK Fy) as (F3 & E3). { lra. }
  set (t2 := Bmult mode_NE K y) in *.
  assert (T2 : Rabs (bv t2) <= 3 * 2 ^ 62).
  { replace (bv t2) with ((bv t2 - bv K * bv y) + bv K * bv y) by ring. eapply Rle_trans; [apply Rabs_triang|].
    assert (u32 * Rabs (bv K * bv y) <= / 1000000 * Rabs (bv K * bv y)) by (apply Rmult_le_compat_r; [apply Rabs_pos|lra]). lra. }
  destruct (mul_R t2 y F3 Fy) as (F4 & E4).
  { rewrite Rabs_mult. apply Rle_trans with (3 * 2 ^ 62 * 2 ^ 62); [apply Rmult_le_compat; try lra; apply Rabs_pos|lra]. }
  split; [lra|]. split; [exact F2|]. split; [exact F4|]. split.
  - apply (lanes_real (bv K) (bv y * bv y) (bv t1)); auto; lra.
  - apply (tail_real (bv K) (bv y) (bv t2)); auto; lra.
Qed.

Lemma moment_close (beta x y : b32) : fin beta = true -> 0 <= bv beta < 1 -> fin x = true -> 0 <= bv x <= 2 ^ 125 -> fin y = true -> Rabs (bv y) <= 2 ^ 62 ->
  let a := lane2 beta x y in let b := tail2 beta x y in
  fin a = true /\ fin b = true /\ few_roundings (mean_square (bv beta) (bv x) (bv y)) (bv a) (bv b).
Proof.
  intros Fb Hb Fx Hx Fy Hy a b. pose proof u32_pos. pose proof u32_small. pose proof eta32_pos. pose proof eta32_small.
  destruct (rho_R beta Fb Hb) as (FK & EK & K1 & _). set (K := Bminus mode_NE (b32_ofZ 1) beta) in *.
  destruct (err_bounds _ _ _ EK) as (LK & UK). set (k := 1 - bv beta) in *.
  assert (Kk : u32 * k <= / 1000000 * k) by (apply Rmult_le_compat_r; unfold k in *; lra).
  assert (HK : / 2 ^ 25 <= bv K <= 2) by (unfold k in *; lra).
  destruct (square_close K y FK HK Fy Hy) as (SB & F1 & F2 & E1 & E2).
  set (S := bv K * (bv y * bv y)) in *. set (q1 := Bmult mode_NE (Bmult mode_NE y y) K) in *. set (q2 := Bmult mode_NE (Bmult mode_NE K y) y) in *.
  assert (Q0 : 0 <= bv y * bv y) by apply Rle_0_sqr.
  assert (S0 : 0 <= S) by (unfold S; apply Rmult_le_pos; lra).
  assert (SK : S <= (1 + / 1000000) * (k * (bv y * bv y))).
  { unfold S. replace ((1 + / 1000000) * (k * (bv y * bv y))) with ((1 + / 1000000) * k * (bv y * bv y)) by ring. apply Rmult_le_compat_r; lra. }
  assert (P0 : 0 <= bv beta * bv x) by (apply Rmult_le_pos; lra).
  assert (P1 : bv beta * bv x <= 1 * 2 ^ 125) by (apply Rmult_le_compat; lra).
  assert (PC : Bmult mode_NE x beta = Bmult mode_NE beta x) by exact (mulC_B32 (Build_libm (fun z => z) (fun z => z) (fun z => z)) x beta).
  destruct (mul_R beta x Fb Fx) as (F3 & E3). { rewrite Rabs_pos_eq by lra. lra. }
  rewrite (Rabs_pos_eq (bv beta * bv x)) in E3 by lra. destruct (err_bounds _ _ _ E3) as (L3 & U3).
  set (p := Bmult mode_NE beta x) in *.
  destruct (err_bounds _ _ _ E1) as (L1 & U1). destruct (err_bounds _ _ _ E2) as (L2 & U2).
  assert (US : u32 * S <= / 1000000 * S) by (apply Rmult_le_compat_r; lra).
  assert (UP : u32 * (bv beta * bv x) <= / 1000000 * (bv beta * bv x)) by (apply Rmult_le_compat_r; lra).
  assert (A1 : Rabs (bv p + bv q1) <= 2 * (bv beta * bv x + S) + 10 * eta32) by (apply Rabs_le; lra).
  assert (A2 : Rabs (bv p + bv q2) <= 2 * (bv beta * bv x + S) + 10 * eta32) by (apply Rabs_le; lra).
  destruct (add_R p q1 F3 F1) as (F4 & E4). { lra. }
  destruct (add_R p q2 F3 F2) as (F5 & E5). { lra. }
  assert (EA : a = Bplus mode_NE p q1) by (unfold a; rewrite PC; reflexivity).
  rewrite EA. change b with (Bplus mode_NE p q2). split; [exact F4|]. split; [exact F5|].
  unfold few_roundings, mean_square. fold k.
  destruct (err_bounds _ _ _ E4) as (L4 & U4). destruct (err_bounds _ _ _ E5) as (L5 & U5).
  assert (M1 : u32 * Rabs (bv p + bv q1) <= u32 * (2 * (bv beta * bv x + S) + 10 * eta32)) by (apply Rmult_le_compat_l; lra).
  assert (M2 : u32 * Rabs (bv p + bv q2) <= u32 * (2 * (bv beta * bv x + S) + 10 * eta32)) by (apply Rmult_le_compat_l; lra).
  assert (UE : u32 * eta32 <= / 1000000 * eta32) by (apply Rmult_le_compat_r; lra).
  assert (SK2 : u32 * S <= u32 * ((1 + / 1000000) * (k * (bv y * bv y)))) by (apply Rmult_le_compat_l; lra).
  assert (0 <= u32 * (k * (bv y * bv y))) by (apply Rmult_le_pos; [lra|apply Rmult_le_pos; unfold k in *; lra]).
  assert (0 <= u32 * (bv beta * bv x)) by (apply Rmult_le_pos; lra).
  apply Rabs_le. lra.
Qed.

(** ** C82 *)
Lemma moment_nth (lm : libm) (c : cfg) (beta : b32) (xs ys : list b32) i (x y : b32) : nth_error xs i = Some x -> nth_error ys i = Some y ->
  nth_error (@second_moment_f (opsB32 lm) c beta xs ys) i = Some (if (i <? vend c (length xs))%nat then lane2 beta x y else tail2 beta x y).
Proof. intros H1 H2. unfold second_moment_f, lanes2. rewrite nth_error_mapi2. change (@F (opsB32 lm)) with b32 in *. rewrite H1, H2. reflexivity. Qed.

(** C82 holds for two components of the same part of the vector, and everywhere in a build without AVX.  Across the parts the
    second moments are a few roundings apart, if the gradient is at most 2^62. *)
Theorem adam_same_everywhere_partial (lm : libm) (c : cfg) (m : @mem (opsB32 lm)) (r g : ptr) (beta : b32) (xs ys : list b32) :
  @holds (opsB32 lm) m r xs -> @holds (opsB32 lm) m g ys -> length ys = length xs ->
  disjoint r (length xs) g (length xs) -> kal c (length xs) m r -> kal c (length xs) m g ->
  exists zs : list b32,
    writes_only (@update_biased_second_moment (opsB32 lm) c (length xs) r g beta) m r zs /\ length zs = length xs /\
    forall i j x y, nth_error xs i = Some x -> nth_error xs j = Some x -> nth_error ys i = Some y -> nth_error ys j = Some y ->
      exists a b, nth_error zs i = Some a /\ nth_error zs j = Some b /\
        (has_avx c = false \/ same_part (length xs) i j -> a = b) /\
        (is_finite beta = true -> 0 <= B2R beta < 1 -> is_finite x = true -> 0 <= B2R x <= 2 ^ 125 -> is_finite y = true -> Rabs (B2R y) <= 2 ^ 62 ->
         is_finite a = true /\ is_finite b = true /\ few_roundings (mean_square (B2R beta) (B2R x) (B2R y)) (B2R a) (B2R b)).
Proof.
  intros H1 H2 L D K1 K2. exists (@second_moment_f (opsB32 lm) c beta xs ys).
  assert (LZ : length (@second_moment_f (opsB32 lm) c beta xs ys) = length xs) by (apply (@length_lanes2 (opsB32 lm)); exact L).
  split. { apply (@writes_only_intro (opsB32 lm)). - apply (eq_ind_r (fun k => @valid (opsB32 lm) m r k) (holds_valid H1) LZ).
    - apply (@second_moment_ok (opsB32 lm)); auto. }
  split; [exact LZ|]. intros i j x y Xi Xj Yi Yj.
  exists (if (i <? vend c (length xs))%nat then lane2 beta x y else tail2 beta x y), (if (j <? vend c (length xs))%nat then lane2 beta x y else tail2 beta x y).
  split; [apply moment_nth; auto|]. split; [apply moment_nth; auto|]. split.
  - intros HS. assert (E : (i <? vend c (length xs))%nat = (j <? vend c (length xs))%nat).
    { unfold vend. destruct (has_avx c) eqn:A; [|reflexivity]. destruct HS as [HS|HS]; [discriminate|]. unfold same_part in HS.
      destruct (Nat.ltb_spec i (8 * (length xs / 8))); destruct (Nat.ltb_spec j (8 * (length xs / 8))); auto; exfalso; lia. }
    rewrite E. reflexivity.
  - intros Fb Hb Fx Hx Fy Hy. destruct (moment_close beta x y Fb Hb Fx Hx Fy Hy) as (A & B & C).
    assert (E0 : 0 <= mean_square (bv beta) (bv x) (bv y)).
    { unfold mean_square. apply Rplus_le_le_0_compat; apply Rmult_le_pos; try apply Rle_0_sqr; lra. }
    assert (R0 : forall z, few_roundings (mean_square (bv beta) (bv x) (bv y)) z z).
    { intros z. unfold few_roundings. rewrite Rminus_diag_eq, Rabs_R0 by reflexivity. pose proof u32_pos. pose proof eta32_pos.
      assert (0 <= u32 * mean_square (bv beta) (bv x) (bv y)) by (apply Rmult_le_pos; lra). lra. }
    destruct (i <? vend c (length xs))%nat, (j <? vend c (length xs))%nat; (split; [assumption|split; [assumption|]]).
    + apply R0. + exact C. + unfold few_roundings in *. rewrite Rabs_minus_sym. exact C. + apply R0.
Qed.
Print Assumptions adam_same_everywhere_partial.

(** C82 is false: 9 components with the gradient 2^64, the default betas and learning rate, in the second step after a first one with gradient 0,
    which leaves both moments at 0 (AVX build).  The step of the first component is 0, that of the last is below -lr / 2.  In the very first
    step both are 0: there the bias correction overflows in the scalar loop too. *)
Theorem adam_same_everywhere_refuted (lm : libm) :
  exists (c : cfg) (m m' : @mem (opsB32 lm)) (s r g : ptr) (ds : list b32) (d0 d8 : b32),
    let beta1 := b32_lit 9 10 in let beta2 := b32_lit 999 1000 in let lr := b32_lit 1 1000 in
    let b1 := Bmult mode_NE (Bmult mode_NE (b32_ofZ 1) beta1) beta1 in let b2 := Bmult mode_NE (Bmult mode_NE (b32_ofZ 1) beta2) beta2 in
    @holds (opsB32 lm) m s (repeat b32_zero 9) /\ @holds (opsB32 lm) m r (repeat b32_zero 9) /\ @holds (opsB32 lm) m g (repeat (b32_of 1 64) 9) /\
    (@update_biased_first_moment (opsB32 lm) c 9 s g beta1 ;;; @update_biased_second_moment (opsB32 lm) c 9 r g beta2 ;;;
     @compute_update_adam (opsB32 lm) c 9 g s r b1 b2 lr) m = Ok (tt, m') /\
    @holds (opsB32 lm) m' g ds /\ nth_error ds 0 = Some d0 /\ nth_error ds 8 = Some d8 /\
    Beqb d0 b32_zero = true /\ Bltb d8 (b32_lit (-1) 2000) = true.
Proof.
  set (O := opsB32 lm). set (zs := repeat b32_zero 9). set (gs := repeat (b32_of 1 64) 9).
  set (m := [@mkblock O 640 (map Some zs); @mkblock O 1280 (map Some zs); @mkblock O 1920 (map Some gs)]).
  set (c := {| cfg_isa := AVX; cfg_fma := false |}). set (s := mkptr 0 0). set (r := mkptr 1 0). set (g := mkptr 2 0).
  set (beta1 := b32_lit 9 10). set (beta2 := b32_lit 999 1000). set (lr := b32_lit 1 1000).
  set (b1 := Bmult mode_NE (Bmult mode_NE (b32_ofZ 1) beta1) beta1). set (b2 := Bmult mode_NE (Bmult mode_NE (b32_ofZ 1) beta2) beta2).
  set (s1 := map2 (fun x y : b32 => Bplus mode_NE (Bmult mode_NE beta1 x) (Bmult mode_NE (Bminus mode_NE (b32_ofZ 1) beta1) y)) zs gs).
  set (r1 := @second_moment_f O c beta2 zs gs). set (ds := map2 (@adam_f O b1 b2 lr) s1 r1).
  set (m1 := @writem O m s s1). set (m2 := @writem O m1 r r1).
  assert (KA : forall p, In p [s; r; g] -> @kal O c 9 m p).
  { intros p [<-|[<-|[<-|[]]]]; split; intros; try discriminate; reflexivity. }
  assert (Hs : @holds O m s zs) by (eexists; split; [reflexivity|split; [cbn; lia|reflexivity]]).
  assert (Hr : @holds O m r zs) by (eexists; split; [reflexivity|split; [cbn; lia|reflexivity]]).
  assert (Hg : @holds O m g gs) by (eexists; split; [reflexivity|split; [cbn; lia|reflexivity]]).
  assert (Dsr : disjoint s 9 r 9) by (left; discriminate). assert (Dsg : disjoint s 9 g 9) by (left; discriminate). assert (Drg : disjoint r 9 g 9) by (left; discriminate).
  exists c, m, (@writem O m2 g ds), s, r, g, ds.
  eexists. eexists. cbv zeta. split; [exact Hs|]. split; [exact Hr|]. split; [exact Hg|].
  assert (E1 : @update_biased_first_moment O c 9 s g beta1 m = Ok (tt, m1)).
  { apply (@first_moment_ok O c (mulC_B32 lm) m s g zs gs beta1); auto; apply KA; simpl; auto. }
  assert (Hr1 : @holds O m1 r zs) by (eexists; split; [reflexivity|split; [cbn; lia|reflexivity]]).
  assert (Hg1 : @holds O m1 g gs) by (eexists; split; [reflexivity|split; [cbn; lia|reflexivity]]).
  assert (E2 : @update_biased_second_moment O c 9 r g beta2 m1 = Ok (tt, m2)).
  { apply (@second_moment_ok O c m1 r g zs gs beta2); auto; apply kal_writem; apply KA; simpl; auto. }
  assert (Hs2 : @holds O m2 s s1) by (eexists; split; [reflexivity|split; [cbn; lia|reflexivity]]).
  assert (Hr2 : @holds O m2 r r1) by (eexists; split; [reflexivity|split; [cbn; lia|reflexivity]]).
  assert (Hg2 : @holds O m2 g gs) by (eexists; split; [reflexivity|split; [cbn; lia|reflexivity]]).
  assert (E3 : @compute_update_adam O c 9 g s r b1 b2 lr m2 = Ok (tt, @writem O m2 g ds)).
  { apply (@compute_update_adam_ok O c m2 g s r s1 r1 b1 b2 lr); auto.
    - exact (holds_valid Hg2).
    - apply disjoint_sym; exact Dsg. - apply disjoint_sym; exact Drg.
    - apply kal_writem, kal_writem, KA; simpl; auto. - apply kal_writem, kal_writem, KA; simpl; auto. - apply kal_writem, kal_writem, KA; simpl; auto. }
  split. { unfold bind. rewrite E1. rewrite E2. exact E3. }
  split. { apply holds_writem_same. exact (holds_valid Hg2). }
  split; [reflexivity|]. split; [reflexivity|]. split; vm_compute; reflexivity.
Qed.
Print Assumptions adam_same_everywhere_refuted.

(** the hypotheses of the partial theorem can be met: 9 components, gradient 1, old mean 0; the first is in the vector part, the last is not *)
Example adam_same_everywhere_case (lm : libm) :
  let O := opsB32 lm in let c := {| cfg_isa := AVX; cfg_fma := false |} in
  let m := [@mkblock O 640 (repeat (Some b32_zero) 9); @mkblock O 1280 (repeat (Some (b32_ofZ 1)) 9)] in
  @holds O m (mkptr 0 0) (repeat b32_zero 9) /\ @holds O m (mkptr 1 0) (repeat (b32_ofZ 1) 9) /\ disjoint (mkptr 0 0) 9 (mkptr 1 0) 9 /\
  @kal O c 9 m (mkptr 0 0) /\ @kal O c 9 m (mkptr 1 0) /\
  is_finite (b32_lit 999 1000) = true /\ 0 <= B2R (b32_lit 999 1000) < 1 /\ Rabs (B2R (b32_ofZ 1)) <= 2 ^ 62 /\
  ~ same_part 9 0 8 /\ same_part 9 0 7.
Proof.
  cbv zeta. split. { eexists; split; [reflexivity|split; [cbn; lia|reflexivity]]. }
  split. { eexists; split; [reflexivity|split; [cbn; lia|reflexivity]]. }
  split. { left; discriminate. }
  split. { split; intros; try discriminate; reflexivity. } split. { split; intros; try discriminate; reflexivity. }
  assert (B : fin (b32_lit 999 1000) = true /\ bv (b32_lit 999 1000) = 16760439 / 16777216) by lit32.
  destruct B as (B1 & B2). split; [exact B1|]. split. { fold (bv (b32_lit 999 1000)). rewrite B2. lra. }
  split. { rewrite one_R, Rabs_pos_eq; lra. }
  unfold same_part. cbn. split; lia.
Qed.
