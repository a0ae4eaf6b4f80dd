(** Exp256B32.v -- accuracy of exp256_ps (src/activation.c:358-412) in binary32 *)
From Coquelicot Require Import Coquelicot.
From Flocq Require Import Core BinarySingleNaN Relative.
From Coq Require Import ZArith Bool List Arith Reals Lia Lra.
From Verif Require Import Base Ops OpsB32 B32Facts MetricB32 InitProofs Activation SpecRound RoundProofs Exp256.
Local Open Scope R_scope.

#[local] Instance vexp32' : Valid_exp (SpecFloat.fexp 24 128) := fexp_correct 24 128 prec_gt_0_32.

Lemma u32_val : u32 = 1 / 16777216. Proof. unfold u32. lra. Qed.
Lemma eta32_tiny : eta32 <= 1 / 10 ^ 40.
Proof. unfold eta32. lra. Qed.

(** ** values with an error *)
Definition near (v : b32) (s e : R) : Prop := fin v = true /\ Rabs (bv v - s) <= e.
Lemma near_mul x y p q ex ey P Q e : near x p ex -> near y q ey -> Rabs p <= P -> Rabs q <= Q ->
  P + ex <= 1000 -> Q + ey <= 1000 -> ex * Q + ey * P + ex * ey + u32 * ((P + ex) * (Q + ey)) + eta32 <= e ->
  near (Bmult mode_NE x y) (p * q) e.
Proof.
  intros (Fx & Hx) (Fy & Hy) HP HQ BP BQ HE.
  pose proof (Rabs_pos p) as Pp. pose proof (Rabs_pos q) as Pq. pose proof (Rabs_pos (bv x - p)) as Px. pose proof (Rabs_pos (bv y - q)) as Py.
  assert (Ax : Rabs (bv x) <= P + ex). { pose proof (Rabs_triang (bv x - p) p) as T. replace (bv x - p + p) with (bv x) in T by ring. lra. }
  assert (Ay : Rabs (bv y) <= Q + ey). { pose proof (Rabs_triang (bv y - q) q) as T. replace (bv y - q + q) with (bv y) in T by ring. lra. }
  assert (Axy : Rabs (bv x * bv y) <= (P + ex) * (Q + ey)). { rewrite Rabs_mult. apply Rmult_le_compat; auto using Rabs_pos. }
  assert (HB : (P + ex) * (Q + ey) <= 1000 * 1000) by (apply Rmult_le_compat; lra).
  assert (B127 : 1000 * 1000 <= 2 ^ 127 + 1).
  { replace 127%nat with (20 + 107)%nat by lia. rewrite pow_add. assert (1 <= 2 ^ 107) by (apply pow_R1_Rle; lra). nra. }
  destruct (mul_R x y Fx Fy ltac:(lra)) as (F & E). split; [exact F|].
  replace (bv (Bmult mode_NE x y) - p * q) with ((bv (Bmult mode_NE x y) - bv x * bv y) + ((bv x - p) * q + (bv y - q) * p + (bv x - p) * (bv y - q))) by ring.
  eapply Rle_trans; [apply Rabs_triang|].
  assert (T1 : Rabs ((bv x - p) * q) <= ex * Q) by (rewrite Rabs_mult; apply Rmult_le_compat; auto using Rabs_pos).
  assert (T2 : Rabs ((bv y - q) * p) <= ey * P) by (rewrite Rabs_mult; apply Rmult_le_compat; auto using Rabs_pos).
  assert (T3 : Rabs ((bv x - p) * (bv y - q)) <= ex * ey) by (rewrite Rabs_mult; apply Rmult_le_compat; auto using Rabs_pos).
  pose proof (Rabs_triang ((bv x - p) * q + (bv y - q) * p) ((bv x - p) * (bv y - q))).
  pose proof (Rabs_triang ((bv x - p) * q) ((bv y - q) * p)).
  assert (u32 * Rabs (bv x * bv y) <= u32 * ((P + ex) * (Q + ey))) by (apply Rmult_le_compat_l; [pose proof u32_pos; lra|exact Axy]).
  lra.
Qed.
Lemma near_add x y p q ex ey B e : near x p ex -> near y q ey -> Rabs (p + q) <= B -> B + ex + ey <= 1000 ->
  ex + ey + u32 * (B + ex + ey) <= e -> near (Bplus mode_NE x y) (p + q) e.
Proof.
  intros (Fx & Hx) (Fy & Hy) HB B1 HE. pose proof big127.
  assert (D : Rabs (bv x + bv y - (p + q)) <= ex + ey).
  { replace (bv x + bv y - (p + q)) with ((bv x - p) + (bv y - q)) by ring. eapply Rle_trans; [apply Rabs_triang|]. lra. }
  assert (A : Rabs (bv x + bv y) <= B + ex + ey).
  { pose proof (Rabs_triang (bv x + bv y - (p + q)) (p + q)) as T. replace (bv x + bv y - (p + q) + (p + q)) with (bv x + bv y) in T by ring. lra. }
  destruct (add_R x y Fx Fy ltac:(lra)) as (F & E). split; [exact F|].
  replace (bv (Bplus mode_NE x y) - (p + q)) with ((bv (Bplus mode_NE x y) - (bv x + bv y)) + (bv x + bv y - (p + q))) by ring.
  eapply Rle_trans; [apply Rabs_triang|].
  assert (u32 * Rabs (bv x + bv y) <= u32 * (B + ex + ey)) by (apply Rmult_le_compat_l; [pose proof u32_pos; lra|exact A]). lra.
Qed.
Lemma near_exact x : fin x = true -> near x (bv x) 0.
Proof. intros F. split; [exact F|]. replace (bv x - bv x) with 0 by ring. rewrite Rabs_R0. lra. Qed.
Lemma rnd_minus_err (x y : b32) : Rabs (rnd (bv x - bv y) - (bv x - bv y)) <= u32 * Rabs (bv x - bv y).
Proof.
  replace (bv x - bv y) with (bv x + bv (Bopp y)) by (rewrite B2R_Bopp; ring). apply rnd_plus_err.
Qed.
Lemma minus_R (x y : b32) : fin x = true -> fin y = true -> Rabs (bv x - bv y) <= 2 ^ 127 + 1 ->
  fin (Bminus mode_NE x y) = true /\ bv (Bminus mode_NE x y) = rnd (bv x - bv y).
Proof.
  intros Fx Fy H. pose proof (Bminus_correct 24 128 _ _ mode_NE x y Fx Fy) as C.
  rewrite Rlt_bool_true in C by (apply rnd_range; exact H). destruct C as (C1 & C2 & _). rewrite C1. split; [exact C2|reflexivity].
Qed.
Lemma sub_err (x y : b32) : fin x = true -> fin y = true -> Rabs (bv x - bv y) <= 2 ^ 127 + 1 ->
  fin (Bminus mode_NE x y) = true /\ Rabs (bv (Bminus mode_NE x y) - (bv x - bv y)) <= u32 * Rabs (bv x - bv y).
Proof. intros Fx Fy H. destruct (minus_R x y Fx Fy H) as (F & E). split; [exact F|]. rewrite E. apply rnd_minus_err. Qed.
Lemma rnd_id x : fmt x -> rnd x = x.
Proof. intros H. apply round_generic; auto with typeclass_instances. Qed.
Lemma bv_fmt' (x : b32) : fmt (bv x). Proof. exact (generic_format_B2R 24 128 x). Qed.

(** ** the constants *)
Ltac lit32 := match goal with |- fin ?x = true /\ _ => let v := eval vm_compute in (B2SF x) in
  match v with SpecFloat.S754_finite ?s ?m ?e => let Q := fresh in let F := fresh in
    destruct (sf_R x s m e) as [Q F]; [vm_compute; reflexivity|split; [exact F|rewrite Q; unfold F2R; simpl; lra]] end end.
Ltac nearc := match goal with |- near ?x _ _ => let v := eval vm_compute in (B2SF x) in
  match v with SpecFloat.S754_finite ?s ?m ?e => let Q := fresh in let F := fresh in
    destruct (sf_R x s m e) as [Q F]; [vm_compute; reflexivity|split; [exact F|rewrite Q; unfold F2R; simpl; apply Rabs_le; lra]] end end.
Notation k_hi := (b32_lit 883762626647949 10000000000000).
Notation k_lo := (b32_lit (-883762626647949) 10000000000000).
Notation k_L := (b32_lit 144269504088896341 100000000000000000).
Notation k_half := (b32_lit 1 2).
Notation k_C1 := (b32_lit 693359375 1000000000).
Notation k_C2 := (b32_lit (-212194440) 1000000000000).
Notation k_p0 := (b32_lit 19875691500 100000000000000).
Notation k_p1 := (b32_lit 13981999507 10000000000000).
Notation k_p2 := (b32_lit 83334519073 10000000000000).
Notation k_p3 := (b32_lit 41665795894 1000000000000).
Notation k_p4 := (b32_lit 16666665459 100000000000).
Notation k_p5 := (b32_lit 50000001201 100000000000).
Lemma k_hi_R : fin k_hi = true /\ bv k_hi = 11583653 / 131072. Proof. lit32. Qed.
Lemma k_lo_R : fin k_lo = true /\ bv k_lo = - (11583653 / 131072). Proof. lit32. Qed.
Lemma k_L_R : fin k_L = true /\ bv k_L = 12102203 / 8388608. Proof. lit32. Qed.
Lemma k_half_R : fin k_half = true /\ bv k_half = 1 / 2. Proof. lit32. Qed.
Lemma k_C1_R : fin k_C1 = true /\ bv k_C1 = 355 / 512. Proof. lit32. Qed.
Lemma k_C2_N : near k_C2 (-212194440 / 1000000000000) (2 / 10^12). Proof. nearc. Qed.
Lemma k_p0_N : near k_p0 (19875691500 / 100000000000000) (1 / 10^11). Proof. nearc. Qed.
Lemma k_p1_N : near k_p1 (13981999507 / 10000000000000) (1 / 10^10). Proof. nearc. Qed.
Lemma k_p2_N : near k_p2 (83334519073 / 10000000000000) (5 / 10^10). Proof. nearc. Qed.
Lemma k_p3_N : near k_p3 (41665795894 / 1000000000000) (2 / 10^9). Proof. nearc. Qed.
Lemma k_p4_N : near k_p4 (16666665459 / 100000000000) (1 / 10^8). Proof. nearc. Qed.
Lemma k_p5_N : near k_p5 (50000001201 / 100000000000) (2 / 10^8). Proof. nearc. Qed.

(** ** the polynomial *)
Definition poly32 (x : b32) : b32 :=
  let z := Bmult mode_NE x x in
  let y1 := Bplus mode_NE (Bmult mode_NE k_p0 x) k_p1 in
  let y2 := Bplus mode_NE (Bmult mode_NE y1 x) k_p2 in
  let y3 := Bplus mode_NE (Bmult mode_NE y2 x) k_p3 in
  let y4 := Bplus mode_NE (Bmult mode_NE y3 x) k_p4 in
  let y5 := Bplus mode_NE (Bmult mode_NE y4 x) k_p5 in
  Bplus mode_NE (Bmult mode_NE y5 z) x.

Lemma abs_mul_le a b A B : Rabs a <= A -> Rabs b <= B -> Rabs (a * b) <= A * B.
Proof. intros Ha Hb. rewrite Rabs_mult. apply Rmult_le_compat; auto using Rabs_pos. Qed.
Lemma horner_step y x Y ey c ec M : near y Y ey -> near x (bv x) 0 -> Rabs (bv x) <= 347/1000 -> forall cv, near c cv ec ->
  Rabs Y <= M -> forall M' e', M <= 1 -> ey <= 1/1000 -> ec <= 1/1000 -> 0 <= ey -> M * (347/1000) + Rabs cv <= M' -> M' <= 10 ->
  ey * (347/1000) + u32 * ((M + ey) * (347/1000)) + eta32 + ec +
    u32 * (M' + (ey * (347/1000) + u32 * ((M + ey) * (347/1000)) + eta32) + ec) <= e' ->
  near (Bplus mode_NE (Bmult mode_NE y x) c) (Y * bv x + cv) e' /\ Rabs (Y * bv x + cv) <= M'.
Proof.
  intros HY HX BX cv HC BY M' e' M1 E1 E2 E0 HM M10 HE. pose proof (Rabs_pos Y). pose proof (Rabs_pos cv).
  assert (B : Rabs (Y * bv x + cv) <= M').
  { eapply Rle_trans; [apply Rabs_triang|]. pose proof (abs_mul_le Y (bv x) M (347/1000) BY BX). lra. }
  split; [|exact B]. pose proof u32_val. pose proof eta32_tiny. pose proof eta32_pos.
  eapply near_add; [|exact HC|exact B| |].
  - eapply (near_mul y x Y (bv x) ey 0 M (347/1000)); eauto; try lra.
    instantiate (1 := ey * (347/1000) + u32 * ((M + ey) * (347/1000)) + eta32). apply Req_le. ring.
  - assert ((M + ey) * (347/1000) <= 1) by lra. nra.
  - exact HE.
Qed.
Lemma poly32_near x : fin x = true -> Rabs (bv x) <= 347/1000 -> near (poly32 x) (poly (bv x) - 1) (5 / 10^8).
Proof.
  intros Fx BX. pose proof (near_exact x Fx) as HX. pose proof u32_val as U. pose proof eta32_tiny as T. pose proof eta32_pos as T0.
  assert (A0 : Rabs (19875691500 / 100000000000000) <= 2/10000) by (apply Rabs_le; lra).
  destruct (horner_step _ _ _ _ _ _ _ k_p0_N HX BX _ k_p1_N A0 (15/10000) (3/10^10)) as (N1 & A1); try lra.
  { rewrite Rabs_pos_eq; lra. } { rewrite U. lra. }
  destruct (horner_step _ _ _ _ _ _ _ N1 HX BX _ k_p2_N A1 (90/10000) (13/10^10)) as (N2 & A2); try lra.
  { rewrite Rabs_pos_eq; lra. } { rewrite U. lra. }
  destruct (horner_step _ _ _ _ _ _ _ N2 HX BX _ k_p3_N A2 (45/1000) (6/10^9)) as (N3 & A3); try lra.
  { rewrite Rabs_pos_eq; lra. } { rewrite U. lra. }
  destruct (horner_step _ _ _ _ _ _ _ N3 HX BX _ k_p4_N A3 (183/1000) (25/10^9)) as (N4 & A4); try lra.
  { rewrite Rabs_pos_eq; lra. } { rewrite U. lra. }
  destruct (horner_step _ _ _ _ _ _ _ N4 HX BX _ k_p5_N A4 (565/1000) (70/10^9)) as (N5 & A5); try lra.
  { rewrite Rabs_pos_eq; lra. } { rewrite U. lra. }
  assert (NZ : near (Bmult mode_NE x x) (bv x * bv x) (8/10^9)).
  { eapply near_mul; eauto; try lra. }
  pose proof (abs_mul_le _ _ _ _ BX BX) as AZ.
  match type of N5 with near ?y ?s _ => set (y5 := y) in *; set (Y5 := s) in * end.
  assert (N6 : near (Bmult mode_NE y5 (Bmult mode_NE x x)) (Y5 * (bv x * bv x)) (18/10^9)).
  { eapply near_mul; [exact N5|exact NZ|exact A5|exact AZ| | |]; try lra. }
  assert (E : poly (bv x) - 1 = Y5 * (bv x * bv x) + bv x) by (unfold poly, Y5; ring).
  rewrite E. change (poly32 x) with (Bplus mode_NE (Bmult mode_NE y5 (Bmult mode_NE x x)) x).
  eapply (near_add _ _ _ _ _ _ (416/1000)); [exact N6|exact HX| | |]; try lra.
  pose proof (abs_mul_le _ _ _ _ A5 AZ). eapply Rle_trans; [apply Rabs_triang|]. lra.
Qed.
