(** RoundProofs.v -- rounding errors of the forward pass in binary32 *)
From Coq Require Import ZArith Bool List Arith Reals Lia Lra.
From Flocq Require Import Core BinarySingleNaN Relative Plus_error.
From Verif Require Import Base Ops OpsB32 B32Facts MetricB32 Activation SpecReal RealForward SpecBits SpecRound.
Import ListNotations.
Local Open Scope R_scope.

Lemma u32_pos : 0 < u32. Proof. unfold u32. apply Rinv_0_lt_compat, pow_lt. lra. Qed.
Lemma eta32_pos : 0 < eta32. Proof. unfold eta32. apply Rinv_0_lt_compat, pow_lt. lra. Qed.
Lemma u32_small : u32 <= / 1000000. Proof. unfold u32. apply Rinv_le; lra. Qed.
Lemma eta32_small : eta32 <= / 1000000.
Proof. unfold eta32. apply Rinv_le; [lra|]. replace 150%nat with (24 + 126)%nat by lia. rewrite pow_add. assert (1 <= 2 ^ 126) by (apply pow_R1_Rle; lra). nra. Qed.
Lemma up1 k : 1 <= (1 + u32) ^ k. Proof. apply pow_R1_Rle. pose proof u32_pos. lra. Qed.
Lemma up_le j k : (j <= k)%nat -> (1 + u32) ^ j <= (1 + u32) ^ k.
Proof. intros H. apply Rle_pow; [pose proof u32_pos; lra|exact H]. Qed.
Lemma up_S k : (1 + u32) ^ S k = (1 + u32) ^ k * (1 + u32). Proof. cbn. ring. Qed.

(** ** v is s up to k roundings of magnitudes a, and up to d *)
Definition approx (k : nat) (a d v s : R) : Prop := Rabs s <= a /\ Rabs (v - s) <= ((1 + u32) ^ k - 1) * a + d.

Lemma approx_nonneg k a d v s : approx k a d v s -> 0 <= a.
Proof. intros (H & _). pose proof (Rabs_pos s). lra. Qed.
Lemma approx_abs k a d v s : approx k a d v s -> Rabs v <= (1 + u32) ^ k * a + d.
Proof. intros (H & E). pose proof (Rabs_triang (v - s) s) as T. replace (v - s + s) with v in T by ring. lra. Qed.
Lemma approx_mono k k' a a' d d' v s : approx k a d v s -> (k <= k')%nat -> a <= a' -> d <= d' -> approx k' a' d' v s.
Proof.
  intros (H & E) K A D. split; [lra|]. pose proof (up_le _ _ K). pose proof (up1 k). pose proof (Rabs_pos s).
  assert (((1 + u32) ^ k - 1) * a <= ((1 + u32) ^ k' - 1) * a') by (apply Rmult_le_compat; lra). lra.
Qed.
Lemma approx_exact k s : approx k (Rabs s) 0 s s.
Proof.
  split; [lra|]. replace (s - s) with 0 by ring. rewrite Rabs_R0. pose proof (up1 k). pose proof (Rabs_pos s).
  assert (0 <= ((1 + u32) ^ k - 1) * Rabs s) by (apply Rmult_le_pos; lra). lra.
Qed.
Lemma approx_add k a d v s a' d' v' s' : approx k a d v s -> approx k a' d' v' s' -> approx k (a + a') (d + d') (v + v') (s + s').
Proof.
  intros (H & E) (H' & E'). split; [eapply Rle_trans; [apply Rabs_triang|]; lra|].
  replace (v + v' - (s + s')) with ((v - s) + (v' - s')) by ring. eapply Rle_trans; [apply Rabs_triang|]. lra.
Qed.
Lemma approx_mul k a d v s w : approx k a d v s -> approx k (a * Rabs w) (d * Rabs w) (v * w) (s * w).
Proof.
  intros (H & E). pose proof (Rabs_pos w). split; [rewrite Rabs_mult; apply Rmult_le_compat_r; lra|].
  replace (v * w - s * w) with ((v - s) * w) by ring. rewrite Rabs_mult.
  apply Rle_trans with ((((1 + u32) ^ k - 1) * a + d) * Rabs w); [apply Rmult_le_compat_r; lra|]. apply Req_le. ring.
Qed.
Lemma approx_rnd c k a d v s r e : approx k a d v s -> Rabs (r - v) <= ((1 + u32) ^ c - 1) * Rabs v + e ->
  approx (k + c) a ((1 + u32) ^ c * d + e) r s.
Proof.
  intros H R. pose proof (approx_abs _ _ _ _ _ H) as B. destruct H as (H & E). split; [exact H|].
  replace (r - s) with ((r - v) + (v - s)) by ring. eapply Rle_trans; [apply Rabs_triang|]. rewrite pow_add.
  pose proof (up1 c). assert (((1 + u32) ^ c - 1) * Rabs v <= ((1 + u32) ^ c - 1) * ((1 + u32) ^ k * a + d)) by (apply Rmult_le_compat_l; lra). lra.
Qed.
Lemma approx_lip (f : R -> R) k a d v s : (forall p q, Rabs (f p - f q) <= Rabs (p - q)) -> (forall p, Rabs (f p) <= Rabs p) ->
  approx k a d v s -> approx k a d (f v) (f s).
Proof. intros L B (H & E). split; [eapply Rle_trans; [apply B|exact H]|eapply Rle_trans; [apply L|exact E]]. Qed.

(** ** one operation *)
Lemma top128 : 2 ^ 127 + 2 ^ 127 = bpow radix2 128.
Proof. change 128%Z with (Z.of_nat 128). rewrite bpow_powerRZ. cbn [radix_val radix2]. rewrite <- pow_powerRZ. replace 128%nat with (S 127) by lia. cbn [pow]. ring. Qed.
Lemma big127 : 1000 <= 2 ^ 127.
Proof. replace 127%nat with (10 + 117)%nat by lia. rewrite pow_add. assert (1 <= 2 ^ 117) by (apply pow_R1_Rle; lra). nra. Qed.
Lemma fexp_FLT : forall e, SpecFloat.fexp 24 128 e = FLT_exp (-149) 24 e. Proof. reflexivity. Qed.
Lemma rnd_FLT x : rnd x = round radix2 (FLT_exp (-149) 24) ZnearestE x. Proof. reflexivity. Qed.
Lemma rnd_err x : Rabs (rnd x - x) <= u32 * Rabs x + eta32.
Proof.
  rewrite rnd_FLT. destruct (error_N_FLT radix2 (-149) 24 eq_refl (fun z => negb (Z.even z)) x) as (e & t & He & Ht & _ & E).
  change (Znearest (fun z => negb (Z.even z))) with ZnearestE in E. rewrite E. replace (x * (1 + e) + t - x) with (x * e + t) by ring.
  eapply Rle_trans; [apply Rabs_triang|]. rewrite Rabs_mult.
  assert (U : / 2 * bpow radix2 (-24 + 1) = u32). { unfold u32. change (-24 + 1)%Z with (Z.opp (Z.of_nat 23)). rewrite bpow_opp, bpow_powerRZ. cbn [radix_val radix2]. rewrite <- pow_powerRZ. change 24%nat with (S 23). cbn [pow]. field; apply pow_nonzero; lra. }
  assert (T : / 2 * bpow radix2 (-149) = eta32). { unfold eta32. change (-149)%Z with (Z.opp (Z.of_nat 149)). rewrite bpow_opp, bpow_powerRZ. cbn [radix_val radix2]. rewrite <- pow_powerRZ. change 150%nat with (S 149). cbn [pow]. field; apply pow_nonzero; lra. }
  assert (He' : Rabs e <= u32) by (rewrite <- U; exact He). assert (Ht' : Rabs t <= eta32) by (rewrite <- T; exact Ht).
  pose proof (Rabs_pos x). nra.
Qed.
Lemma bv_fmt (x : b32) : generic_format radix2 (FLT_exp (-149) 24) (bv x). Proof. exact (generic_format_B2R 24 128 x). Qed.
Lemma rnd_plus_err (x y : b32) : Rabs (rnd (bv x + bv y) - (bv x + bv y)) <= u32 * Rabs (bv x + bv y).
Proof.
  rewrite rnd_FLT. destruct (FLT_plus_error_N_ex radix2 (-149) 24 (fun z => negb (Z.even z)) _ _ (bv_fmt x) (bv_fmt y)) as (e & He & E).
  change (Znearest (fun z => negb (Z.even z))) with ZnearestE in E. rewrite E. replace ((bv x + bv y) * (1 + e) - (bv x + bv y)) with (e * (bv x + bv y)) by ring.
  rewrite Rabs_mult. apply Rmult_le_compat_r; [apply Rabs_pos|]. eapply Rle_trans; [exact He|].
  assert (U : u_ro radix2 24 = u32).
  { unfold u_ro. change (- (24) + 1)%Z with (Z.opp (Z.of_nat 23)). rewrite bpow_opp, bpow_powerRZ. cbn [radix_val radix2]. rewrite <- pow_powerRZ.
    unfold u32. change 24%nat with (S 23). cbn [pow]. field; apply pow_nonzero; lra. }
  rewrite U. pose proof u32_pos. apply Rmult_le_reg_r with (1 + u32); [lra|]. unfold Rdiv. rewrite Rmult_assoc, Rinv_l by lra. nra.
Qed.
Lemma rnd_range x : Rabs x <= 2 ^ 127 + 1 -> Rabs (rnd x) < bpow radix2 128.
Proof.
  intros H. pose proof (rnd_err x) as E. pose proof (Rabs_triang (rnd x - x) x) as T. replace (rnd x - x + x) with (rnd x) in T by ring.
  pose proof u32_small. pose proof u32_pos. pose proof eta32_small. pose proof big127. rewrite <- top128. nra.
Qed.
Lemma add_R (x y : b32) : fin x = true -> fin y = true -> Rabs (bv x + bv y) <= 2 ^ 127 + 1 ->
  fin (Bplus mode_NE x y) = true /\ Rabs (bv (Bplus mode_NE x y) - (bv x + bv y)) <= u32 * Rabs (bv x + bv y).
Proof.
  intros Fx Fy H. pose proof (Bplus_correct 24 128 _ _ mode_NE x y Fx Fy) as C.
  rewrite Rlt_bool_true in C by (apply rnd_range; exact H). destruct C as (C1 & C2 & _). rewrite C1. split; [exact C2|apply rnd_plus_err].
Qed.
Lemma mul_R (x y : b32) : fin x = true -> fin y = true -> Rabs (bv x * bv y) <= 2 ^ 127 + 1 ->
  fin (Bmult mode_NE x y) = true /\ Rabs (bv (Bmult mode_NE x y) - bv x * bv y) <= u32 * Rabs (bv x * bv y) + eta32.
Proof.
  intros Fx Fy H. pose proof (Bmult_correct 24 128 _ _ mode_NE x y) as C.
  rewrite Rlt_bool_true in C by (apply rnd_range; exact H). destruct C as (C1 & C2 & _). rewrite C1, C2, Fx, Fy. split; [reflexivity|apply rnd_err].
Qed.
Lemma fma_R (x y z : b32) : fin x = true -> fin y = true -> fin z = true -> Rabs (bv x * bv y + bv z) <= 2 ^ 127 + 1 ->
  fin (Bfma mode_NE x y z) = true /\ Rabs (bv (Bfma mode_NE x y z) - (bv x * bv y + bv z)) <= u32 * Rabs (bv x * bv y + bv z) + eta32.
Proof.
  intros Fx Fy Fz H. pose proof (Bfma_correct 24 128 _ _ mode_NE x y z Fx Fy Fz) as C. cbv zeta in C.
  rewrite Rlt_bool_true in C by (apply rnd_range; exact H). destruct C as (C1 & C2 & _). rewrite C1. split; [exact C2|apply rnd_err].
Qed.
Lemma divide_R (x y : b32) : fin x = true -> bv y <> 0 -> Rabs (bv x / bv y) <= 2 ^ 127 + 1 ->
  fin (Bdiv mode_NE x y) = true /\ Rabs (bv (Bdiv mode_NE x y) - bv x / bv y) <= u32 * Rabs (bv x / bv y) + eta32.
Proof.
  intros Fx Hy H. pose proof (Bdiv_correct 24 128 _ _ mode_NE x y Hy) as C.
  rewrite Rlt_bool_true in C by (apply rnd_range; exact H). destruct C as (C1 & C2 & _). rewrite C1, C2. split; [exact Fx|apply rnd_err].
Qed.

(** ** one output of a layer *)
Record item := mk_item { it_x : b32; it_w : b32; it_s : R; it_a : R; it_d : R }.
Definition item_ok (k : nat) (i : item) : Prop :=
  fin (it_x i) = true /\ fin (it_w i) = true /\ 0 <= it_d i /\ approx k (it_a i) (it_d i) (bv (it_x i)) (it_s i).
Definition isum (f : item -> R) (l : list item) : R := lsum (map f l).
Definition ia (i : item) : R := it_a i * Rabs (bv (it_w i)).
Definition is (i : item) : R := it_s i * bv (it_w i).
Definition id (i : item) : R := it_d i * Rabs (bv (it_w i)).
Fixpoint dfold (D : R) (l : list item) : R :=
  match l with [] => D | i :: l => dfold ((1 + u32) * (D + ((1 + u32) * id i + eta32))) l end.

Lemma item_pos k i : item_ok k i -> 0 <= ia i /\ 0 <= id i.
Proof.
  intros (_ & _ & D & H). pose proof (approx_nonneg _ _ _ _ _ H). pose proof (Rabs_pos (bv (it_w i))). unfold ia, id. split; apply Rmult_le_pos; lra.
Qed.
Lemma isum_pos f l : Forall (fun i => 0 <= f i) l -> 0 <= isum f l.
Proof. unfold isum. induction 1 as [|i l H F IH]; cbn [map lsum]; lra. Qed.
Lemma isum_cons f i l : isum f (i :: l) = f i + isum f l. Proof. reflexivity. Qed.
Lemma dfold_ge l k : Forall (item_ok k) l -> forall D, 0 <= D -> D <= dfold D l.
Proof.
  pose proof u32_pos as U. pose proof eta32_pos as E. induction 1 as [|i l H F IH]; intros D HD; cbn [dfold]; [lra|]. destruct (item_pos _ _ H) as (_ & P).
  assert (0 <= u32 * id i) by (apply Rmult_le_pos; lra). assert (0 <= u32 * (D + ((1 + u32) * id i + eta32))) by (apply Rmult_le_pos; lra).
  apply Rle_trans with ((1 + u32) * (D + ((1 + u32) * id i + eta32))); [lra|]. apply IH. lra.
Qed.
Lemma dfold_le l k : Forall (item_ok k) l -> forall D, 0 <= D ->
  dfold D l <= (1 + u32) ^ length l * D + (1 + u32) ^ (length l + 1) * isum (fun i => id i + eta32) l.
Proof.
  pose proof u32_pos as U. pose proof eta32_pos as E. induction 1 as [|i l H F IH]; intros D HD; cbn [dfold length]; [unfold isum; cbn; lra|].
  destruct (item_pos _ _ H) as (_ & P). rewrite isum_cons.
  assert (0 <= u32 * id i) by (apply Rmult_le_pos; lra). assert (0 <= u32 * (D + ((1 + u32) * id i + eta32))) by (apply Rmult_le_pos; lra).
  eapply Rle_trans; [apply IH; lra|]. cbn [Nat.add]. rewrite !up_S. pose proof (up1 (length l)) as L1. pose proof (up1 (length l + 1)) as L2.
  assert (IS : 0 <= isum (fun i => id i + eta32) l). { apply isum_pos. eapply Forall_impl; [|exact F]. intros a Ha. destruct (item_pos _ _ Ha). lra. }
  replace ((1 + u32) ^ (length l + 1)) with ((1 + u32) ^ length l * (1 + u32)) in * by (rewrite pow_add; cbn; ring).
  set (p := (1 + u32) ^ length l) in *. set (q := isum _ l) in *. set (z := id i) in *.
  assert (0 <= p * ((1 + u32) * (u32 * eta32))) by (repeat apply Rmult_le_pos; lra).
  assert (0 <= p * (1 + u32) * u32 * q) by (repeat apply Rmult_le_pos; lra).
  apply Rminus_le. match goal with |- ?e <= 0 => replace e with (- (p * ((1 + u32) * (u32 * eta32))) - p * (1 + u32) * u32 * q) by ring end. lra.
Qed.

Section Column.
  Variable lm : libm.
  Notation OP := (opsB32 lm).
  Lemma feq_zero (x : b32) : @feq OP x (@f0 OP) = true -> bv x = 0.
  Proof. intros H. change (Beqb x b32_zero = true) in H. apply eq_zero in H. destruct H as (s & ->). reflexivity. Qed.

  Lemma cap_mono k k' a a' d d' : (k <= k')%nat -> 0 <= a -> a <= a' -> d <= d' -> (1 + u32) ^ k * a + d <= (1 + u32) ^ k' * a' + d'.
  Proof. intros K A AA D. pose proof (up_le _ _ K). pose proof (up1 k). assert ((1 + u32) ^ k * a <= (1 + u32) ^ k' * a') by (apply Rmult_le_compat; lra). lra. Qed.

  Lemma col_err fma k : forall items acc y, @col_rel OP fma acc (map (fun i => (it_x i, it_w i)) items) y ->
    Forall (item_ok k) items -> forall j A D s, fin acc = true -> approx j A D (bv acc) s -> (k + 1 <= j)%nat -> 0 <= D ->
    (1 + u32) ^ (j + length items) * (A + isum ia items) + dfold D items <= 2 ^ 127 ->
    fin y = true /\ approx (j + length items) (A + isum ia items) (dfold D items) (bv y) (s + isum is items).
  Proof.
    pose proof u32_pos as U. pose proof eta32_pos as ET.
    induction items as [|i items IH]; intros acc y HC HF j A D s Fa Ap KJ HD HR.
    - cbn [map] in HC. inversion HC; subst. cbn [length dfold]. unfold isum. cbn. rewrite Nat.add_0_r, !Rplus_0_r. split; assumption.
    - cbn [map] in HC. pose proof (Forall_inv HF) as IK. apply Forall_inv_tail in HF. pose proof IK as (Fx & Fw & Hd & Hx). destruct (item_pos _ _ IK) as (PA & PD).
      cbn [length dfold] in HR |- *. rewrite (isum_cons ia) in HR |- *. rewrite (isum_cons is). set (D' := (1 + u32) * (D + ((1 + u32) * id i + eta32))) in *.
      replace (A + (ia i + isum ia items)) with (A + ia i + isum ia items) in HR |- * by ring.
      replace (s + (is i + isum is items)) with (s + is i + isum is items) by ring. replace (j + S (length items))%nat with (S j + length items)%nat in HR |- * by lia.
      assert (UID : 0 <= u32 * id i) by (apply Rmult_le_pos; lra).
      assert (D'0 : 0 <= D') by (unfold D'; apply Rmult_le_pos; lra).
      assert (DD : D + ((1 + u32) * id i + eta32) <= D'). { unfold D'. assert (0 <= u32 * (D + ((1 + u32) * id i + eta32))) by (apply Rmult_le_pos; lra). lra. }
      assert (A0 : 0 <= A) by exact (approx_nonneg _ _ _ _ _ Ap).
      assert (IS : 0 <= isum ia items). { apply isum_pos. eapply Forall_impl; [|exact HF]. intros q Hq. destruct (item_pos _ _ Hq). assumption. }
      assert (CAP : (1 + u32) ^ S j * (A + ia i) + D' <= 2 ^ 127).
      { eapply Rle_trans; [|exact HR]. apply cap_mono; [lia|lra|lra|]. apply (dfold_ge _ k HF). exact D'0. }
      (* the product *)
      assert (M : approx k (ia i) (id i) (bv (it_x i) * bv (it_w i)) (is i)) by (apply approx_mul; exact Hx).
      assert (fin acc = true -> forall acc', fin acc' = true -> approx (S j) (A + ia i) D' (bv acc') (s + is i) -> @col_rel OP fma acc' (map (fun i => (it_x i, it_w i)) items) y ->
        fin y = true /\ approx (S j + length items) (A + ia i + isum ia items) (dfold D' items) (bv y) (s + is i + isum is items)) as GO.
      { intros _ acc' Fa' Ap' HC'. apply (IH acc' y HC' HF (S j) (A + ia i) D' (s + is i) Fa' Ap'); [lia|exact D'0|exact HR]. }
      inversion HC; subst.
      + (* skipped *)
        match goal with H : feq (it_x i) f0 = true |- _ => apply feq_zero in H; rename H into Z0 end.
        apply (GO Fa acc Fa); [|assumption]. rewrite Z0, Rmult_0_l in M.
        replace (bv acc) with (bv acc + 0) by ring. eapply approx_mono; [apply (approx_add j)|..].
        * exact Ap.
        * eapply approx_mono; [exact M|lia|apply Rle_refl|apply Rle_refl].
        * lia.
        * lra.
        * lra.
      + (* product, then sum *)
        match goal with H : @col_rel _ _ (fadd acc (fmul _ _)) _ _ |- _ => rename H into HC' end.
        change (@col_rel OP fma (Bplus mode_NE acc (Bmult mode_NE (it_x i) (it_w i))) (map (fun i => (it_x i, it_w i)) items) y) in HC'.
        pose proof (approx_abs _ _ _ _ _ M) as MB.
        destruct (mul_R (it_x i) (it_w i) Fx Fw) as (Fp & Ep).
        { eapply Rle_trans; [exact MB|]. apply Rle_trans with (2 ^ 127); [|lra]. eapply Rle_trans; [|exact CAP]. apply cap_mono; lia || lra. }
        set (p := Bmult mode_NE (it_x i) (it_w i)) in *.
        assert (MP : approx (k + 1) (ia i) ((1 + u32) ^ 1 * id i + eta32) (bv p) (is i)).
        { apply (approx_rnd 1 k _ _ _ _ _ _ M). rewrite pow_1. replace (1 + u32 - 1) with u32 by ring. exact Ep. }
        rewrite pow_1 in MP.
        assert (SP : approx j (A + ia i) (D + ((1 + u32) * id i + eta32)) (bv acc + bv p) (s + is i)).
        { apply approx_add; [exact Ap|]. eapply approx_mono; [exact MP|lia|lra|lra]. }
        pose proof (approx_abs _ _ _ _ _ SP) as SB.
        destruct (add_R acc p Fa Fp) as (Fs & Es).
        { eapply Rle_trans; [exact SB|]. apply Rle_trans with (2 ^ 127); [|lra]. eapply Rle_trans; [|exact CAP]. apply cap_mono; lia || lra. }
        apply (GO Fa _ Fs); [|exact HC']. replace (S j) with (j + 1)%nat by lia.
        pose proof (approx_rnd 1 j _ _ _ _ (bv (Bplus mode_NE acc p)) 0 SP) as AR. rewrite pow_1, !Rplus_0_r in AR.
        replace (((1 + u32) * (D + ((1 + u32) * id i + eta32)) + 0)) with D' in AR by (unfold D'; ring).
        apply AR. replace (1 + u32 - 1) with u32 by ring. exact Es.
      + (* fused *)
        match goal with H : @col_rel _ _ (ffma _ _ _) _ _ |- _ => rename H into HC' end.
        change (@col_rel OP true (Bfma mode_NE (it_w i) (it_x i) acc) (map (fun i => (it_x i, it_w i)) items) y) in HC'.
        assert (SP : approx j (A + ia i) (D + id i) (bv (it_w i) * bv (it_x i) + bv acc) (s + is i)).
        { replace (bv (it_w i) * bv (it_x i) + bv acc) with (bv acc + bv (it_x i) * bv (it_w i)) by ring.
          apply approx_add; [exact Ap|]. eapply approx_mono; [exact M|lia|lra|lra]. }
        pose proof (approx_abs _ _ _ _ _ SP) as SB.
        destruct (fma_R (it_w i) (it_x i) acc Fw Fx Fa) as (Fs & Es).
        { eapply Rle_trans; [exact SB|]. apply Rle_trans with (2 ^ 127); [|lra]. eapply Rle_trans; [|exact CAP]. apply cap_mono; lia || lra. }
        apply (GO Fa _ Fs); [|exact HC']. replace (S j) with (j + 1)%nat by lia.
        eapply approx_mono; [apply (approx_rnd 1 j _ _ _ _ (bv (Bfma mode_NE (it_w i) (it_x i) acc)) eta32 SP)|lia|lra|].
        * rewrite pow_1. replace (1 + u32 - 1) with u32 by ring. exact Es.
        * rewrite pow_1. unfold D'. assert (0 <= u32 * (u32 * id i)) by (apply Rmult_le_pos; lra). assert (0 <= u32 * eta32) by (apply Rmult_le_pos; lra). nra.
  Qed.
End Column.

(** ** one layer *)
Lemma isum_seq (f : item -> R) (g : nat -> item) n : isum f (map g (seq 0 n)) = sumf n (fun i => f (g i)).
Proof.
  unfold isum. rewrite map_map. induction n as [|n IH]; [reflexivity|]. rewrite seq_S, map_app, lsum_app, IH. cbn. lra.
Qed.
Lemma combine_seq {A B} (xs : list A) (d : A) (f : nat -> B) : combine xs (map f (seq 0 (length xs))) = map (fun i => (nth i xs d, f i)) (seq 0 (length xs)).
Proof.
  revert f. induction xs as [|x xs IH]; intros f; [reflexivity|]. cbn [length seq map combine nth]. f_equal.
  rewrite <- seq_shift, !map_map, IH. reflexivity.
Qed.
Lemma finite_nth (l : list b32) i : Forall (fun x => fin x = true) l -> fin (nth i l b32_zero) = true.
Proof.
  intros F. destruct (lt_dec i (length l)) as [L|L]; [|rewrite nth_overflow by lia; reflexivity].
  rewrite Forall_forall in F. apply F. apply nth_In. exact L.
Qed.

Section Layer.
  Variable lm : libm.
  Notation OP := (opsB32 lm).
  Lemma lin_err fma k m (w b xs zs : list b32) (th a d s : nat -> R) :
    let n := length xs in
    @lin_rel OP fma m w b xs zs -> Forall (fun x => fin x = true) xs -> Forall (fun x => fin x = true) w -> Forall (fun x => fin x = true) b ->
    (forall j, (j < m)%nat -> th j = bv (nth j b b32_zero)) -> (forall q, (q < n * m)%nat -> th (m + q)%nat = bv (nth q w b32_zero)) ->
    (forall i, (i < n)%nat -> 0 <= d i /\ approx k (a i) (d i) (bv (nth i xs b32_zero)) (s i)) ->
    forall j, (j < m)%nat -> (1 + u32) ^ (k + n + 1) * abs_lin n m th a j + low_lin n m th d j <= 2 ^ 127 ->
    fin (nth j zs b32_zero) = true /\
    approx (k + n + 1) (abs_lin n m th a j) (low_lin n m th d j) (bv (nth j zs b32_zero)) (zf n m th s j).
  Proof.
    intros n HL Fx Fw Fb TB TW HX j Hj HR. destruct HL as (_ & HC). specialize (HC j Hj).
    set (g := fun i => mk_item (nth i xs b32_zero) (nth (i * m + j) w b32_zero) (s i) (a i) (d i)). set (items := map g (seq 0 n)).
    assert (LI : length items = n) by (unfold items; rewrite map_length, seq_length; reflexivity).
    assert (EI : combine xs (@column OP m w (length xs) j) = map (fun i => (it_x i, it_w i)) items).
    { unfold column. etransitivity; [exact (combine_seq xs b32_zero (fun i => nth (i * m + j) w b32_zero))|]. unfold items. rewrite map_map. reflexivity. }
    assert (HC' : @col_rel OP fma (nth j b b32_zero) (map (fun i => (it_x i, it_w i)) items) (nth j zs b32_zero)) by (rewrite <- EI; exact HC).
    assert (OKI : Forall (item_ok k) items).
    { unfold items. apply Forall_map. apply Forall_forall. intros i Hi. apply in_seq in Hi. destruct (HX i ltac:(lia)) as (D0 & AP).
      split; [apply finite_nth; exact Fx|]. split; [apply finite_nth; exact Fw|]. split; [exact D0|exact AP]. }
    assert (TQ : forall i, (i < n)%nat -> bv (nth (i * m + j) w b32_zero) = th (m + (i * m + j))%nat).
    { intros i Hi. rewrite TW; [reflexivity|]. nia. }
    assert (SA : isum ia items = sumf n (fun i => a i * Rabs (th (m + (i * m + j))%nat))).
    { unfold items. rewrite isum_seq. apply sumf_ext. intros i Hi. unfold ia, g. cbn [it_a it_w]. rewrite TQ by exact Hi. reflexivity. }
    assert (SD : isum (fun i => id i + eta32) items = sumf n (fun i => d i * Rabs (th (m + (i * m + j))%nat) + eta32)).
    { unfold items. rewrite isum_seq. apply sumf_ext. intros i Hi. unfold id, g. cbn [it_d it_w]. rewrite TQ by exact Hi. reflexivity. }
    assert (SS : isum is items = sumf n (fun i => s i * th (m + (i * m + j))%nat)).
    { unfold items. rewrite isum_seq. apply sumf_ext. intros i Hi. unfold is, g. cbn [it_s it_w]. rewrite TQ by exact Hi. reflexivity. }
    pose proof (dfold_le items k OKI 0 (Rle_refl 0)) as DL. rewrite Rmult_0_r, Rplus_0_l, LI, SD in DL.
    fold (low_lin n m th d j) in DL.
    destruct (col_err lm fma k items (nth j b b32_zero) (nth j zs b32_zero) HC' OKI (k + 1)%nat (Rabs (th j)) 0 (th j)) as (FY & AY).
    - apply finite_nth. exact Fb.
    - rewrite <- TB by exact Hj. apply approx_exact.
    - lia.
    - lra.
    - rewrite LI, SA. unfold abs_lin in HR. replace (k + 1 + n)%nat with (k + n + 1)%nat by lia. lra.
    - split; [exact FY|]. rewrite LI, SA, SS in AY. unfold abs_lin, zf. eapply approx_mono; [exact AY|lia|lra|exact DL].
  Qed.

  (** *** activations *)
  Lemma Rabs_max p q : Rabs (Rmax 0 p - Rmax 0 q) <= Rabs (p - q).
  Proof. unfold Rmax. repeat destruct Rle_dec; unfold Rabs; repeat destruct Rcase_abs; lra. Qed.
  Lemma relu_R (x : b32) : fin x = true -> fin (b32_max b32_zero x) = true /\ bv (b32_max b32_zero x) = Rmax 0 (bv x)
    /\ fin (if Bltb x b32_zero then b32_zero else x) = true /\ bv (if Bltb x b32_zero then b32_zero else x) = Rmax 0 (bv x).
  Proof.
    intros Fx. unfold b32_max. assert (N : is_nan x = false) by (destruct x; reflexivity || discriminate). rewrite N. cbn [is_nan b32_zero].
    rewrite !ltb_R by (exact Fx || reflexivity). change (bv b32_zero) with 0. split; [|split; [|split]].
    - destruct (Rlt_bool 0 (bv x)); [exact Fx|reflexivity].
    - destruct (Rlt_bool_spec 0 (bv x)); [rewrite Rmax_right by lra; reflexivity|rewrite Rmax_left by lra; reflexivity].
    - destruct (Rlt_bool (bv x) 0); [reflexivity|exact Fx].
    - destruct (Rlt_bool_spec (bv x) 0); [rewrite Rmax_left by lra; reflexivity|rewrite Rmax_right by lra; reflexivity].
  Qed.
  Lemma up3 : (1 + u32) ^ 3 - 1 = 3 * u32 + 3 * u32 ^ 2 + u32 ^ 3. Proof. ring. Qed.

  Lemma softsign_lip p q : Rabs (p / (1 + Rabs p) - q / (1 + Rabs q)) <= Rabs (p - q).
  Proof.
    pose proof (Rabs_pos p). pose proof (Rabs_pos q).
    replace (p / (1 + Rabs p) - q / (1 + Rabs q)) with ((p - q + (p * Rabs q - q * Rabs p)) / ((1 + Rabs p) * (1 + Rabs q))) by (field; lra).
    unfold Rdiv. rewrite Rabs_mult, Rabs_inv. rewrite (Rabs_pos_eq ((1 + Rabs p) * (1 + Rabs q))) by nra.
    apply Rmult_le_reg_r with ((1 + Rabs p) * (1 + Rabs q)); [nra|]. rewrite Rmult_assoc, Rinv_l, Rmult_1_r by nra.
    assert (T : Rabs (p * Rabs q - q * Rabs p) <= Rabs (p - q) * (Rabs p + Rabs q)).
    { destruct (Rle_dec 0 p) as [P|P], (Rle_dec 0 q) as [Q|Q].
      - rewrite (Rabs_pos_eq p), (Rabs_pos_eq q) by lra. replace (p * q - q * p) with 0 by ring. rewrite Rabs_R0. apply Rmult_le_pos; [apply Rabs_pos|lra].
      - rewrite (Rabs_pos_eq p), (Rabs_left1 q), (Rabs_pos_eq (p - q)) by lra. rewrite Rabs_pos_eq by nra. nra.
      - rewrite (Rabs_left1 p), (Rabs_pos_eq q), (Rabs_left1 (p - q)) by lra. rewrite Rabs_left1 by nra. nra.
      - rewrite (Rabs_left1 p), (Rabs_left1 q) by lra. replace (p * - q - q * - p) with 0 by ring. rewrite Rabs_R0. apply Rmult_le_pos; [apply Rabs_pos|lra]. }
    eapply Rle_trans; [apply Rabs_triang|]. pose proof (Rabs_pos (p - q)).
    assert (0 <= Rabs (p - q) * (Rabs p * Rabs q)) by (repeat apply Rmult_le_pos; lra). lra.
  Qed.
  Lemma softsign_bnd p : Rabs (p / (1 + Rabs p)) <= Rabs p.
  Proof.
    pose proof (Rabs_pos p). unfold Rdiv. rewrite Rabs_mult, Rabs_inv, (Rabs_pos_eq (1 + Rabs p)) by lra.
    apply Rmult_le_reg_r with (1 + Rabs p); [lra|]. rewrite Rmult_assoc, Rinv_l, Rmult_1_r by lra. nra.
  Qed.
  Lemma softsign_R (x : b32) : fin x = true -> Rabs (bv x) <= 2 ^ 127 ->
    let y := Bdiv mode_NE x (Bplus mode_NE (Babs x) (b32_ofZ 1)) in
    fin y = true /\ Rabs (bv y - bv x / (1 + Rabs (bv x))) <= ((1 + u32) ^ 3 - 1) * Rabs (bv x / (1 + Rabs (bv x))) + eta32.
  Proof.
    intros Fx HB y. pose proof (Rabs_pos (bv x)) as P. pose proof u32_pos as U. pose proof u32_small as US.
    assert (FA : fin (Babs x) = true) by (rewrite is_finite_Babs; exact Fx).
    destruct (add_R (Babs x) (b32_ofZ 1) FA one_fin) as (FT & ET).
    { rewrite B2R_Babs, one_R, Rabs_pos_eq by lra. lra. }
    rewrite B2R_Babs, one_R in ET. rewrite (Rabs_pos_eq (Rabs (bv x) + 1)) in ET by lra. set (t := Bplus mode_NE (Babs x) (b32_ofZ 1)) in *.
    set (c := Rabs (bv x) + 1) in *. assert (C1 : 1 <= c) by (unfold c; lra). replace (1 + Rabs (bv x)) with c by (unfold c; ring).
    assert (TB : c * (1 - u32) <= bv t <= c * (1 + u32)). { apply Rabs_le_inv in ET. lra. }
    assert (TP : 0 < bv t) by nra.
    set (z := bv x / c). set (z' := bv x / bv t).
    assert (ZZ : Rabs (z' - z) <= (u32 / (1 - u32)) * Rabs z).
    { replace (z' - z) with (z * ((c - bv t) / bv t)) by (unfold z, z'; field; lra). rewrite Rabs_mult, Rmult_comm. apply Rmult_le_compat_r; [apply Rabs_pos|].
      unfold Rdiv. rewrite Rabs_mult, Rabs_inv, (Rabs_pos_eq (bv t)) by lra. rewrite Rabs_minus_sym in ET.
      apply Rle_trans with (u32 * c * / bv t). { apply Rmult_le_compat_r; [apply Rlt_le, Rinv_0_lt_compat; exact TP|exact ET]. }
      apply Rmult_le_reg_r with (bv t); [exact TP|]. rewrite Rmult_assoc, Rinv_l, Rmult_1_r by lra.
      apply Rmult_le_reg_r with (1 - u32); [lra|]. replace (u32 * / (1 - u32) * bv t * (1 - u32)) with (u32 * bv t) by (field; lra). nra. }
    assert (Q2 : u32 / (1 - u32) <= u32 + 2 * u32 * u32).
    { apply Rmult_le_reg_r with (1 - u32); [lra|]. unfold Rdiv. rewrite Rmult_assoc, Rinv_l, Rmult_1_r by lra. nra. }
    assert (ZB : Rabs z <= 1). { unfold z, Rdiv. rewrite Rabs_mult, Rabs_inv, (Rabs_pos_eq c) by lra. apply Rmult_le_reg_r with c; [lra|]. rewrite Rmult_assoc, Rinv_l, Rmult_1_r by lra. unfold c. lra. }
    pose proof (Rabs_pos z) as PZ.
    assert (Z'B : Rabs z' <= (1 + (u32 + 2 * u32 * u32)) * Rabs z).
    { pose proof (Rabs_triang (z' - z) z) as T. replace (z' - z + z) with z' in T by ring. nra. }
    destruct (divide_R x t Fx) as (FY & EY).
    { lra. }
    { fold z'. pose proof big127. nra. }
    fold y in FY, EY. fold z' in EY. split; [exact FY|].
    replace (bv y - z) with ((bv y - z') + (z' - z)) by ring. eapply Rle_trans; [apply Rabs_triang|]. rewrite up3. pose proof eta32_pos.
    assert (u32 / (1 - u32) * Rabs z <= (u32 + 2 * u32 * u32) * Rabs z) by (apply Rmult_le_compat_r; lra).
    assert (u32 * Rabs z' <= u32 * ((1 + (u32 + 2 * u32 * u32)) * Rabs z)) by (apply Rmult_le_compat_l; lra).
    assert (0 <= u32 * Rabs z * (1 - 2 * u32)) by (repeat apply Rmult_le_pos; lra). cbn [pow]. nra.
  Qed.

  (** hard sigmoid *)
  Definition hs (x : R) : R := Rmax 0 (Rmin 1 (x / 5 + 1 / 2)).
  Lemma hs_lip p q : Rabs (hs p - hs q) <= Rabs (p - q) / 5.
  Proof. unfold hs, Rmax, Rmin. repeat destruct Rle_dec; unfold Rabs; repeat destruct Rcase_abs; lra. Qed.
  Lemma hs_bnd p : Rabs (hs p) <= Rabs p / 5 + 1 / 2.
  Proof. unfold hs, Rmax, Rmin. repeat destruct Rle_dec; unfold Rabs; repeat destruct Rcase_abs; lra. Qed.
  Ltac lit32 := match goal with |- bv ?x = _ => let v := eval vm_compute in (B2SF x) in
    match v with SpecFloat.S754_finite ?s ?m ?e => let Q := fresh in destruct (sf_R x s m e) as [Q _]; [vm_compute; reflexivity|rewrite Q; unfold F2R; simpl; lra] end end.
  Lemma lit_lo : bv (b32_lit (-5) 2) = - 5 / 2. Proof. lit32. Qed.
  Lemma lit_hi : bv (b32_lit 5 2) = 5 / 2. Proof. lit32. Qed.
  Lemma lit_half : bv (b32_lit 1 2) = 1 / 2. Proof. lit32. Qed.
  Lemma lit_fifth : bv (b32_lit 1 5) = 13421773 / 67108864. Proof. lit32. Qed.
  Lemma hs_R (x : b32) : fin x = true ->
    let y := if Bltb x (b32_lit (-5) 2) then b32_zero else if Bltb (b32_lit 5 2) x then b32_ofZ 1
             else Bplus mode_NE (Bmult mode_NE (b32_lit 1 5) x) (b32_lit 1 2) in
    fin y = true /\ Rabs (bv y - hs (bv x)) <= ((1 + u32) ^ 3 - 1) * (Rabs (bv x) / 5 + 1 / 2) + (1 + u32) * eta32.
  Proof.
    intros Fx y. pose proof (Rabs_pos (bv x)) as P. pose proof u32_pos as U. pose proof eta32_pos as ET. pose proof (up1 3) as U3.
    assert (R0 : 0 <= ((1 + u32) ^ 3 - 1) * (Rabs (bv x) / 5 + 1 / 2) + (1 + u32) * eta32).
    { assert (0 <= ((1 + u32) ^ 3 - 1) * (Rabs (bv x) / 5 + 1 / 2)) by (apply Rmult_le_pos; lra). assert (0 <= (1 + u32) * eta32) by (apply Rmult_le_pos; lra). lra. }
    unfold y. rewrite !ltb_R by (exact Fx || reflexivity). rewrite lit_lo, lit_hi.
    destruct (Rlt_bool_spec (bv x) (- 5 / 2)) as [L|L].
    { split; [reflexivity|]. change (bv b32_zero) with 0. unfold hs. rewrite Rmin_right, Rmax_left by lra. rewrite Rminus_0_r, Rabs_R0. exact R0. }
    destruct (Rlt_bool_spec (5 / 2) (bv x)) as [H|H].
    { split; [reflexivity|]. rewrite one_R. unfold hs. rewrite Rmin_left, Rmax_right by lra. replace (1 - 1) with 0 by ring. rewrite Rabs_R0. exact R0. }
    assert (HX : hs (bv x) = bv x / 5 + 1 / 2). { unfold hs. rewrite Rmin_right, Rmax_right by lra. reflexivity. }
    assert (XB : Rabs (bv x) <= 5 / 2) by (apply Rabs_le; lra).
    assert (A1 : approx 1 (Rabs (bv x) / 5) 0 (bv (b32_lit 1 5) * bv x) (bv x / 5)).
    { split. { unfold Rdiv. rewrite Rabs_mult, (Rabs_pos_eq (/ 5)) by lra. lra. }
      rewrite lit_fifth, pow_1, Rplus_0_r. replace (13421773 / 67108864 * bv x - bv x / 5) with ((1 / 335544320) * bv x) by lra.
      rewrite Rabs_mult, (Rabs_pos_eq (1 / 335544320)) by lra. unfold u32. lra. }
    pose proof big127 as BG.
    destruct (mul_R (b32_lit 1 5) x eq_refl Fx) as (Fp & Ep).
    { pose proof (approx_abs _ _ _ _ _ A1) as B. rewrite pow_1 in B. pose proof u32_small.
      assert ((1 + u32) * (Rabs (bv x) / 5) <= 2 * (1 / 2)) by (apply Rmult_le_compat; lra). lra. }
    set (p := Bmult mode_NE (b32_lit 1 5) x) in *.
    assert (A2 : approx 2 (Rabs (bv x) / 5) eta32 (bv p) (bv x / 5)).
    { eapply approx_mono; [apply (approx_rnd 1 1 _ _ _ _ (bv p) eta32 A1)|lia|lra|].
      - rewrite pow_1. replace (1 + u32 - 1) with u32 by ring. exact Ep.
      - lra. }
    assert (A3 : approx 2 (Rabs (bv x) / 5 + 1 / 2) eta32 (bv p + bv (b32_lit 1 2)) (bv x / 5 + 1 / 2)).
    { rewrite lit_half. eapply approx_mono; [apply approx_add; [exact A2|apply (approx_exact 2 (1 / 2))]|lia| |lra]. rewrite (Rabs_pos_eq (1 / 2)) by lra. lra. }
    destruct (add_R p (b32_lit 1 2) Fp eq_refl) as (Fs & Es).
    { pose proof (approx_abs _ _ _ _ _ A3) as B. pose proof u32_small. pose proof eta32_small.
      assert ((1 + u32) ^ 2 * (Rabs (bv x) / 5 + 1 / 2) <= 4 * 1). { apply Rmult_le_compat; [|lra| |lra]; cbn [pow]; nra. } lra. }
    split; [exact Fs|]. rewrite HX.
    assert (A4 : approx 3 (Rabs (bv x) / 5 + 1 / 2) ((1 + u32) * eta32) (bv (Bplus mode_NE p (b32_lit 1 2))) (bv x / 5 + 1 / 2)).
    { eapply approx_mono; [apply (approx_rnd 1 2 _ _ _ _ (bv (Bplus mode_NE p (b32_lit 1 2))) 0 A3)|lia|lra|].
      - rewrite pow_1. replace (1 + u32 - 1) with u32 by ring. rewrite Rplus_0_r. exact Es.
      - rewrite pow_1. lra. }
    exact (proj2 A4).
  Qed.

  Lemma nth_map32 (f : b32 -> b32) (zs : list b32) j : (j < length zs)%nat -> nth j (map f zs) b32_zero = f (nth j zs b32_zero).
  Proof. intros H. rewrite (nth_indep _ b32_zero (f b32_zero)) by (rewrite map_length; exact H). apply map_nth. Qed.
End Layer.
