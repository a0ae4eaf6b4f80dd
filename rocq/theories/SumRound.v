(** SumRound.v -- rounding errors of a sum of floats that are added in any order *)
From Coquelicot Require Import Coquelicot.
From Flocq Require Import Core BinarySingleNaN.
From Coq Require Import ZArith Bool List Arith Reals Lia Lra Permutation.
From Verif Require Import Base BaseProofs OpsB32 B32Facts MetricB32 SpecReal SpecOpt SpecRound RoundProofs SpecGradRound SlopeRound LossRound SpecStepRound.
Import ListNotations.
Local Open Scope R_scope.
Local Notation NZ := b32_zero.

(** v is a sum of the floats g i, i in l *)
Inductive adds (g : nat -> b32) : list nat -> b32 -> Prop :=
| adds_none : adds g [] NZ
| adds_one i : adds g [i] (g i)
| adds_plus a b x y : adds g a x -> adds g b y -> adds g (a ++ b) (Bplus mode_NE x y).

Lemma rnd_self (x : b32) : rnd (bv x) = bv x.
Proof. rewrite rnd_FLT. apply round_generic; [apply valid_rnd_N|]. apply bv_fmt. Qed.
Lemma add_zero (x y : b32) : fin x = true -> fin y = true -> bv x = 0 ->
  fin (Bplus mode_NE x y) = true /\ bv (Bplus mode_NE x y) = bv y /\ fin (Bplus mode_NE y x) = true /\ bv (Bplus mode_NE y x) = bv y.
Proof.
  intros Fx Fy E.
  assert (L : Rabs (bv y) < bpow radix2 128) by apply abs_B2R_lt_emax.
  pose proof (Bplus_correct 24 128 _ _ mode_NE x y Fx Fy) as C. pose proof (Bplus_correct 24 128 _ _ mode_NE y x Fy Fx) as C'.
  fold (bv x) (bv y) in C, C'. rewrite E in C, C'. rewrite Rplus_0_l in C. rewrite Rplus_0_r in C'.
  change (round radix2 (SpecFloat.fexp 24 128) (round_mode mode_NE) (bv y)) with (rnd (bv y)) in C, C'. rewrite rnd_self in C, C'.
  rewrite Rlt_bool_true in C by exact L. rewrite Rlt_bool_true in C' by exact L.
  destruct C as (C1 & C2 & _). destruct C' as (D1 & D2 & _). auto.
Qed.

Lemma rsum_app2 a b : rsum (a ++ b) = rsum a + rsum b.
Proof. induction a; simpl; [lra|]. rewrite IHa. lra. Qed.
Lemma rsum_perm2 a b : Permutation a b -> rsum a = rsum b.
Proof. induction 1; simpl; lra. Qed.
Lemma rsum_pos {A} (f : A -> R) l : (forall i, In i l -> 0 <= f i) -> 0 <= rsum (map f l).
Proof. induction l as [|a l IH]; intros H; simpl; [lra|]. pose proof (H a (or_introl eq_refl)). specialize (IH (fun i Hi => H i (or_intror Hi))). lra. Qed.
Lemma rsum_plus {A} (f g : A -> R) l : rsum (map (fun i => f i + g i) l) = rsum (map f l) + rsum (map g l).
Proof. induction l as [|a l IH]; simpl; lra. Qed.
Lemma rsum_abs {A} (f g : A -> R) l : (forall i, In i l -> Rabs (f i) <= g i) -> Rabs (rsum (map f l)) <= rsum (map g l).
Proof.
  induction l as [|a l IH]; intros H; simpl; [rewrite Rabs_R0; lra|]. eapply Rle_trans; [apply Rabs_triang|].
  pose proof (H a (or_introl eq_refl)). specialize (IH (fun i Hi => H i (or_intror Hi))). lra.
Qed.

Section Sum.
  Variables (g : nat -> b32) (b : nat -> near) (s : nat -> R).
  Lemma adds_near l v : adds g l v -> (forall i, In i l -> fin (g i) = true /\ is_near (b i) (bv (g i)) (s i)) ->
    (1 + u32) ^ length l * rsum (map (fun i => cap (b i)) l) <= 2 ^ 127 ->
    fin v = true /\ (l = [] -> bv v = 0) /\
    Rabs (bv v - rsum (map s l)) <= rsum (map (fun i => err (b i)) l) + ((1 + u32) ^ (length l - 1) - 1) * rsum (map (fun i => cap (b i)) l).
  Proof.
    pose proof u32_pos as UP.
    induction 1 as [|i|l1 l2 x y H1 IH1 H2 IH2]; intros HI HC.
    - cbn [map rsum length Nat.sub pow]. split; [reflexivity|]. split; [reflexivity|]. cbn. rewrite Rminus_0_r, Rabs_R0. lra.
    - destruct (HI i (or_introl eq_refl)) as (Fi & Ni). split; [exact Fi|]. split; [discriminate|]. cbn [map rsum length Nat.sub pow].
      destruct Ni as (_ & E). rewrite Rplus_0_r. lra.
    - assert (P1 : 0 <= rsum (map (fun i => cap (b i)) l1)).
      { apply rsum_pos. intros i Hi. destruct (HI i ltac:(apply in_or_app; auto)) as (_ & N). pose proof (near_pos _ _ _ N). unfold cap. lra. }
      assert (P2 : 0 <= rsum (map (fun i => cap (b i)) l2)).
      { apply rsum_pos. intros i Hi. destruct (HI i ltac:(apply in_or_app; auto)) as (_ & N). pose proof (near_pos _ _ _ N). unfold cap. lra. }
      rewrite map_app, rsum_app2, app_length in HC.
      set (C1 := rsum (map (fun i => cap (b i)) l1)) in *. set (C2 := rsum (map (fun i => cap (b i)) l2)) in *.
      pose proof (up_le (length l1) (length l1 + length l2) ltac:(lia)) as U1. pose proof (up_le (length l2) (length l1 + length l2) ltac:(lia)) as U2.
      pose proof (up1 (length l1)) as V1. pose proof (up1 (length l2)) as V2.
      assert (D1 : (1 + u32) ^ length l1 * C1 <= (1 + u32) ^ (length l1 + length l2) * (C1 + C2)) by (apply Rmult_le_compat; lra).
      assert (D2 : (1 + u32) ^ length l2 * C2 <= (1 + u32) ^ (length l1 + length l2) * (C1 + C2)) by (apply Rmult_le_compat; lra).
      destruct IH1 as (F1 & Z1 & E1). { intros i Hi. apply HI. apply in_or_app; auto. } { lra. }
      destruct IH2 as (F2 & Z2 & E2). { intros i Hi. apply HI. apply in_or_app; auto. } { lra. }
      fold C1 in E1. fold C2 in E2. rewrite !map_app, !rsum_app2, app_length. fold C1 C2.
      destruct l1 as [|i1 l1].
      { destruct (add_zero x y F1 F2 (Z1 eq_refl)) as (A & B & _). split; [exact A|]. split; [intros E; rewrite B; exact (Z2 E)|].
        rewrite B. cbn [map rsum length Nat.add]. assert (C1 = 0) by reflexivity. rewrite H, !Rplus_0_l. exact E2. }
      destruct l2 as [|i2 l2].
      { destruct (add_zero y x F2 F1 (Z2 eq_refl)) as (_ & _ & A & B). split; [exact A|]. split; [intros E; discriminate|].
        rewrite B. cbn [map rsum length]. assert (C2 = 0) by reflexivity. rewrite H, !Rplus_0_r, Nat.add_0_r. exact E1. }
      set (n1 := length l1) in *. set (n2 := length l2) in *. cbn [length] in *. fold n1 n2 in E1, E2, HC, U1, U2, V1, V2, D1, D2 |- *.
      replace (S n1 - 1)%nat with n1 in E1 by lia. replace (S n2 - 1)%nat with n2 in E2 by lia.
      replace (S n1 + S n2 - 1)%nat with (S (n1 + n2)) by lia.
      set (s1 := rsum (map s (i1 :: l1))) in *. set (s2 := rsum (map s (i2 :: l2))) in *.
      set (e1 := rsum (map (fun i => err (b i)) (i1 :: l1))) in *. set (e2 := rsum (map (fun i => err (b i)) (i2 :: l2))) in *.
      assert (S1 : Rabs s1 <= C1 - e1).
      { replace (C1 - e1) with (rsum (map (fun i => mag (b i)) (i1 :: l1))).
        - apply rsum_abs. intros i Hi. destruct (HI i ltac:(apply in_or_app; auto)) as (_ & (N & _)). exact N.
        - unfold C1, e1, cap. rewrite (rsum_plus (fun i => mag (b i)) (fun i => err (b i))). ring. }
      assert (S2 : Rabs s2 <= C2 - e2).
      { replace (C2 - e2) with (rsum (map (fun i => mag (b i)) (i2 :: l2))).
        - apply rsum_abs. intros i Hi. destruct (HI i ltac:(apply in_or_app; auto)) as (_ & (N & _)). exact N.
        - unfold C2, e2, cap. rewrite (rsum_plus (fun i => mag (b i)) (fun i => err (b i))). ring. }
      set (K := (1 + u32) ^ (n1 + n2)) in *.
      pose proof (up_le n1 (n1 + n2) ltac:(lia)) as W1. pose proof (up_le n2 (n1 + n2) ltac:(lia)) as W2. fold K in W1, W2.
      assert (E1' : Rabs (bv x - s1) <= e1 + (K - 1) * C1).
      { assert (((1 + u32) ^ n1 - 1) * C1 <= (K - 1) * C1) by (apply Rmult_le_compat_r; lra). lra. }
      assert (E2' : Rabs (bv y - s2) <= e2 + (K - 1) * C2).
      { assert (((1 + u32) ^ n2 - 1) * C2 <= (K - 1) * C2) by (apply Rmult_le_compat_r; lra). lra. }
      assert (EE : Rabs (bv x + bv y - (s1 + s2)) <= (e1 + e2) + (K - 1) * (C1 + C2)).
      { replace (bv x + bv y - (s1 + s2)) with ((bv x - s1) + (bv y - s2)) by ring. eapply Rle_trans; [apply Rabs_triang|]. lra. }
      assert (AB : Rabs (bv x + bv y) <= K * (C1 + C2)).
      { replace (bv x + bv y) with ((bv x + bv y - (s1 + s2)) + (s1 + s2)) by ring. eapply Rle_trans; [apply Rabs_triang|].
        pose proof (Rabs_triang s1 s2). lra. }
      assert (KB : K <= (1 + u32) ^ (S n1 + S n2)) by (apply up_le; lia).
      assert (KC : K * (C1 + C2) <= (1 + u32) ^ (S n1 + S n2) * (C1 + C2)) by (apply Rmult_le_compat_r; lra).
      destruct (add_R x y F1 F2 ltac:(lra)) as (FA & EA). split; [exact FA|]. split; [discriminate|].
      replace (bv (Bplus mode_NE x y) - (s1 + s2)) with ((bv (Bplus mode_NE x y) - (bv x + bv y)) + (bv x + bv y - (s1 + s2))) by ring.
      eapply Rle_trans; [apply Rabs_triang|]. cbn [pow]. fold K.
      assert (u32 * Rabs (bv x + bv y) <= u32 * (K * (C1 + C2))) by (apply Rmult_le_compat_l; lra). lra.
  Qed.

  (** the mean *)
  Lemma mean_is_near l l' v : adds g l v -> Permutation l l' -> l <> [] ->
    (forall i, In i l -> fin (g i) = true /\ is_near (b i) (bv (g i)) (s i)) -> mean_fits (map b l') ->
    let q := Bdiv mode_NE v (b32_ofZ (Z.of_nat (length l'))) in
    fin q = true /\ is_near (mean_near (map b l')) (bv q) (rsum (map s l') / INR (length l')).
  Proof.
    intros HA HP Hne HI (HN & HF) q. rewrite map_length in HN, HF. rewrite map_map in HF.
    pose proof (Permutation_length HP) as LP. rewrite <- LP in *.
    rewrite <- (rsum_perm2 _ _ (Permutation_map (fun i => cap (b i)) HP)) in HF.
    assert (big : 2 ^ 126 <= 2 ^ 127) by (apply Rle_pow; [lra|lia]).
    destruct (adds_near l v HA HI ltac:(lra)) as (FV & _ & EV).
    destruct (ofZ_small (length l) HN) as (FN & EN).
    assert (N1 : 1 <= INR (length l)) by (apply (le_INR 1); destruct l; [congruence|cbn [length]; lia]).
    set (N := INR (length l)) in *. set (n := length l) in *.
    set (C := rsum (map (fun i => cap (b i)) l)) in *. set (A := rsum (map (fun i => mag (b i)) l)) in *. set (E := rsum (map (fun i => err (b i)) l)) in *. set (T := rsum (map s l)) in *.
    assert (CAE : C = A + E) by (unfold C, A, E, cap; apply rsum_plus).
    assert (TA : Rabs T <= A) by (apply rsum_abs; intros i Hi; destruct (HI i Hi) as (_ & (M & _)); exact M).
    assert (E0 : 0 <= E) by (apply rsum_pos; intros i Hi; destruct (HI i Hi) as (_ & M); apply (near_pos _ _ _ M)).
    pose proof (Rabs_pos T) as T0.
    pose proof (up_le (n - 1) n ltac:(lia)) as U. pose proof (up1 n) as U1.
    assert (EV' : Rabs (bv v - T) <= E + ((1 + u32) ^ n - 1) * (A + E)).
    { rewrite CAE in EV. assert (((1 + u32) ^ (n - 1) - 1) * (A + E) <= ((1 + u32) ^ n - 1) * (A + E)) by (apply Rmult_le_compat_r; lra). lra. }
    assert (NE : is_near (mk_near (A / N) ((E + ((1 + u32) ^ n - 1) * (A + E)) / N)) (bv v / N) (T / N)).
    { assert (IN : 0 < / N) by (apply Rinv_0_lt_compat; lra). unfold Rdiv. split; cbn [mag err].
      - rewrite Rabs_mult, (Rabs_pos_eq (/ N)) by lra. apply Rmult_le_compat_r; lra.
      - rewrite <- Rmult_minus_distr_r, Rabs_mult, (Rabs_pos_eq (/ N)) by lra. apply Rmult_le_compat_r; lra. }
    assert (AV : Rabs (bv v / N) <= 2 ^ 127 + 1).
    { unfold Rdiv. rewrite Rabs_mult, (Rabs_pos_eq (/ N)) by (left; apply Rinv_0_lt_compat; lra).
      apply Rle_trans with (Rabs (bv v) * 1).
      - apply Rmult_le_compat_l; [apply Rabs_pos|]. rewrite <- Rinv_1. apply Rinv_le_contravar; lra.
      - replace (bv v) with ((bv v - T) + T) by ring. pose proof (Rabs_triang (bv v - T) T). rewrite CAE in HF. lra. }
    destruct (divide_R v (b32_ofZ (Z.of_nat n)) FV) as (FQ & EQ); [rewrite EN; lra|rewrite EN; exact AV|]. rewrite EN in EQ.
    assert (QE : q = Bdiv mode_NE v (b32_ofZ (Z.of_nat n))) by (unfold q; rewrite <- LP; reflexivity). rewrite QE.
    split; [exact FQ|].
    assert (EM : mean_near (map b l') = rounded 1 (mk_near (A / N) ((E + ((1 + u32) ^ n - 1) * (A + E)) / N))).
    { unfold mean_near. rewrite map_length, <- LP, !map_map. fold n N. rewrite <- (rsum_perm2 _ _ (Permutation_map (fun i => mag (b i)) HP)), <- (rsum_perm2 _ _ (Permutation_map (fun i => err (b i)) HP)). reflexivity. }
    rewrite EM. rewrite <- (rsum_perm2 _ _ (Permutation_map s HP)). fold T.
    apply near_rnd with (v := bv v / N); [exact NE|]. rewrite pow_1. cbn [INR]. lra.
  Qed.
End Sum.
