(** DotTree.v -- rounding errors of matrix_vector_multiply in binary32, whatever the build *)
From Coq Require Import ZArith Bool List Arith Reals Lia Lra.
From Flocq Require Import Core BinarySingleNaN.
From Verif Require Import Base BaseProofs Ops Mem MemProofs ActivationProofs Kernels KernelProofs KernelProofs2 OpsB32 B32Facts MetricB32 Activation SpecReal RealForward
  SpecRound RoundProofs.
Import ListNotations.
Local Open Scope R_scope.

(** a sum of products: its value, the sum of the magnitudes, the number of products *)
Record part := mk_part { pt_s : R; pt_a : R; pt_n : R }.
Definition padd' (p q : part) : part := mk_part (pt_s p + pt_s q) (pt_a p + pt_a q) (pt_n p + pt_n q).
Definition pzero : part := mk_part 0 0 0.
Definition pitem (x y : b32) : part := mk_part (bv x * bv y) (Rabs (bv x * bv y)) 1.
Fixpoint psum (l : list part) : part := match l with [] => pzero | p :: r => padd' p (psum r) end.
Fixpoint pdot (vs ms : list b32) : part :=
  match vs, ms with x :: vs, y :: ms => padd' (pitem x y) (pdot vs ms) | _, _ => pzero end.
Ltac peq := cbn [psum]; unfold padd', pzero, pitem; cbn [pt_s pt_a pt_n]; f_equal; ring.
Lemma padd_C p q : padd' p q = padd' q p. Proof. peq. Qed.
Lemma padd_A p q r : padd' p (padd' q r) = padd' (padd' p q) r. Proof. peq. Qed.
Lemma padd_0l p : padd' pzero p = p. Proof. destruct p. peq. Qed.
Lemma padd_0r p : padd' p pzero = p. Proof. destruct p. peq. Qed.
Lemma pdot_app v1 m1 : length v1 = length m1 -> forall v2 m2, pdot (v1 ++ v2) (m1 ++ m2) = padd' (pdot v1 m1) (pdot v2 m2).
Proof.
  revert m1. induction v1 as [|x v1 IH]; intros [|y m1] L v2 m2; cbn in L; try lia; cbn [app pdot].
  - rewrite padd_0l. reflexivity.
  - rewrite IH by lia. apply padd_A.
Qed.
Lemma psum_repeat w : psum (repeat pzero w) = pzero.
Proof. induction w as [|w IH]; [reflexivity|]. cbn [repeat psum]. rewrite IH. apply padd_0l. Qed.

Lemma F2_length {A B} (P : A -> B -> Prop) l1 l2 : Forall2 P l1 l2 -> length l1 = length l2.
Proof. induction 1; cbn; congruence. Qed.

Section Tree.
  Variable lm : libm.
  Notation OP := (opsB32 lm).

  (** v is computed from the products by additions and fused multiply-adds, at most k one after the other *)
  Inductive tree : nat -> part -> b32 -> Prop :=
  | tr_zero k : tree k pzero b32_zero
  | tr_mul k x y : fin x = true -> fin y = true -> tree (S k) (pitem x y) (Bmult mode_NE x y)
  | tr_fma k p v x y : tree k p v -> fin x = true -> fin y = true -> tree (S k) (padd' p (pitem x y)) (Bfma mode_NE x y v)
  | tr_add k p v q w : tree k p v -> tree k q w -> tree (S k) (padd' p q) (Bplus mode_NE v w).

  Lemma tree_le k p v : tree k p v -> forall k', (k <= k')%nat -> tree k' p v.
  Proof.
    induction 1; intros k' L; [apply tr_zero| | |]; (destruct k' as [|k']; [lia|]).
    - apply tr_mul; assumption.
    - apply tr_fma; auto. apply IHtree. lia.
    - apply tr_add; [apply IHtree1|apply IHtree2]; lia.
  Qed.
  Lemma tree_pos k p v : tree k p v -> 0 <= pt_a p /\ 0 <= pt_n p.
  Proof.
    induction 1; cbn [pzero pitem padd' pt_a pt_n] in *.
    - lra.
    - split; [apply Rabs_pos|lra].
    - pose proof (Rabs_pos (bv x * bv y)). lra.
    - lra.
  Qed.
  Lemma tree_err k p v : tree k p v -> (1 + u32) ^ k * (pt_a p + pt_n p * eta32) <= 2 ^ 127 ->
    fin v = true /\ approx k (pt_a p) ((1 + u32) ^ k * (pt_n p * eta32)) (bv v) (pt_s p).
  Proof.
    pose proof u32_pos as U. pose proof eta32_pos as ET.
    assert (CM : forall k a n a' n', 0 <= a -> 0 <= n -> 0 <= a' -> 0 <= n' ->
      (1 + u32) ^ S k * ((a + a') + (n + n') * eta32) <= 2 ^ 127 -> (1 + u32) ^ k * (a + n * eta32) <= 2 ^ 127).
    { intros k0 a n a' n' A N A' N' H. eapply Rle_trans; [|exact H]. pose proof (up1 k0).
      pose proof (up_le k0 (S k0) ltac:(lia)). assert (0 <= n * eta32) by (apply Rmult_le_pos; lra). assert (0 <= n' * eta32) by (apply Rmult_le_pos; lra).
      apply Rmult_le_compat; lra. }
    induction 1; intros HC; cbn [pzero pitem padd' pt_s pt_a pt_n] in *.
    - split; [reflexivity|]. change (bv b32_zero) with 0. split; rewrite ?Rminus_0_r, ?Rabs_R0; lra.
    - pose proof (up1 k) as UK. unfold approx. rewrite !up_S in *. assert (K1 : 1 + u32 <= (1 + u32) ^ k * (1 + u32)) by nra.
      pose proof (Rabs_pos (bv x * bv y)) as P. set (Q := (1 + u32) ^ k * (1 + u32)) in *. set (A := Rabs (bv x * bv y)) in *. clearbody Q.
      assert (0 <= (Q - 1 - u32) * A) by (apply Rmult_le_pos; lra). assert (0 <= (Q - 1) * eta32) by (apply Rmult_le_pos; lra).
      assert (QA : A <= Q * (A + 1 * eta32)) by nra.
      destruct (mul_R x y H H0) as (FM & EM); [fold A; lra|]. split; [exact FM|]. fold A in EM. split; [fold A; lra|]. fold A. lra.
    - destruct (tree_pos _ _ _ H) as (PA & PN). pose proof (Rabs_pos (bv x * bv y)) as PX.
      destruct IHtree as (FV & AV); [apply (CM k _ _ (Rabs (bv x * bv y)) 1); try lra; exact HC|].
      pose proof (up1 k) as UK.
      assert (AS : approx k (pt_a p + Rabs (bv x * bv y)) ((1 + u32) ^ k * (pt_n p * eta32) + 0) (bv v + bv x * bv y) (pt_s p + bv x * bv y)).
      { apply approx_add; [exact AV|apply approx_exact]. }
      pose proof (approx_abs _ _ _ _ _ AS) as AB.
      assert (RG : Rabs (bv x * bv y + bv v) <= 2 ^ 127 + 1).
      { rewrite Rplus_comm. eapply Rle_trans; [exact AB|]. rewrite up_S in HC. assert (0 <= pt_n p * eta32) by (apply Rmult_le_pos; lra).
        set (W := pt_a p + Rabs (bv x * bv y)) in *. set (V := pt_n p * eta32) in *. set (Q := (1 + u32) ^ k) in *.
        replace ((pt_n p + 1) * eta32) with (V + eta32) in HC by (unfold V; ring).
        assert (0 <= W) by (unfold W; lra). clearbody W V Q.
        assert (0 <= Q * (W + V)) by (apply Rmult_le_pos; lra). assert (0 <= Q * (W + V) * u32) by (apply Rmult_le_pos; lra).
        assert (0 <= Q * eta32) by (apply Rmult_le_pos; lra). assert (0 <= Q * eta32 * u32) by (apply Rmult_le_pos; lra). lra. }
      destruct (fma_R x y v H0 H1 FV RG) as (FM & EM). split; [exact FM|].
      rewrite (Rplus_comm (bv x * bv y)) in EM.
      eapply approx_mono; [apply (approx_rnd 1 k _ _ _ _ _ eta32 AS)| | |].
      + rewrite pow_1. replace (1 + u32 - 1) with u32 by ring. exact EM.
      + lia.
      + lra.
      + rewrite pow_1, up_S. assert (1 <= (1 + u32) ^ k * (1 + u32)) by nra. set (Q := (1 + u32) ^ k) in *. assert (0 <= (Q * (1 + u32) - 1) * eta32) by (apply Rmult_le_pos; lra). lra.
    - destruct (tree_pos _ _ _ H) as (PA & PN). destruct (tree_pos _ _ _ H0) as (PA' & PN').
      destruct IHtree1 as (FV & AV); [apply (CM k _ _ (pt_a q) (pt_n q)); try lra; exact HC|].
      destruct IHtree2 as (FW & AW); [apply (CM k _ _ (pt_a p) (pt_n p)); try lra; rewrite (Rplus_comm (pt_a q)), (Rplus_comm (pt_n q)); exact HC|].
      pose proof (up1 k) as UK. pose proof (approx_add _ _ _ _ _ _ _ _ _ AV AW) as AS. pose proof (approx_abs _ _ _ _ _ AS) as AB.
      assert (RG : Rabs (bv v + bv w) <= 2 ^ 127 + 1).
      { eapply Rle_trans; [exact AB|]. rewrite up_S in HC. assert (0 <= pt_n p * eta32) by (apply Rmult_le_pos; lra). assert (0 <= pt_n q * eta32) by (apply Rmult_le_pos; lra).
        set (W := pt_a p + pt_a q) in *. set (Q := (1 + u32) ^ k) in *.
        replace ((pt_n p + pt_n q) * eta32) with (pt_n p * eta32 + pt_n q * eta32) in HC by ring. set (V := pt_n p * eta32) in *. set (V' := pt_n q * eta32) in *.
        assert (0 <= W) by (unfold W; lra). clearbody W V V' Q.
        assert (0 <= Q * (W + (V + V'))) by (apply Rmult_le_pos; lra). assert (0 <= Q * (W + (V + V')) * u32) by (apply Rmult_le_pos; lra). lra. }
      destruct (add_R v w FV FW RG) as (FM & EM). split; [exact FM|].
      eapply approx_mono; [apply (approx_rnd 1 k _ _ _ _ _ 0 AS)| | |].
      + rewrite pow_1. replace (1 + u32 - 1) with u32 by ring. rewrite Rplus_0_r. exact EM.
      + lia.
      + lra.
      + rewrite pow_1, up_S. apply Req_le. ring.
  Qed.

  Variable c : cfg.
  Definition trees (k : nat) (vs : list b32) (ps : list part) : Prop := Forall2 (fun v p => tree k p v) vs ps.

  Lemma lane_tree k p s x y : (1 <= k)%nat -> tree k p s -> fin x = true -> fin y = true -> tree (S k) (padd' p (pitem x y)) (@mvm_lane OP c s x y).
  Proof.
    intros K H Fx Fy. unfold mvm_lane. destruct (cfg_fma c).
    - apply tr_fma; assumption.
    - apply tr_add; [exact H|]. destruct k as [|k]; [lia|]. apply tr_mul; assumption.
  Qed.
  Lemma map3_trees k : (1 <= k)%nat -> forall ss ps xs ys, trees k ss ps -> length xs = length ss -> length ys = length ss ->
    Forall (fun x => fin x = true) xs -> Forall (fun x => fin x = true) ys ->
    exists qs, trees (S k) (map3 (@mvm_lane OP c) ss xs ys) qs /\ psum qs = padd' (psum ps) (pdot xs ys).
  Proof.
    intros K. induction ss as [|s ss IH]; intros ps xs ys HT Lx Ly Fx Fy; inversion HT; subst.
    - destruct xs; [|discriminate]. exists []. split; [constructor|]. cbn. rewrite padd_0l. reflexivity.
    - destruct xs as [|x xs]; [discriminate|]. destruct ys as [|y0 ys]; [discriminate|]. cbn in Lx, Ly.
      inversion Fx; subst. inversion Fy; subst.
      destruct (IH l' xs ys H3 ltac:(lia) ltac:(lia) ltac:(assumption) ltac:(assumption)) as (qs & Q & E).
      exists (padd' y (pitem x y0) :: qs). split.
      + cbn [map3]. constructor; [apply lane_tree; assumption|exact Q].
      + cbn [psum pdot]. rewrite E. peq.
  Qed.
  Lemma trees_zero k w : trees k (repeat b32_zero w) (repeat pzero w).
  Proof. induction w; constructor; [apply tr_zero|assumption]. Qed.
  Lemma fin_slice (l : list b32) i w : Forall (fun x => fin x = true) l -> Forall (fun x => fin x = true) (slice i w l).
  Proof.
    intros F. rewrite Forall_forall in F |- *. intros x Hx. apply F. unfold slice in Hx.
    rewrite <- (firstn_skipn i l). apply in_or_app. right. rewrite <- (firstn_skipn w (skipn i l)). apply in_or_app. left. exact Hx.
  Qed.
  Lemma chunks_trees w (vs ms : list b32) : length vs = length ms -> Forall (fun x => fin x = true) vs -> Forall (fun x => fin x = true) ms ->
    forall q j0, (j0 + q * w <= length vs)%nat ->
    exists ps, trees (S q) (@acc_chunks OP c w q j0 vs ms) ps /\ length ps = w /\ psum ps = pdot (slice j0 (q * w) vs) (slice j0 (q * w) ms).
  Proof.
    intros L Fv Fm. induction q as [|q IH]; intros j0 H.
    - exists (repeat pzero w). split; [apply trees_zero|]. split; [apply repeat_length|]. rewrite psum_repeat. reflexivity.
    - assert (EC : @acc_chunks OP c w (S q) j0 vs ms =
        map3 (@mvm_lane OP c) (@acc_chunks OP c w q j0 vs ms) (slice (j0 + q * w) w vs) (slice (j0 + q * w) w ms)).
      { replace (S q) with (q + 1)%nat by lia. exact (@acc_chunks_S OP c w q j0 vs ms). }
      rewrite EC. cbn in H.
      destruct (IH j0 ltac:(lia)) as (ps & TP & LP & EP).
      assert (LA : length (@acc_chunks OP c w q j0 vs ms) = w) by (etransitivity; [exact (F2_length _ _ _ TP)|exact LP]).
      assert (L1 : length (slice (j0 + q * w) w vs) = w) by (apply length_slice; lia).
      assert (L2 : length (slice (j0 + q * w) w ms) = w) by (apply length_slice; lia).
      destruct (map3_trees (S q) ltac:(lia) _ _ (slice (j0 + q * w) w vs) (slice (j0 + q * w) w ms) TP) as (qs & TQ & EQ).
      + etransitivity; [exact L1|symmetry; exact LA].
      + etransitivity; [exact L2|symmetry; exact LA].
      + apply fin_slice. exact Fv.
      + apply fin_slice. exact Fm.
      + exists qs. split; [exact TQ|]. split.
        * rewrite <- (F2_length _ _ _ TQ). change (@F OP) with b32 in *.
          assert (M3 : forall (ss xs ys : list b32), length xs = length ss -> length ys = length ss -> length (map3 (@mvm_lane OP c) ss xs ys) = length ss).
          { clear. induction ss as [|s ss IH]; intros [|x xs] [|y ys] A B; try discriminate; [reflexivity|]. cbn in *. f_equal. apply IH; lia. }
          rewrite M3; congruence.
        * rewrite EQ, EP. cbn [Nat.mul]. rewrite (Nat.add_comm w). rewrite !slice_app_add. rewrite pdot_app; [reflexivity|]. rewrite !length_slice; lia.
  Qed.

  Lemma hsum_tree k vs ps : trees k vs ps -> length ps = 8%nat -> tree (k + 3) (psum ps) (@horizontalsum_avx OP vs).
  Proof.
    intros HT L. assert (LV : length vs = 8%nat) by (etransitivity; [exact (F2_length _ _ _ HT)|exact L]).
    do 9 (destruct vs as [|? vs]; try discriminate LV).
    unfold trees in HT. repeat match goal with H : Forall2 _ (_ :: _) _ |- _ => inversion H; clear H; subst end.
    match goal with H : Forall2 _ [] _ |- _ => inversion H; clear H; subst end.
    unfold horizontalsum_avx. replace (k + 3)%nat with (S (S (S k))) by lia.
    match goal with |- tree _ (psum [?a; ?b; ?c; ?d; ?e; ?f; ?g; ?h]) _ =>
      replace (psum [a; b; c; d; e; f; g; h]) with (padd' (padd' (padd' a b) (padd' e f)) (padd' (padd' c d) (padd' g h))) by peq end.
    repeat (apply tr_add; try assumption).
  Qed.
  Lemma map2_trees k : forall vs ps ws qs, trees k vs ps -> trees k ws qs -> length vs = length ws ->
    exists rs, trees (S k) (map2 (Bplus mode_NE) vs ws) rs /\ psum rs = padd' (psum ps) (psum qs).
  Proof.
    induction vs as [|v vs IH]; intros ps [|w ws] qs HV HW L; try discriminate L; inversion HV; subst; inversion HW; subst.
    - exists []. split; [constructor|]. symmetry. apply padd_0l.
    - cbn in L. destruct (IH _ ws _ H3 H5 ltac:(lia)) as (rs & R & E). exists (padd' y y0 :: rs). split.
      + cbn [map2]. constructor; [apply tr_add; assumption|exact R].
      + cbn [psum]. rewrite E. peq.
  Qed.
  Lemma trees_split k w : forall vs ps, trees k vs ps -> 
    trees k (firstn w vs) (firstn w ps) /\ trees k (skipn w vs) (skipn w ps) /\ psum ps = padd' (psum (firstn w ps)) (psum (skipn w ps)).
  Proof.
    induction w as [|w IH]; intros vs ps H.
    - cbn. split; [constructor|]. split; [exact H|]. symmetry. apply padd_0l.
    - destruct H as [|v p vs ps H HT]. { cbn. repeat split; try constructor. symmetry. apply padd_0l. }
      destruct (IH vs ps HT) as (A & B & E). cbn [firstn skipn psum]. split; [constructor; assumption|]. split; [exact B|]. rewrite E. apply padd_A.
  Qed.
  Lemma reduce_form (vs : list b32) : length vs = 16%nat ->
    let t3 := map2 (Bplus mode_NE) (skipn 8 vs) (firstn 8 vs) in
    @reduce_add_512 OP vs = match map2 (Bplus mode_NE) (skipn 4 t3) (firstn 4 t3) with
      | [a; b; c; d] => Bplus mode_NE (Bplus mode_NE a c) (Bplus mode_NE b d) | _ => b32_zero end.
  Proof. intros L. do 17 (destruct vs as [|? vs]; try discriminate L). reflexivity. Qed.
  Lemma half_tree k w (vs : list b32) ps : trees k vs ps -> length vs = (w + w)%nat ->
    exists rs, trees (S k) (map2 (Bplus mode_NE) (skipn w vs) (firstn w vs)) rs /\ psum rs = psum ps /\
      length (map2 (Bplus mode_NE) (skipn w vs) (firstn w vs)) = w.
  Proof.
    intros HT LV. destruct (trees_split k w _ _ HT) as (A & B & E).
    destruct (map2_trees k _ _ _ _ B A) as (rs & T & ER). { rewrite firstn_length, skipn_length. lia. }
    exists rs. split; [exact T|]. split; [rewrite ER, E; apply padd_C|]. rewrite length_map2, firstn_length, skipn_length. lia.
  Qed.
  Lemma reduce_tree k vs ps : trees k vs ps -> length ps = 16%nat -> tree (k + 4) (psum ps) (@reduce_add_512 OP vs).
  Proof.
    intros HT L. assert (LV : length vs = 16%nat) by (etransitivity; [exact (F2_length _ _ _ HT)|exact L]).
    rewrite (reduce_form vs LV). cbv zeta.
    destruct (half_tree k 8 vs ps HT LV) as (r3 & T3 & E3 & L3).
    destruct (half_tree (S k) 4 _ r3 T3 L3) as (r6 & T6 & E6 & L6). rewrite <- E3, <- E6.
    destruct (map2 _ _ _) as [|a [|b [|d [|e [|? ?]]]]] in T6, L6 |- *; try discriminate L6. unfold trees in T6.
    inversion T6 as [|? y1 ? l1 H1 T7]; subst. inversion T7 as [|? y2 ? l2 H2 T8]; subst. inversion T8 as [|? y3 ? l3 H3 T9]; subst.
    inversion T9 as [|? y4 ? l4 H4 T10]; subst. inversion T10; subst.
    replace (k + 4)%nat with (S (S (S (S k)))) by lia.
    replace (psum [y1; y2; y3; y4]) with (padd' (padd' y1 y3) (padd' y2 y4)) by peq.
    apply tr_add; apply tr_add; assumption.
  Qed.
  Lemma tail_tree : forall (vs ms : list b32) k p y, (1 <= k)%nat -> length vs = length ms -> Forall (fun x => fin x = true) vs -> Forall (fun x => fin x = true) ms ->
    tree k p y ->
    tree (k + length vs) (padd' p (pdot vs ms)) (fold_left (fun y vm => Bplus mode_NE y (Bmult mode_NE (fst vm) (snd vm))) (combine vs ms) y).
  Proof.
    induction vs as [|x vs IH]; intros [|z ms] k p y K L Fv Fm HT; try discriminate L.
    - cbn. rewrite padd_0r, Nat.add_0_r. exact HT.
    - inversion Fv; subst. inversion Fm; subst. cbn [length combine fold_left pdot fst snd]. cbn in L.
      replace (k + S (length vs))%nat with (S k + length vs)%nat by lia.
      rewrite padd_A. apply IH; try assumption; try lia. apply tr_add; [exact HT|]. destruct k as [|k]; [lia|]. apply tr_mul; assumption.
  Qed.

  Lemma dot_tree (vs ms : list b32) : length vs = length ms -> Forall (fun x => fin x = true) vs -> Forall (fun x => fin x = true) ms ->
    tree (length vs + 8) (pdot vs ms) (@dot_f OP c vs ms b32_zero).
  Proof.
    intros L Fv Fm. unfold dot_f. change (@F OP) with b32. set (n := length vs).
    set (q16 := if has_avx512 c then (n / 16)%nat else 0%nat).
    assert (H16 : (q16 * 16 <= n)%nat).
    { unfold q16. destruct (has_avx512 c); [|lia]. rewrite Nat.mul_comm. apply Nat.mul_div_le. lia. }
    set (q8 := if has_avx c then ((n - 16 * q16) / 8)%nat else 0%nat).
    assert (H8 : (q8 * 8 <= n - 16 * q16)%nat).
    { unfold q8. destruct (has_avx c); [|lia]. rewrite Nat.mul_comm. apply Nat.mul_div_le. lia. }
    destruct (chunks_trees 16 vs ms L Fv Fm q16 0 ltac:(fold n; lia)) as (p1 & T1 & L1 & E1).
    destruct (chunks_trees 8 vs ms L Fv Fm q8 (16 * q16) ltac:(fold n; lia)) as (p2 & T2 & L2 & E2).
    apply reduce_tree in T1; [|exact L1]. apply hsum_tree in T2; [|exact L2].
    assert (Y : tree (q16 + q8 + 6) (padd' (psum p1) (psum p2))
      (let y1 := if has_avx512 c then @reduce_add_512 OP (@acc_chunks OP c 16 q16 0 vs ms) else b32_zero in
       if has_avx c then Bplus mode_NE y1 (@horizontalsum_avx OP (@acc_chunks OP c 8 q8 (16 * q16) vs ms)) else y1)).
    { cbv zeta. destruct (has_avx512 c) eqn:E5.
      - rewrite (has_avx512_avx c E5). replace (q16 + q8 + 6)%nat with (S (q16 + q8 + 5)) by lia.
        apply tr_add; [apply (tree_le _ _ _ T1); lia|apply (tree_le _ _ _ T2); lia].
      - assert (Z1 : psum p1 = pzero) by (rewrite E1; unfold q16; reflexivity). rewrite Z1.
        destruct (has_avx c) eqn:EA.
        + replace (q16 + q8 + 6)%nat with (S (q16 + q8 + 5)) by lia. apply tr_add; [apply tr_zero|apply (tree_le _ _ _ T2); lia].
        + assert (Z2 : psum p2 = pzero) by (rewrite E2; unfold q8; reflexivity). rewrite Z2, padd_0l. apply tr_zero. }
    cbv zeta in Y. set (j2 := (16 * q16 + 8 * q8)%nat).
    assert (LS : length (skipn j2 vs) = length (skipn j2 ms)) by (rewrite !skipn_length; lia).
    assert (FS : forall l : list b32, Forall (fun x => fin x = true) l -> Forall (fun x => fin x = true) (skipn j2 l)).
    { intros l F. rewrite Forall_forall in F |- *. intros x Hx. apply F. rewrite <- (firstn_skipn j2 l). apply in_or_app. right. exact Hx. }
    pose proof (tail_tree (skipn j2 vs) (skipn j2 ms) (q16 + q8 + 6)%nat _ _ ltac:(lia) LS (FS _ Fv) (FS _ Fm) Y) as R.
    assert (ED : pdot vs ms = padd' (padd' (psum p1) (psum p2)) (pdot (skipn j2 vs) (skipn j2 ms))).
    { rewrite E1, E2. rewrite <- (firstn_skipn j2 vs) at 1. rewrite <- (firstn_skipn j2 ms) at 1.
      rewrite pdot_app by (rewrite !firstn_length; lia). f_equal. unfold j2. rewrite <- !firstn_slice_app.
      rewrite pdot_app by (rewrite !firstn_length; lia). unfold slice. cbn [skipn]. rewrite (Nat.mul_comm 16 q16), (Nat.mul_comm 8 q8). reflexivity. }
    rewrite ED. eapply tree_le; [exact R|]. rewrite skipn_length. fold n. unfold j2. lia.
  Qed.
End Tree.

(** the parts as sums *)
Lemma pdot_sumf : forall (vs ms : list b32), length vs = length ms ->
  pdot vs ms = mk_part (sumf (length vs) (fun i => bv (nth i vs b32_zero) * bv (nth i ms b32_zero)))
    (sumf (length vs) (fun i => Rabs (bv (nth i vs b32_zero) * bv (nth i ms b32_zero)))) (INR (length vs)).
Proof.
  induction vs as [|x vs IH]; intros [|y ms] L; try discriminate L; [reflexivity|]. cbn in L.
  cbn [pdot]. rewrite IH by lia. cbn [length]. rewrite !sumf_S_l, S_INR. cbn [nth]. unfold padd', pitem. cbn [pt_s pt_a pt_n]. f_equal. ring.
Qed.
