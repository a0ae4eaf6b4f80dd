(** MetricProofs.v -- the metric functions compute a fold over the samples; values in exact arithmetic *)
From Coquelicot Require Import Coquelicot.
From Coq Require Import List Arith ZArith Lia Bool Reals Lra.
From Verif Require Import Base BaseProofs Ops OpsR Mem MemProofs Loss SpecReal RealForward RealGrad LossGrad SpecMetric.
Import ListNotations.
Local Open Scope nat_scope.
Local Open Scope mem_scope.

Lemma nth_skip A (l : list A) : forall i, i < length l -> exists x, nth_error l i = Some x /\ skipn i l = x :: skipn (S i) l.
Proof.
  induction l as [|a l IH]; simpl; intros i H; [lia|]. destruct i as [|i]; [exists a; auto|]. simpl.
  destruct (IH i ltac:(lia)) as (x & E & E2). exists x. split; auto.
Qed.

Section Any.
Context {FO : fops}.

Definition fold2 (f : F -> F -> F -> F) (e : F) (ps rs : list F) : F :=
  fold_left (fun e pr => f e (fst pr) (snd pr)) (combine ps rs) e.

(** index of the first maximum: [v] is the maximum so far at [idx], [i] the next index *)
Fixpoint amax (i : nat) (v : F) (idx : nat) (xs : list F) : nat :=
  match xs with
  | [] => idx
  | x :: r => if fgt x v then amax (S i) x i r else amax (S i) v idx r
  end.
Definition argmax (xs : list F) : nat := match xs with [] => 0 | x :: r => amax 1 x 0 r end.

Definition step (t : metric) : F -> F -> F -> F :=
  match t with
  | M_MSE => fun e p r => fadd e (fmul (fsub p r) (fsub p r))
  | M_MAE => fun e p r => fadd e (fabs (fsub r p))
  | M_MAPE => fun e p r => fadd e (fabs (fdiv (fsub r p) (fmaxf r epsilon)))
  | M_BCE => fun e p r => fadd e (fadd (fmul r (flog (clip p))) (fmul (fsub f1 r) (flog (fsub f1 (clip p)))))
  | M_CCE => fun e p r => fadd e (fmul r (flog (clip p)))
  | M_BinAcc => fun s p r => fadd s (if feq (fround (fminf (fmaxf r f0) f1)) (fround p) then f1 else f0)
  | M_CatAcc => fun e _ _ => e
  end.
Definition metric_f (t : metric) (ps rs : list F) : F :=
  let fn := fofZ (Z.of_nat (length ps)) in
  let e := fold2 (step t) f0 ps rs in
  match t with
  | M_MSE | M_MAE | M_BinAcc => fdiv e fn
  | M_MAPE => fdiv (fmul (fofZ 100) e) fn
  | M_BCE | M_CCE => fdiv (fneg e) fn
  | M_CatAcc => if argmax ps =? argmax rs then f1 else f0
  end.

Section Run.
Variables (m : mem) (pp pr : ptr) (ps rs : list F).
Let n := length ps.
Hypothesis Hp : holds m pp ps.
Hypothesis Hr : holds m pr rs.
Hypothesis L : length rs = n.

Lemma acc_loop_ok f : forall k i e, i <= n -> n < i + k ->
  acc_loop k n pp pr i e f m = Ok (fold2 f e (skipn i ps) (skipn i rs), m).
Proof.
  induction k; intros i e Hi Hk; [lia|]. simpl. destruct (Nat.ltb_spec i n).
  - destruct (nth_skip _ ps i) as (x & E1 & E2); auto. destruct (nth_skip _ rs i) as (y & E3 & E4); [lia|].
    erewrite bind_ok by (eapply load_holds; eauto). erewrite bind_ok by (eapply load_holds; eauto).
    rewrite IHk by lia. rewrite E2, E4. replace (i + 1) with (S i) by lia. reflexivity.
  - assert (i = n) by lia. subst. rewrite !skipn_all2 by (unfold n in *; lia). reflexivity.
Qed.

Lemma argmax_loop_ok : forall k i rm pm ri pi, i <= n -> n < i + k ->
  argmax_loop k n pp pr i rm pm ri pi m = Ok ((amax i rm ri (skipn i rs), amax i pm pi (skipn i ps)), m).
Proof.
  induction k; intros i rm pm ri pi Hi Hk; [lia|]. simpl. destruct (Nat.ltb_spec i n).
  - destruct (nth_skip _ ps i) as (x & E1 & E2); auto. destruct (nth_skip _ rs i) as (y & E3 & E4); [lia|].
    erewrite bind_ok by (eapply load_holds; eauto). erewrite bind_ok by (eapply load_holds; eauto).
    rewrite E2, E4. cbn [amax]. destruct (fgt y rm), (fgt x pm); rewrite IHk by lia; replace (i + 1) with (S i) by lia; reflexivity.
  - assert (i = n) by lia. subst. rewrite !skipn_all2 by (unfold n in *; lia). reflexivity.
Qed.

Lemma metric_func_ok t : 1 <= n -> metric_func t n pp pr m = Ok (metric_f t ps rs, m).
Proof.
  intros Hn. unfold metric_func, metric_f. fold n.
  destruct t; cbv zeta; try (erewrite bind_ok by (apply acc_loop_ok; lia); reflexivity).
  assert (Ep : exists p0 ps', ps = p0 :: ps'). { unfold n in Hn. destruct ps; [simpl in Hn; lia|eauto]. }
  assert (Er : exists r0 rs', rs = r0 :: rs'). { rewrite <- L in Hn. destruct rs; [simpl in Hn; lia|eauto]. }
  destruct Ep as (p0 & ps' & Ep), Er as (r0 & rs' & Er).
  erewrite bind_ok by (eapply load_holds0; rewrite <- Er; eauto). erewrite bind_ok by (eapply load_holds0; rewrite <- Ep; eauto).
  erewrite bind_ok by (apply argmax_loop_ok; lia). rewrite Ep, Er. reflexivity.
Qed.
End Run.
End Any.

(** ** values over the reals *)
Local Open Scope R_scope.

Lemma fold2_R (g : R -> R -> R) : forall (ps rs : list R) e, length rs = length ps ->
  @fold2 opsR (fun e p r => e + g p r) e ps rs = e + sumf (length ps) (fun j => g (vec ps j) (vec rs j)).
Proof.
  induction ps as [|p ps IH]; intros rs e L; destruct rs as [|r rs]; try discriminate.
  - cbn. lra.
  - injection L as L. cbn [length]. rewrite sumf_S_l. unfold fold2. cbn [combine fold_left fst snd].
    change (@fold2 opsR (fun e p r => e + g p r) (e + g p r) ps rs = e + (g p r + sumf (length ps) (fun i => g (vec ps i) (vec rs i)))).
    rewrite IH by auto. lra.
Qed.

Lemma amax_R : forall (xs : list R) i v idx, (idx < i)%nat ->
  let a := @amax opsR i v idx xs in
  let w := if (a =? idx)%nat then v else vec xs (a - i) in
  (a = idx \/ (i <= a < i + length xs)%nat) /\ v <= w /\ (a <> idx -> v < w) /\
  (forall j, (j < length xs)%nat -> vec xs j <= w) /\
  (forall j, (j < length xs)%nat -> (i + j < a)%nat -> vec xs j < w).
Proof.
  induction xs as [|x xs IH]; intros i v idx Hi a w.
  - simpl in a. unfold a, w. rewrite Nat.eqb_refl. simpl. repeat split; auto; try lra; intros; lia.
  - subst a w. cbn [amax]. unfold fgt. simpl flt. destruct (Rltb_spec v x) as [H|H].
    + specialize (IH (S i) x i ltac:(lia)). set (a := @amax opsR (S i) x i xs) in *. cbv zeta in IH.
      destruct IH as (I1 & I2 & I3 & I4 & I5).
      assert (E : (a =? idx)%nat = false) by (apply Nat.eqb_neq; lia). rewrite E.
      assert (W : vec (x :: xs) (a - i) = (if (a =? i)%nat then x else vec xs (a - S i))).
      { destruct (Nat.eqb_spec a i) as [e|e]. - rewrite e, Nat.sub_diag. reflexivity.
        - replace (a - i)%nat with (S (a - S i)) by lia. reflexivity. }
      rewrite W. simpl length. repeat split.
      * right. lia.
      * eapply Rle_trans; [apply Rlt_le; exact H|exact I2].
      * intros _. eapply Rlt_le_trans; [exact H|exact I2].
      * intros [|j] Hj; [exact I2|]. apply I4. lia.
      * intros [|j] Hj Hij; [apply I3; lia|]. apply I5; lia.
    + specialize (IH (S i) v idx ltac:(lia)). set (a := @amax opsR (S i) v idx xs) in *. cbv zeta in IH.
      destruct IH as (I1 & I2 & I3 & I4 & I5).
      assert (W : (if (a =? idx)%nat then v else vec (x :: xs) (a - i)) = (if (a =? idx)%nat then v else vec xs (a - S i))).
      { destruct (Nat.eqb_spec a idx); auto. replace (a - i)%nat with (S (a - S i)) by lia. reflexivity. }
      rewrite W. simpl length. repeat split.
      * lia.
      * exact I2.
      * exact I3.
      * intros [|j] Hj; [|apply I4; lia]. eapply Rle_trans; [|exact I2]. apply Rnot_lt_le. exact H.
      * intros [|j] Hj Hij; [|apply I5; lia]. eapply Rle_lt_trans; [apply Rnot_lt_le; exact H|]. apply I3. lia.
Qed.

Lemma argmax_R (xs : list R) : xs <> [] -> is_first_max (length xs) (vec xs) (@argmax opsR xs).
Proof.
  destruct xs as [|x xs]; [congruence|]. intros _. cbn [argmax].
  pose proof (amax_R xs 1 x 0 ltac:(lia)) as H. set (a := @amax opsR 1 x 0 xs) in *. cbv zeta in H.
  destruct H as (I1 & I2 & I3 & I4 & I5).
  assert (W : vec (x :: xs) a = (if (a =? 0)%nat then x else vec xs (a - 1))).
  { destruct (Nat.eqb_spec a 0). - rewrite e. reflexivity. - replace a with (S (a - 1)) at 1 by lia. reflexivity. }
  split; [|split].
  - simpl. lia.
  - intros [|j] Hj; rewrite W; [exact I2|]. apply I4. simpl in Hj. lia.
  - intros [|j] Hj; rewrite W; [apply I3; lia|]. apply I5; lia.
Qed.

Lemma first_max_unique n v i j : is_first_max n v i -> is_first_max n v j -> i = j.
Proof.
  intros (A1 & A2 & A3) (B1 & B2 & B3). destruct (Nat.lt_trichotomy i j) as [H|[H|H]]; auto.
  - specialize (B3 i H). specialize (A2 j B1). lra.
  - specialize (A3 j H). specialize (B2 i A1). lra.
Qed.

Lemma clip_R (x : R) : @clip opsR x = prob x.
Proof. unfold clip, prob, clamp, epsilon. simpl. rewrite Rmin_comm, (Rmax_comm x). reflexivity. Qed.

Lemma round_R (x : R) : rounds_to x (Rroundf x).
Proof.
  unfold rounds_to, Rroundf. destruct (Rle_dec 0 x).
  - destruct (base_Int_part (x + / 2)) as [B1 B2]. set (z := Int_part (x + / 2)) in *.
    split; [eauto|]. split.
    + apply Rabs_le. lra.
    + intros E. assert (IZR z - x = 1 / 2).
      { unfold Rabs in E. destruct (Rcase_abs (IZR z - x)); lra. }
      rewrite !Rabs_right; lra.
  - destruct (base_Int_part (- x + / 2)) as [B1 B2]. set (z := Int_part (- x + / 2)) in *.
    split; [exists (- z)%Z; rewrite opp_IZR; reflexivity|]. split.
    + apply Rabs_le. lra.
    + intros E. assert (- IZR z - x = - (1 / 2)).
      { unfold Rabs in E. destruct (Rcase_abs (- IZR z - x)); lra. }
      rewrite !Rabs_left; lra.
Qed.
Lemma rounds_to_unique x r1 r2 : rounds_to x r1 -> rounds_to x r2 -> r1 = r2.
Proof.
  assert (H : forall r1 r2, rounds_to x r1 -> rounds_to x r2 -> ~ r1 < r2).
  { clear. intros r1 r2 [(z1 & E1) [A1 B1]] [(z2 & E2) [A2 B2]] H.
    assert (r1 + 1 <= r2). { subst. rewrite <- plus_IZR. apply IZR_le. apply lt_IZR in H. lia. }
    apply Rabs_le_between in A1. apply Rabs_le_between in A2.
    assert (C1 : r1 = x - 1 / 2) by lra. assert (C2 : r2 = x + 1 / 2) by lra.
    assert (D1 : Rabs x < Rabs r1). { apply B1. rewrite C1. replace (x - 1 / 2 - x) with (- (1 / 2)) by lra. rewrite Rabs_Ropp. apply Rabs_right. lra. }
    assert (D2 : Rabs x < Rabs r2). { apply B2. rewrite C2. replace (x + 1 / 2 - x) with (1 / 2) by lra. apply Rabs_right. lra. }
    assert (K : -1 < r1 < 0 \/ 0 < r2 < 1).
    { rewrite C1 in D1. rewrite C2 in D2. rewrite C1, C2. clear -D1 D2. unfold Rabs in *.
      destruct (Rcase_abs x), (Rcase_abs (x - 1 / 2)), (Rcase_abs (x + 1 / 2)); lra. }
    destruct K as [[K1 K2]|[K1 K2]]; [rewrite E1 in K1, K2|rewrite E2 in K1, K2]; apply lt_IZR in K1; apply lt_IZR in K2; lia. }
  intros A B. pose proof (H _ _ A B). pose proof (H _ _ B A). lra.
Qed.

Lemma count_sumf n (p : nat -> bool) : sumf n (fun j => if p j then 1 else 0) = INR (count_lt n p).
Proof.
  induction n; [reflexivity|]. cbn [sumf count_lt]. rewrite IHn, plus_INR. destruct (p n); change (INR 1) with 1; change (INR 0) with 0; lra.
Qed.

Lemma sumf_nonneg n (f : nat -> R) : (forall j, (j < n)%nat -> 0 <= f j) -> 0 <= sumf n f.
Proof. induction n; simpl; intros H; [lra|]. pose proof (H n ltac:(lia)). pose proof (IHn ltac:(intros; apply H; lia)). lra. Qed.
Lemma sumf_zero_iff n (f : nat -> R) : (forall j, (j < n)%nat -> 0 <= f j) -> (sumf n f = 0 <-> forall j, (j < n)%nat -> f j = 0).
Proof.
  induction n; simpl; intros H; [split; [intros; lia|auto]|].
  pose proof (H n ltac:(lia)) as P. assert (H' : forall j, (j < n)%nat -> 0 <= f j) by (intros; apply H; lia).
  pose proof (sumf_nonneg n f H'). specialize (IHn H'). split.
  - intros E j Hj. destruct (Nat.eq_dec j n); [subst; lra|]. apply IHn; [lra|lia].
  - intros E. rewrite (E n) by lia. rewrite (proj2 IHn); [lra|]. intros; apply E; lia.
Qed.

Lemma metric_R t (ps rs : list R) : length rs = length ps ->
  let n := length ps in
  @metric_f opsR t ps rs =
  match t with
  | M_MSE => mse n (vec rs) (vec ps)
  | M_MAE => mae n (vec rs) (vec ps)
  | M_MAPE => mape n (vec rs) (vec ps)
  | M_BCE => bce n (vec rs) (vec ps)
  | M_CCE => cce n (vec rs) (vec ps)
  | M_CatAcc => if (@argmax opsR ps =? @argmax opsR rs)%nat then 1 else 0
  | M_BinAcc => INR (count_lt n (fun j => Reqb (Rroundf (clamp 0 1 (vec rs j))) (Rroundf (vec ps j)))) / INR n
  end.
Proof.
  intros L n. unfold metric_f. fold n. destruct t; cbv zeta; cbn [fofZ fdiv fneg opsR step fadd fmul fsub fabs f0 f1 F fmaxf fminf fround flog].
  - unfold mse. rewrite fold2_R by auto. rewrite ofZ_INR. f_equal. rewrite Rplus_0_l. apply sumf_ext. intros. lra.
  - unfold mae. rewrite fold2_R by auto. rewrite ofZ_INR. f_equal. rewrite Rplus_0_l. apply sumf_ext. intros. apply Rabs_minus_sym.
  - unfold mape. rewrite fold2_R by auto. rewrite ofZ_INR. f_equal. f_equal. rewrite Rplus_0_l. apply sumf_ext. intros.
    unfold epsilon. simpl. reflexivity.
  - unfold bce. rewrite (fold2_R (fun p r => r * ln (@clip opsR p) + (1 - r) * ln (1 - @clip opsR p))) by auto.
    rewrite ofZ_INR. f_equal. f_equal. rewrite Rplus_0_l. apply sumf_ext. intros. rewrite clip_R. reflexivity.
  - unfold cce. rewrite (fold2_R (fun p r => r * ln (@clip opsR p))) by auto.
    rewrite ofZ_INR. f_equal. f_equal. rewrite Rplus_0_l. apply sumf_ext. intros. rewrite clip_R. reflexivity.
  - reflexivity.
  - rewrite (fold2_R (fun p r => if Reqb (Rroundf (Rmin (Rmax r 0) 1)) (Rroundf p) then 1 else 0)) by auto.
    rewrite ofZ_INR, Rplus_0_l. f_equal. rewrite <- count_sumf. apply sumf_ext. intros.
    unfold clamp. rewrite Rmin_comm, (Rmax_comm (vec rs i)). reflexivity.
Qed.
