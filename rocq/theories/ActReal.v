(** ActReal.v -- how much sigmoid, tanh, softplus and softmax magnify errors, over the reals *)
From Coquelicot Require Import Coquelicot.
From Coq Require Import ZArith List Arith Reals Lia Lra.
From Verif Require Import Activation SpecReal SpecRound SpecLibm.
Local Open Scope R_scope.

Definition sigma (x : R) : R := 1 / (1 + exp (- x)).
Lemma sigma_pos x : 0 < sigma x < 1.
Proof.
  unfold sigma. pose proof (exp_pos (- x)). split; [apply Rdiv_lt_0_compat; lra|]. apply (Rmult_lt_reg_r (1 + exp (- x))); [lra|].
  unfold Rdiv. rewrite Rmult_assoc, Rinv_l by lra. lra.
Qed.
Lemma sigma_derive x : is_derive sigma x (sigma x * (1 - sigma x)).
Proof. unfold sigma. pose proof (exp_pos (- x)). auto_derive; [lra|]. field. lra. Qed.
Lemma sigma_lip p q : Rabs (sigma p - sigma q) <= Rabs (p - q) / 4.
Proof.
  destruct (MVT_gen sigma q p (fun x => sigma x * (1 - sigma x))) as (c & _ & E).
  - intros x _. apply sigma_derive.
  - intros x _. apply derivable_continuous_pt. exists (sigma x * (1 - sigma x)). apply is_derive_Reals, sigma_derive.
  - rewrite E, Rabs_mult. pose proof (sigma_pos c). pose proof (Rabs_pos (p - q)). rewrite (Rabs_pos_eq (sigma c * (1 - sigma c))) by (apply Rmult_le_pos; lra).
    assert (sigma c * (1 - sigma c) <= 1/4) by (pose proof (Rle_0_sqr (sigma c - 1/2)) as Q; unfold Rsqr in Q; lra). nra.
Qed.
Lemma sigma_bnd p : Rabs (sigma p) <= Rabs p / 4 + 1/2.
Proof.
  pose proof (sigma_lip p 0) as L. assert (E : sigma 0 = 1/2) by (unfold sigma; rewrite Ropp_0, exp_0; lra). rewrite E, Rminus_0_r in L.
  pose proof (Rabs_triang (sigma p - 1/2) (1/2)) as T. replace (sigma p - 1/2 + 1/2) with (sigma p) in T by ring. rewrite (Rabs_pos_eq (1/2)) in T by lra. lra.
Qed.
Lemma tanh_sigma x : tanhR x = 2 * sigma (2 * x) - 1.
Proof.
  unfold tanhR, sigma. replace (exp (- (2 * x))) with (exp (- x) * exp (- x)) by (rewrite <- exp_plus; f_equal; ring).
  rewrite exp_Ropp. pose proof (exp_pos x). field. nra.
Qed.
Lemma tanh_lip p q : Rabs (tanhR p - tanhR q) <= Rabs (p - q).
Proof.
  rewrite !tanh_sigma. replace (2 * sigma (2 * p) - 1 - (2 * sigma (2 * q) - 1)) with (2 * (sigma (2 * p) - sigma (2 * q))) by ring.
  rewrite Rabs_mult, (Rabs_pos_eq 2) by lra. pose proof (sigma_lip (2 * p) (2 * q)) as L. replace (2 * p - 2 * q) with (2 * (p - q)) in L by ring.
  rewrite Rabs_mult, (Rabs_pos_eq 2) in L by lra. lra.
Qed.
Lemma tanh_bnd p : Rabs (tanhR p) <= Rabs p.
Proof.
  pose proof (tanh_lip p 0) as L. assert (E : tanhR 0 = 0) by (unfold tanhR; rewrite Ropp_0, exp_0; lra). rewrite E, !Rminus_0_r in L. exact L.
Qed.

Definition softplus (x : R) : R := ln (1 + exp x).
Lemma ln_mono a b : 0 < a -> a <= b -> ln a <= ln b.
Proof. intros P [H|H]; [left; apply ln_increasing; assumption|rewrite H; lra]. Qed.
Lemma softplus_step p q : p <= q -> 0 <= softplus q - softplus p <= q - p.
Proof.
  intros H. unfold softplus. pose proof (exp_pos p) as P. pose proof (exp_pos q) as Q. split.
  - assert (exp p <= exp q) by (destruct H as [H|H]; [left; apply exp_increasing; exact H|rewrite H; lra]).
    pose proof (ln_mono (1 + exp p) (1 + exp q) ltac:(lra) ltac:(lra)). lra.
  - assert (E : 1 + exp q <= exp (q - p) * (1 + exp p)).
    { rewrite Rmult_plus_distr_l, <- exp_plus. replace (q - p + p) with q by ring. pose proof (exp_ineq1_le (q - p)). lra. }
    apply ln_mono in E; [|lra]. rewrite ln_mult in E by (try apply exp_pos; lra). rewrite ln_exp in E. lra.
Qed.
Lemma softplus_lip p q : Rabs (softplus p - softplus q) <= Rabs (p - q).
Proof.
  destruct (Rle_dec p q) as [H|H].
  - pose proof (softplus_step p q H). rewrite !Rabs_left1; lra.
  - pose proof (softplus_step q p ltac:(lra)). rewrite !Rabs_pos_eq; lra.
Qed.
Lemma softplus_bnd p : Rabs (softplus p) <= Rabs p + 1.
Proof.
  pose proof (softplus_lip p 0) as L. rewrite Rminus_0_r in L.
  assert (E : 0 <= softplus 0 <= 1).
  { unfold softplus. rewrite exp_0. split; [rewrite <- ln_1; apply ln_mono; lra|]. apply Rle_trans with (ln (exp 1)); [|rewrite ln_exp; lra]. apply ln_mono; [lra|]. pose proof (exp_ineq1_le 1). lra. }
  pose proof (Rabs_triang (softplus p - softplus 0) (softplus 0)) as T. replace (softplus p - softplus 0 + softplus 0) with (softplus p) in T by ring.
  rewrite (Rabs_pos_eq (softplus 0)) in T by lra. lra.
Qed.

(** ** softmax *)
Lemma odds_step A t : 0 <= A -> 0 <= t -> 0 <= 1 / (1 + A) - 1 / (1 + A * exp t) <= t / 4.
Proof.
  intros HA Ht. destruct HA as [HA|<-].
  - assert (E : forall s, 1 / (1 + A * exp s) = sigma (- ln A - s)).
    { intros s. unfold sigma. replace (- (- ln A - s)) with (ln A + s) by ring. rewrite exp_plus, exp_ln by exact HA. reflexivity. }
    pose proof (E 0) as E0. rewrite exp_0, Rmult_1_r in E0. rewrite E0, E. pose proof (sigma_lip (- ln A - 0) (- ln A - t)) as L.
    replace (- ln A - 0 - (- ln A - t)) with t in L by ring. rewrite (Rabs_pos_eq t) in L by exact Ht.
    split; [|pose proof (Rle_abs (sigma (- ln A - 0) - sigma (- ln A - t))); lra].
    rewrite <- E, <- E, exp_0, Rmult_1_r. pose proof (exp_ineq1_le t). assert (A <= A * exp t) by nra.
    assert (/ (1 + A * exp t) <= / (1 + A)) by (apply Rinv_le_contravar; lra). unfold Rdiv. lra.
  - rewrite Rmult_0_l. lra.
Qed.
Lemma odds_lip A B t : 0 <= A -> 0 <= B -> 0 <= t -> B <= A * exp t -> A <= B * exp t -> Rabs (1 / (1 + A) - 1 / (1 + B)) <= t / 4.
Proof.
  intros HA HB Ht H1 H2. pose proof (odds_step A t HA Ht) as S1. pose proof (odds_step B t HB Ht) as S2.
  assert (I1 : / (1 + A * exp t) <= / (1 + B)) by (apply Rinv_le_contravar; lra).
  assert (I2 : / (1 + B * exp t) <= / (1 + A)) by (apply Rinv_le_contravar; lra). apply Rabs_le. unfold Rdiv in *. lra.
Qed.
Lemma maxf_ge n f i : (i < n)%nat -> f i <= maxf n f.
Proof.
  induction n as [|n IH]; intros H; [lia|]. cbn [maxf]. destruct (Nat.eq_dec i n) as [->|N]; [apply Rmax_r|].
  eapply Rle_trans; [apply IH; lia|apply Rmax_l].
Qed.
Lemma maxf_pos n f : 0 <= maxf n f.
Proof. induction n as [|n IH]; cbn [maxf]; [lra|]. eapply Rle_trans; [exact IH|apply Rmax_l]. Qed.
(** the sum over all but j *)
Definition others (n : nat) (f : nat -> R) (j : nat) : R := sumf n (fun k => if Nat.eq_dec k j then 0 else f k).
Lemma sumf_le n f g : (forall i, (i < n)%nat -> f i <= g i) -> sumf n f <= sumf n g.
Proof. induction n as [|n IH]; intros H; cbn [sumf]; [lra|]. pose proof (H n ltac:(lia)). specialize (IH ltac:(intros; apply H; lia)). lra. Qed.
Lemma sumf_split n f j : (j < n)%nat -> sumf n f = f j + others n f j.
Proof.
  unfold others. induction n as [|n IH]; intros H; [lia|]. cbn [sumf]. destruct (Nat.eq_dec n j) as [->|N].
  - assert (E : sumf j f = sumf j (fun k => if Nat.eq_dec k j then 0 else f k)).
    { clear. assert (G : forall m, (m <= j)%nat -> sumf m f = sumf m (fun k => if Nat.eq_dec k j then 0 else f k)).
      { induction m as [|m IH]; intros H; [reflexivity|]. cbn [sumf]. rewrite IH by lia. destruct (Nat.eq_dec m j); [lia|reflexivity]. }
      apply G. lia. }
    lra.
  - rewrite IH by lia. ring.
Qed.
Lemma sumf_scal' n c f : sumf n (fun k => c * f k) = c * sumf n f.
Proof. induction n as [|n IH]; cbn [sumf]; [ring|]. rewrite IH. ring. Qed.
Lemma sumf_ext' n f g : (forall i, (i < n)%nat -> f i = g i) -> sumf n f = sumf n g.
Proof. induction n as [|n IH]; intros H; cbn [sumf]; [reflexivity|]. rewrite IH, H by (auto; intros; apply H; lia). reflexivity. Qed.
Lemma softmax_odds n z j : (j < n)%nat -> act_math Softmax n z j = 1 / (1 + others n (fun k => exp (z k - z j)) j) /\ 0 <= others n (fun k => exp (z k - z j)) j.
Proof.
  intros H. cbn [act_math].
  assert (E : sumf n (fun k => exp (z k)) = exp (z j) * sumf n (fun k => exp (z k - z j))).
  { rewrite <- sumf_scal'. apply sumf_ext'. intros i _. rewrite <- exp_plus. f_equal. ring. }
  assert (P : 0 <= others n (fun k => exp (z k - z j)) j).
  { unfold others. clear. induction n as [|n IH]; cbn [sumf]; [lra|]. destruct (Nat.eq_dec n j); [lra|]. pose proof (exp_pos (z n - z j)). lra. }
  split; [|exact P]. rewrite E, (sumf_split n _ j H). replace (z j - z j) with 0 by ring. rewrite exp_0. pose proof (exp_pos (z j)). field. lra.
Qed.
Lemma softmax_lip n z w j d : (j < n)%nat -> (forall i, (i < n)%nat -> Rabs (z i - w i) <= d) ->
  Rabs (act_math Softmax n z j - act_math Softmax n w j) <= d / 2.
Proof.
  intros H D. destruct (softmax_odds n z j H) as (-> & PZ). destruct (softmax_odds n w j H) as (-> & PW).
  assert (D0 : 0 <= d) by (eapply Rle_trans; [apply Rabs_pos|apply (D j H)]).
  assert (G : forall u v : nat -> R, (forall i, (i < n)%nat -> Rabs (u i - v i) <= d) ->
    others n (fun k => exp (u k - u j)) j <= others n (fun k => exp (v k - v j)) j * exp (2 * d)).
  { intros u v HD. rewrite Rmult_comm. unfold others. rewrite <- sumf_scal'. apply sumf_le. intros i Hi. destruct (Nat.eq_dec i j); [lra|].
    rewrite <- exp_plus. pose proof (HD i Hi) as A. pose proof (HD j H) as B. apply Rabs_le_between in A, B.
    assert (L : u i - u j <= 2 * d + (v i - v j)) by lra. destruct L as [L|L]; [left; apply exp_increasing; exact L|rewrite L; lra]. }
  replace (d / 2) with (2 * d / 4) by lra. apply odds_lip; try assumption; try lra.
  - apply G. intros i Hi. rewrite Rabs_minus_sym. apply D. exact Hi.
  - apply G. exact D.
Qed.
Lemma softmax_bnd n z j : (j < n)%nat -> Rabs (act_math Softmax n z j) <= 1.
Proof.
  intros H. destruct (softmax_odds n z j H) as (-> & P). rewrite Rabs_pos_eq.
  - apply (Rmult_le_reg_r (1 + others n (fun k => exp (z k - z j)) j)); [lra|]. unfold Rdiv. rewrite Rmult_assoc, Rinv_l by lra. lra.
  - apply Rlt_le, Rdiv_lt_0_compat; lra.
Qed.
