(** LossGrad.v -- the loss functions are the derivatives of the losses; gradient of whole networks *)
From Coq Require Import List Arith ZArith Lia Bool Reals Lra.
From Coquelicot Require Import Coquelicot.
From Verif Require Import Base BaseProofs Ops OpsR Mem MemProofs Kernels KernelProofs KernelProofs2
  Activation ActivationProofs Loss Neuralnet ForwardProofs BackpropProofs SpecReal RealForward RealGrad.
Import ListNotations.
Local Open Scope R_scope.

(** one summand of the loss, with the factor 1/n where there is one *)
Definition ell (l : loss) (n : nat) (t y : R) : R :=
  match l with
  | MSE => (y - t) ^ 2 / INR n
  | MAE => Rabs (y - t) / INR n
  | MAPE => 100 * Rabs ((t - y) / Rmax t (1 / 10000000)) / INR n
  | BCE => - (t * ln y + (1 - t) * ln (1 - y)) / INR n
  | CCE => - (t * ln y)
  end.
Lemma loss_math_ell l n t y : loss_math l n t y = sumf n (fun j => ell l n (t j) (y j)).
Proof.
  assert (D : forall f, sumf n f / INR n = sumf n (fun j => f j / INR n)).
  { intros f. unfold Rdiv. rewrite Rmult_comm, <- sumf_scal. apply sumf_ext. intros; lra. }
  assert (N : forall f, - sumf n f = sumf n (fun j => - f j)).
  { intros f. replace (- sumf n f) with ((-1) * sumf n f) by lra. rewrite <- sumf_scal. apply sumf_ext. intros; lra. }
  destruct l; cbn [loss_math ell]; rewrite ?N; try apply D; auto.
  rewrite <- sumf_scal. apply D.
Qed.

Lemma sumf_single n j (f : nat -> R) : (j < n)%nat -> (forall i, (i < n)%nat -> i <> j -> f i = 0) -> sumf n f = f j.
Proof.
  induction n; intros Hj H; [lia|]. simpl. destruct (Nat.eq_dec j n).
  - subst. rewrite (sumf_ext n f (fun _ => 0)).
    + rewrite sumf_0. lra.
    + intros i Hi. apply H; lia.
  - rewrite IHn by (try lia; intros; apply H; lia). rewrite (H n) by lia. lra.
Qed.

(** the value of the loss function of the code is the derivative of [ell], away from kinks *)
Definition not_kink (l : loss) (t y : R) : Prop :=
  match l with MAE | MAPE => y <> t | BCE => 0 < y < 1 | CCE => 0 < y | MSE => True end.

Lemma is_derive_val (f : R -> R) (x a b : R) : is_derive f x a -> a = b -> is_derive f x b.
Proof. intros H <-. exact H. Qed.
Lemma is_derive_scal' (f : R -> R) (x k a : R) : is_derive f x a -> is_derive (fun s => k * f s) x (k * a).
Proof. intros H. exact (is_derive_scal f x k a H). Qed.

Lemma derive_abs x : x <> 0 -> is_derive Rabs x (if Rle_dec 0 x then 1 else -1).
Proof.
  intros H. destruct (Rle_dec 0 x).
  - assert (P : 0 < x) by lra.
    eapply is_derive_locally_eq with (eps := mkposreal _ P) (g := fun y => y); [|apply is_derive_id'].
    simpl. intros y Hy. apply Rabs_def2 in Hy. rewrite Rabs_right; lra.
  - assert (P : 0 < - x) by lra.
    eapply is_derive_locally_eq with (eps := mkposreal _ P) (g := fun y => - y).
    + simpl. intros y Hy. apply Rabs_def2 in Hy. rewrite Rabs_left; lra.
    + auto_derive; auto.
Qed.

Lemma ofZ_INR n : IZR (Z.of_nat n) = INR n.
Proof. symmetry. apply INR_IZR_INZ. Qed.

Definition simple_loss (l : loss) : Prop := l = MSE \/ l = MAE \/ l = MAPE.

Lemma derive_ell l n t y : (0 < n)%nat -> simple_loss l -> not_kink l t y ->
  is_derive (ell l n t) y (@loss_elem opsR l n y t).
Proof.
  intros Hn Hl Hk. assert (HN : 0 < INR n) by (apply lt_0_INR; auto).
  assert (A : y <> t -> is_derive (fun s => Rabs (s - t)) y (if Rle_dec 0 (y - t) then 1 else -1)).
  { intros H.
    assert (D : is_derive (fun s => Rabs (s - t)) y ((if Rle_dec 0 (y - t) then 1 else -1) * 1)).
    { apply (is_derive_comp' Rabs (fun s => s - t)). { apply derive_abs. lra. } auto_derive; auto; lra. }
    rewrite Rmult_1_r in D. exact D. }
  destruct Hl as [->|[->| ->]]; cbn [not_kink] in Hk; unfold loss_elem, fge; simpl; rewrite ofZ_INR.
  - unfold ell. auto_derive; auto. field. lra.
  - unfold ell. specialize (A Hk).
    apply (is_derive_ext (fun s => / INR n * Rabs (s - t))). { intros s. unfold Rdiv. lra. }
    eapply is_derive_val.
    + apply is_derive_scal'. exact A.
    + destruct (Rle_dec 0 (y - t)); destruct (Rleb_spec t y); try lra.
  - unfold ell. specialize (A Hk).
    set (d := Rmax t (1 / 10000000)).
    assert (Hd : 0 < d). { unfold d. apply Rlt_le_trans with (1 / 10000000); [lra|apply Rmax_r]. }
    apply (is_derive_ext (fun s => (100 / (d * INR n)) * Rabs (s - t))).
    { intros s. rewrite Rabs_minus_sym. rewrite Rabs_div by lra. rewrite (Rabs_right d) by lra. match goal with |- ?a = ?b => change (@eq R a b) end. field. lra. }
    eapply is_derive_val.
    + apply is_derive_scal'. exact A.
    + destruct (Rle_dec 0 (y - t)); destruct (Rleb_spec t y); try lra.
Qed.

(** ** the last layer *)
Lemma last_elem l m (t : nat -> R) e g o : (0 < m)%nat -> simple_loss l -> g <> Softmax ->
  length o = m -> length e = m ->
  (forall j, (j < m)%nat -> vec e j = @loss_elem opsR l m (vec o j) (t j)) ->
  (forall j, (j < m)%nat -> not_kink l (t j) (vec o j)) ->
  last_ok (loss_math l m t) e g g m o.
Proof.
  intros Hm Hl Hg Lo Le He Hk z dz s Dz Ho HA.
  assert (ACT : forall s' j, act_math g m (z s') j = act_math1 g (z s' j)).
  { intros. destruct g; try congruence; reflexivity. }
  apply (is_derive_ext (fun s' => sumf m (fun j => ell l m (t j) (act_math1 g (z s' j))))).
  { intros s'. rewrite loss_math_ell. apply sumf_ext. intros j Hj. rewrite ACT. reflexivity. }
  apply (is_derive_sumf m (fun s' j => ell l m (t j) (act_math1 g (z s' j)))).
  intros j Hj. rewrite deriv_R by lia. rewrite (He j Hj). rewrite Rmult_assoc.
  assert (E : vec o j = act_math1 g (z s j)) by (rewrite Ho by auto; apply ACT).
  apply (is_derive_comp' (ell l m (t j)) (fun s' => act_math1 g (z s' j))).
  - rewrite <- E. apply derive_ell; auto.
  - rewrite E. apply (is_derive_comp' (act_math1 g) (fun s' => z s' j)); auto.
    apply derive_act; auto.
Qed.

Lemma last_bce m (t : nat -> R) e o : (0 < m)%nat -> length o = m -> length e = m ->
  (forall j, (j < m)%nat -> vec e j = @loss_elem opsR BCE m (vec o j) (t j)) ->
  last_ok (loss_math BCE m t) e Sigmoid Linear m o.
Proof.
  intros Hm Lo Le He z dz s Dz Ho HA.
  assert (HN : 0 < INR m) by (apply lt_0_INR; auto).
  apply (is_derive_ext (fun s' => sumf m (fun j => ell BCE m (t j) (act_math1 Sigmoid (z s' j))))).
  { intros s'. rewrite loss_math_ell. apply sumf_ext. intros j Hj. reflexivity. }
  apply (is_derive_sumf m (fun s' j => ell BCE m (t j) (act_math1 Sigmoid (z s' j)))).
  intros j Hj. rewrite deriv_R by lia. rewrite (He j Hj), (Ho j Hj).
  apply (is_derive_comp' (fun u => ell BCE m (t j) (act_math1 Sigmoid u)) (fun s' => z s' j)); auto.
  cbv [ell act_math act_math1 loss_elem act_d]. simpl. rewrite ofZ_INR.
  set (u := z s j). pose proof (exp_pos (- u)) as P.
  assert (P2 : 0 < / (1 + exp (- u))) by (apply Rinv_0_lt_compat; lra).
  assert (P3 : / (1 + exp (- u)) < 1). { rewrite <- Rinv_1. apply Rinv_lt_contravar; lra. }
  auto_derive; [repeat split; unfold Rdiv; rewrite ?Rmult_1_l; lra|].
  field. repeat split; try lra.
Qed.

Lemma last_cce m (t : nat -> R) e o : (0 < m)%nat -> length o = m -> length e = m ->
  sumf m t = 1 ->
  (forall j, (j < m)%nat -> vec e j = @loss_elem opsR CCE m (vec o j) (t j)) ->
  last_ok (loss_math CCE m t) e Softmax Linear m o.
Proof.
  intros Hm Lo Le Ht He z dz s Dz Ho HA.
  set (S' := fun s' => sumf m (fun k => exp (z s' k))).
  assert (SP : forall s', 0 < S' s').
  { intros s'. unfold S'. clear -Hm. induction m; [lia|]. simpl. pose proof (exp_pos (z s' m)).
    destruct m; simpl in *; [lra|]. specialize (IHm ltac:(lia)). lra. }
  assert (DS : is_derive S' s (sumf m (fun k => exp (z s k) * dz k))).
  { apply (is_derive_sumf m (fun s' k => exp (z s' k))). intros k Hk.
    apply (is_derive_comp' exp (fun s' => z s' k)); auto. auto_derive; auto. lra. }
  apply (is_derive_ext (fun s' => ln (S' s') - sumf m (fun j => t j * z s' j))).
  { intros s'. simpl. fold (S' s').
    transitivity (ln (S' s') * sumf m t - sumf m (fun j => t j * z s' j)). { rewrite Ht. lra. }
    rewrite <- sumf_scal.
    match goal with |- ?a - ?b = - ?c => enough (c = b - a) by lra end.
    enough (E : sumf m (fun j => t j * ln (exp (z s' j) / S' s')) + sumf m (fun i => ln (S' s') * t i) = sumf m (fun j => t j * z s' j)).
    { unfold S' in *. lra. }
    rewrite <- sumf_plus. apply sumf_ext. intros j Hj. unfold Rdiv.
    rewrite ln_mult; [|apply exp_pos|apply Rinv_0_lt_compat, SP].
    rewrite ln_exp, ln_Rinv by apply SP. lra. }
  assert (D1 : is_derive (fun s' => ln (S' s')) s (/ S' s * sumf m (fun k => exp (z s k) * dz k))).
  { apply (is_derive_comp' ln S'); auto. apply is_derive_Reals. apply derivable_pt_lim_ln. apply SP. }
  assert (D2 : is_derive (fun s' => sumf m (fun j => t j * z s' j)) s (sumf m (fun j => t j * dz j))).
  { apply (is_derive_sumf m (fun s' j => t j * z s' j)). intros j Hj. apply is_derive_scal'. auto. }
  eapply is_derive_val. { apply @is_derive_minus; [exact D1|exact D2]. }
  change (/ S' s * sumf m (fun k => exp (z s k) * dz k) - sumf m (fun j => t j * dz j) =
    sumf m (fun j => vec (@deriv_f opsR Linear o e) j * dz j)).
  rewrite <- sumf_scal.
  match goal with |- ?a - ?b = ?c => enough (a = c + b) by lra end.
  rewrite <- sumf_plus. apply sumf_ext. intros j Hj. rewrite deriv_R by lia.
  rewrite (He j Hj), (Ho j Hj). cbv [act_math loss_elem act_d]. simpl. fold (S' s).
  unfold Rdiv. lra.
Qed.
