(** MetricGrad.v -- derivatives of the metrics; the loss functions of src/loss.c compared with them *)
From Coquelicot Require Import Coquelicot.
From Coq Require Import List Arith ZArith Lia Bool Reals Lra.
From Verif Require Import Base BaseProofs Ops OpsR Mem MemProofs Activation ActivationProofs Loss BackpropProofs SpecReal RealForward RealGrad
  LossGrad SpecMetric MetricProofs.
Import ListNotations.
Local Open Scope R_scope.

(** the first n components as a list *)
Definition tab (n : nat) (v : nat -> R) : list R := map v (seq 0 n).
Lemma length_tab n v : length (tab n v) = n.
Proof. unfold tab. rewrite map_length, seq_length. auto. Qed.
Lemma vec_tab n v j : (j < n)%nat -> vec (tab n v) j = v j.
Proof. intros H. unfold tab, vec. rewrite nth_indep with (d' := v 0%nat) by (rewrite map_length, seq_length; auto). rewrite map_nth, seq_nth; auto. Qed.

Lemma upd_same (z : nat -> R) j : forall k, upd z j (z j) k = z k.
Proof. intros k. unfold upd. destruct (Nat.eqb_spec k j); subst; auto. Qed.

Lemma upd_derive (z : nat -> R) j k : is_derive (fun v => upd z j v k) (z j) (if Nat.eqb k j then 1 else 0).
Proof. unfold upd. destruct (Nat.eqb k j); [apply is_derive_id'|apply is_derive_const']. Qed.

Lemma locally_all n (P : nat -> R -> Prop) x : (forall j, (j < n)%nat -> locally x (P j)) -> locally x (fun v => forall j, (j < n)%nat -> P j v).
Proof.
  induction n; intros H.
  - exists (mkposreal 1 Rlt_0_1). intros; lia.
  - assert (A : locally x (fun v => forall j, (j < n)%nat -> P j v)) by (apply IHn; intros; apply H; lia).
    pose proof (H n ltac:(lia)) as B. generalize (filter_and _ _ A B). apply filter_imp. intros v [V1 V2] j Hj.
    destruct (Nat.eq_dec j n); [subst; auto|apply V1; lia].
Qed.

Lemma locally_between (f : R -> R) x lo hi : ex_derive f x -> lo < f x < hi -> locally x (fun v => lo < f v < hi).
Proof.
  intros D H. apply ex_derive_continuous in D.
  apply (D (fun y => lo < y < hi)). apply (locally_interval _ (f x) lo hi); simpl; try tauto; intros; auto.
Qed.

Lemma prob_id y : 1 / 10000000 < y < 1 - 1 / 10000000 -> prob y = y.
Proof. intros H. unfold prob, clamp. rewrite Rmax_right by lra. apply Rmin_right. lra. Qed.

Lemma act_ex_derive g n (z : nat -> R) j k : (k < n)%nat -> (j < n)%nat -> g = Sigmoid \/ g = Softmax ->
  ex_derive (fun v => act_math g n (upd z j v) k) (z j).
Proof.
  intros Hk Hj [-> | ->].
  - exists (@act_d opsR Sigmoid (act_math1 Sigmoid (z k)) * (if Nat.eqb k j then 1 else 0)).
    apply (is_derive_comp' (act_math1 Sigmoid) (fun v => upd z j v k)); [|apply upd_derive].
    rewrite upd_same. apply derive_act; [discriminate|exact I].
  - assert (E : forall i, ex_derive (fun v => exp (upd z j v i)) (z j)).
    { intros i. eexists. apply (is_derive_comp' exp (fun v => upd z j v i)); [|apply upd_derive]. apply is_derive_Reals, derivable_pt_lim_exp. }
    apply ex_derive_div; auto.
    + cut (forall m, ex_derive (fun v => sumf m (fun i => exp (upd z j v i))) (z j)); [auto|].
      induction m; simpl. { exists 0. apply is_derive_const'. } apply @ex_derive_plus; auto.
    + rewrite (sumf_ext n _ (fun i => exp (z i))). 2:{ intros. rewrite upd_same. auto. }
      assert (P : forall m, (0 < m)%nat -> 0 < sumf m (fun i => exp (z i))).
      { induction m; [lia|]. intros _. simpl. pose proof (exp_pos (z m)). destruct m; [simpl; lra|]. specialize (IHm ltac:(lia)). lra. }
      specialize (P n ltac:(lia)). lra.
Qed.

(** the metric with the name of the loss; the activation of the output layer with respect to whose input we differentiate *)
Definition out_act (l : loss) : act := match l with BCE => Sigmoid | CCE => Softmax | _ => Linear end.
(** places at which the metric is differentiable *)
Definition regular (l : loss) (n : nat) (t z : nat -> R) : Prop :=
  forall j, (j < n)%nat ->
    match l with
    | MSE => True
    | MAE | MAPE => z j <> t j
    | BCE | CCE => 1 / 10000000 < act_math (out_act l) n z j < 1 - 1 / 10000000
    end.

Lemma metric_loss_grad l t n (rs : list R) (z : nat -> R) j : (j < n)%nat -> length rs = n ->
  t = match l with MSE => M_MSE | MAE => M_MAE | MAPE => M_MAPE | BCE => M_BCE | CCE => M_CCE end ->
  (l = CCE -> sumf n (vec rs) = 1) -> regular l n (vec rs) z ->
  let k := match l with CCE => INR n | _ => 1 end in
  is_derive (fun v => k * @metric_f opsR t (tab n (act_math (out_act l) n (upd z j v))) rs) (z j)
    (vec (@loss_f opsR l (tab n (act_math (out_act l) n z)) rs) j).
Proof.
  intros Hj L Et Ht Hreg k. assert (HN : 0 < INR n) by (apply lt_0_INR; lia).
  set (o := tab n (act_math (out_act l) n z)).
  set (e := @loss_f opsR l o rs).
  assert (Lo : length o = n) by apply length_tab.
  assert (Le : length e = n). { unfold e, loss_f. rewrite length_map2. change (@F opsR) with R. rewrite Lo, L. apply Nat.min_id. }
  assert (Ve : forall i, (i < n)%nat -> vec e i = @loss_elem opsR l n (vec o i) (vec rs i)).
  { intros i Hi. unfold e, loss_f. rewrite vec_map2; [|lia|lia]. change (@F opsR) with R. rewrite Lo. reflexivity. }
  assert (LOK : last_ok (loss_math l n (vec rs)) e (out_act l) (match l with BCE | CCE => Linear | _ => out_act l end) n o).
  { destruct l.
    - apply last_elem; [lia|left; auto|discriminate|auto|auto|auto|]. intros; exact I.
    - apply last_elem; [lia|right; left; auto|discriminate|auto|auto|auto|]. intros i Hi. simpl. unfold o. rewrite vec_tab by auto. apply (Hreg i Hi).
    - apply last_elem; [lia|right; right; auto|discriminate|auto|auto|auto|]. intros i Hi. simpl. unfold o. rewrite vec_tab by auto. apply (Hreg i Hi).
    - apply last_cce; auto. lia.
    - apply last_bce; auto. lia. }
  specialize (LOK (fun v => upd z j v) (fun i => if Nat.eqb i j then 1 else 0) (z j)).
  assert (D : is_derive (fun v => loss_math l n (vec rs) (act_math (out_act l) n (upd z j v))) (z j) (vec e j)).
  { eapply is_derive_val. { apply LOK.
    - intros i Hi. apply upd_derive.
    - intros i Hi. unfold o. rewrite vec_tab by auto. apply act_math_ext; auto. intros; symmetry; apply upd_same.
    - intros i Hi. destruct l; exact I. }
    assert (NP : forall i, (i < n)%nat -> vec (@deriv_f opsR (match l with BCE | CCE => Linear | _ => out_act l end) o e) i = vec e i).
    { intros i Hi. rewrite deriv_R by rlia. destruct l; simpl; lra. }
    rewrite (sumf_single n j) by (try lia; intros i Hi Hne; rewrite (proj2 (Nat.eqb_neq i j) Hne); lra).
    rewrite NP, Nat.eqb_refl by auto. lra. }
  eapply is_derive_ext_loc; [|exact D].
  assert (SI : forall l', l = l' -> (l' = BCE \/ l' = CCE) ->
     locally (z j) (fun v => forall i, (i < n)%nat -> 1 / 10000000 < act_math (out_act l') n (upd z j v) i < 1 - 1 / 10000000)).
  { intros l' El Hl. apply locally_all. intros i Hi. apply locally_between.
    - apply act_ex_derive; auto. destruct Hl; subst; simpl; auto.
    - specialize (Hreg i Hi). subst l'. rewrite (act_math_ext _ n _ z) by (auto; intros; apply upd_same).
      destruct Hl as [-> | ->]; exact Hreg. }
  assert (TR : forall v, True -> length rs = length (tab n (act_math (out_act l) n (upd z j v)))) by (intros; rewrite length_tab; auto).
  unfold k. subst t. destruct l.
  1-3: apply filter_forall; intros v; rewrite metric_R by (rewrite length_tab; auto); cbv zeta; rewrite length_tab, Rmult_1_l;
       unfold loss_math, mse, mae, mape; f_equal.
  1-2: apply sumf_ext; intros i Hi; rewrite vec_tab by auto; reflexivity.
  1: f_equal; apply sumf_ext; intros i Hi; rewrite vec_tab by auto; reflexivity.
  - specialize (SI CCE eq_refl (or_intror eq_refl)). revert SI. apply filter_imp. intros v Hv.
    rewrite metric_R by (rewrite length_tab; auto). cbv zeta. rewrite length_tab. unfold loss_math, cce.
    replace (INR n * (- sumf n (fun j0 => vec rs j0 * ln (prob (vec (tab n (act_math (out_act CCE) n (upd z j v))) j0))) / INR n))
      with (- sumf n (fun j0 => vec rs j0 * ln (prob (vec (tab n (act_math (out_act CCE) n (upd z j v))) j0)))) by (field; lra).
    f_equal. apply sumf_ext. intros i Hi. rewrite vec_tab by auto. rewrite prob_id by auto. reflexivity.
  - specialize (SI BCE eq_refl (or_introl eq_refl)). revert SI. apply filter_imp. intros v Hv.
    rewrite metric_R by (rewrite length_tab; auto). cbv zeta. rewrite length_tab, Rmult_1_l. unfold loss_math, bce.
    f_equal. f_equal. apply sumf_ext. intros i Hi. rewrite vec_tab by auto. rewrite prob_id by auto. reflexivity.
Qed.
